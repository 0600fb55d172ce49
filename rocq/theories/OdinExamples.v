(* Concrete blocks for the ODIN importer. *)
From Verif Require Import PyStr PyStrFacts SpecRef Model SpecModel XmlStd Xml SpecXml Odin SpecOdin OdinProofs OdinXmlProofs SpecChunks ChunksProofs.
#[local] Existing Instance ascii_unicode.

Definition line (n tag content : str) : dict str := [(L "line", n); (L "tag", tag); (L "content", content)].
Definition opts : options := {| o_replacement := default_replacement; o_keep_headers := true |}.
Definition block_with (id : str) (headers : list str) (lines : list (dict str)) : block :=
  {| b_igt_id := Some id; b_doc_id := Some (L "397"); b_line_range := Some (L "959  961"); b_line_types := Some (L "L G T");
     b_iso := Some (L " swh "); b_language := Some (L "swahili "); b_headers := headers; b_lines := lines |}.
(* the second line has a form feed and a character beyond the basic plane *)
Definition lines1 : list (dict str) :=
  [line (L "959") (L "L") (L "ni-na-ku-penda"); line (L "960") (L "G") (L "1SG" ++ [12%N] ++ L "PRES" ++ [128512%N]);
   line (L "961") (L "T") (L "I love you")].
Definition b1 : block := block_with (L "igt397-959") [L "doc_id=397"; L "language: swahili"] lines1.
Definition b2 : block := block_with (L "igt397-970") [] [].

Ltac legal_ := let c := fresh in let H := fresh in intros c H; revert c H; apply legal_lit; now vm_compute.
Lemma b_ok id hs ls : (forall i, Some id = Some i -> accepted_id i) ->
  (forall l, In l ls -> dget l (L "content") <> None) -> block_ok (block_with id hs ls).
Proof.
  intros Hi Hl. split; [exact Hi|]. split; [discriminate|]. split; [discriminate|]. split; [|exact Hl].
  exists (L "959  961"), (L "959"), (L "961"). split; [easy|].
  exists [], (L "  "), []. split; [easy|]. unfold blanks, word.
  repeat split; try discriminate; intros c Hc; cbn in Hc; repeat (destruct Hc as [<-|Hc]; [reflexivity|]); destruct Hc.
Qed.
Ltac acc := let i := fresh in let E := fresh in intros i E; injection E as <-; do 2 eexists; split; [reflexivity|vm_compute; intuition discriminate].
Lemma b1_ok : block_ok b1.
Proof. apply b_ok; [acc|]. intros l [<-|[<-|[<-|[]]]]; discriminate. Qed.
Lemma b2_ok : block_ok b2.
Proof. apply b_ok; [acc|]. intros l []. Qed.

Lemma line_clean n tag c : legal n -> legal tag -> no_return c ->
  NoDup (map fst (line n tag c)) /\ (forall s, dget (line n tag c) (L "content") = Some s -> no_return s)
  /\ forall k v, In (k, v) (line n tag c) -> k <> L "content" -> plain_key k /\ legal v.
Proof.
  intros Hn Ht Hc. split; [repeat constructor; vm_compute; intuition discriminate|]. split.
  - intros s E. cbn in E. vm_compute in E. injection E as <-. exact Hc.
  - intros k v [[= <- <-]|[[= <- <-]|[[= <- <-]|[]]]] Hk; [| |now exfalso; apply Hk];
      (split; [repeat split; vm_compute; congruence|easy]).
Qed.
Ltac no_ret := vm_compute; intuition discriminate.
Lemma b_clean id hs ls : legal id -> (forall h, In h hs -> legal h /\ no_return h) ->
  (forall l, In l ls -> exists n tag c, l = line n tag c /\ legal n /\ legal tag /\ no_return c) ->
  block_clean (fun s => s) opts (block_with id hs ls).
Proof.
  intros Hi Hh Hl. split; [now intros i [= <-]|]. split; [|split; [|split]].
  - cbn. intros s [[= <-]|[[= <-]|[[= <-]|[= <-]]]]; apply legal_lit; now vm_compute.
  - split; [apply legal_lit; now vm_compute|no_ret].
  - intros h _ H. now apply Hh.
  - intros l H. apply Hl in H as (n & tag & c & -> & H1 & H2 & H3). now apply line_clean.
Qed.
Lemma b1_clean : block_clean (fun s => s) opts b1.
Proof.
  apply b_clean; [apply legal_lit; now vm_compute| |].
  - intros h [<-|[<-|[]]]; (split; [apply legal_lit; now vm_compute|no_ret]).
  - intros l [<-|[<-|[<-|[]]]]; do 3 eexists; (split; [reflexivity|]); (split; [apply legal_lit; now vm_compute|]); (split; [apply legal_lit; now vm_compute|]); no_ret.
Qed.
Lemma b2_clean : block_clean (fun s => s) opts b2.
Proof. apply b_clean; [apply legal_lit; now vm_compute|intros h []|intros l []]. Qed.

Lemma opts_fine : legal (o_replacement opts) /\ no_return (o_replacement opts).
Proof. split; [apply legal_lit; now vm_compute|no_ret]. Qed.

(* what comes out *)
Lemma b1_igt : match make_igt (fun s => s) b1 opts with
  | Ok g => map (fun t => map (fun i => (a_id (it_attrs i), a_dict (it_attrs i), it_text i)) (t_items t)) (g_tiers g)
            = [[(Some (L "r1"), [(L "line", L "959"); (L "tag", L "L")], Some (L "ni-na-ku-penda"));
                (Some (L "r2"), [(L "line", L "960"); (L "tag", L "G")], Some (L "1SG" ++ [65533%N] ++ L "PRES" ++ [65533%N]));
                (Some (L "r3"), [(L "line", L "961"); (L "tag", L "T")], Some (L "I love you"))]]
            /\ a_dict (g_attrs g) = [(L "doc-id", L "397"); (L "line-range", L "959-961"); (L "tag-types", L "L G T")]
            /\ map (fun m => map (fun x => (a_id (me_attrs x), me_text x)) (md_metas m)) (g_md g)
               = [[(Some (L "meta1"), Some (L "doc_id=397" ++ [10%N] ++ L "language: swahili")); (Some (L "meta2"), None)]]
  | Err _ => False
  end.
Proof. vm_compute. repeat split. Qed.

(* a legal character is replaced *)
Lemma astral : exists c, xml_legal c /\ replace_invalid_xml_chars [c] default_replacement <> [c].
Proof. exists 128512%N. split; [unfold xml_legal; lia|now vm_compute]. Qed.

(* the file is not always readable *)
Definition written (ahead : nat) (bs : list block) (o : options) : res corpus :=
  do c <- odin_corpus (fun s => s) bs o; do e <- xml_dump c (Some 2); xml_load ahead e.
Lemma written_any bs o r :
  match (do c <- odin_corpus (fun s => s) bs o; xml_dump c (Some 2)) with Ok e => firstb (x_kids e) | Err _ => true end = true ->
  written 0 bs o = r -> forall ahead, written ahead bs o = r.
Proof.
  intros H E ahead. rewrite <- E. unfold written. destruct (odin_corpus _ bs o) as [c|]; [|easy]. cbn [bind] in *.
  destruct (xml_dump c (Some 2)) as [e|]; [|easy]. cbn [bind]. now apply chunks, firstb_ok.
Qed.
(* a form feed in a header line *)
Lemma header_refuted : exists bs, Forall block_ok bs /\ (forall ahead, written ahead bs opts = Err ParseError).
Proof.
  exists [block_with (L "a") [L "x" ++ [12%N]] []]. split; [|apply written_any; now vm_compute]. constructor; [|constructor]. apply b_ok; [acc|intros l []].
Qed.
(* a form feed in the tag of a line *)
Lemma tag_refuted : exists bs, Forall block_ok bs /\ (forall ahead, written ahead bs opts = Err ParseError)
  /\ forall b, In b bs -> b_headers b = [].
Proof.
  exists [block_with (L "a") [] [line (L "1") (L "L" ++ [12%N]) (L "x")]]. split; [|split; [apply written_any; now vm_compute|]].
  - constructor; [|constructor]. apply b_ok; [acc|]. intros l [<-|[]]; discriminate.
  - intros b [<-|[]]. easy.
Qed.
(* the same id twice *)
Lemma twice_refuted : exists bs, Forall block_ok bs /\ Forall (block_clean (fun s => s) opts) bs /\ (forall ahead, written ahead bs opts = Err XigtError).
Proof.
  exists [b2; b2]. split; [constructor; [|constructor; [|constructor]]; apply b2_ok|].
  split; [constructor; [|constructor; [|constructor]]; apply b2_clean|apply written_any; now vm_compute].
Qed.
(* a carriage return in a line: it is read as a line feed *)
Lemma return_refuted : exists bs c c', Forall block_ok bs /\ odin_corpus (fun s => s) bs opts = Ok c /\ (forall ahead, written ahead bs opts = Ok c')
  /\ ~ same_corpus (back_corpus c) c'.
Proof.
  exists [block_with (L "a") [] [line (L "1") (L "L") (L "x" ++ [13%N])]]. do 2 eexists. split; [|split; [vm_compute; reflexivity|split; [apply written_any; vm_compute; reflexivity|]]].
  - constructor; [|constructor]. apply b_ok; [acc|]. intros l [<-|[]]; discriminate.
  - intros (_ & _ & H). inversion H as [|? ? ? ? (_ & _ & Ht) _]; subst. inversion Ht as [|? ? ? ? (_ & _ & Hi) _]; subst.
    inversion Hi as [|? ? ? ? (Hx & _) _]; subst. vm_compute in Hx. discriminate.
Qed.
