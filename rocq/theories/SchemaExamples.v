(* Concrete documents for the schema. *)
From Verif Require Import PyStr PyStrFacts Ref SpecRef Model SpecModel XmlStd Xml SpecXml SpecReload Schema SpecSchema.
From Verif Require Import LoadProofs XmlProofs ReloadProofs SchemaProofs SchemaRunProofs ReloadExamples.
#[local] Existing Instance ascii_unicode.
(* only ASCII word characters *)
Definition ascii_words : XsdWord := {| xsd_hi := fun _ => false |}.
#[local] Existing Instance ascii_words.

(* ---------- a checker, for the examples ---------- *)

Fixpoint try_match (fuel : nat) (p : pat) (s : str) (k : str -> bool) : bool :=
  match fuel with
  | O => false
  | S f =>
    match p with
    | PChr g => match s with c :: s => g c && k s | [] => false end
    | PSeq p q => try_match f p s (fun s => try_match f q s k)
    | POpt p => k s || try_match f p s k
    | PStar p => k s || try_match f p s (fun s => try_match f (PStar p) s k)
    end
  end.
Lemma try_match_ok fuel : forall p s k, try_match fuel p s k = true -> exists a b, s = a ++ b /\ matches p a /\ k b = true.
Proof.
  induction fuel as [|f IH]; [easy|]. intros [g|p q|p|p] s k; cbn [try_match].
  - destruct s as [|c s]; [easy|]. intros H. apply andb_prop in H as [H1 H2]. exists [c], s. split; [easy|]. split; [now constructor|easy].
  - intros H. apply IH in H as (a & b & -> & Ha & H). apply IH in H as (a' & b' & -> & Ha' & H). exists (a ++ a'), b'. rewrite app_assoc.
    split; [easy|]. split; [now constructor|easy].
  - intros H. apply orb_prop in H as [H|H]; [exists [], s; split; [easy|]; split; [constructor|easy]|].
    apply IH in H as (a & b & -> & Ha & H). exists a, b. split; [easy|]. split; [now constructor|easy].
  - intros H. apply orb_prop in H as [H|H]; [exists [], s; split; [easy|]; split; [constructor|easy]|].
    apply IH in H as (a & b & -> & Ha & H). apply IH in H as (a' & b' & -> & Ha' & H). exists (a ++ a'), b'. rewrite app_assoc.
    split; [easy|]. split; [now constructor|easy].
Qed.
Definition matchb (p : pat) (s : str) : bool := try_match (4 * length s + 60) p s (fun s => match s with [] => true | _ => false end).
Lemma matchb_ok p s : matchb p s = true -> matches p s.
Proof.
  intros H. apply try_match_ok in H as (a & [|c b] & -> & Ha & H); [now rewrite app_nil_r|easy].
Qed.
Definition spaceb (t : option str) : bool := match t with None => true | Some s => forallb (fun c => existsb (N.eqb c) [9; 10; 13; 32]%N) s end.
Lemma spaceb_ok t : spaceb t = true -> xml_space t.
Proof.
  intros H s c -> Hc. cbn [spaceb] in H. rewrite forallb_forall in H. apply H in Hc. apply existsb_exists in Hc as (x & Hx & E). apply N.eqb_eq in E as ->. exact Hx.
Qed.
Definition elementsb (p : pelem) : bool := spaceb (p_text p) && forallb (fun k => spaceb (p_tail k)) (p_kids p).
Lemma forall_b {A} (f : A -> bool) (P : A -> Prop) l : (forall x, f x = true -> P x) -> forallb f l = true -> Forall P l.
Proof. intros H Hl. rewrite forallb_forall in Hl. apply Forall_forall. auto. Qed.
Lemma elementsb_ok p : elementsb p = true -> only_elements p.
Proof. intros H. apply andb_prop in H as [H1 H2]. split; [now apply spaceb_ok|]. revert H2. apply forall_b. intros k. apply spaceb_ok. Qed.
Definition idb (need : bool) (d : dict str) : bool := match dget d ID with Some i => matchb id_pattern i | None => negb need end.
Lemma idb_may d : idb false d = true -> may_have_id d.
Proof. unfold idb. intros H i E. rewrite E in H. now apply matchb_ok. Qed.
Lemma idb_has d : idb true d = true -> has_id d.
Proof. unfold idb. destruct (dget d ID) as [i|] eqn:E; [|easy]. intros H. exists i. split; [easy|]. now apply matchb_ok. Qed.
Definition noneb (d : dict str) (k : str) : bool := match dget d k with None => true | Some _ => false end.
Definition no_refsb (d : dict str) : bool := forallb (noneb d) REFS.
Lemma no_refsb_ok d : no_refsb d = true -> no_refs d.
Proof. intros H k Hk. unfold no_refsb in H. rewrite forallb_forall in H. apply H in Hk. unfold noneb in Hk. now destruct (dget d k). Qed.
Definition refsb (d : dict str) : bool :=
  forallb (fun k => match dget d k with Some v => matchb algnexpr_pattern v | None => true end) REFS
  && (noneb d SEGMENTATION || noneb d ALIGNMENT && noneb d CONTENT).
Lemma refsb_ok d : refsb d = true -> ref_attrs d.
Proof.
  intros H. apply andb_prop in H as [H1 H2]. split.
  - intros k v Hk E. rewrite forallb_forall in H1. apply H1 in Hk. rewrite E in Hk. now apply matchb_ok.
  - unfold noneb in H2. apply orb_prop in H2 as [H2|H2]; [left; now destruct (dget d SEGMENTATION)|]. apply andb_prop in H2 as [H2 H3].
    right. split; [now destruct (dget d ALIGNMENT)|now destruct (dget d CONTENT)].
Qed.
Definition tagb (n : str) (p : pelem) : bool := str_eqb (p_tag p) n.
Lemma tagb_ok n p : tagb n p = true -> p_tag p = n.
Proof. unfold tagb. now destruct (str_eqb_spec (p_tag p) n). Qed.
Definition metab (p : pelem) : bool :=
  tagb (L "meta") p && idb false (p_attrib p) && no_refsb (p_attrib p) && (match p_kids p with [] => true | _ => false end || elementsb p).
Ltac ands H := repeat match type of H with (_ && _)%bool = true => let H' := fresh H in apply andb_prop in H as [H H'] end.
Lemma metab_ok p : metab p = true -> valid_meta p.
Proof.
  unfold metab. intros H. ands H. split; [now apply tagb_ok|]. split; [now apply idb_may|]. split; [now apply no_refsb_ok|].
  apply orb_prop in H0 as [H0|H0]; [left; now destruct (p_kids p)|right; now apply elementsb_ok].
Qed.
Definition metadatab (p : pelem) : bool :=
  tagb (L "metadata") p && idb false (p_attrib p) && no_refsb (p_attrib p) && elementsb p && forallb metab (p_kids p).
Lemma metadatab_ok p : metadatab p = true -> valid_metadata p.
Proof.
  unfold metadatab. intros H. ands H. split; [now apply tagb_ok|]. split; [now apply idb_may|]. split; [now apply no_refsb_ok|].
  split; [now apply elementsb_ok|]. now apply (forall_b metab _ _ metab_ok).
Qed.
(* the metadata, and the rest *)
Fixpoint kidsb (f : pelem -> bool) (l : list pelem) : bool :=
  match l with p :: l' => metadatab p && kidsb f l' || forallb f l | [] => true end.
Lemma kidsb_ok f (P : pelem -> Prop) l : (forall p, f p = true -> P p) -> kidsb f l = true ->
  exists ms is_, l = ms ++ is_ /\ Forall valid_metadata ms /\ Forall P is_.
Proof.
  intros H. induction l as [|p l IH]; cbn [kidsb]; [exists [], []; auto|]. intros E. apply orb_prop in E as [E|E].
  - apply andb_prop in E as [E1 E2]. destruct (IH E2) as (ms & is_ & -> & Hm & Hi). exists (p :: ms), is_. split; [easy|]. split; [|easy].
    constructor; [now apply metadatab_ok|easy].
  - exists [], (p :: l). split; [easy|]. split; [constructor|]. now apply (forall_b f).
Qed.
Definition itemb (p : pelem) : bool :=
  tagb (L "item") p && idb true (p_attrib p) && refsb (p_attrib p) && match p_kids p with [] => true | _ => false end.
Lemma itemb_ok p : itemb p = true -> valid_item p.
Proof.
  unfold itemb. intros H. ands H. split; [now apply tagb_ok|]. split; [now apply idb_has|]. split; [now apply refsb_ok|]. now destruct (p_kids p).
Qed.
Definition tierb (p : pelem) : bool :=
  tagb (L "tier") p && idb true (p_attrib p) && negb (noneb (p_attrib p) TYPE) && refsb (p_attrib p) && elementsb p && kidsb itemb (p_kids p).
Lemma tierb_ok p : tierb p = true -> valid_tier p.
Proof.
  unfold tierb. intros H. ands H. split; [now apply tagb_ok|]. split; [now apply idb_has|].
  split; [unfold noneb in *; now destruct (dget (p_attrib p) TYPE)|]. split; [now apply refsb_ok|]. split; [now apply elementsb_ok|].
  now apply (kidsb_ok itemb _ _ itemb_ok).
Qed.
Definition igtb (p : pelem) : bool :=
  tagb (L "igt") p && idb true (p_attrib p) && no_refsb (p_attrib p) && elementsb p && kidsb tierb (p_kids p).
Lemma igtb_ok p : igtb p = true -> valid_igt p.
Proof.
  unfold igtb. intros H. ands H. split; [now apply tagb_ok|]. split; [now apply idb_has|]. split; [now apply no_refsb_ok|].
  split; [now apply elementsb_ok|]. now apply (kidsb_ok tierb _ _ tierb_ok).
Qed.
Definition corpusb (p : pelem) : bool :=
  tagb (L "xigt-corpus") p && idb false (p_attrib p) && forallb (fun k => str_eqb k ID || str_eqb k TYPE) (map fst (p_attrib p)) && elementsb p
  && kidsb igtb (p_kids p).
Lemma corpusb_ok p : corpusb p = true -> valid_corpus p.
Proof.
  unfold corpusb. intros H. ands H. split; [now apply tagb_ok|]. split; [now apply idb_may|].
  split; [|split; [now apply elementsb_ok|now apply (kidsb_ok igtb _ _ igtb_ok)]].
  intros k Hk. rewrite forallb_forall in *. apply H2 in Hk. apply orb_prop in Hk as [Hk|Hk]; [left|right]; [now destruct (str_eqb_spec k ID)|now destruct (str_eqb_spec k TYPE)].
Qed.
Definition documentb (e : xelem) : bool := match reread [] e with Ok p => corpusb p | Err _ => false end.
Lemma documentb_ok e : documentb e = true -> schema_valid e.
Proof. unfold documentb. destruct (reread [] e) as [p|] eqn:E; [|easy]. intros H. exists p. split; [easy|]. now apply corpusb_ok. Qed.

(* ---------- what can be read ---------- *)

Fixpoint apartb (n : str) (l : list pelem) : bool :=
  match l with
  | [] => true
  | p :: l => apartb n l && (negb (tagb n p) || match the_id p with None => true | Some i =>
      forallb (fun q => negb (tagb n q) || match the_id q with Some j => negb (str_eqb i j) | None => true end) l end)
  end.
Lemma apartb_ok n p : apartb n (p_kids p) = true -> distinct_kids n p.
Proof.
  unfold distinct_kids. induction (p_kids p) as [|k l IH]; intros H l1 a l2 b l3 E; [now destruct l1|].
  cbn [apartb] in H. apply andb_prop in H as [H1 H2]. destruct l1 as [|x l1]; [|injection E as <- E; exact (IH H1 l1 a l2 b l3 E)].
  cbn [app] in E. injection E as <- ->. intros Ha Hb Hi Q. unfold called in *. unfold tagb in H2. rewrite Ha, str_eqb_refl in H2. cbn [negb orb] in H2.
  destruct (the_id k) as [i|]; [|easy]. rewrite forallb_forall in H2. specialize (H2 b). rewrite Hb, str_eqb_refl, <- Q, str_eqb_refl in H2.
  cbn in H2. discriminate H2. apply in_or_app. right. now left.
Qed.
Definition nameb (n : str) : bool :=
  match n with [] => false | c :: r => is_word c && negb (is_digit c) && forallb (fun x => is_word x || N.eqb x (Ch "-") || N.eqb x (Ch ".")) r end.
Lemma nameb_ok n : nameb n = true -> python_name n.
Proof.
  destruct n as [|c r]; [easy|]. cbn [nameb]. intros H. ands H. exists c, r. split; [easy|]. split; [easy|]. split; [now destruct (is_digit c)|].
  intros x Hx. rewrite forallb_forall in H0. apply H0 in Hx. apply orb_prop in Hx as [Hx|Hx]; [apply orb_prop in Hx as [Hx|Hx]|]; [auto|right; left|right; right]; now apply N.eqb_eq.
Qed.
(* elements in no namespace *)
Fixpoint childb (p : pelem) : bool :=
  match p with PElem tag _ _ _ _ kids => nameb tag && negb (str_eqb tag (L "igt")) && negb (str_eqb tag (L "xigt-corpus")) && forallb childb kids end.
Lemma childb_ok p : childb p = true -> readable_child p.
Proof.
  induction p as [tag d m text tail kids IH] using pelem_rec'. cbn [childb]. intros H. ands H. apply (Readable_child _ _ _ _ _ _ None tag); [reflexivity|now apply nameb_ok| | |].
  - now destruct (str_eqb_spec tag (L "igt")).
  - now destruct (str_eqb_spec tag (L "xigt-corpus")).
  - rewrite Forall_forall, forallb_forall in *. auto.
Qed.
Fixpoint readb (fuel : nat) (p : pelem) : bool :=
  match fuel with
  | O => false
  | S f => if tagb (L "meta") p then forallb childb (p_kids p)
           else forallb (fun n => apartb (L n) (p_kids p)) ["meta"; "metadata"; "item"; "tier"; "igt"]%string && forallb (readb f) (p_kids p)
  end.
Lemma readb_ok f : forall p, readb f p = true -> readable_kids p.
Proof.
  induction f as [|f IH]; [easy|]. intros p. cbn [readb]. unfold tagb. destruct (str_eqb_spec (p_tag p) (L "meta")) as [E|N]; intros H.
  - apply Readable_meta; [easy|]. revert H. apply forall_b. exact childb_ok.
  - apply andb_prop in H as [H H']. rewrite forallb_forall in H. apply Readable_other; [easy|apply apartb_ok, H; cbn; tauto..|]. revert H'. now apply forall_b.
Qed.

(* ---------- documents ---------- *)

Definition el (tag : string) (d : list (string * string)) (text : option string) (kids : list xelem) : xelem :=
  XElem (L tag) (map (fun kv => (L (fst kv), L (snd kv))) d) (option_map L text) (Some [10%N]) kids.
Definition doc_valid : xelem :=
  XElem (L "xigt-corpus") [(L "id", L "c1"); (L "type", L "odin")] (Some [10; 32]%N) None
    [el "metadata" [] None [el "meta" [("id", "m1"); ("type", "x")] None [el "lang" [("code", "de")] (Some "German") []]];
     el "igt" [("id", "i1"); ("note", "n")] None
       [el "tier" [("id", "w"); ("type", "words")] None [el "item" [("id", "w1")] (Some "Hunde") []; el "item" [("id", "w2")] (Some "bellen") []];
        el "tier" [("id", "m"); ("type", "morphemes"); ("segmentation", "w")] None
          [el "item" [("id", "m1"); ("segmentation", "w1[0:4]")] None []; el "item" [("id", "m2"); ("segmentation", "w1[4:5]+w2[0:2,2:6]")] None []]];
     el "igt" [("id", "i2")] None []]%string.
Definition w1_span (d a b : string) : span := {| sp_delim := L d; sp_start := L a; sp_end := L b |}.
Definition m2_expr : expr :=
  [{| sl_delim := []; sl_id := L "w1"; sl_spans := [w1_span "" "4" "5"] |};
   {| sl_delim := L "+"; sl_id := L "w2"; sl_spans := [w1_span "" "0" "2"; w1_span "," "2" "6"] |}].
Lemma valid_doc : tidy_document doc_valid /\ exists p, reread [] doc_valid = Ok p /\ valid_corpus p /\ readable_kids p.
Proof.
  split; [split; [apply tidyb_ok|]; reflexivity|]. eexists. split; [vm_compute; reflexivity|]. split; [apply corpusb_ok|apply (readb_ok 6)]; vm_compute; reflexivity.
Qed.
Lemma valid_loads : exists c, (forall ahead, xml_load ahead doc_valid = Ok c) /\ length (c_igts c) = 2.
Proof. eexists. split; [apply ChunksProofs.load_any; vm_compute; reflexivity|]. reflexivity. Qed.
Lemma expr_plain : plain_expr id_shape m2_expr /\ show m2_expr = L "w1[4:5]+w2[0:2,2:6]" /\ wide_table.
Proof.
  assert (D : forall s, forallb is_digit s = true -> s <> [] -> digits s) by (intros s H Hn; split; [easy|]; now apply (forall_b is_digit)).
  assert (I : forall c t, ascii_letter c -> forallb is_word t = true -> id_shape (c :: t)).
  { intros c t Hc Ht. exists c, t. split; [easy|]. split; [easy|]. revert Ht. apply forall_b. intros x Hx. right. now right. }
  split; [|split; [reflexivity|]].
  - split; [discriminate|]. split; [split; [reflexivity|]; constructor; [now right|constructor]|].
    constructor; [|constructor; [|constructor]].
    + split; [apply I; [vm_compute; intuition discriminate|reflexivity]|]. split; [split; [reflexivity|constructor]|]. constructor; [|constructor].
      split; apply D; (reflexivity || discriminate).
    + split; [apply I; [vm_compute; intuition discriminate|reflexivity]|]. split; [split; [reflexivity|]; constructor; [now left|constructor]|].
      constructor; [|constructor; [|constructor]]; split; apply D; (reflexivity || discriminate).
  - intros c Hc Hw. unfold is_word, cclass in Hw. destruct (N.ltb_spec c 128); [lia|]. cbn in Hw. discriminate Hw.
Qed.

(* ---------- valid documents that cannot be read, or not as they are ---------- *)

Definition doc_igts (kids : list xelem) : xelem := XElem (L "xigt-corpus") [] None None kids.
Definition doc_meta (kid : xelem) : xelem := doc_igts [el "metadata" [] None [el "meta" [] None [kid]]].
Lemma load_err e x : SpecChunks.metadata_first e -> xml_load 0 e = Err x -> forall ahead, xml_load ahead e = Err x.
Proof. intros H E ahead. rewrite <- E. now apply ChunksProofs.chunks. Qed.
(* two igts with one id *)
Definition doc_dup : xelem := doc_igts [el "igt" [("id", "i1")] None []; el "igt" [("id", "i1")] None []]%string.
(* an element of metadata whose name has U+00B7 *)
Definition doc_dot : xelem := doc_meta (XElem [Ch "a"; 183%N] [] None None []).
(* an igt in metadata *)
Definition doc_in_meta : xelem := doc_meta (el "igt" [] None []).
Lemma dup_refuted : schema_valid doc_dup /\ forall ahead, xml_load ahead doc_dup = Err XigtError.
Proof.
  split; [apply documentb_ok; vm_compute; reflexivity|]. apply load_err; [apply ChunksProofs.firstb_ok; reflexivity|vm_compute; reflexivity].
Qed.
Lemma dot_refuted : schema_valid doc_dot /\ forall ahead, xml_load ahead doc_dot = Err ValueError.
Proof.
  split; [apply documentb_ok; vm_compute; reflexivity|]. apply load_err; [apply ChunksProofs.firstb_ok; reflexivity|vm_compute; reflexivity].
Qed.
Lemma err_docs : (tidy_document doc_dup /\ exists p, reread [] doc_dup = Ok p /\ valid_corpus p) /\ (tidy_document doc_dot /\ exists p, reread [] doc_dot = Ok p /\ valid_corpus p).
Proof.
  split; (split; [split; [apply tidyb_ok|]; reflexivity|]); eexists; (split; [vm_compute; reflexivity|apply corpusb_ok; vm_compute; reflexivity]).
Qed.
Lemma in_meta_refuted : schema_valid doc_in_meta /\ exists x, xml_load 0 doc_in_meta = Err x.
Proof.
  split; [apply documentb_ok; vm_compute; reflexivity|]. eexists. vm_compute. reflexivity.
Qed.
(* the id of an element of metadata and the text after it are not read *)
Definition doc_note (d : dict str) (tail : option str) : xelem :=
  doc_meta (XElem (L "note") [] (Some (L "a ")) None [XElem (L "b") d (Some (L "c")) tail []]).
Lemma lost_refuted : exists e e', tidy_document e /\ schema_valid e /\ schema_valid e' /\ ~ e = e' /\ exists c,
  (forall ahead, xml_load ahead e = Ok c) /\ forall ahead, xml_load ahead e' = Ok c.
Proof.
  exists (doc_note [(L "id", L "x")] (Some (L " d"))), (doc_note [] None). split; [split; [apply tidyb_ok|]; reflexivity|].
  split; [apply documentb_ok; vm_compute; reflexivity|]. split; [apply documentb_ok; vm_compute; reflexivity|]. split; [discriminate|].
  eexists. split; (apply ChunksProofs.load_any; vm_compute; reflexivity).
Qed.
(* an id that is taken for two *)
Definition doc_plus : xelem :=
  doc_igts [el "igt" [("id", "i1")] None [el "tier" [("id", "w"); ("type", "words")] None
    [el "item" [("id", "a+b")] (Some "x") []; el "item" [("id", "c"); ("content", "a+b")] None []]]]%string.
Lemma plus_refuted : schema_valid doc_plus /\ (exists c, forall ahead, xml_load ahead doc_plus = Ok c)
  /\ matches id_pattern (L "a+b") /\ ids (L "a+b") = [L "a"; L "b"].
Proof.
  split; [apply documentb_ok; vm_compute; reflexivity|]. split; [eexists; apply ChunksProofs.load_any; vm_compute; reflexivity|].
  split; [apply matchb_ok; vm_compute; reflexivity|]. reflexivity.
Qed.
(* a corpus that is saved and loaded but not written as a valid document *)
Definition doc_invalid : xelem := doc_igts [el "igt" [] None []].
Lemma invalid_refuted : exists c e, tidy_document doc_invalid /\ (forall ahead, xml_load ahead doc_invalid = Ok c) /\ xml_dump c (Some 2) = Ok e
  /\ (forall ahead, xml_load ahead e = Ok c) /\ ~ schema_valid e.
Proof.
  do 2 eexists. split; [split; [apply tidyb_ok|]; reflexivity|]. split; [apply ChunksProofs.load_any; vm_compute; reflexivity|].
  split; [vm_compute; reflexivity|]. split; [apply ChunksProofs.load_any; vm_compute; reflexivity|].
  intros (p & E & Hv). vm_compute in E. injection E as <-. destruct Hv as (_ & _ & _ & _ & ms & gs & Ek & Hm & Hg). cbn [p_kids] in Ek.
  destruct ms as [|m ms].
  - cbn [app] in Ek. subst gs. inversion_clear Hg as [|? ? (_ & (i & Hi & _) & _) _]. discriminate Hi.
  - injection Ek as <- _. inversion_clear Hm as [|? ? (Et & _) _]. discriminate Et.
Qed.

(* ---------- xigt sort and xigt partition ---------- *)

From Verif Require Import Index Scripts SpecScripts Path Command SpecCommand PartitionRun SpecPartition PartExamples.
(* --item-key=@id --igt-key=@note *)
Definition o_keys : sort_opts := {| igt_key := Some [L "@note"]; tier_key := None; tier_deps := Some (L "segmentation"); item_key := Some [L "@id"] |}.
Lemma sort_example ix vfuel : exists e', (forall ahead, sort_document ix vfuel 9 ahead o_keys doc_valid = Ok e') /\ schema_valid e' /\ e' <> doc_valid.
Proof.
  eexists. split; [intros ahead; unfold sort_document; erewrite ChunksProofs.load_any by (vm_compute; reflexivity); vm_compute; reflexivity|].
  split; [apply documentb_ok; vm_compute; reflexivity|discriminate].
Qed.
Definition w_valid : world := {| dirs := []; files := [(L "a.xml", doc_valid)] |}.
Lemma partition_example ix vfuel : tidy_inputs w_valid [L "a.xml"] /\ (forall fn e, In fn [L "a.xml"] -> dget (files w_valid) fn = Some e -> schema_valid e)
  /\ exists w' e1 e2, run_partition ix vfuel lazy_parser (L "out") (L "---") (Some (L "@note")) [L "a.xml"] w_valid = (Ok tt, w')
     /\ dget (files w') (L "out/n.xml") = Some e1 /\ schema_valid e1 /\ dget (files w') (L "out/---.xml") = Some e2 /\ schema_valid e2.
Proof.
  split; [intros fn e [<-|[]]; vm_compute; intros [= <-]; exact (proj1 valid_doc)|].
  split; [intros fn e [<-|[]]; intros E; apply documentb_ok; vm_compute in E; injection E as <-; vm_compute; reflexivity|].
  do 3 eexists. split; [vm_compute; reflexivity|]. split; [vm_compute; reflexivity|]. split; [apply documentb_ok; vm_compute; reflexivity|].
  split; [vm_compute; reflexivity|apply documentb_ok; vm_compute; reflexivity].
Qed.
