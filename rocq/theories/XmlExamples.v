(* Concrete corpora for the XML properties. *)
From Verif Require Import PyStr PyStrFacts SpecRef Model SpecModel XmlStd Xml SpecXml XmlProofs.
From Verif Require Import ChunksProofs.

Definition no_attrs : attrs := {| a_id := None; a_type := None; a_dict := []; a_ns := None; a_nsmap := None |}.
Definition with_id (i : str) : attrs :=
  {| a_id := Some i; a_type := None; a_dict := []; a_ns := None; a_nsmap := None |}.
Definition DC_URI : str := L "http://purl.org/dc/elements/1.1/".
Definition MY_URI : str := L "urn:my".

(* a corpus with metadata whose children use two namespaces, one declared by
   the corpus, the other by the Meta, and attributes of both kinds *)
Definition xc_child : mchild :=
  MChild (L "title") {| a_id := None; a_type := None; a_dict := [(in_ns MY_URI (L "lang"), L "a<b")]; a_ns := Some DC_URI; a_nsmap := None |}
    (Some (L "Ex ")) [MChild (L "b") no_attrs None []].
Definition xc_meta : meta :=
  {| me_attrs := {| a_id := Some (L "m1"); a_type := Some (L "info"); a_dict := []; a_ns := None;
                    a_nsmap := Some [(L "dc", DC_URI); (L "my", MY_URI)] |};
     me_text := None; me_kids := [xc_child] |}.
Definition xc_md : metadata := {| md_attrs := no_attrs; md_metas := [xc_meta] |}.
Definition xc_item (i : str) (t : option str) (c : str) : item :=
  {| it_attrs := {| a_id := Some i; a_type := None; a_dict := [(L "content", c)]; a_ns := None; a_nsmap := None |}; it_text := t |}.
Definition xc_tier : tier :=
  {| t_attrs := {| a_id := Some (L "w"); a_type := Some (L "words"); a_dict := [(in_ns DC_URI (L "source"), L "x")]; a_ns := None; a_nsmap := None |};
     t_md := []; t_items := [xc_item (L "w1") None (L "p1[0:2]"); xc_item (L "w2") (Some (L " a b")) (L "")] |}.
Definition xc_igt : igt := {| g_attrs := with_id (L "i1"); g_md := [xc_md]; g_tiers := [xc_tier] |}.
Definition xc : corpus :=
  {| c_attrs := {| a_id := Some (L "c"); a_type := None; a_dict := [(L "alignment-method", L "auto")]; a_ns := None;
                   a_nsmap := Some [(L "dc", DC_URI)] |};
     c_md := [xc_md]; c_igts := [xc_igt; {| g_attrs := no_attrs; g_md := []; g_tiers := [] |}] |}.

Ltac nodup := repeat constructor; cbn; intuition discriminate.
Ltac chars := vm_compute; reflexivity.
Lemma map_dc : map_ok [(L "dc", DC_URI)].
Proof. split; [nodup|]. intros p u [[= <- <-]|[]]. now vm_compute. Qed.
Lemma map_both : map_ok [(L "dc", DC_URI); (L "my", MY_URI)].
Proof. split; [repeat constructor; vm_compute; intuition discriminate|]. intros p u [[= <- <-]|[[= <- <-]|[]]]; now vm_compute. Qed.
Lemma uri_dc m : In (L "dc", DC_URI) m -> uri_ok m DC_URI.
Proof. intros H. split; [now vm_compute|]. split; [vm_compute; intuition discriminate|]. now exists (L "dc"). Qed.
Lemma uri_my m : In (L "my", MY_URI) m -> uri_ok m MY_URI.
Proof. intros H. split; [now vm_compute|]. split; [vm_compute; intuition discriminate|]. now exists (L "my"). Qed.
Lemma text_fine s : xml_chars s = true -> forallb (fun c => negb (N.eqb c 13)) s = true -> text_ok (Some s).
Proof.
  intros H H' s' [= <-]. split; [easy|]. intros Hin. rewrite forallb_forall in H'. specialize (H' _ Hin). discriminate.
Qed.
Lemma no_text : text_ok None. Proof. intros s [=]. Qed.

Lemma attrs_fine m a : map_ok m -> NoDup (map fst (a_dict a)) ->
  Forall (fun kv => key_ok m (fst kv) /\ xml_chars (snd kv) = true) (a_dict a) ->
  (match a_id a with Some i => xml_chars i = true | None => True end) ->
  (match a_type a with Some i => xml_chars i = true | None => True end) ->
  ~ In ID (map fst (a_dict a)) -> ~ In TYPE (map fst (a_dict a)) ->
  (match a_ns a with Some u => uri_ok m u | None => True end) -> attrs_ok m a.
Proof.
  intros H1 H2 H3 H4 H5 H6 H7 H8. rewrite Forall_forall in H3.
  split; [easy|]. split; [easy|]. split; [intros k v Hin; exact (H3 _ Hin)|].
  split; [intros i E; now rewrite E in H4|]. split; [intros i E; now rewrite E in H5|].
  split; [easy|]. split; [easy|]. intros u E. now rewrite E in H8.
Qed.
Ltac attrs_ :=
  apply attrs_fine; cbn [a_dict a_id a_type a_ns no_attrs with_id map fst];
  [first [exact map_dc|exact map_both]|repeat constructor; now cbn|idtac|first [exact I|chars]|first [exact I|chars]
  |vm_compute; intuition discriminate|vm_compute; intuition discriminate|first [exact I|apply uri_dc; cbn; tauto]].

Lemma child_tree_ok : tree_ok [(L "dc", DC_URI); (L "my", MY_URI)] (child_tree xc_child).
Proof.
  constructor; [|chars|apply text_fine; chars|constructor; [|constructor]].
  - attrs_. constructor; [|constructor]. split; [|chars]. right. exists MY_URI, (L "lang"). split; [easy|]. split; [chars|]. left; apply uri_my. cbn; tauto.
  - constructor; [|chars|exact no_text|constructor]. attrs_. constructor.
Qed.
Lemma md_tree_ok : tree_ok [(L "dc", DC_URI)] (metadata_tree xc_md).
Proof.
  constructor; [attrs_; constructor|chars|exact no_text|constructor; [|constructor]].
  constructor; [|chars|exact no_text|constructor; [exact child_tree_ok|constructor]].
  attrs_. constructor.
Qed.
Lemma xc_tree_ok : tree_ok [] (corpus_tree xc).
Proof.
  constructor; [|chars|exact no_text|].
  - attrs_. constructor; [|constructor]. split; [|chars]. left. split; [chars|now vm_compute].
  - cbn [corpus_tree c_md c_igts xc map app]. constructor; [exact md_tree_ok|]. constructor; [|constructor; [|constructor]].
    + constructor; [attrs_; constructor|chars|exact no_text|].
      cbn [g_md g_tiers xc_igt map app]. constructor; [exact md_tree_ok|]. constructor; [|constructor].
      constructor; [|chars|exact no_text|].
      * attrs_. constructor; [|constructor]. split; [|chars]. right. exists DC_URI, (L "source"). split; [easy|]. split; [chars|]. left; apply uri_dc. cbn; tauto.
      * cbn [t_md t_items xc_tier map app]. constructor; [|constructor; [|constructor]].
        -- constructor; [|chars|exact no_text|constructor]. attrs_. constructor; [|constructor]. split; [|chars]. left. split; [chars|now vm_compute].
        -- constructor; [|chars|apply text_fine; chars|constructor]. attrs_. constructor; [|constructor]. split; [|chars]. left. split; [chars|now vm_compute].
    + constructor; [attrs_; constructor|chars|exact no_text|constructor].
Qed.

Section XmlExamples.
Context {U : Unicode}.

Lemma plain_fine a : a_ns a = None -> (match a_id a with Some i => accepted_id i | None => True end) ->
  ~ In ID (map fst (a_dict a)) -> ~ In TYPE (map fst (a_dict a)) -> plain a.
Proof. intros H1 H2 H3 H4. split; [easy|]. split; [|easy]. intros i E. now rewrite E in H2. Qed.
Ltac idok := first [exact I | do 2 eexists; split; [reflexivity|vm_compute; intuition discriminate]].
Ltac plain_ := apply plain_fine; [reflexivity|idok|vm_compute; intuition discriminate|vm_compute; intuition discriminate].
Ltac name_ := do 2 eexists; split; [reflexivity|]; split; [reflexivity|]; split; [reflexivity|];
  cbn; intros x Hx; left; repeat (destruct Hx as [<-|Hx]; [reflexivity|]); easy.

Lemma xc_md_ok : metadata_ok xc_md /\ Forall meta_kept (md_metas xc_md).
Proof.
  split.
  - split; [plain_|]. split; [|repeat constructor; cbn; tauto]. constructor; [|constructor].
    split; [plain_|]. constructor; [|constructor].
    constructor; [reflexivity|reflexivity|discriminate|name_|]. constructor; [|constructor].
    constructor; [reflexivity|reflexivity|intros _; now vm_compute|name_|constructor].
  - constructor; [|constructor]. split; [easy|]. constructor; [|constructor].
    constructor; [vm_compute; intuition discriminate|vm_compute; intuition discriminate| |].
    + intros _ H. specialize (H _ (Ch "E") eq_refl (or_introl eq_refl)). now vm_compute in H.
    + repeat constructor; cbn; intuition.
Qed.
Lemma xc_ok : corpus_ok xc /\ corpus_kept xc.
Proof.
  destruct xc_md_ok as [M K]. split.
  - split; [easy|]. split; [intros i [= <-]; idok|]. split; [vm_compute; intuition discriminate|].
    split; [split; [constructor; [exact M|constructor]|constructor]|].
    split; [|repeat constructor; cbn; tauto]. constructor; [|constructor; [|constructor]].
    + split; [plain_|]. split; [split; [constructor; [exact M|constructor]|constructor]|].
      split; [|repeat constructor; cbn; tauto]. constructor; [|constructor].
      split; [plain_|]. split; [split; constructor|]. split; [|repeat constructor; vm_compute; intuition discriminate].
      repeat (constructor; [plain_|]). constructor.
    + split; [plain_|]. split; [split; constructor|]. split; constructor.
  - split; [easy|]. split; [now constructor|]. constructor; [|constructor; [|constructor]].
    + split; [now constructor|]. constructor; [|constructor]. split; [constructor|]. repeat constructor; discriminate.
    + split; constructor.
Qed.

(* the bytes of the example: where each prefix is declared *)
Definition all_decls : xelem -> list str :=
  fix go (e : xelem) : list str :=
    match e with
    | XElem tag d _ _ kids =>
      map (fun kv => tag ++ L " " ++ fst kv) (filter (fun kv => match declares (fst kv) with Some _ => true | None => false end) d)
      ++ flat_map go kids
    end.
Lemma c24_example :
  match xml_dump xc (Some 2) with
  | Ok e => all_decls e = [L "xigt-corpus xmlns:dc"; L "meta xmlns:my"; L "meta xmlns:my"]
  | Err _ => False
  end.
Proof. vm_compute. reflexivity. Qed.

(* ----- what is lost ----- *)

Definition one_item (t : option str) : corpus :=
  {| c_attrs := no_attrs; c_md := [];
     c_igts := [{| g_attrs := no_attrs; g_md := []; g_tiers := [{| t_attrs := no_attrs; t_md := [];
       t_items := [{| it_attrs := no_attrs; it_text := t |}] |}] |}] |}.
Lemma map_nil : map_ok [].
Proof. split; [constructor|]. intros p u []. Qed.
Lemma no_attrs_ok : attrs_ok [] no_attrs.
Proof. apply attrs_fine; cbn; auto; [exact map_nil|constructor]. Qed.
Lemma one_item_ok t : text_ok t -> tree_ok [] (corpus_tree (one_item t)) /\ corpus_ok (one_item t).
Proof.
  intros H. split.
  - constructor; [apply no_attrs_ok|chars|exact no_text|]. constructor; [|constructor].
    constructor; [apply no_attrs_ok|chars|exact no_text|]. constructor; [|constructor].
    constructor; [apply no_attrs_ok|chars|exact no_text|]. constructor; [|constructor].
    constructor; [apply no_attrs_ok|chars|easy|constructor].
  - split; [easy|]. split; [intros i [=]|]. split; [easy|]. split; [split; constructor|]. split; [|constructor].
    constructor; [|constructor]. split; [plain_|]. split; [split; constructor|]. split; [|constructor].
    constructor; [|constructor]. split; [plain_|]. split; [split; constructor|]. split; [|constructor].
    constructor; [plain_|constructor].
Qed.

Lemma same_corpus_item c t c' t' g gt : c = one_item t -> c_igts c' = [g] -> g_tiers g = [gt] ->
  map it_text (t_items gt) = [t'] -> t <> t' -> ~ same_corpus c c'.
Proof.
  intros -> Eg Et Ei Hn (_ & _ & H). rewrite Eg in H. cbn in H. inversion_clear H as [|? ? ? ? (_ & _ & H1) _].
  rewrite Et in H1. cbn in H1. inversion_clear H1 as [|? ? ? ? (_ & _ & H2) _]. cbn in H2.
  inversion H2 as [|? i ? l H3 H4 E1 E2]. inversion H4; subst. rewrite <- E2 in Ei. cbn in Ei.
  destruct H3 as [H3 _]. cbn in H3. congruence.
Qed.
Lemma c23_empty_text : exists c e c', tree_ok [] (corpus_tree c) /\ corpus_ok c
  /\ xml_dump c None = Ok e /\ (forall ahead, xml_load ahead e = Ok c') /\ ~ same_corpus c c'.
Proof.
  exists (one_item (Some [])). do 2 eexists. destruct (one_item_ok (Some [])) as [H1 H2]; [apply text_fine; chars|].
  split; [easy|]. split; [easy|]. split; [vm_compute; reflexivity|]. split; [apply load_any; vm_compute; reflexivity|].
  eapply same_corpus_item; reflexivity || discriminate.
Qed.
Lemma c23_return_text : exists c e c', corpus_ok c /\ xml_dump c None = Ok e /\ (forall ahead, xml_load ahead e = Ok c') /\ ~ same_corpus c c'.
Proof.
  exists (one_item (Some [Ch "a"; 13%N; Ch "b"])). do 2 eexists.
  split; [apply (one_item_ok None no_text) || idtac|].
  - split; [easy|]. split; [intros i [=]|]. split; [easy|]. split; [split; constructor|]. split; [|constructor].
    constructor; [|constructor]. split; [plain_|]. split; [split; constructor|]. split; [|constructor].
    constructor; [|constructor]. split; [plain_|]. split; [split; constructor|]. split; [|constructor].
    constructor; [plain_|constructor].
  - split; [vm_compute; reflexivity|]. split; [apply load_any; vm_compute; reflexivity|].
    eapply same_corpus_item; reflexivity || discriminate.
Qed.
Definition typed_corpus : corpus :=
  {| c_attrs := {| a_id := None; a_type := Some (L "t"); a_dict := []; a_ns := None; a_nsmap := None |}; c_md := []; c_igts := [] |}.
Lemma c23_corpus_type : exists c e c', tree_ok [] (corpus_tree c) /\ corpus_ok c
  /\ xml_dump c None = Ok e /\ (forall ahead, xml_load ahead e = Ok c') /\ ~ same_corpus c c'.
Proof.
  exists typed_corpus. do 2 eexists. split.
  { constructor; [|chars|exact no_text|constructor]. apply attrs_fine; cbn; auto; [exact map_nil|constructor]. }
  split; [split; [easy|]; split; [intros i [=]|]; split; [easy|]; split; [split; constructor|]; split; constructor|].
  split; [vm_compute; reflexivity|]. split; [apply load_any; vm_compute; reflexivity|]. intros ((_ & H & _) & _). discriminate.
Qed.
Definition meta_corpus (t : option str) (kids : list mchild) : corpus :=
  {| c_attrs := no_attrs; c_md := [{| md_attrs := no_attrs; md_metas := [{| me_attrs := no_attrs; me_text := t; me_kids := kids |}] |}];
     c_igts := [] |}.
Lemma meta_corpus_ok t kids : text_ok t -> Forall child_ok kids -> Forall (tree_ok []) (map child_tree kids) ->
  tree_ok [] (corpus_tree (meta_corpus t kids)) /\ corpus_ok (meta_corpus t kids).
Proof.
  intros Ht Hk Hk'. split.
  - constructor; [apply no_attrs_ok|chars|exact no_text|]. constructor; [|constructor].
    constructor; [apply no_attrs_ok|chars|exact no_text|]. constructor; [|constructor].
    constructor; [apply no_attrs_ok|chars|easy|exact Hk'].
  - split; [easy|]. split; [intros i [=]|]. split; [easy|]. split; [|split; constructor]. split; [|constructor].
    constructor; [|constructor]. split; [plain_|]. split; [|constructor]. constructor; [|constructor].
    split; [plain_|easy].
Qed.
Lemma c23_blank_meta : exists c e c', tree_ok [] (corpus_tree c) /\ corpus_ok c
  /\ xml_dump c None = Ok e /\ (forall ahead, xml_load ahead e = Ok c') /\ ~ same_corpus c c'.
Proof.
  exists (meta_corpus (Some (L " ")) []). do 2 eexists.
  destruct (meta_corpus_ok (Some (L " ")) []) as [H1 H2]; [apply text_fine; chars|constructor|constructor|].
  split; [easy|]. split; [easy|]. split; [vm_compute; reflexivity|]. split; [apply load_any; vm_compute; reflexivity|].
  intros (_ & H & _). inversion_clear H as [|? ? ? ? (_ & H1') _]. inversion_clear H1' as [|? ? ? ? (H3 & _) _]. discriminate.
Qed.
Definition id_child : mchild :=
  MChild (L "x") {| a_id := None; a_type := None; a_dict := [(ID, L "a1")]; a_ns := None; a_nsmap := None |} None [].
Lemma c23_child_id : exists c e c', tree_ok [] (corpus_tree c) /\ corpus_ok c
  /\ xml_dump c None = Ok e /\ (forall ahead, xml_load ahead e = Ok c') /\ ~ same_corpus c c'.
Proof.
  exists (meta_corpus None [id_child]). do 2 eexists.
  destruct (meta_corpus_ok None [id_child]) as [H1 H2].
  { exact no_text. }
  { constructor; [|constructor]. constructor; [reflexivity|reflexivity|intros _; now vm_compute|name_|constructor]. }
  { constructor; [|constructor]. constructor; [|chars|exact no_text|constructor].
    split; [exact map_nil|]. split; [repeat constructor; now cbn|]. split.
    - intros k v [[= <- <-]|[]]. split; [left; split; [chars|now vm_compute]|chars].
    - split; [intros i [=]|]. split; [intros i [=]|]. split; [easy|]. split; [easy|]. intros u [=]. }
  split; [easy|]. split; [easy|]. split; [vm_compute; reflexivity|]. split; [apply load_any; vm_compute; reflexivity|].
  intros (_ & H & _). inversion_clear H as [|? ? ? ? (_ & H1') _]. inversion_clear H1' as [|? ? ? ? (_ & _ & H3) _].
  inversion_clear H3 as [|? ? ? ? H4 _]. inversion_clear H4 as [? ? ? ? ? ? (_ & _ & _ & H5) _].
  specialize (H5 ID). discriminate.
Qed.
(* structural elements in a namespace are written but not found again *)
Definition ns_tier_corpus : corpus :=
  {| c_attrs := {| a_id := None; a_type := None; a_dict := []; a_ns := None; a_nsmap := Some [(L "my", MY_URI)] |}; c_md := [];
     c_igts := [{| g_attrs := no_attrs; g_md := []; g_tiers := [{| t_attrs := {| a_id := None; a_type := None; a_dict := [];
       a_ns := Some MY_URI; a_nsmap := None |}; t_md := []; t_items := [] |}] |}] |}.
Lemma c23_ns_tier : exists c e c', tree_ok [] (corpus_tree c) /\ corpus_kept c
  /\ xml_dump c None = Ok e /\ (forall ahead, xml_load ahead e = Ok c') /\ ~ same_corpus c c'.
Proof.
  assert (M : map_ok [(L "my", MY_URI)]) by (split; [nodup|]; intros p u [[= <- <-]|[]]; now vm_compute).
  exists ns_tier_corpus. do 2 eexists. split; [|split].
  - constructor; [|chars|exact no_text|].
    { apply attrs_fine; cbn; auto. constructor. }
    constructor; [|constructor]. constructor; [|chars|exact no_text|].
    { apply attrs_fine; cbn; auto. constructor. }
    constructor; [|constructor]. constructor; [|chars|exact no_text|constructor].
    apply attrs_fine; cbn; auto; [constructor|]. apply uri_my. now left.
  - split; [easy|]. split; [constructor|]. repeat constructor.
  - split; [vm_compute; reflexivity|]. split; [apply load_any; vm_compute; reflexivity|].
    intros (_ & _ & H). inversion_clear H as [|? ? ? ? (_ & _ & H1) _]. inversion H1.
Qed.
(* a prefix taken from the default set is used but not declared; the empty
   prefix cannot be declared as it is *)
Lemma c24_fallback : exists c e, xml_dump c None = Ok e /\ reread [] e = Err ParseError
  /\ a_dict (c_attrs c) = [(in_ns DC_URI (L "title"), L "x")] /\ a_nsmap (c_attrs c) = None.
Proof.
  exists {| c_attrs := {| a_id := None; a_type := None; a_dict := [(in_ns DC_URI (L "title"), L "x")]; a_ns := None; a_nsmap := None |};
            c_md := []; c_igts := [] |}.
  eexists. split; [vm_compute; reflexivity|]. now split; [vm_compute|].
Qed.
Lemma c24_empty_prefix : exists c e, xml_dump c None = Ok e /\ reread [] e = Err ParseError
  /\ a_nsmap (c_attrs c) = Some [([], MY_URI)] /\ a_ns (c_attrs c) = Some MY_URI.
Proof.
  exists {| c_attrs := {| a_id := None; a_type := None; a_dict := []; a_ns := Some MY_URI; a_nsmap := Some [([], MY_URI)] |};
            c_md := []; c_igts := [] |}.
  eexists. split; [vm_compute; reflexivity|]. now split; [vm_compute|].
Qed.

End XmlExamples.
