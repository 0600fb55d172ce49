(* Concrete corpora for the JSON properties. *)
From Verif Require Import PyStr PyStrFacts Ref SpecRef Model SpecModel XmlStd Xml SpecXml XmlExamples Json SpecJson JsonProofs.
From Verif Require LoadProofs XmlProofs.

(* xc with its namespaced attributes left out: two namespaces, inherited and own *)
Definition jc_child : mchild :=
  MChild (L "title") {| a_id := None; a_type := None; a_dict := [(L "lang", L "a<b"); (in_ns (L "urn:other") (L "k"), L "v")];
                        a_ns := Some DC_URI; a_nsmap := None |}
    (Some []) [MChild (L "b") {| a_id := None; a_type := None; a_dict := []; a_ns := Some MY_URI; a_nsmap := None |} None [];
               MChild (L "c") {| a_id := None; a_type := None; a_dict := []; a_ns := Some (L "urn:other"); a_nsmap := None |} (Some (L "x")) []].
Definition jc_meta : meta :=
  {| me_attrs := {| a_id := Some (L "m1"); a_type := Some (L "info"); a_dict := []; a_ns := None;
                    a_nsmap := Some [(L "my", MY_URI)] |};
     me_text := Some (L " "); me_kids := [jc_child] |}.
Definition jc : corpus :=
  {| c_attrs := {| a_id := Some (L "c"); a_type := None; a_dict := [(L "alignment-method", L "auto")]; a_ns := None;
                   a_nsmap := Some [(L "dc", DC_URI)] |};
     c_md := [{| md_attrs := no_attrs; md_metas := [jc_meta] |}];
     c_igts := [{| g_attrs := with_id (L "i1"); g_md := [];
                   g_tiers := [{| t_attrs := {| a_id := Some (L "w"); a_type := Some (L "words"); a_dict := []; a_ns := Some MY_URI; a_nsmap := None |};
                                  t_md := []; t_items := [xc_item (L "w1") None (L "p1[0:2]"); xc_item (L "w2") (Some (L " a b")) (L "")] |}] |};
                {| g_attrs := no_attrs; g_md := []; g_tiers := [] |}] |}.

Lemma extend_two a b p u : extend a b p = Some u -> (exists m, a_nsmap a = Some m /\ dget m p = Some u) \/ b p = Some u.
Proof.
  unfold extend. destruct (a_nsmap a) as [m|] eqn:E; [|now right]. destruct (dget m p) as [v|] eqn:E2; [|now right].
  intros [= ->]. left. now exists m.
Qed.
Definition only (l : dict str) (b : binding) : Prop := forall p u, b p = Some u -> In (p, u) l.
Lemma only_none : only [] no_binding. Proof. intros p u [=]. Qed.
Lemma only_extend l a b : only l b -> only ((match a_nsmap a with Some m => m | None => [] end) ++ l) (extend a b).
Proof.
  intros H p u E. apply in_or_app. destruct (extend_two _ _ _ _ E) as [(m & -> & Hm)|Hb]; [left|right; now apply H].
  now apply dget_in in Hm; [|exact str_eqb_spec].
Qed.
Lemma only_unbound l b u : only l b -> forallb (fun kv => negb (str_eqb (snd kv) u)) l = true -> ~ bound_in b u.
Proof.
  intros H Hl [p Hp]. rewrite forallb_forall in Hl. specialize (Hl _ (H _ _ Hp)). cbn in Hl.
  destruct (str_eqb_spec u u); [discriminate|easy].
Qed.
Lemma only_prefix l b u : only l b -> forallb (fun kv => negb (str_eqb (fst kv) u)) l = true -> b u = None.
Proof.
  intros H Hl. destruct (b u) as [v|] eqn:E; [|easy]. rewrite forallb_forall in Hl. specialize (Hl _ (H _ _ E)). cbn in Hl.
  destruct (str_eqb_spec u u); [discriminate|easy].
Qed.
Lemma jattrs_fine b a : NoDup (map fst (a_dict a)) -> (match a_nsmap a with Some m => NoDup (map fst m) | None => True end) ->
  Forall (key_stays b) (map fst (a_dict a)) -> (match a_id a with Some i => accepted_id i | None => True end) ->
  a_ns a <> Some [] -> jattrs b a.
Proof.
  intros H1 H2 H3 H4 H5. rewrite Forall_forall in H3. split; [easy|]. split; [intros m E; now rewrite E in H2|].
  split; [easy|]. split; [|easy]. intros i E. now rewrite E in H4.
Qed.
Ltac nd := vm_compute; repeat constructor; cbn; intuition discriminate.
Ltac idok := first [exact I | do 2 eexists; split; [reflexivity|vm_compute; intuition discriminate]].
Ltac jattrs_ := apply jattrs_fine; [nd|first [exact I|nd]|cbn [a_dict map fst it_attrs xc_item no_attrs with_id t_attrs g_attrs md_attrs me_attrs];
  repeat (constructor; [left; intros r; discriminate|]); constructor|idok|discriminate].

Section JsonExamples.
Context {U : Unicode}.
Ltac name_ := do 2 eexists; split; [reflexivity|]; split; [reflexivity|]; split; [reflexivity|];
  cbn; intros x Hx; left; repeat (destruct Hx as [<-|Hx]; [reflexivity|]); easy.

Lemma no_colon_dc l b u p : only l b -> forallb (fun kv => forallb (fun c => negb (N.eqb c (Ch ":"))) (fst kv)) l = true ->
  b p = Some u -> ~ In (Ch ":") p.
Proof.
  intros H Hl E Hin. rewrite forallb_forall in Hl. specialize (Hl _ (H _ _ E)). cbn [fst] in Hl.
  rewrite forallb_forall in Hl. specialize (Hl _ Hin). rewrite N.eqb_refl in Hl. discriminate.
Qed.
Lemma jchild_fine l b n a t kids : only l b ->
  let l' := (match a_nsmap a with Some m => m | None => [] end) ++ l in
  forallb (fun kv => forallb (fun c => negb (N.eqb c (Ch ":"))) (fst kv)) l' = true ->
  (forall u, a_ns a = Some u -> bound_in (extend a b) u \/ forallb (fun kv => negb (str_eqb (fst kv) u)) l' = true) ->
  jattrs (extend a b) a -> a_id a = None -> a_type a = None ->
  (exists c r, n = c :: r /\ is_word c = true /\ is_digit c = false
       /\ forall x, In x r -> is_word x = true \/ x = Ch "-" \/ x = Ch ".") ->
  Forall (jchild (extend a b)) kids -> jchild b (MChild n a t kids).
Proof.
  intros H l' Hc Hn Ha Hi Ht Hname Hk. assert (H' : only l' (extend a b)) by now apply only_extend.
  constructor; auto.
  - intros u p _. now apply (no_colon_dc l').
  - intros u E Hb. destruct (Hn u E) as [|Hp]; [easy|]. now apply (only_prefix l').
Qed.

Definition jb0 := extend (c_attrs jc) no_binding.
Lemma jb0_only : only [(L "dc", DC_URI)] jb0.
Proof. exact (only_extend [] (c_attrs jc) no_binding only_none). Qed.
Lemma jc_child_ok b : only [(L "my", MY_URI); (L "dc", DC_URI)] b -> b (L "dc") = Some DC_URI -> b (L "my") = Some MY_URI ->
  jchild b jc_child.
Proof.
  intros Hb Hd Hm. eapply jchild_fine; [exact Hb|reflexivity| | |reflexivity|reflexivity|name_|].
  - intros u [= <-]. left. exists (L "dc"). exact Hd.
  - apply jattrs_fine; [nd|exact I| |exact I|discriminate]. constructor; [left; intros r; discriminate|]. constructor; [|constructor].
    right. exists (L "urn:other"), (L "k"). split; [easy|]. split; [vm_compute; intuition discriminate|].
    eapply only_unbound; [apply only_extend, Hb|reflexivity].
  - constructor; [|constructor; [|constructor]].
    + eapply jchild_fine; [apply only_extend, Hb|reflexivity| | |reflexivity|reflexivity|name_|constructor].
      * intros u [= <-]. left. exists (L "my"). exact Hm.
      * jattrs_.
    + eapply jchild_fine; [apply only_extend, Hb|reflexivity| | |reflexivity|reflexivity|name_|constructor].
      * intros u [= <-]. right. reflexivity.
      * jattrs_.
Qed.
Lemma jc_ok : jcorpus jc.
Proof.
  split; [jattrs_|]. split; [easy|]. split; [|split].
  - split; [|constructor]. constructor; [|constructor]. split; [jattrs_|]. split; [discriminate|]. split; [|nd].
    constructor; [|constructor]. split; [jattrs_|]. split; [discriminate|]. constructor; [|constructor].
    apply jc_child_ok; [|reflexivity|reflexivity]. cbn [me_attrs jc_meta]. 
    exact (only_extend _ (me_attrs jc_meta) _ (only_extend _ no_attrs _ jb0_only)).
  - constructor; [|constructor; [|constructor]].
    + split; [jattrs_|]. split; [discriminate|]. split; [split; constructor|]. split; [|nd].
      constructor; [|constructor]. split; [jattrs_|]. split; [discriminate|]. split; [split; constructor|]. split; [|nd].
      constructor; [|constructor; [|constructor]]; (split; [jattrs_|]; split; discriminate).
    + split; [jattrs_|]. split; [discriminate|]. split; [split; constructor|]. split; constructor.
  - nd.
Qed.

(* ----- what is lost ----- *)

Definition attr_corpus : corpus :=
  {| c_attrs := {| a_id := None; a_type := None; a_dict := [(in_ns MY_URI (L "k"), L "v")]; a_ns := None;
                   a_nsmap := Some [(L "my", MY_URI)] |}; c_md := []; c_igts := [] |}.
Lemma c25_attribute : exists c j c', json_encode c = Ok j /\ json_decode j = Ok c'
  /\ a_dict (c_attrs c) = [(in_ns MY_URI (L "k"), L "v")] /\ a_dict (c_attrs c') = [(L "my:k", L "v")].
Proof. exists attr_corpus. do 2 eexists. split; [vm_compute; reflexivity|]. now vm_compute. Qed.
Lemma c25_corpus_type : exists c j c', json_encode c = Ok j /\ json_decode j = Ok c'
  /\ a_type (c_attrs c) = Some (L "t") /\ a_type (c_attrs c') = None.
Proof. exists typed_corpus. do 2 eexists. split; [vm_compute; reflexivity|]. now vm_compute. Qed.
Lemma c25_empty_text : exists c j c', c = one_item (Some []) /\ json_encode c = Ok j /\ json_decode j = Ok c' /\ ~ same_corpus c c'.
Proof.
  exists (one_item (Some [])). do 2 eexists. split; [easy|]. split; [vm_compute; reflexivity|]. split; [vm_compute; reflexivity|].
  eapply same_corpus_item; reflexivity || discriminate.
Qed.
(* a MetaChild in an undeclared namespace that happens to be a prefix *)
Definition clash_corpus : corpus :=
  {| c_attrs := {| a_id := None; a_type := None; a_dict := []; a_ns := None; a_nsmap := Some [(L "my", MY_URI)] |};
     c_md := [{| md_attrs := no_attrs; md_metas := [{| me_attrs := no_attrs; me_text := None;
       me_kids := [MChild (L "x") {| a_id := None; a_type := None; a_dict := []; a_ns := Some (L "my"); a_nsmap := None |} None []] |}] |}];
     c_igts := [] |}.
Lemma c25_namespace : exists c j c', json_encode c = Ok j /\ json_decode j = Ok c' /\ ~ same_corpus c c'.
Proof.
  exists clash_corpus. do 2 eexists. split; [vm_compute; reflexivity|]. split; [vm_compute; reflexivity|].
  intros (_ & H & _). inversion_clear H as [|? ? ? ? (_ & H1') _]. inversion_clear H1' as [|? ? ? ? (_ & _ & H3) _].
  inversion_clear H3 as [|? ? ? ? H4 _]. inversion_clear H4 as [? ? ? ? ? ? (_ & _ & H5 & _) _]. discriminate.
Qed.

Lemma c51_example : forall c, (exists ahead e, xml_load ahead e = Ok c) -> c_igts c <> [ {| g_attrs := with_id (L "i"); g_md := []; g_tiers := [] |};
  {| g_attrs := with_id (L "i"); g_md := []; g_tiers := [] |}].
Proof.
  intros c (ahead & e & E) H. apply LoadProofs.xml_load_fine in E as (_ & _ & [_ Hnd] & _). rewrite H in Hnd.
  inversion_clear Hnd as [|? ? Hn _]. apply Hn. now left.
Qed.
Lemma c51_loads : exists e c, (forall ahead, xml_load ahead e = Ok c) /\ c_igts c <> [].
Proof.
  destruct xc_ok as [H1 H2]. destruct (XmlProofs.xml_round_trip xc None xc_tree_ok H1 H2) as (e & c & _ & E & H).
  exists e, c. split; [easy|]. destruct H as (_ & _ & H). inversion H. discriminate.
Qed.

End JsonExamples.
