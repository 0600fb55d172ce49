From Verif Require Import PyStr PyStrFacts Model SpecModel.


(* ---------- dict equality ---------- *)

Lemma dict_eqb_spec (a b : dict str) : NoDup (map fst a) -> NoDup (map fst b) ->
  (dict_eqb str_eqb a b = true <-> forall k, dget a k = dget b k).
Proof.
  intros Ha Hb. unfold dict_eqb. rewrite andb_true_iff, Nat.eqb_eq, forallb_forall. split.
  - intros [Hl H] k.
    assert (Hin : forall k v, In (k, v) a -> In (k, v) b).
    { intros k' v Hk. specialize (H _ Hk). cbn [fst snd] in H.
      destruct (opt_eqb_spec str_eqb str_eqb_spec (Some v) (dget b k')) as [E|E]; [|discriminate H].
      symmetry in E. eapply (dget_in str_eqb str_eqb_spec); exact E. }
    assert (Hin' : forall k v, In (k, v) b -> In (k, v) a).
    { assert (Hk : incl (map fst b) (map fst a)).
      { apply (NoDup_length_incl Ha); [rewrite !map_length; lia|].
        intros x Hx. apply in_map_iff in Hx as ([x' v] & <- & Hx). apply in_map_iff. exists (x', v). auto. }
      intros k' v Hkv. assert (Hk' : In k' (map fst a)) by (apply Hk, in_map_iff; exists (k', v); auto).
      apply in_map_iff in Hk' as ([k'' v'] & E & Hkv'). cbn in E. subst k''.
      assert (v = v'); [|now subst]. apply Hin in Hkv'.
      apply (dget_nodup str_eqb str_eqb_spec) in Hkv, Hkv'; auto. congruence. }
    unfold dget. destruct (dget_ str_eqb a k) as [v|] eqn:E.
    + apply (dget_in str_eqb str_eqb_spec) in E. apply Hin in E.
      symmetry. now apply (dget_nodup str_eqb str_eqb_spec).
    + destruct (dget_ str_eqb b k) as [v|] eqn:E'; [|easy].
      apply (dget_in str_eqb str_eqb_spec), Hin' in E'.
      apply (dget_nodup str_eqb str_eqb_spec) in E'; auto. congruence.
  - intros H.
    assert (Hk : forall k, In k (map fst a) <-> In k (map fst b)).
    { intros k. specialize (H k). unfold dget in H.
      destruct (in_dec str_eq_dec k (map fst a)) as [Hi|Hi], (in_dec str_eq_dec k (map fst b)) as [Hj|Hj]; try tauto.
      - apply (dget_none str_eqb str_eqb_spec) in Hj. rewrite Hj in H.
        apply (dget_none str_eqb str_eqb_spec) in H. tauto.
      - apply (dget_none str_eqb str_eqb_spec) in Hi. rewrite Hi in H. symmetry in H.
        apply (dget_none str_eqb str_eqb_spec) in H. tauto. }
    split.
    + assert (H1 : length (map fst a) <= length (map fst b)) by (apply NoDup_incl_length; auto; intros k; apply Hk).
      assert (H2 : length (map fst b) <= length (map fst a)) by (apply NoDup_incl_length; auto; intros k; apply Hk).
      rewrite !map_length in *. lia.
    + intros [k v] Hkv. cbn [fst snd]. rewrite <- H. unfold dget.
      rewrite (dget_nodup str_eqb str_eqb_spec a k v Ha Hkv). cbn. apply str_eqb_refl.
Qed.

Lemma opt_str_eqb (a b : option str) : opt_eqb str_eqb a b = true <-> a = b.
Proof. destruct (opt_eqb_spec str_eqb str_eqb_spec a b); intuition congruence. Qed.

Lemma attrs_eqb_spec a b : wf_attrs a -> wf_attrs b -> (attrs_eqb a b = true <-> same_attrs a b).
Proof.
  intros [Ha _] [Hb _]. unfold attrs_eqb, same_attrs. rewrite !andb_true_iff, !opt_str_eqb, dict_eqb_spec by easy. tauto.
Qed.

Lemma seq_eqb_spec {A B} (eqb : A -> B -> bool) (R : A -> B -> Prop) (l : list A) (l' : list B) :
  (forall x y, In x l -> In y l' -> (eqb x y = true <-> R x y)) ->
  (seq_eqb eqb l l' = true <-> Forall2 R l l').
Proof.
  revert l'; induction l as [|x l IH]; intros [|y l'] H; cbn.
  - split; auto.
  - split; [easy|]. intros F; inversion F.
  - split; [easy|]. intros F; inversion F.
  - rewrite andb_true_iff, (H x y) by (now left). rewrite IH by (intros; apply H; now right).
    split; [intros [? ?]; now constructor|]. intros F; inversion F; auto.
Qed.

(* induction on MetaChild trees *)
Lemma mchild_ind' (P : mchild -> Prop) :
  (forall n a t k, Forall P k -> P (MChild n a t k)) -> forall c, P c.
Proof.
  intros H. fix IH 1. intros [n a t k]. apply H. induction k as [|c k IHk]; constructor; [apply IH|exact IHk].
Qed.

Lemma mchild_eqb_spec : forall a b, wf_child a -> wf_child b -> (mchild_eqb a b = true <-> same_child a b).
Proof.
  induction a as [n a t k IH] using mchild_ind'. intros [n' a' t' k'] Ha Hb.
  inversion Ha as [? ? ? ? Ha1 Ha2]; inversion Hb as [? ? ? ? Hb1 Hb2]; subst. cbn [mchild_eqb]. unfold text_eqb.
  rewrite !andb_true_iff, opt_str_eqb, str_eqb_eq, attrs_eqb_spec by easy.
  rewrite (seq_eqb_spec mchild_eqb same_child).
  2:{ intros x y Hx Hy. rewrite Forall_forall in IH, Ha2, Hb2. auto. }
  split.
  - intros [[[-> ->] Hk] Hat]. now constructor.
  - intros H; inversion H; subst. auto.
Qed.

Ltac forall_in := rewrite ?Forall_forall in *; auto.

Lemma meta_eqb_spec a b : wf_meta a -> wf_meta b -> (meta_eqb a b = true <-> same_meta a b).
Proof.
  intros [Ha1 Ha2] [Hb1 Hb2]. unfold meta_eqb, same_meta, text_eqb.
  rewrite !andb_true_iff, opt_str_eqb, attrs_eqb_spec by easy.
  rewrite (seq_eqb_spec mchild_eqb same_child); [tauto|]. intros x y Hx Hy. forall_in. apply mchild_eqb_spec; auto.
Qed.
Lemma metadata_eqb_spec a b : wf_metadata a -> wf_metadata b -> (metadata_eqb a b = true <-> same_metadata a b).
Proof.
  intros [Ha1 Ha2] [Hb1 Hb2]. unfold metadata_eqb, same_metadata.
  rewrite !andb_true_iff, attrs_eqb_spec by easy.
  rewrite (seq_eqb_spec meta_eqb same_meta); [tauto|]. intros x y Hx Hy. forall_in. apply meta_eqb_spec; auto.
Qed.
Lemma item_eqb_spec a b : wf_item a -> wf_item b -> (item_eqb a b = true <-> same_item a b).
Proof.
  intros Ha Hb. unfold item_eqb, same_item, text_eqb. now rewrite !andb_true_iff, opt_str_eqb, attrs_eqb_spec.
Qed.
Lemma mds_eqb_spec a b : Forall wf_metadata a -> Forall wf_metadata b ->
  (seq_eqb metadata_eqb a b = true <-> Forall2 same_metadata a b).
Proof. intros Ha Hb. apply seq_eqb_spec. intros x y Hx Hy. forall_in. apply metadata_eqb_spec; auto. Qed.
Lemma tier_eqb_spec a b : wf_tier a -> wf_tier b -> (tier_eqb a b = true <-> same_tier a b).
Proof.
  intros (Ha1 & Ha2 & Ha3) (Hb1 & Hb2 & Hb3). unfold tier_eqb, same_tier.
  rewrite !andb_true_iff, attrs_eqb_spec, mds_eqb_spec by easy.
  rewrite (seq_eqb_spec item_eqb same_item); [tauto|]. intros x y Hx Hy. forall_in. apply item_eqb_spec; auto.
Qed.
Lemma igt_eqb_spec a b : wf_igt a -> wf_igt b -> (igt_eqb a b = true <-> same_igt a b).
Proof.
  intros (Ha1 & Ha2 & Ha3) (Hb1 & Hb2 & Hb3). unfold igt_eqb, same_igt.
  rewrite !andb_true_iff, attrs_eqb_spec, mds_eqb_spec by easy.
  rewrite (seq_eqb_spec tier_eqb same_tier); [tauto|]. intros x y Hx Hy. forall_in. apply tier_eqb_spec; auto.
Qed.
Lemma corpus_eqb_spec a b : wf_corpus a -> wf_corpus b -> (corpus_eqb a b = true <-> same_corpus a b).
Proof.
  intros (Ha1 & Ha2 & Ha3) (Hb1 & Hb2 & Hb3). unfold corpus_eqb, same_corpus.
  rewrite !andb_true_iff, attrs_eqb_spec, mds_eqb_spec by easy.
  rewrite (seq_eqb_spec igt_eqb same_igt); [tauto|]. intros x y Hx Hy. forall_in. apply igt_eqb_spec; auto.
Qed.

Theorem eq_spec a b : wf_obj a -> wf_obj b -> same_class a b -> (obj_eqb a b = true <-> same_obj a b).
Proof.
  destruct a, b; cbn [wf_obj same_class]; intros Ha Hb Hc; try easy; cbn [obj_eqb same_obj text_of attrs_of].
  - now apply item_eqb_spec.
  - now apply tier_eqb_spec.
  - now apply igt_eqb_spec.
  - now apply corpus_eqb_spec.
  - now apply metadata_eqb_spec.
  - now apply meta_eqb_spec.
  - now apply mchild_eqb_spec.
Qed.

(* ---------- the specification is an equivalence ---------- *)

Lemma same_attrs_refl a : same_attrs a a.
Proof. repeat split. Qed.
Lemma same_attrs_sym a b : same_attrs a b -> same_attrs b a.
Proof. intros (H1 & H2 & H3 & H4). repeat split; auto. Qed.
Lemma same_attrs_trans a b c : same_attrs a b -> same_attrs b c -> same_attrs a c.
Proof. intros (H1 & H2 & H3 & H4) (G1 & G2 & G3 & G4). repeat split; congruence. Qed.

Section F2.
Context {A : Type} (R : A -> A -> Prop).
Lemma F2_refl l : (forall x, In x l -> R x x) -> Forall2 R l l.
Proof. induction l as [|x l IH]; intros H; constructor; [apply H; now left|]. apply IH. intros; apply H; now right. Qed.
Lemma F2_sym l l' : (forall x y, In x l -> R x y -> R y x) -> Forall2 R l l' -> Forall2 R l' l.
Proof.
  intros H F. induction F as [|x y l l' Hxy F IH]; constructor; [apply H; auto; now left|].
  apply IH. intros; apply H; auto; now right.
Qed.
Lemma F2_trans l : forall l' l'', (forall x y z, In x l -> R x y -> R y z -> R x z) -> Forall2 R l l' -> Forall2 R l' l'' -> Forall2 R l l''.
Proof.
  induction l as [|x l IH]; intros l' l'' H F G.
  - inversion F; subst. inversion G; subst. constructor.
  - inversion F; subst. inversion G; subst. constructor; [eapply H; eauto; now left|].
    eapply IH; eauto. intros; eapply H; eauto. now right.
Qed.
End F2.

Lemma same_child_refl c : same_child c c.
Proof. induction c as [n a t k IH] using mchild_ind'. constructor; [apply same_attrs_refl|]. apply F2_refl. forall_in. Qed.
Lemma same_child_sym : forall a b, same_child a b -> same_child b a.
Proof.
  induction a as [n a t k IH] using mchild_ind'. intros b H. inversion H; subst.
  constructor; [now apply same_attrs_sym|]. eapply F2_sym; [|eassumption]. intros x y Hx. rewrite Forall_forall in IH. auto.
Qed.
Lemma same_child_trans : forall a b c, same_child a b -> same_child b c -> same_child a c.
Proof.
  induction a as [n a t k IH] using mchild_ind'. intros b c H G. inversion H; subst. inversion G; subst.
  constructor; [eapply same_attrs_trans; eauto|]. eapply F2_trans; eauto. intros x y z Hx. rewrite Forall_forall in IH. apply IH; auto.
Qed.

Lemma same_meta_refl c : same_meta c c.
Proof. split; [easy|]. split; [apply same_attrs_refl|]. apply F2_refl. intros; apply same_child_refl. Qed.
Lemma same_meta_sym a b : same_meta a b -> same_meta b a.
Proof. intros (H1 & H2 & H3). split; [easy|]. split; [now apply same_attrs_sym|]. eapply F2_sym; eauto. intros; now apply same_child_sym. Qed.
Lemma same_meta_trans a b c : same_meta a b -> same_meta b c -> same_meta a c.
Proof.
  intros (H1 & H2 & H3) (G1 & G2 & G3). split; [congruence|]. split; [eapply same_attrs_trans; eauto|].
  eapply F2_trans; eauto. intros; eapply same_child_trans; eauto.
Qed.
Lemma same_metadata_refl c : same_metadata c c.
Proof. split; [apply same_attrs_refl|]. apply F2_refl. intros; apply same_meta_refl. Qed.
Lemma same_metadata_sym a b : same_metadata a b -> same_metadata b a.
Proof. intros (H1 & H2). split; [now apply same_attrs_sym|]. eapply F2_sym; eauto. intros; now apply same_meta_sym. Qed.
Lemma same_metadata_trans a b c : same_metadata a b -> same_metadata b c -> same_metadata a c.
Proof.
  intros (H1 & H2) (G1 & G2). split; [eapply same_attrs_trans; eauto|].
  eapply F2_trans; eauto. intros; eapply same_meta_trans; eauto.
Qed.
Lemma same_item_refl c : same_item c c.
Proof. split; [easy|apply same_attrs_refl]. Qed.
Lemma same_item_sym a b : same_item a b -> same_item b a.
Proof. intros (H1 & H2). split; [easy|now apply same_attrs_sym]. Qed.
Lemma same_item_trans a b c : same_item a b -> same_item b c -> same_item a c.
Proof. intros (H1 & H2) (G1 & G2). split; [congruence|eapply same_attrs_trans; eauto]. Qed.
Lemma same_tier_refl c : same_tier c c.
Proof. split; [apply same_attrs_refl|]. split; apply F2_refl; intros; [apply same_metadata_refl|apply same_item_refl]. Qed.
Lemma same_tier_sym a b : same_tier a b -> same_tier b a.
Proof.
  intros (H1 & H2 & H3). split; [now apply same_attrs_sym|].
  split; eapply F2_sym; eauto; intros; [now apply same_metadata_sym|now apply same_item_sym].
Qed.
Lemma same_tier_trans a b c : same_tier a b -> same_tier b c -> same_tier a c.
Proof.
  intros (H1 & H2 & H3) (G1 & G2 & G3). split; [eapply same_attrs_trans; eauto|].
  split; eapply F2_trans; eauto; intros; [eapply same_metadata_trans; eauto|eapply same_item_trans; eauto].
Qed.
Lemma same_igt_refl c : same_igt c c.
Proof. split; [apply same_attrs_refl|]. split; apply F2_refl; intros; [apply same_metadata_refl|apply same_tier_refl]. Qed.
Lemma same_igt_sym a b : same_igt a b -> same_igt b a.
Proof.
  intros (H1 & H2 & H3). split; [now apply same_attrs_sym|].
  split; eapply F2_sym; eauto; intros; [now apply same_metadata_sym|now apply same_tier_sym].
Qed.
Lemma same_igt_trans a b c : same_igt a b -> same_igt b c -> same_igt a c.
Proof.
  intros (H1 & H2 & H3) (G1 & G2 & G3). split; [eapply same_attrs_trans; eauto|].
  split; eapply F2_trans; eauto; intros; [eapply same_metadata_trans; eauto|eapply same_tier_trans; eauto].
Qed.
Lemma same_corpus_refl c : same_corpus c c.
Proof. split; [apply same_attrs_refl|]. split; apply F2_refl; intros; [apply same_metadata_refl|apply same_igt_refl]. Qed.
Lemma same_corpus_sym a b : same_corpus a b -> same_corpus b a.
Proof.
  intros (H1 & H2 & H3). split; [now apply same_attrs_sym|].
  split; eapply F2_sym; eauto; intros; [now apply same_metadata_sym|now apply same_igt_sym].
Qed.
Lemma same_corpus_trans a b c : same_corpus a b -> same_corpus b c -> same_corpus a c.
Proof.
  intros (H1 & H2 & H3) (G1 & G2 & G3). split; [eapply same_attrs_trans; eauto|].
  split; eapply F2_trans; eauto; intros; [eapply same_metadata_trans; eauto|eapply same_igt_trans; eauto].
Qed.

Lemma same_class_refl a : same_class a a.
Proof. destruct a; exact I. Qed.
Lemma same_class_sym a b : same_class a b -> same_class b a.
Proof. destruct a, b; auto. Qed.
Lemma same_class_trans a b c : same_class a b -> same_class b c -> same_class a c.
Proof. destruct a, b, c; cbn; tauto. Qed.

Lemma same_obj_refl a : same_obj a a.
Proof.
  destruct a; cbn; [apply same_item_refl|apply same_tier_refl|apply same_igt_refl|apply same_corpus_refl
    |apply same_metadata_refl|apply same_meta_refl|apply same_child_refl].
Qed.
Lemma same_obj_sym a b : same_obj a b -> same_obj b a.
Proof.
  destruct a, b; cbn; try easy; [apply same_item_sym|apply same_tier_sym|apply same_igt_sym|apply same_corpus_sym
    |apply same_metadata_sym|apply same_meta_sym|apply same_child_sym].
Qed.
Lemma same_obj_trans a b c : same_obj a b -> same_obj b c -> same_obj a c.
Proof.
  destruct a, b, c; cbn; try easy; [apply same_item_trans|apply same_tier_trans|apply same_igt_trans|apply same_corpus_trans
    |apply same_metadata_trans|apply same_meta_trans|apply same_child_trans].
Qed.

Theorem eq_equivalence :
  (forall a, wf_obj a -> obj_eqb a a = true)
  /\ (forall a b, wf_obj a -> wf_obj b -> same_class a b -> obj_eqb a b = obj_eqb b a)
  /\ (forall a b c, wf_obj a -> wf_obj b -> wf_obj c -> same_class a b -> same_class b c ->
        obj_eqb a b = true -> obj_eqb b c = true -> obj_eqb a c = true).
Proof.
  split; [|split].
  - intros a Ha. apply eq_spec; auto; [apply same_class_refl|apply same_obj_refl].
  - intros a b Ha Hb Hc. apply eq_true_iff_eq. rewrite !eq_spec; auto using same_class_sym.
    split; apply same_obj_sym.
  - intros a b c Ha Hb Hc Hab Hbc H G. apply eq_spec in H; auto. apply eq_spec in G; auto.
    apply eq_spec; auto; [eapply same_class_trans; eauto|eapply same_obj_trans; eauto].
Qed.

(* across classes, == is exactly this *)
Theorem eq_across a b : ~ same_class a b -> wf_obj a -> wf_obj b ->
  (obj_eqb a b = true <->
   match a, b with
   | PItem i, PMeta m => it_text i = me_text m /\ same_attrs (it_attrs i) (me_attrs m)
   | PItem i, PChild (MChild _ at_ t _) => it_text i = t /\ same_attrs (it_attrs i) at_
   | PMeta m, PChild (MChild _ at_ t k) =>
       me_text m = t /\ same_attrs (me_attrs m) at_ /\ Forall2 same_child (me_kids m) k
   | _, _ => False
   end).
Proof.
  intros Hc Ha Hb. destruct a, b; cbn in Hc; try tauto; cbn [obj_eqb text_of attrs_of wf_obj] in *; try (destruct c); try easy.
  - destruct Hb as [Hb _]. unfold text_eqb. rewrite andb_true_iff, opt_str_eqb, attrs_eqb_spec; easy.
  - inversion Hb; subst. unfold text_eqb. rewrite andb_true_iff, opt_str_eqb, attrs_eqb_spec; easy.
  - inversion Hb; subst. destruct Ha as [Ha1 Ha2]. unfold text_eqb. rewrite !andb_true_iff, opt_str_eqb, attrs_eqb_spec by easy.
    rewrite (seq_eqb_spec mchild_eqb same_child); [tauto|]. intros x y Hx Hy. forall_in. apply mchild_eqb_spec; auto.
Qed.

(* transitivity also holds across classes *)
Theorem eq_transitive a b c : wf_obj a -> wf_obj b -> wf_obj c ->
  obj_eqb a b = true -> obj_eqb b c = true -> obj_eqb a c = true.
Proof.
  intros Ha Hb Hc H G.
  assert (D : forall x y, same_class x y \/ ~ same_class x y) by (intros [] []; cbn; auto).
  destruct (D a b) as [Dab|Dab], (D b c) as [Dbc|Dbc].
  - destruct eq_equivalence as (_ & _ & T). apply (T a b c); auto.
  - assert (Dac : ~ same_class a c) by (intros E; apply Dbc; eapply same_class_trans; [apply same_class_sym|]; eauto).
    apply eq_spec in H; auto. apply eq_across in G; auto. apply eq_across; auto.
    destruct a, b; cbn in Dab; try easy; destruct c; cbn in H, G |- *; try easy; try destruct c.
    + destruct H, G. split; [congruence|]. eapply same_attrs_trans; eauto.
    + destruct H, G. split; [congruence|]. eapply same_attrs_trans; eauto.
    + destruct H as (? & ? & ?), G as (? & ? & ?). split; [congruence|].
      split; [eapply same_attrs_trans; eauto|]. eapply F2_trans; eauto. intros; eapply same_child_trans; eauto.
  - assert (Dac : ~ same_class a c) by (intros E; apply Dab; eapply same_class_trans; [|apply same_class_sym]; eauto).
    apply eq_across in H; auto. apply eq_spec in G; auto. apply eq_across; auto.
    destruct b, c; cbn in Dbc; try easy; destruct a; cbn in H, G |- *; try easy.
    + destruct H, G as (? & ? & ?). split; [congruence|]. eapply same_attrs_trans; eauto.
    + destruct c0, c. inversion G; subst. destruct H. split; [congruence|]. eapply same_attrs_trans; eauto.
    + destruct c0, c. inversion G; subst. destruct H as (? & ? & ?). split; [congruence|].
      split; [eapply same_attrs_trans; eauto|]. eapply F2_trans; eauto. intros; eapply same_child_trans; eauto.
  - apply eq_across in H; auto. apply eq_across in G; auto.
    destruct a; try easy; destruct b; try easy; destruct c; try easy; destruct c; try easy.
    destruct H, G as (? & ? & ?). apply eq_across; cbn; auto. split; [congruence|]. eapply same_attrs_trans; eauto.
Qed.

(* != *)
Theorem item_ne i b : obj_neb (PItem i) b = negb (obj_eqb (PItem i) b).
Proof. reflexivity. Qed.

Lemma seq_eqb_map {A B C D} (f : A -> C) (g : B -> D) (eqb : C -> D -> bool) l : forall l',
  seq_eqb eqb (map f l) (map g l') = seq_eqb (fun x y => eqb (f x) (g y)) l l'.
Proof. induction l as [|x l IH]; intros [|y l']; cbn; auto. now rewrite IH. Qed.
Lemma seq_eqb_ext {A B} (f g : A -> B -> bool) l : (forall x y, f x y = g x y) -> forall l', seq_eqb f l l' = seq_eqb g l l'.
Proof. intros H. induction l as [|x l IH]; intros [|y l']; cbn; auto. now rewrite H, IH. Qed.

(* a != b is never true of equal objects of the same class *)
Theorem ne_sound a b : same_class a b -> obj_eqb a b = true -> obj_neb a b = false.
Proof.
  intros Hc H. destruct a, b; cbn in Hc; try easy; cbn [obj_eqb obj_neb members_of] in *.
  - now rewrite H.
  - unfold tier_eqb in H. rewrite !andb_true_iff in H. destruct H as [[_ H] _].
    rewrite seq_eqb_map. apply negb_false_iff. exact H.
  - unfold igt_eqb in H. rewrite !andb_true_iff in H. destruct H as [[_ H] _].
    rewrite seq_eqb_map. apply negb_false_iff. exact H.
  - unfold corpus_eqb in H. rewrite !andb_true_iff in H. destruct H as [[_ H] _].
    rewrite seq_eqb_map. apply negb_false_iff. exact H.
  - unfold metadata_eqb in H. rewrite !andb_true_iff in H. destruct H as [H _].
    unfold obj_neb; cbn [members_of]; rewrite seq_eqb_map; apply negb_false_iff; exact H.
  - unfold meta_eqb in H. rewrite !andb_true_iff in H. destruct H as [[_ H] _].
    unfold obj_neb; cbn [members_of]; rewrite seq_eqb_map; apply negb_false_iff; exact H.
  - destruct c, c0. cbn in H. rewrite !andb_true_iff in H. destruct H as [[_ H] _].
    unfold obj_neb; cbn [members_of]; rewrite seq_eqb_map; apply negb_false_iff; exact H.
Qed.

(* and exactly: objects of the same class are != iff their members differ *)
Theorem ne_members a b l l' : members_of a = Some l -> members_of b = Some l' ->
  (obj_neb a b = false <-> Forall2 (fun x y => obj_eqb x y = true) l l').
Proof.
  intros Ha Hb. unfold obj_neb. rewrite Ha, Hb. rewrite negb_false_iff. now apply seq_eqb_spec.
Qed.

Theorem eq_equivalence_all :
  (forall a, wf_obj a -> obj_eqb a a = true)
  /\ (forall a b, wf_obj a -> wf_obj b -> same_class a b -> obj_eqb a b = obj_eqb b a)
  /\ (forall a b c, wf_obj a -> wf_obj b -> wf_obj c ->
        obj_eqb a b = true -> obj_eqb b c = true -> obj_eqb a c = true).
Proof. destruct eq_equivalence as (H1 & H2 & _). split; [exact H1|]. split; [exact H2|]. exact eq_transitive. Qed.
