From Verif Require Import PyStr PyStrFacts PySort PySortFacts Ref SpecRef RefProofs RefLossless Container SpecContainer.

Section P.
Context {U : Unicode} {B : Type} (beq : B -> B -> bool).
Notation state := (state (B := B)). Notation obj := (obj (B := B)).
Notation step := (step beq). Notation run := (run beq). Notation outcomes := (outcomes beq).
Notation remove := (remove beq). Notation delitem := (delitem beq). Notation same := (same beq).
Notation list_remove := (list_remove beq).

(* ---------- the invariant ---------- *)

Definition idlist (f : nat -> option str) (l : list nat) : list str :=
  flat_map (fun a => match f a with Some i => [i] | None => [] end) l.

Definition coh (f : nat -> option str) (l : list nat) (d : list (str * nat)) : Prop :=
  (forall i a, dget d i = Some a <-> In a l /\ f a = Some i) /\ NoDup (idlist f l).

Lemma in_idlist f l i : In i (idlist f l) <-> exists a, In a l /\ f a = Some i.
Proof.
  unfold idlist. rewrite in_flat_map. split; intros (a & H1 & H2); exists a; split; auto.
  - destruct (f a); [|easy]. destruct H2 as [->|[]]. reflexivity.
  - rewrite H2. now left.
Qed.

Lemma idlist_cons f a l : idlist f (a :: l) = match f a with Some i => i :: idlist f l | None => idlist f l end.
Proof. unfold idlist. cbn. now destruct (f a). Qed.

Lemma idlist_app f l l' : idlist f (l ++ l') = idlist f l ++ idlist f l'.
Proof. apply flat_map_app. Qed.

Lemma idlist_perm f l l' : Permutation l l' -> Permutation (idlist f l) (idlist f l').
Proof. intros H. unfold idlist. now apply Permutation_flat_map. Qed.

Lemma coh_perm f l l' d : Permutation l l' -> coh f l d -> coh f l' d.
Proof.
  intros Hp [H Hn]. split.
  - intros i a. rewrite H. split; intros [Ha Hi]; split; auto; [|symmetry in Hp];
      eapply Permutation_in; eauto.
  - eapply Permutation_NoDup; [apply idlist_perm, Hp|exact Hn].
Qed.

Lemma coh_ext f g l d : (forall a, In a l -> f a = g a) -> coh f l d -> coh g l d.
Proof.
  intros E [H Hn]. split.
  - intros i a. rewrite H. split; intros [Ha Hi]; split; auto; [rewrite <- E|rewrite E]; auto.
  - replace (idlist g l) with (idlist f l); [exact Hn|].
    clear -E. induction l as [|a l IH]; [easy|]. rewrite !idlist_cons.
    rewrite IH by (intros; apply E; now right). now rewrite (E a) by now left.
Qed.

Lemma coh_nil f : coh f [] [].
Proof. split; [|constructor]. intros i a. split; [discriminate|intros [[] _]]. Qed.

(* adding *)
Lemma coh_add_none f l d a : f a = None -> coh f l d -> coh f (a :: l) d.
Proof.
  intros Ha [H Hn]. split.
  - intros i b. rewrite H. split; [intros [? ?]; split; auto; now right|].
    intros [[<-|Hb] Hi]; [congruence|auto].
  - now rewrite idlist_cons, Ha.
Qed.
Lemma coh_add_some f l d a i : f a = Some i -> dget d i = None -> coh f l d -> coh f (a :: l) (dset d i a).
Proof.
  intros Ha Hd [H Hn].
  assert (Hfresh : forall b, In b l -> f b <> Some i).
  { intros b Hb E. assert (dget d i = Some b) by (apply H; auto). congruence. }
  split.
  - intros j b. unfold dget, dset. rewrite (dget_dset str_eqb str_eqb_spec). fold (dget d j).
    destruct (str_eqb_spec j i) as [->|Hne].
    + split; [intros [= <-]; split; [now left|auto]|].
      intros [[<-|Hb] Hi]; [easy|]. exfalso. now apply (Hfresh b).
    + rewrite H. split; [intros [? ?]; split; auto; now right|].
      intros [[<-|Hb] Hi]; [congruence|auto].
  - rewrite idlist_cons, Ha. constructor; [|exact Hn]. rewrite in_idlist. intros (b & Hb & E). now apply (Hfresh b).
Qed.

(* deleting *)
Lemma coh_del_none f l d a : f a = None -> coh f (a :: l) d -> coh f l d.
Proof.
  intros Ha [H Hn]. split.
  - intros i b. rewrite H. split; [|intros [? ?]; split; auto; now right].
    intros [[<-|Hb] Hi]; [congruence|auto].
  - now rewrite idlist_cons, Ha in Hn.
Qed.
Lemma coh_del_some f l d a i : f a = Some i -> coh f (a :: l) d -> coh f l (ddel d i).
Proof.
  intros Ha [H Hn]. rewrite idlist_cons, Ha in Hn. inversion Hn as [|? ? Hni Hn']; subst.
  rewrite in_idlist in Hni. split; [|exact Hn'].
  intros j b. unfold dget, ddel. rewrite (dget_ddel str_eqb str_eqb_spec). fold (dget d j).
  destruct (str_eqb_spec j i) as [->|Hne].
  - split; [easy|]. intros [Hb Hi]. exfalso. apply Hni. eauto.
  - rewrite H. split; [|intros [? ?]; split; auto; now right].
    intros [[<-|Hb] Hi]; [congruence|auto].
Qed.

Definition idf (s : state) : nat -> option str := fun a => o_id (objs s a).
Definition coherent (s : state) (k : nat) : Prop :=
  coh (idf s) (c_items (conts s k)) (c_dict (conts s k)).

(* what coherence gives to the user *)
Lemma nth_unique (f : nat -> option str) l : NoDup (idlist f l) ->
  forall p q a b i, nth_error l p = Some a -> nth_error l q = Some b -> f a = Some i -> f b = Some i -> p = q.
Proof.
  induction l as [|x l IH]; intros Hn p q a b i Hp Hq Ha Hb; [now destruct p|].
  assert (Hn' : NoDup (idlist f l)).
  { rewrite idlist_cons in Hn. destruct (f x); [now inversion Hn|exact Hn]. }
  rewrite idlist_cons in Hn.
  destruct p as [|p], q as [|q]; cbn in *; auto.
  - injection Hp as <-. rewrite Ha in Hn. inversion Hn as [|? ? Hni _]; subst. exfalso. apply Hni.
    rewrite in_idlist. exists b. split; [eapply nth_error_In; eauto|auto].
  - injection Hq as <-. rewrite Hb in Hn. inversion Hn as [|? ? Hni _]; subst. exfalso. apply Hni.
    rewrite in_idlist. exists a. split; [eapply nth_error_In; eauto|auto].
  - f_equal. eapply IH; eauto.
Qed.

Lemma coherent_unique s k : coherent s k -> ids_unique s k.
Proof. intros [_ Hn]. unfold ids_unique. intros; eapply (nth_unique (idf s)); eauto. Qed.

Lemma coherent_lookup s k : coherent s k -> lookup_exact s k.
Proof.
  intros [H _] i Hi. apply accepted_not_int in Hi. unfold getitem. rewrite Hi.
  unfold members, the_id. split.
  - intros a. specialize (H i). destruct (dget (c_dict (conts s k)) i) as [b|] eqn:E.
    + split; [intros [= <-]; apply H; auto|]. intros Ha. apply H in Ha. congruence.
    + split; [easy|]. intros Ha. apply H in Ha. congruence.
  - specialize (H i). destruct (dget (c_dict (conts s k)) i) as [b|] eqn:E.
    + split; [easy|]. intros Hno. exfalso. destruct (H b) as [Hb _]. specialize (Hb eq_refl).
      destruct Hb as [Hb1 Hb2]. now apply (Hno b).
    + split; [|easy]. intros _ a Ha Hid. assert (None = Some a) by (apply H; auto). discriminate.
Qed.

(* ---------- frame facts ---------- *)

Lemma idf_put_parent s a p : forall b, idf (put_obj s a (set_parent (objs s a) p)) b = idf s b.
Proof. intros b. unfold idf, put_obj, upd; cbn. destruct (Nat.eqb_spec b a) as [->|]; reflexivity. Qed.

Lemma upd_same {A} (f : nat -> A) a v : upd f a v a = v.
Proof. unfold upd. now rewrite Nat.eqb_refl. Qed.
Lemma upd_other {A} (f : nat -> A) a v b : b <> a -> upd f a v b = f b.
Proof. unfold upd. intros H. now rewrite (proj2 (Nat.eqb_neq _ _) H). Qed.

(* coherence of k' after replacing container k *)
Lemma coherent_put s k c k' :
  coh (idf s) (c_items c) (c_dict c) -> (k' <> k -> coherent s k') -> coherent (put_cont s k c) k'.
Proof.
  intros Hc Ho. unfold coherent. cbn. destruct (Nat.eq_dec k' k) as [->|Hne].
  - rewrite upd_same. exact Hc.
  - rewrite upd_other by easy. now apply Ho.
Qed.

Lemma coherent_put_other s k c k' : k' <> k -> coherent s k' -> coherent (put_cont s k c) k'.
Proof. intros Hne H. unfold coherent. cbn. now rewrite upd_other. Qed.

Lemma coherent_objs (s s' : state) k : (forall a, idf s' a = idf s a) -> conts s' k = conts s k ->
  coherent s k -> coherent s' k.
Proof.
  intros E Ec. unfold coherent. rewrite Ec. apply coh_ext. intros; now rewrite E.
Qed.

(* ---------- append / insert / extend ---------- *)

Lemma create_coh s (c : cont) a c' : coh (idf s) (c_items c) (c_dict c) ->
  create_id_mapping c a (objs s a) = Ok c' ->
  c_items c' = c_items c /\ coh (idf s) (a :: c_items c) (c_dict c').
Proof.
  intros Hc. unfold create_id_mapping. destruct (o_id (objs s a)) as [i|] eqn:Ei.
  - unfold dmem. destruct (dget (c_dict c) i) eqn:Ed; [easy|]. intros [= <-]. cbn. split; [easy|].
    now apply coh_add_some.
  - intros [= <-]. split; [easy|]. now apply coh_add_none.
Qed.

Lemma add_at_coherent s k place a : (forall l, Permutation (place l) (a :: l)) ->
  (forall k', coherent s k') -> forall k', coherent (fst (add_at s k place a)) k'.
Proof.
  intros Hp Hc k'. unfold add_at. destruct (negb (type_ok _ _)); [apply Hc|].
  set (s1 := put_obj s a _).
  assert (Hid : forall b, idf s1 b = idf s b) by apply idf_put_parent.
  destruct (create_id_mapping _ _ _) as [c|e] eqn:E; cbn [fst].
  - apply (create_coh s _ _ _ (Hc k)) in E as [Ei E]. apply coherent_put.
    + cbn. rewrite Ei. eapply coh_perm; [symmetry; apply Hp|].
      eapply coh_ext; [|exact E]. intros; symmetry; apply Hid.
    + intros _. apply (coherent_objs s); auto.
  - apply (coherent_objs s); auto.
Qed.

Lemma append_perm (a : nat) l : Permutation (l ++ [a]) (a :: l).
Proof. rewrite Permutation_app_comm. reflexivity. Qed.
Lemma insert_perm z (a : nat) l : Permutation (list_insert l z a) (a :: l).
Proof.
  unfold list_insert. rewrite <- Permutation_middle. now rewrite firstn_skipn.
Qed.

Lemma extend_coherent l : forall s k, (forall k', coherent s k') -> forall k', coherent (fst (extend s k l)) k'.
Proof.
  induction l as [|a l IH]; intros s k Hc k'; [apply Hc|]. cbn [extend].
  assert (Ha := add_at_coherent s k (fun l => l ++ [a]) a (append_perm a) Hc). fold (append s k a) in Ha.
  destruct (append s k a) as [s1 r]. cbn [fst] in Ha.
  destruct r; try (apply IH; exact Ha). apply Ha.
Qed.

(* ---------- remove ---------- *)

Lemma same_id s a b : same s a b = true -> idf s a = idf s b.
Proof.
  unfold same, idf. rewrite orb_true_iff, !andb_true_iff. intros [H|[[_ H] _]].
  - apply Nat.eqb_eq in H. now subst.
  - revert H. destruct (opt_eqb_spec str_eqb str_eqb_spec (o_id (objs s a)) (o_id (objs s b))); easy.
Qed.

Lemma list_remove_spec s a l l' : list_remove s a l = Some l' ->
  exists u b v, l = u ++ b :: v /\ l' = u ++ v /\ same s b a = true /\ Forall (fun x => same s x a = false) u.
Proof.
  revert l'; induction l as [|x l IH]; cbn; intros l' H; [easy|].
  destruct (same s x a) eqn:E.
  - injection H as <-. exists [], x, l. auto.
  - destruct (list_remove s a l) as [m|]; [|easy]. injection H as <-.
    destruct (IH m eq_refl) as (u & b & v & -> & -> & Hs & Hu). exists (x :: u), b, v. auto.
Qed.
Lemma list_remove_none s a l : list_remove s a l = None <-> Forall (fun x => same s x a = false) l.
Proof.
  induction l as [|x l IH]; cbn; [split; auto|]. destruct (same s x a) eqn:E.
  - split; [easy|]. intros H. inversion H. congruence.
  - destruct (list_remove s a l); cbn; (split; [intros H|intros H]); try easy.
    + inversion H; subst. apply IH in H3. discriminate.
    + constructor; auto. now apply IH.
Qed.
Lemma list_remove_ext s s' a l : objs s' = objs s -> list_remove s' a l = list_remove s a l.
Proof. intros E. induction l as [|x l IH]; cbn; [easy|]. unfold same. rewrite E. fold (same s x a). now rewrite IH. Qed.

Lemma remove_coherent s k a : (forall k', coherent s k') -> snd (remove s k a) <> RExn ValueError ->
  forall k', coherent (fst (remove s k a)) k'.
Proof.
  intros Hc Hr k'. unfold remove in *. assert (Hk := Hc k). unfold coherent in Hk.
  destruct (o_id (objs s a)) as [i|] eqn:Ei.
  - destruct (dmem (c_dict (conts s k)) i); [|apply Hc].
    set (s1 := put_cont s k _) in *.
    destruct (list_remove s1 a _) as [l|] eqn:El; cbn [fst snd] in *; [|easy].
    apply list_remove_spec in El as (u & b & v & E & -> & Hs & _). cbn in E.
    apply same_id in Hs. change (idf s1) with (idf s) in Hs.
    apply coherent_put.
    + cbn. change (idf s1) with (idf s). rewrite E in Hk.
      eapply coh_del_some; [rewrite Hs; exact Ei|]. eapply coh_perm; [|exact Hk].
      symmetry. apply Permutation_middle.
    + intros Hne. unfold s1. apply coherent_put_other; auto.
  - set (s1 := put_cont s k _) in *.
    destruct (list_remove s1 a _) as [l|] eqn:El; cbn [fst snd] in *; [|easy].
    apply list_remove_spec in El as (u & b & v & E & -> & Hs & _). cbn in E.
    apply same_id in Hs. change (idf s1) with (idf s) in Hs.
    apply coherent_put.
    + cbn. change (idf s1) with (idf s). rewrite E in Hk.
      eapply coh_del_none; [rewrite Hs; exact Ei|]. eapply coh_perm; [|exact Hk].
      symmetry. apply Permutation_middle.
    + intros Hne. unfold s1. apply coherent_put_other; auto.
Qed.

(* ---------- item access ---------- *)

Lemma py_index_spec n z p : py_index n z = Some p <-> subscript n z p.
Proof.
  unfold py_index, subscript.
  destruct (Z.ltb_spec z 0).
  - destruct (Z.leb_spec 0 (z + Z.of_nat n)), (Z.ltb_spec (z + Z.of_nat n) (Z.of_nat n)); cbn; split;
      try easy; try (intros [= <-]; split; lia); intros [? [?|?]]; try lia; f_equal; lia.
  - destruct (Z.leb_spec 0 z), (Z.ltb_spec z (Z.of_nat n)); cbn; split;
      try easy; try (intros [= <-]; split; lia); intros [? [?|?]]; try lia; f_equal; lia.
Qed.

Lemma py_index_none n z : py_index n z = None <-> forall p, ~ subscript n z p.
Proof.
  split.
  - intros H p Hp. apply py_index_spec in Hp. congruence.
  - intros H. destruct (py_index n z) as [p|] eqn:E; [|easy]. apply py_index_spec in E. now apply H in E.
Qed.

Lemma list_get_ok l z a : list_get l z = Ok a <-> exists p, subscript (length l) z p /\ nth_error l p = Some a.
Proof.
  unfold list_get. destruct (py_index (length l) z) as [n|] eqn:E.
  - apply py_index_spec in E. destruct (nth_error l n) as [b|] eqn:En.
    + split; [intros [= <-]; eauto|]. intros (p & Hp & Hn). f_equal.
      assert (p = n) by (unfold subscript in *; lia). congruence.
    + apply nth_error_None in En. unfold subscript in E. lia.
  - split; [easy|]. intros (p & Hp & _). apply py_index_spec in Hp. congruence.
Qed.

Lemma list_get_err l z e : list_get l z = Err e <-> e = IndexError /\ forall p, ~ subscript (length l) z p.
Proof.
  unfold list_get. destruct (py_index (length l) z) as [n|] eqn:E.
  - apply py_index_spec in E. destruct (nth_error l n) as [b|] eqn:En.
    + split; [easy|]. intros [_ H]. now apply H in E.
    + apply nth_error_None in En. unfold subscript in E. lia.
  - assert (E2 := proj1 (py_index_none _ _) E). split; [intros [= <-]; auto|]. now intros [-> _].
Qed.

Lemma getitem_member s k i a : coherent s k -> getitem (conts s k) i = Ok (inl a) -> In a (members s k).
Proof.
  intros [H _]. unfold getitem, members. destruct i as [z|x y|t|]; try easy.
  - destruct (list_get _ z) as [b|] eqn:E; cbn; [|easy]. intros [= <-].
    apply list_get_ok in E as (p & _ & E). eapply nth_error_In; eauto.
  - destruct (dget _ t) as [b|] eqn:E.
    + intros [= <-]. now apply H in E.
    + destruct (py_int t) as [z|]; [|easy]. destruct (list_get _ z) as [b|] eqn:E'; cbn; [|easy].
      intros [= <-]. apply list_get_ok in E' as (p & _ & E'). eapply nth_error_In; eauto.
Qed.

(* removing a member of a coherent container always succeeds *)
Lemma remove_member s k a : coherent s k -> In a (members s k) -> snd (remove s k a) = RNone.
Proof.
  intros [H _] Ha. unfold remove, members in *.
  assert (Hl : forall s1 l, In a l -> exists m, list_remove s1 a l = Some m).
  { intros s1 l. induction l as [|x l IH]; [easy|]. intros [->|Hx]; cbn.
    - unfold same. rewrite Nat.eqb_refl. cbn. eauto.
    - destruct (same s1 x a); [eauto|]. destruct (IH Hx) as (m & ->). cbn. eauto. }
  destruct (o_id (objs s a)) as [i|] eqn:Ei.
  - assert (Hd : dget (c_dict (conts s k)) i = Some a) by (apply H; auto).
    unfold dmem. rewrite Hd. cbn. edestruct Hl as (m & ->); eauto.
  - cbn. edestruct Hl as (m & ->); eauto.
Qed.

Lemma delitem_coherent s k i : (forall k', coherent s k') -> forall k', coherent (fst (delitem s k i)) k'.
Proof.
  intros Hc k'. unfold delitem. destruct (getitem _ _) as [[a|l]|e] eqn:E; try apply Hc.
  apply (getitem_member s) in E; [|apply Hc]. apply remove_coherent; [exact Hc|].
  now rewrite (remove_member s k a (Hc k) E).
Qed.

Lemma list_set_perm l n a b : nth_error l n = Some b ->
  exists u v, l = u ++ b :: v /\ list_set l n a = u ++ a :: v /\ length u = n.
Proof.
  intros H. apply nth_error_split in H as (u & v & -> & Hn). exists u, v. split; [easy|]. split; [|easy].
  unfold list_set. subst n. rewrite firstn_app_len.
  replace (skipn (S (length u)) (u ++ b :: v)) with v; [easy|].
  change (b :: v) with ([b] ++ v). rewrite app_assoc.
  replace (S (length u)) with (length (u ++ [b])) by (rewrite app_length; cbn; lia).
  now rewrite skipn_app_len.
Qed.

Lemma setitem_coherent s k i a : (forall k', coherent s k') -> snd (setitem s k i a) <> RExn XigtError ->
  forall k', coherent (fst (setitem s k i a)) k'.
Proof.
  intros Hc Hr k'. unfold setitem in *. destruct (negb _); [apply Hc|].
  destruct (set_index i) as [[z|]|e]; try apply Hc.
  destruct (list_get _ z) as [cur|] eqn:El; [|apply Hc].
  destruct (py_index _ z) as [n|] eqn:En; [|apply Hc].
  apply py_index_spec in En. apply list_get_ok in El as (p & Hp & Hnth).
  assert (p = n) by (unfold subscript in *; lia). subst p.
  apply (list_set_perm _ _ a) in Hnth as (u & v & E & E' & _).
  assert (Hk := Hc k). unfold coherent in Hk. rewrite E in Hk.
  apply (coh_perm _ _ (cur :: u ++ v)) in Hk; [|symmetry; apply Permutation_middle].
  assert (Hfin : forall d, coh (idf s) (u ++ v) d ->
     snd (match create_id_mapping (with_dict (conts s k) d) a (objs s a) with
       | Err e => (put_cont s k (with_dict (conts s k) d), RExn e)
       | Ok c => (put_cont s k (with_items c (list_set (c_items c) n a)), RNone)
       end) <> RExn XigtError ->
     coherent (fst (match create_id_mapping (with_dict (conts s k) d) a (objs s a) with
       | Err e => (put_cont s k (with_dict (conts s k) d), RExn e)
       | Ok c => (put_cont s k (with_items c (list_set (c_items c) n a)), RNone)
       end)) k').
  { intros d Hd Hno. unfold create_id_mapping in *. destruct (o_id (objs s a)) as [j|] eqn:Ej.
    - unfold dmem in *. cbn [c_dict with_dict] in *. destruct (dget d j) eqn:Ed; [easy|]. cbn [fst].
      apply coherent_put; [|auto]. cbn. rewrite E'.
      eapply coh_perm; [apply Permutation_middle|]. now apply coh_add_some.
    - cbn [fst]. apply coherent_put; [|auto]. cbn. rewrite E'.
      eapply coh_perm; [apply Permutation_middle|]. now apply coh_add_none. }
  destruct (o_id (objs s cur)) as [j|] eqn:Ej.
  - destruct (dmem _ j); [|apply Hc]. apply Hfin; [|exact Hr]. eapply coh_del_some; eauto.
  - replace (conts s k) with (with_dict (conts s k) (c_dict (conts s k))) in * by (now destruct (conts s k)).
    apply Hfin; [|exact Hr]. eapply coh_del_none; eauto.
Qed.

(* ---------- refresh_index ---------- *)

Lemma refresh_loop_coh s l : forall (c : cont) done,
  coh (idf s) done (c_dict c) ->
  let '(c', r) := refresh_loop s c l in
  c_items c' = c_items c /\ c_owner c' = c_owner c /\
  (r = RNone -> coh (idf s) (done ++ l) (c_dict c'))
  /\ (NoDup (idlist (idf s) (done ++ l)) -> r = RNone).
Proof.
  induction l as [|a l IH]; intros c done Hc; cbn [refresh_loop].
  - rewrite app_nil_r. auto.
  - destruct (create_id_mapping c a (objs s a)) as [c1|e] eqn:E.
    + assert (Hi : c_items c1 = c_items c /\ c_owner c1 = c_owner c /\ coh (idf s) (done ++ [a]) (c_dict c1)).
      { unfold create_id_mapping in E. destruct (o_id (objs s a)) as [i|] eqn:Ei.
        - unfold dmem in E. destruct (dget (c_dict c) i) eqn:Ed; [easy|]. injection E as <-. split; [easy|].
          split; [easy|].
          eapply coh_perm; [symmetry; apply append_perm|]. cbn. now apply coh_add_some.
        - injection E as <-. split; [easy|]. split; [easy|]. eapply coh_perm; [symmetry; apply append_perm|]. now apply coh_add_none. }
      destruct Hi as (Hi & Ho & Hcoh). specialize (IH c1 (done ++ [a]) Hcoh).
      destruct (refresh_loop s c1 l) as [c' r]. destruct IH as (I1 & I0 & I2 & I3).
      rewrite <- app_assoc in I2, I3. cbn in I2, I3. split; [congruence|]. split; [congruence|]. split; [exact I2|exact I3].
    + repeat split; try easy. intros Hn. exfalso. unfold create_id_mapping in E.
      destruct (o_id (objs s a)) as [i|] eqn:Ei; [|easy].
      unfold dmem in E. destruct (dget (c_dict c) i) as [b|] eqn:Ed; [|easy].
      destruct Hc as [Hc _]. apply Hc in Ed as [Hb Hbi].
      rewrite idlist_app, idlist_cons in Hn. unfold idf at 2 in Hn. rewrite Ei in Hn.
      apply NoDup_remove_2 in Hn. apply Hn. apply in_or_app. left. apply in_idlist. eauto.
Qed.

Lemma refresh_coherent_self s k : snd (refresh_index s k) = RNone -> coherent (fst (refresh_index s k)) k.
Proof.
  unfold refresh_index. assert (H := refresh_loop_coh s (c_items (conts s k)) (with_dict (conts s k) []) [] (coh_nil _)).
  destruct (refresh_loop _ _ _) as [c r]. cbn [fst snd]. destruct H as (H1 & _ & H2 & _).
  intros Hr. unfold coherent. cbn. rewrite upd_same. rewrite H1. exact (H2 Hr).
Qed.

Lemma refresh_other (s : state) k k' : k' <> k -> conts (fst (refresh_index s k)) k' = conts s k'.
Proof.
  unfold refresh_index. destruct (refresh_loop _ _ _) as [c r]. cbn. intros H. now apply upd_other.
Qed.

Lemma refresh_ok (s : state) k : NoDup (idlist (idf s) (c_items (conts s k))) -> snd (refresh_index s k) = RNone.
Proof.
  unfold refresh_index. assert (H := refresh_loop_coh s (c_items (conts s k)) (with_dict (conts s k) []) [] (coh_nil _)).
  destruct (refresh_loop _ _ _) as [c r]. cbn [fst snd]. destruct H as (_ & _ & _ & H). intros Hn. now apply H.
Qed.

Lemma refresh_members (s : state) k : members (fst (refresh_index s k)) k = members s k.
Proof.
  unfold refresh_index, members. assert (H := refresh_loop_coh s (c_items (conts s k)) (with_dict (conts s k) []) [] (coh_nil _)).
  destruct (refresh_loop _ _ _) as [c r]. cbn [fst snd]. destruct H as (H & _). cbn. rewrite upd_same. exact H.
Qed.

Lemma refresh_coherent (s : state) k : (forall k', coherent s k') -> forall k', coherent (fst (refresh_index s k)) k'.
Proof.
  intros Hc k'. destruct (Nat.eq_dec k' k) as [->|Hne].
  - apply refresh_coherent_self, refresh_ok. apply Hc.
  - apply (coherent_objs s); [|now apply refresh_other|apply Hc].
    intros a. unfold refresh_index. now destruct (refresh_loop _ _ _).
Qed.

(* ---------- histories ---------- *)

Lemma relist_coherent (s : state) k f : (forall l, Permutation (f l) l) ->
  (forall k', coherent s k') -> forall k', coherent (fst (relist s k f)) k'.
Proof.
  intros Hp Hc k'. unfold relist. cbn [fst]. apply coherent_put; [|auto]. cbn.
  eapply coh_perm; [symmetry; apply Hp|]. apply Hc.
Qed.

Lemma clear_coherent (s : state) k : (forall k', coherent s k') -> forall k', coherent (fst (clear s k)) k'.
Proof. intros Hc k'. unfold clear. cbn [fst]. apply coherent_put; [apply coh_nil|auto]. Qed.

Lemma step_coherent s k o : managed o = true -> dirty o (snd (step s k o)) = false ->
  (forall k', coherent s k') -> forall k', coherent (fst (step s k o)) k'.
Proof.
  intros Hm Hd Hc. destruct o; cbn [step] in *; try discriminate Hm.
  - apply add_at_coherent; [apply append_perm|exact Hc].
  - apply add_at_coherent; [intros; apply insert_perm|exact Hc].
  - now apply extend_coherent.
  - apply remove_coherent; [exact Hc|]. intros E. rewrite E in Hd. discriminate.
  - now apply clear_coherent.
  - apply setitem_coherent; [exact Hc|]. intros E. rewrite E in Hd. discriminate.
  - now apply delitem_coherent.
  - now apply refresh_coherent.
  - apply extend_coherent. now apply clear_coherent.
  - apply relist_coherent; [|exact Hc]. intros l. apply ssort_perm.
  - apply relist_coherent; [|exact Hc]. intros l. symmetry. apply Permutation_rev.
Qed.

Lemma run_coherent h : forall s, managed_history h -> no_dirty beq s h ->
  (forall k, coherent s k) -> forall k, coherent (run s h) k.
Proof.
  induction h as [|[k o] h IH]; intros s Hm Hd Hc; [exact Hc|]. cbn [run Container.run]. apply IH.
  - intros k' o' Hin. apply (Hm k'). now right.
  - intros j k' o' r Hj Hr. apply (Hd (S j) k'); [exact Hj|exact Hr].
  - apply step_coherent; [apply (Hm k); now left| |exact Hc].
    apply (Hd 0 k o); reflexivity.
Qed.

Theorem history_lookup s h k : empty_conts s -> managed_history h -> no_dirty beq s h ->
  lookup_exact (run s h) k /\ ids_unique (run s h) k.
Proof.
  intros He Hm Hd.
  assert (Hc : coherent (run s h) k).
  { apply run_coherent; auto. intros k'. destruct (He k') as [H1 H2]. unfold coherent. rewrite H1, H2. apply coh_nil. }
  split; [now apply coherent_lookup|now apply coherent_unique].
Qed.

Theorem refresh_restores (s : state) k : snd (step s k ORefresh) = RNone ->
  lookup_exact (fst (step s k ORefresh)) k /\ ids_unique (fst (step s k ORefresh)) k
  /\ members (fst (step s k ORefresh)) k = members s k.
Proof.
  intros H. apply refresh_coherent_self in H. split; [now apply coherent_lookup|].
  split; [now apply coherent_unique|apply refresh_members].
Qed.

(* refresh_index succeeds exactly when the ids of the members are distinct *)
Lemma unique_nodup f l :
  (forall p q a b i, nth_error l p = Some a -> nth_error l q = Some b -> f a = Some i -> f b = Some i -> p = q) ->
  NoDup (idlist f l).
Proof.
  induction l as [|x l IH]; intros H; [constructor|].
  assert (Hl : NoDup (idlist f l)).
  { apply IH. intros p q a b i Hp Hq Ha Hb. assert (S p = S q) by (eapply H; eauto; auto). lia. }
  rewrite idlist_cons. destruct (f x) as [i|] eqn:E; [|exact Hl]. constructor; [|exact Hl].
  rewrite in_idlist. intros (a & Ha & Hi). apply In_nth_error in Ha as (n & Hn).
  assert (0 = S n) by (eapply (H 0 (S n) x a i); auto). discriminate.
Qed.

Theorem refresh_succeeds_iff (s : state) k : snd (step s k ORefresh) = RNone <-> ids_unique s k.
Proof.
  split.
  - intros H. assert (Hc := refresh_coherent_self s k H).
    apply coherent_unique in Hc. intros p q a b i Hp Hq Ha Hb.
    apply (Hc p q a b i); rewrite ?refresh_members; auto.
    + unfold the_id in *. cbn in Ha |- *. unfold refresh_index. destruct (refresh_loop _ _ _). exact Ha.
    + unfold the_id in *. cbn in Hb |- *. unfold refresh_index. destruct (refresh_loop _ _ _). exact Hb.
  - intros H. apply refresh_ok. apply unique_nodup. exact H.
Qed.

(* all reachable states with only the mentioned failures are coherent; used below *)
Lemma reach_coherent s h : empty_conts s -> managed_history h -> no_dirty beq s h ->
  forall k, coherent (run s h) k.
Proof.
  intros He Hm Hd k. apply run_coherent; auto. intros k'. destruct (He k') as [H1 H2].
  unfold coherent. rewrite H1, H2. apply coh_nil.
Qed.

Lemma coherent_of_spec (s : state) k : lookup_exact s k -> ids_unique s k ->
  (forall i a, dget (c_dict (conts s k)) i = Some a -> id_accepted i = true) ->
  (forall a i, In a (members s k) -> the_id s a = Some i -> id_accepted i = true) -> coherent s k.
Proof.
  intros Hl Hu Hd Hi. split; [|now apply unique_nodup].
  intros i a. split.
  - intros E. assert (Ha := Hd _ _ E). destruct (Hl i Ha) as [H _]. apply H. unfold getitem. now rewrite E.
  - intros [H1 H2]. assert (Ha := Hi _ _ H1 H2). destruct (Hl i Ha) as [H _].
    assert (E : getitem (conts s k) (KStr i) = Ok (inl a)) by now apply H.
    unfold getitem in E. rewrite (accepted_not_int _ Ha) in E.
    destruct (dget (c_dict (conts s k)) i); congruence.
Qed.

End P.
