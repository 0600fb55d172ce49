From Verif Require Import PyStr PyStrFacts PySort PySortFacts Ref SpecRef RefProofs RefLossless Container SpecContainer ContainerProofs.

Section P.
Context {U : Unicode} {B : Type} (beq : B -> B -> bool).
Notation state := (state (B := B)). Notation obj := (obj (B := B)).
Notation step := (step beq). Notation run := (run beq). Notation outcomes := (outcomes beq).
Notation remove := (remove beq). Notation delitem := (delitem beq). Notation same := (same beq).
Notation list_remove := (list_remove beq). Notation as_list_op := (as_list_op beq).

(* ---------- failing operations ---------- *)

Lemma add_at_fail (s : state) k place a : failed (snd (add_at s k place a)) ->
  forall k', conts (fst (add_at s k place a)) k' = conts s k'.
Proof.
  unfold add_at. destruct (negb _); [easy|]. destruct (create_id_mapping _ _ _); cbn; [|easy].
  intros [e He]. discriminate.
Qed.

Lemma append_fail (s : state) k a : failed (snd (step s k (OAppend a))) ->
  forall k', unchanged s (fst (step s k (OAppend a))) k'.
Proof. intros H k'. unfold unchanged, members. cbn in *. unfold append in *. now rewrite add_at_fail. Qed.

Lemma insert_fail (s : state) k z a : failed (snd (step s k (OInsert z a))) ->
  forall k', unchanged s (fst (step s k (OInsert z a))) k'.
Proof. intros H k'. unfold unchanged, members. cbn in *. unfold insert in *. now rewrite add_at_fail. Qed.

(* when adding fails: wrong class, or the id is in use *)
Lemma add_at_fail_iff (s : state) k place a : coherent s k ->
  (failed (snd (add_at s k place a)) <->
   type_ok (conts s k) (objs s a) = false
   \/ exists i b, the_id s a = Some i /\ In b (members s k) /\ the_id s b = Some i).
Proof.
  intros [H _]. unfold add_at, failed, the_id, members. destruct (type_ok _ _); cbn [negb].
  - unfold create_id_mapping. destruct (o_id (objs s a)) as [i|] eqn:Ei.
    + unfold dmem. specialize (H i). destruct (dget _ i) as [b|] eqn:E; cbn.
      * split; [|eauto]. intros _. right. exists i, b. split; [easy|]. now apply H.
      * split; [intros [e He]; discriminate|]. intros [?|(j & b & [= <-] & Hb)]; [easy|].
        apply H in Hb. discriminate.
    + cbn. split; [intros [e He]; discriminate|]. intros [?|(j & b & ? & _)]; easy.
  - cbn. split; eauto.
Qed.

Lemma remove_fail (s : state) k a : coherent s k -> failed (snd (remove s k a)) ->
  (forall b, In b (members s k) -> the_id s b = the_id s a -> the_id s a = None) ->
  forall k', unchanged s (fst (remove s k a)) k'.
Proof.
  intros [H _] Hf Hid k'. unfold remove, unchanged, members, the_id in *.
  destruct (o_id (objs s a)) as [i|] eqn:Ei.
  - unfold dmem in *. destruct (dget (c_dict (conts s k)) i) as [b|] eqn:E; [|easy].
    apply H in E as [Hb Hi]. discriminate (Hid b Hb Hi).
  - destruct (list_remove _ a _) eqn:El; cbn in *; [destruct Hf as [e He]; discriminate|].
    unfold upd. destruct (Nat.eqb_spec k' k) as [->|]; easy.
Qed.

Lemma remove_fail_dirty (s : state) k a i : coherent s k -> snd (remove s k a) = RExn ValueError ->
  the_id s a = Some i -> exists b, In b (members (fst (remove s k a)) k) /\ the_id (fst (remove s k a)) b = Some i
    /\ dget (c_dict (conts (fst (remove s k a)) k)) i = None.
Proof.
  intros [H _] Hf Hid. unfold remove, members, the_id in *. rewrite Hid in *.
  unfold dmem in *. destruct (dget (c_dict (conts s k)) i) as [b|] eqn:E; [|easy].
  apply H in E as [Hb Hi].
  destruct (list_remove _ a _) eqn:El; cbn in *; [discriminate|]. exists b.
  rewrite upd_same. cbn. repeat split; auto.
  unfold dget, ddel. rewrite (dget_ddel str_eqb str_eqb_spec). destruct (str_eqb_spec i i); easy.
Qed.

Lemma setitem_fail (s : state) k j a : coherent s k -> failed (snd (setitem s k j a)) ->
  (forall b, In b (members s k) -> the_id s b = the_id s a -> the_id s a = None) ->
  forall k', unchanged s (fst (setitem s k j a)) k'.
Proof.
  intros [H Hn] Hf Hid k'. unfold setitem, unchanged, members, the_id in *.
  destruct (negb _); [easy|]. destruct (set_index j) as [[z|]|e]; [|easy|easy].
  destruct (list_get _ z) as [cur|]; [|easy]. destruct (py_index _ z) as [n|]; [|easy].
  assert (Hd : forall (c : cont), (forall i, o_id (objs s a) = Some i -> dget (c_dict c) i = None) ->
     exists c', create_id_mapping c a (objs s a) = Ok c').
  { intros c Hc. unfold create_id_mapping. destruct (o_id (objs s a)) as [i|]; [|eauto].
    unfold dmem. rewrite Hc; eauto. }
  assert (Hfree : forall i, o_id (objs s a) = Some i -> dget (c_dict (conts s k)) i = None).
  { intros i Hi. destruct (dget _ i) as [b|] eqn:E; [|easy]. apply H in E as [Hb Hbi].
    rewrite (Hid b Hb) in Hi; [discriminate|]. unfold idf in Hbi. congruence. }
  destruct (o_id (objs s cur)) as [i|].
  - destruct (dmem _ i); [|easy]. edestruct Hd as (c' & Hc'); [|rewrite Hc' in *].
    + intros i' Hi'. cbn. unfold dget, ddel. rewrite (dget_ddel str_eqb str_eqb_spec).
      destruct (str_eqb i' i); [easy|]. now apply Hfree.
    + destruct Hf as [e He]. discriminate.
  - edestruct Hd as (c' & Hc'); [exact Hfree|]. rewrite Hc' in *. destruct Hf as [e He]. discriminate.
Qed.

Lemma delitem_fail (s : state) k i : coherent s k -> failed (snd (delitem s k i)) -> fst (delitem s k i) = s.
Proof.
  intros Hc. unfold delitem. destruct (getitem _ _) as [[a|l]|e] eqn:E; [|easy|easy].
  apply (getitem_member s k i a Hc) in E. rewrite (remove_member beq s k a Hc E). intros [e He]. discriminate.
Qed.

(* over histories *)
Definition good_history (s : state) (h : list (nat * op)) : Prop :=
  empty_conts s /\ managed_history h /\ no_dirty beq s h.

Theorem append_insert_atomic (s : state) k o : (exists a, o = OAppend a) \/ (exists z a, o = OInsert z a) ->
  failed (snd (step s k o)) -> forall k', unchanged s (fst (step s k o)) k'.
Proof. intros [(a & ->)|(z & a & ->)]; [apply append_fail|apply insert_fail]. Qed.

Theorem delete_atomic s h k i : empty_conts s -> managed_history h -> no_dirty beq s h ->
  failed (snd (step (run s h) k (ODel i))) -> forall k', unchanged (run s h) (fst (step (run s h) k (ODel i))) k'.
Proof.
  intros He Hm Hd Hf k'. cbn in *. rewrite delitem_fail; [easy| |exact Hf]. now apply reach_coherent.
Qed.

Theorem remove_assign_atomic s h k o : empty_conts s -> managed_history h -> no_dirty beq s h ->
  (exists a, o = ORemove a) \/ (exists i a, o = OSet i a) ->
  (forall a b, (o = ORemove a \/ exists i, o = OSet i a) -> In b (members (run s h) k) ->
     the_id (run s h) b = the_id (run s h) a -> the_id (run s h) a = None) ->
  failed (snd (step (run s h) k o)) -> forall k', unchanged (run s h) (fst (step (run s h) k o)) k'.
Proof.
  intros He Hm Hd Ho Hid Hf k'.
  assert (Hc := reach_coherent beq s h He Hm Hd k).
  destruct Ho as [(a & ->)|(i & a & ->)]; cbn in *.
  - apply remove_fail; auto. intros b. apply Hid. now left.
  - apply setitem_fail; auto. intros b. apply Hid. right. eauto.
Qed.

Theorem remove_failure_breaks_index s h k a i : empty_conts s -> managed_history h -> no_dirty beq s h ->
  the_id (run s h) a = Some i -> id_accepted i = true ->
  snd (step (run s h) k (ORemove a)) = RExn ValueError ->
  ~ lookup_exact (fst (step (run s h) k (ORemove a))) k.
Proof.
  intros He Hm Hd Hid Hacc Hf Hl. assert (Hc := reach_coherent beq s h He Hm Hd k). cbn in *.
  destruct (remove_fail_dirty _ _ _ _ Hc Hf Hid) as (b & Hb & Hbi & Hdel).
  destruct (Hl i Hacc) as [H _]. assert (E : getitem (conts (fst (remove (run s h) k a)) k) (KStr i) = Ok (inl b)) by now apply H.
  unfold getitem in E. rewrite Hdel, (accepted_not_int _ Hacc) in E. discriminate.
Qed.

Lemma same_equal s a b : same s a b = true <-> equal beq s a b.
Proof.
  unfold same, equal, the_id. rewrite orb_true_iff, !andb_true_iff, !Nat.eqb_eq.
  destruct (opt_eqb_spec str_eqb str_eqb_spec (o_id (objs s a)) (o_id (objs s b))); intuition congruence.
Qed.

(* ---------- member sequences ---------- *)

Definition done (r : outcome) : Prop := r = RNone.

Lemma create_items (c : cont) a o c' : create_id_mapping (B := B) c a o = Ok c' -> c_items c' = c_items c /\ c_owner c' = c_owner c.
Proof.
  unfold create_id_mapping. destruct (o_id o); [|now intros [= <-]]. destruct (dmem _ _); [easy|]. now intros [= <-].
Qed.

Lemma add_at_members (s : state) k place a : snd (add_at s k place a) = RNone ->
  members (fst (add_at s k place a)) k = place (members s k)
  /\ (forall k', k' <> k -> members (fst (add_at s k place a)) k' = members s k').
Proof.
  unfold add_at, members. destruct (negb _); [easy|]. destruct (create_id_mapping _ _ _) eqn:E; [|easy].
  apply create_items in E as [E _]. cbn. rewrite upd_same, <- E. split; [easy|].
  intros k' Hne. now rewrite upd_other.
Qed.

Lemma add_at_outcome (s : state) k place a : snd (add_at s k place a) = RNone \/ failed (snd (add_at s k place a)).
Proof.
  unfold add_at, failed. destruct (negb _); [right; cbn; eauto|]. destruct (create_id_mapping _ _ _); cbn; eauto.
Qed.

Lemma append_members (s : state) k a : snd (step s k (OAppend a)) = RNone ->
  members (fst (step s k (OAppend a))) k = members s k ++ [a]
  /\ (forall k', k' <> k -> members (fst (step s k (OAppend a))) k' = members s k').
Proof. exact (add_at_members s k (fun l => l ++ [a]) a). Qed.

Lemma insert_members (s : state) k z a : snd (step s k (OInsert z a)) = RNone ->
  let p := insert_position (length (members s k)) z in
  members (fst (step s k (OInsert z a))) k = firstn p (members s k) ++ a :: skipn p (members s k)
  /\ (forall k', k' <> k -> members (fst (step s k (OInsert z a))) k' = members s k').
Proof.
  intros H. destruct (add_at_members s k (fun l => list_insert l z a) a H) as [H1 H2].
  split; [|exact H2]. cbn [step Container.step]. unfold insert. rewrite H1. unfold list_insert, insert_position, slice_bound.
  now rewrite (Z.add_comm z).
Qed.

(* extend stops at the first member that cannot be appended *)
Lemma extend_members l : forall (s : state) k,
  (snd (extend s k l) = RNone /\ members (fst (extend s k l)) k = members s k ++ l
   \/ failed (snd (extend s k l)) /\
      exists u a v, l = u ++ a :: v /\ members (fst (extend s k l)) k = members s k ++ u)
  /\ (forall k', k' <> k -> members (fst (extend s k l)) k' = members s k').
Proof.
  induction l as [|a l IH]; intros s k; cbn [extend].
  - split; [|easy]. left. now rewrite app_nil_r.
  - assert (H1 := add_at_members s k (fun l => l ++ [a]) a).
    assert (H2 := add_at_fail s k (fun l => l ++ [a]) a).
    assert (H3 := add_at_outcome s k (fun l => l ++ [a]) a).
    fold (append s k a) in *. destruct (append s k a) as [s1 r]. cbn [fst snd] in *.
    destruct H3 as [->|Hf].
    + destruct (H1 eq_refl) as [M1 M2]. destruct (IH s1 k) as [I1 I2]. split.
      * rewrite M1 in I1. destruct I1 as [[I I']|(I & u & b & v & -> & I')].
        -- left. split; [easy|]. now rewrite I', <- app_assoc.
        -- right. split; [easy|]. exists (a :: u), b, v. split; [easy|]. now rewrite I', <- app_assoc.
      * intros k' Hne. rewrite I2 by easy. now apply M2.
    + destruct Hf as [e ->]. cbn. assert (Hf : failed (RExn e)) by (now exists e). split.
      * right. split; [easy|]. exists [], a, l. split; [easy|]. unfold members. now rewrite (H2 Hf), app_nil_r.
      * intros k' _. unfold members. now rewrite (H2 Hf).
Qed.

Lemma remove_members (s : state) k a : snd (step s k (ORemove a)) = RNone ->
  exists u b v, members s k = u ++ b :: v /\ equal beq s b a /\ (forall x, In x u -> ~ equal beq s x a)
    /\ members (fst (step s k (ORemove a))) k = u ++ v.
Proof.
  cbn. unfold remove, members. set (del := match o_id _ with Some _ => _ | None => _ end).
  assert (Hd : forall c, del = Ok c -> c_items c = c_items (conts s k)).
  { unfold del. destruct (o_id _); [|now intros c [= <-]]. destruct (dmem _ _); [|easy]. now intros c [= <-]. }
  destruct del as [c|e]; [|easy]. specialize (Hd c eq_refl).
  destruct (list_remove _ a (c_items c)) eqn:E; [|easy]. intros _.
  rewrite (list_remove_ext beq s) in E by easy.
  apply list_remove_spec in E as (u & b & v & E & -> & Hs & Hu). exists u, b, v. cbn. rewrite upd_same. cbn.
  rewrite <- Hd. split; [auto|]. split; [now apply same_equal|]. split; [|easy].
  intros x Hx Heq. apply same_equal in Heq. rewrite Forall_forall in Hu. rewrite (Hu x Hx) in Heq. discriminate.
Qed.

Lemma setitem_members (s : state) k j a : snd (step s k (OSet j a)) = RNone ->
  exists z p, (j = KInt z \/ exists t, j = KStr t /\ py_int t = Some z) /\ subscript (length (members s k)) z p
    /\ members (fst (step s k (OSet j a))) k = firstn p (members s k) ++ a :: skipn (S p) (members s k).
Proof.
  cbn. unfold setitem, members. destruct (negb _); [easy|].
  destruct (set_index j) as [[z|]|e] eqn:Ej; [|easy|easy].
  destruct (list_get _ z) as [cur|]; [|easy]. destruct (py_index _ z) as [p|] eqn:Ep; [|easy].
  set (del := match o_id _ with Some _ => _ | None => _ end).
  assert (Hd : forall c, del = Ok c -> c_items c = c_items (conts s k)).
  { unfold del. destruct (o_id _); [|now intros c [= <-]]. destruct (dmem _ _); [|easy]. now intros c [= <-]. }
  destruct del as [c|e]; [|easy]. specialize (Hd c eq_refl).
  destruct (create_id_mapping c a (objs s a)) as [c'|] eqn:E; [|easy]. intros _. apply create_items in E as [E _].
  exists z, p. split; [|split].
  - unfold set_index in Ej. destruct j as [z'| |t|]; try easy.
    + injection Ej as ->. now left.
    + destruct (py_int t) eqn:Et; [|easy]. injection Ej as ->. right. eauto.
  - now apply py_index_spec.
  - cbn. rewrite upd_same. cbn. rewrite E, Hd. reflexivity.
Qed.

Lemma clear_members (s : state) k : members (fst (step s k OClear)) k = [] /\ snd (step s k OClear) = RNone.
Proof. unfold members; cbn. now rewrite upd_same. Qed.

Lemma assign_members (s : state) k l : snd (step s k (OAssign l)) = RNone ->
  members (fst (step s k (OAssign l))) k = l.
Proof.
  cbn. unfold assign_all. destruct (extend_members l (fst (clear s k)) k) as [[[_ H]|[[e H] _]] _].
  - intros _. rewrite H. unfold members. cbn. now rewrite upd_same.
  - rewrite H. discriminate.
Qed.

Lemma reverse_members (s : state) k : members (fst (step s k OReverse)) k = rev (members s k).
Proof. unfold members; cbn. now rewrite upd_same. Qed.

Lemma sort_members (s : state) k key : let l := members (fst (step s k (OSort key))) k in
  Permutation l (members s k) /\ StronglySorted (fun a b => (key a <= key b)%Z) l
  /\ forall z, filter (fun a => Z.eqb (key a) z) l = filter (fun a => Z.eqb (key a) z) (members s k).
Proof.
  unfold members; cbn. rewrite upd_same. cbn. split; [apply ssort_perm|]. split.
  - eapply StronglySorted_ind with (P := StronglySorted (fun a b => (key a <= key b)%Z)); [constructor| |].
    + intros a l _ IH H. constructor; [exact IH|]. eapply Forall_impl; [|exact H].
      intros b Hb. exact (proj1 (Z.ltb_ge _ _) Hb).
    + apply ssort_sorted.
      * intros a b H. apply Z.ltb_ge. apply Z.ltb_lt in H. lia.
      * intros a b c H1 H2. apply Z.ltb_ge in H1, H2. apply Z.ltb_ge. lia.
  - intros z. apply ssort_stable. intros x y _ _ Hx Hy. apply Z.eqb_eq in Hx, Hy. apply Z.ltb_ge. lia.
Qed.

Theorem list_ops (s : state) k o : snd (step s k o) = RNone -> as_list_op s (fst (step s k o)) k o.
Proof.
  intros H. destruct o; unfold SpecContainer.as_list_op; try exact I.
  - now apply append_members.
  - now apply insert_members.
  - cbn in *. destruct (extend_members l s k) as [[[_ E]|[[e E] _]] _]; [exact E|congruence].
  - now apply remove_members.
  - apply clear_members.
  - now apply setitem_members.
  - cbn in *. unfold delitem in *. destruct (getitem _ _) as [[a|l]|e] eqn:E; try easy.
    exists a. destruct (remove_members s k a H) as (u & b & v & H'). exists u, b, v. auto.
  - apply refresh_members.
  - now apply assign_members.
  - apply sort_members.
  - apply reverse_members.
Qed.

(* deleting by position a member that has an id removes exactly that position *)
Lemma del_position s k z : coherent s k -> snd (step s k (ODel (KInt z))) = RNone ->
  exists p a, subscript (length (members s k)) z p /\ nth_error (members s k) p = Some a /\
    (the_id s a <> None ->
     members (fst (step s k (ODel (KInt z)))) k = firstn p (members s k) ++ skipn (S p) (members s k)).
Proof.
  intros Hc H. assert (H' := list_ops s k _ H). cbn [SpecContainer.as_list_op] in H'.
  destruct H' as (a & u & b & v & Hg & El & Hs & Hu & El').
  cbn in Hg. destruct (list_get _ z) as [a'|] eqn:Eg; [|easy]. cbn in Hg. injection Hg as ->.
  apply list_get_ok in Eg as (p & Hp & Hnth). exists p, a. split; [exact Hp|]. split; [exact Hnth|].
  intros Hid. apply same_equal, same_id in Hs. unfold idf in Hs.
  destruct (o_id (objs s a)) as [i|] eqn:Ei; [|unfold the_id in Hid; congruence].
  assert (Hlen : p = length u).
  { destruct Hc as [_ Hn]. eapply (nth_unique (idf s)); [exact Hn|exact Hnth| |exact Ei|exact Hs].
    change (c_items (conts s k)) with (members s k). rewrite El, nth_error_app2, Nat.sub_diag; auto. }
  rewrite El', El, Hlen, firstn_app_len. f_equal.
  change (b :: v) with ([b] ++ v). rewrite app_assoc.
  replace (S (length u)) with (length (u ++ [b])) by (rewrite app_length; cbn; lia).
  now rewrite skipn_app_len.
Qed.

Theorem delete_by_position s h k z : empty_conts s -> managed_history h -> no_dirty beq s h ->
  let s := run s h in
  snd (step s k (ODel (KInt z))) = RNone ->
  exists p a, subscript (length (members s k)) z p /\ nth_error (members s k) p = Some a /\
    (the_id s a <> None ->
     members (fst (step s k (ODel (KInt z)))) k = firstn p (members s k) ++ skipn (S p) (members s k)).
Proof. intros He Hm Hd s' H. apply del_position; [now apply reach_coherent|exact H]. Qed.

(* operations on one container leave the members of the others alone *)
Theorem other_containers (s : state) k o k' : k' <> k -> members (fst (step s k o)) k' = members s k'.
Proof.
  intros Hne.
  assert (Hadd : forall place a, members (fst (add_at s k place a)) k' = members s k').
  { intros place a. destruct (add_at_outcome s k place a) as [H|H].
    - now apply add_at_members.
    - unfold members. now rewrite add_at_fail. }
  assert (Hrem : forall a, members (fst (remove s k a)) k' = members s k').
  { intros a. unfold remove, members.
    destruct (match o_id _ with Some _ => _ | None => _ end) as [c|e]; [|easy].
    destruct (list_remove _ _ _); cbn; unfold put_cont; cbn; rewrite !upd_other by easy; reflexivity. }
  destruct o; cbn [step Container.step].
  - apply Hadd.
  - apply Hadd.
  - now apply extend_members.
  - apply Hrem.
  - unfold members. cbn. now rewrite upd_other.
  - unfold setitem, members. destruct (negb _); [easy|]. destruct (set_index i) as [[z|]|e]; try easy.
    destruct (list_get _ z); [|easy]. destruct (py_index _ z); [|easy].
    destruct (match o_id _ with Some _ => _ | None => _ end) as [c|e]; [|easy].
    destruct (create_id_mapping _ _ _); cbn; now rewrite upd_other.
  - unfold delitem. destruct (getitem _ _) as [[a|l]|e]; [apply Hrem|easy|easy].
  - unfold members. now rewrite refresh_other.
  - unfold assign_all. rewrite (proj2 (extend_members l _ k)) by easy. unfold members. cbn. now rewrite upd_other.
  - unfold members. cbn. now rewrite upd_other.
  - unfold members. cbn. now rewrite upd_other.
  - destruct i; [destruct (id_accepted _)|]; reflexivity.
  - destruct (py_index _ _); [|easy]. destruct (nth_error _ _); [|easy]. unfold members. cbn. now rewrite upd_other.
  - unfold members. cbn. now rewrite upd_other.
Qed.

(* subscripts and slices of the member sequence *)
Theorem getitem_int (s : state) k z : 
  (forall a, getitem (conts s k) (KInt z) = Ok (inl a) <->
     exists p, subscript (length (members s k)) z p /\ nth_error (members s k) p = Some a)
  /\ ((forall p, ~ subscript (length (members s k)) z p) -> getitem (conts s k) (KInt z) = Err IndexError).
Proof.
  unfold getitem. change (c_items (conts s k)) with (members s k). split.
  - intros a. rewrite <- list_get_ok. destruct (list_get _ z); cbn; split; congruence.
  - intros H. assert (E : list_get (members s k) z = Err IndexError) by now apply list_get_err. now rewrite E.
Qed.

(* ---------- parents ---------- *)

(* parents are right for one container's owner when its objects stay put *)
Definition adds_ok (s : state) (k : nat) (o : op) : Prop :=
  forall a k', In a (added o) -> k' <> k -> ~ In a (members s k').

Lemma owner_add_at (s : state) k place a k' : c_owner (conts (fst (add_at s k place a)) k') = c_owner (conts s k').
Proof.
  unfold add_at. destruct (negb _); [easy|]. destruct (create_id_mapping _ _ _) eqn:E; [|easy].
  apply create_items in E as [_ E]. cbn. unfold upd. destruct (Nat.eqb_spec k' k) as [->|]; [|easy]. exact E.
Qed.

Lemma parents_add_at (s : state) k place a : (forall l x, In x (place l) <-> x = a \/ In x l) ->
  (forall k', k' <> k -> ~ In a (members s k')) -> parents_ok s -> parents_ok (fst (add_at s k place a)).
Proof.
  intros Hp Hex Hok k' b Hb. rewrite owner_add_at.
  assert (Hm : In b (members s k') \/ (k' = k /\ b = a /\ snd (add_at s k place a) = RNone)).
  { destruct (add_at_outcome s k place a) as [H|H].
    - destruct (add_at_members s k place a H) as [M1 M2]. destruct (Nat.eq_dec k' k) as [->|Hne].
      + rewrite M1 in Hb. apply Hp in Hb as [->|Hb]; auto.
      + rewrite M2 in Hb by easy. now left.
    - unfold members in *. rewrite add_at_fail in Hb by easy. now left. }
  assert (Hpar : forall x, o_parent (objs (fst (add_at s k place a)) x)
       = if Nat.eqb x a then (if type_ok (conts s k) (objs s a) then Some (c_owner (conts s k)) else o_parent (objs s x)) else o_parent (objs s x)).
  { intros x. unfold add_at. destruct (type_ok _ _); cbn.
    - destruct (create_id_mapping _ _ _); cbn; unfold upd; destruct (Nat.eqb x a); reflexivity.
    - now destruct (Nat.eqb x a). }
  rewrite Hpar. destruct (Nat.eqb_spec b a) as [->|Hne].
  - destruct (type_ok _ _) eqn:Et.
    + destruct (Nat.eq_dec k' k) as [->|Hk]; [easy|]. exfalso. destruct Hm as [Hm|[? _]]; [|easy]. now apply (Hex k').
    + destruct Hm as [Hm|(_ & _ & Hr)]; [now apply Hok|]. unfold add_at in Hr. rewrite Et in Hr. discriminate.
  - destruct Hm as [Hm|(_ & ? & _)]; [now apply Hok|easy].
Qed.

Lemma owner_remove s k a k' : c_owner (conts (fst (remove s k a)) k') = c_owner (conts s k').
Proof.
  unfold remove. set (del := match o_id _ with Some _ => _ | None => _ end).
  assert (Hd : forall c, del = Ok c -> c_owner c = c_owner (conts s k)).
  { unfold del. destruct (o_id _); [|now intros c [= <-]]. destruct (dmem _ _); [|easy]. now intros c [= <-]. }
  destruct del as [c|e]; [|easy]. specialize (Hd c eq_refl).
  destruct (list_remove _ _ _); cbn; unfold upd; destruct (Nat.eqb_spec k' k) as [->|]; auto.
Qed.

Lemma parents_sub (s s' : state) :
  (forall a, o_parent (objs s' a) = o_parent (objs s a)) ->
  (forall k, c_owner (conts s' k) = c_owner (conts s k)) ->
  (forall k a, In a (members s' k) -> In a (members s k)) -> parents_ok s -> parents_ok s'.
Proof. intros H1 H2 H3 Hok k a Ha. rewrite H1, H2. apply Hok. now apply H3. Qed.

Lemma remove_objs s k a : objs (fst (remove s k a)) = objs s.
Proof.
  unfold remove. destruct (match o_id _ with Some _ => _ | None => _ end) as [c|e]; [|easy].
  destruct (list_remove _ _ _); reflexivity.
Qed.

Lemma remove_incl s k a k' x : In x (members (fst (remove s k a)) k') -> In x (members s k').
Proof.
  destruct (Nat.eq_dec k' k) as [->|Hne].
  - unfold remove, members. set (del := match o_id _ with Some _ => _ | None => _ end).
    assert (Hd : forall c, del = Ok c -> c_items c = c_items (conts s k)).
    { unfold del. destruct (o_id _); [|now intros c [= <-]]. destruct (dmem _ _); [|easy]. now intros c [= <-]. }
    destruct del as [c|e]; [|easy]. specialize (Hd c eq_refl).
    destruct (list_remove _ a (c_items c)) eqn:E; cbn; rewrite upd_same; cbn.
    + apply list_remove_spec in E as (u & b & v & E & -> & _). rewrite <- Hd, E. rewrite !in_app_iff. cbn. tauto.
    + now rewrite Hd.
  - assert (H := other_containers s k (ORemove a) k' Hne). cbn in H. now rewrite H.
Qed.

Lemma parents_extend l : forall (s : state) k,
  (forall a k', In a l -> k' <> k -> ~ In a (members s k')) -> parents_ok s -> parents_ok (fst (extend s k l)).
Proof.
  induction l as [|a l IH]; intros s k Hex Hok; [exact Hok|]. cbn [extend].
  assert (H1 : parents_ok (fst (append s k a))).
  { apply parents_add_at; [|intros k'; apply Hex; now left|exact Hok].
    intros m x. rewrite in_app_iff. cbn. intuition. }
  assert (H2 : forall k', k' <> k -> members (fst (append s k a)) k' = members s k').
  { intros k'. apply (other_containers s k (OAppend a)). }
  destruct (append s k a) as [s1 r]. cbn [fst] in *. destruct r; try exact H1.
  all: apply IH; [|exact H1]; intros b k' Hb Hk; rewrite H2 by easy; apply Hex; auto; now right.
Qed.

Lemma refresh_owner (s : state) k k' : c_owner (conts (fst (refresh_index s k)) k') = c_owner (conts s k').
Proof.
  unfold refresh_index. assert (H := refresh_loop_coh s (c_items (conts s k)) (with_dict (conts s k) []) [] (coh_nil _)).
  destruct (refresh_loop _ _ _) as [c r]. destruct H as (_ & H & _). cbn. unfold upd.
  destruct (Nat.eqb_spec k' k) as [->|]; [exact H|easy].
Qed.

Lemma step_parents s k o : (forall i a, o <> OSet i a) -> managed o = true -> adds_ok s k o ->
  parents_ok s -> parents_ok (fst (step s k o)).
Proof.
  intros Hns Hm Hex Hok. unfold adds_ok in Hex. destruct o; cbn [step Container.step added] in *; try discriminate.
  - apply parents_add_at; auto.
    + intros m x. rewrite in_app_iff. cbn. intuition.
    + intros k' Hk. apply Hex; [now left|easy].
  - apply parents_add_at; auto.
    + intros m x. unfold list_insert. set (n := slice_bound _ _).
      rewrite in_app_iff. cbn. rewrite <- (firstn_skipn n m) at 3. rewrite in_app_iff. intuition.
    + intros k' Hk. apply Hex; [now left|easy].
  - now apply parents_extend.
  - apply (parents_sub s); auto; [intros; now rewrite remove_objs|intros; apply owner_remove|apply remove_incl].
  - apply (parents_sub s); auto.
    + intros k'. cbn. unfold upd. destruct (Nat.eqb_spec k' k) as [->|]; reflexivity.
    + intros k' a. unfold members. cbn. unfold upd. destruct (Nat.eqb_spec k' k) as [->|]; [intros []|auto].
  - now destruct (Hns i a).
  - unfold delitem. destruct (getitem _ _) as [[a|l]|e]; try exact Hok.
    apply (parents_sub s); auto; [intros; now rewrite remove_objs|intros; apply owner_remove|apply remove_incl].
  - apply (parents_sub s); auto.
    + intros a. unfold refresh_index. now destruct (refresh_loop _ _ _).
    + apply refresh_owner.
    + intros k' a. destruct (Nat.eq_dec k' k) as [->|Hne]; [now rewrite refresh_members|].
      unfold members. now rewrite refresh_other.
  - unfold assign_all. apply parents_extend.
    + intros a k' Ha Hk. unfold members. cbn. rewrite upd_other by easy. now apply Hex.
    + apply (parents_sub s); auto.
      * intros k'. cbn. unfold upd. destruct (Nat.eqb_spec k' k) as [->|]; reflexivity.
      * intros k' a. unfold members. cbn. unfold upd. destruct (Nat.eqb_spec k' k) as [->|]; [intros []|auto].
  - apply (parents_sub s); auto.
    + intros k'. cbn. unfold upd. destruct (Nat.eqb_spec k' k) as [->|]; reflexivity.
    + intros k' a. unfold members. cbn. unfold upd. destruct (Nat.eqb_spec k' k) as [->|]; [|auto].
      cbn. apply Permutation_in. apply ssort_perm.
  - apply (parents_sub s); auto.
    + intros k'. cbn. unfold upd. destruct (Nat.eqb_spec k' k) as [->|]; reflexivity.
    + intros k' a. unfold members. cbn. unfold upd. destruct (Nat.eqb_spec k' k) as [->|]; [|auto].
      cbn. intros H. now apply in_rev.
Qed.

Theorem history_parents h : forall s, parents_ok s -> managed_history h -> no_assignment h -> exclusive beq s h ->
  parents_ok (run s h).
Proof.
  induction h as [|[k o] h IH]; intros s Hok Hm Hn Hex; [exact Hok|].
  cbn [run Container.run exclusive] in *. destruct Hex as [Hex Hex'].
  apply IH; auto.
  - apply step_parents; auto.
    + intros i a ->. apply (Hn k i a). now left.
    + apply (Hm k). now left.
  - intros k' o' Hin. apply (Hm k'). now right.
  - intros k' i a Hin. apply (Hn k' i a). now right.
Qed.

Lemma empty_parents s : empty_conts (B := B) s -> parents_ok s.
Proof. intros H k a Ha. unfold members in Ha. now rewrite (proj1 (H k)) in Ha. Qed.

Theorem history_parents_empty s h : empty_conts s -> managed_history h -> no_assignment h -> exclusive beq s h ->
  parents_ok (run s h).
Proof. intros He. apply history_parents. now apply empty_parents. Qed.

(* ---------- when operations succeed ---------- *)

Lemma type_ok_spec (s : state) k a : type_ok (conts s k) (objs s a) = true <-> class_ok s k a.
Proof.
  unfold type_ok, class_ok. destruct (c_type _) as [t|]; [rewrite Nat.eqb_eq|]; intuition congruence.
Qed.

Lemma add_at_succeeds (s : state) k place a : coherent s k ->
  (snd (add_at s k place a) = RNone <->
   class_ok s k a /\ forall b i, In b (members s k) -> the_id s b = Some i -> the_id s a <> Some i).
Proof.
  intros Hc. assert (H := add_at_fail_iff s k place a Hc). rewrite <- type_ok_spec.
  destruct (add_at_outcome s k place a) as [E|E].
  - split; [|easy]. intros _. assert (Hn : ~ failed (snd (add_at s k place a))) by (rewrite E; intros [e He]; discriminate).
    split.
    + destruct (type_ok _ _) eqn:Et; [easy|]. exfalso. apply Hn, H. now left.
    + intros b i Hb Hi Ha. apply Hn, H. right. eauto.
  - split; [destruct E as [e He]; intros; congruence|]. intros [Ht Hi].
    apply H in E as [E|(i & b & Ha & Hb & Hbi)]; [congruence|]. exfalso. eapply Hi; eauto.
Qed.

Lemma remove_succeeds s k a : coherent s k ->
  (snd (remove s k a) = RNone <-> exists b, In b (members s k) /\ equal beq s b a).
Proof.
  intros Hc. split.
  - intros H. destruct (remove_members s k a H) as (u & b & v & El & Hs & _). exists b. rewrite El.
    split; [apply in_elt|easy].
  - intros (b & Hb & Hs). apply same_equal in Hs. assert (Hid := same_id _ _ _ _ Hs). unfold idf in Hid.
    unfold remove, members in *.
    assert (Hl : forall s1, objs s1 = objs s -> list_remove s1 a (c_items (conts s k)) <> None).
    { intros s1 E Hn. rewrite (list_remove_ext beq s) in Hn by easy.
      apply list_remove_none in Hn. rewrite Forall_forall in Hn. rewrite (Hn b Hb) in Hs. discriminate. }
    destruct Hc as [H _]. destruct (o_id (objs s a)) as [i|] eqn:Ei.
    + assert (Hd : dget (c_dict (conts s k)) i = Some b) by (apply H; auto). unfold dmem. rewrite Hd. cbn [c_items with_dict].
      destruct (list_remove _ a _) eqn:E; [easy|]. exfalso. eapply Hl; [|exact E]. reflexivity.
    + destruct (list_remove _ a _) eqn:E; [easy|]. exfalso. eapply Hl; [|exact E]. reflexivity.
Qed.

Lemma set_index_spec j z : set_index j = Ok (Some z) <-> key_index j z.
Proof.
  unfold set_index, key_index. destruct j as [y|u v|t|].
  - split; [intros [= ->]; auto|]. intros [[= ->]|(t & ? & _)]; [easy|discriminate].
  - split; [discriminate|]. intros [?|(t & ? & _)]; discriminate.
  - destruct (py_int t) eqn:E.
    + split; [intros [= ->]; eauto|]. intros [?|(t' & [= ->] & H)]; [discriminate|congruence].
    + split; [discriminate|]. intros [?|(t' & [= ->] & H)]; [discriminate|congruence].
  - split; [discriminate|]. intros [?|(t & ? & _)]; discriminate.
Qed.

Lemma subscript_unique n z p q : subscript n z p -> subscript n z q -> p = q.
Proof. unfold subscript. lia. Qed.

Lemma setitem_succeeds s k j a : coherent s k ->
  (snd (step s k (OSet j a)) = RNone <-> succeeds_when beq s k (OSet j a)).
Proof.
  intros Hc. cbn. unfold setitem. rewrite <- type_ok_spec.
  destruct (type_ok _ _); cbn [negb]; [|split; [discriminate|intros [? _]; discriminate]].
  destruct (set_index j) as [[z|]|e] eqn:Ej.
  2,3: split; [discriminate|]; intros (_ & z & p & Hz & _); apply set_index_spec in Hz; congruence.
  assert (Hj := proj1 (set_index_spec j z) Ej).
  assert (Hz : forall z', key_index j z' -> z' = z) by (intros z' H; apply set_index_spec in H; congruence).
  destruct (list_get _ z) as [cur|e] eqn:El.
  2:{ split; [discriminate|]. intros (_ & z' & p & H1 & H2 & _). apply Hz in H1 as ->.
      apply list_get_err in El as [_ El]. now apply El in H2. }
  apply list_get_ok in El as (p & Hp & Hnth). rewrite (proj2 (py_index_spec _ _ _) Hp).
  assert (Hfin : forall d, (forall i b, dget d i = Some b <-> exists q, q <> p /\ nth_error (members s k) q = Some b /\ the_id s b = Some i) ->
     (snd (match create_id_mapping (with_dict (conts s k) d) a (objs s a) with
       | Err e => (put_cont s k (with_dict (conts s k) d), RExn e)
       | Ok c => (put_cont s k (with_items c (list_set (c_items c) p a)), RNone)
       end) = RNone <->
      true = true /\ exists z' p', key_index j z' /\ subscript (length (members s k)) z' p'
       /\ (forall q b i, nth_error (members s k) q = Some b -> the_id s b = Some i -> the_id s a = Some i -> q = p'))).
  { intros d Hd. unfold create_id_mapping. destruct (o_id (objs s a)) as [i|] eqn:Ei.
    - unfold dmem. cbn [c_dict with_dict]. destruct (dget d i) as [b|] eqn:E.
      + split; [discriminate|]. intros (_ & z' & p' & H1 & H2 & H3). exfalso.
        apply Hz in H1 as ->. rewrite (subscript_unique _ _ _ _ H2 Hp) in H3.
        apply Hd in E as (q & Hq & Hb & Hi). apply Hq. eapply H3; eauto.
      + split; [|easy]. intros _. split; [easy|]. exists z, p. split; [easy|]. split; [easy|].
        intros q b i' Hq Hb Hi. unfold the_id in Hi. rewrite Ei in Hi. injection Hi as <-.
        destruct (Nat.eq_dec q p); [easy|]. assert (dget d i = Some b) by (apply Hd; eauto). congruence.
    - split; [|easy]. intros _. split; [easy|]. exists z, p. split; [easy|]. split; [easy|].
      intros q b i' _ _ Hi. unfold the_id in Hi. congruence. }
  destruct Hc as [H Hn].
  destruct (o_id (objs s cur)) as [i|] eqn:Ei.
  - assert (Hd : dget (c_dict (conts s k)) i = Some cur).
    { apply H. split; [eapply nth_error_In; eauto|exact Ei]. }
    unfold dmem. rewrite Hd. apply Hfin. intros i' b. unfold dget, ddel.
    rewrite (dget_ddel str_eqb str_eqb_spec). fold (dget (c_dict (conts s k)) i').
    destruct (str_eqb_spec i' i) as [->|Hne].
    + split; [discriminate|]. intros (q & Hq & Hb & Hi). exfalso. apply Hq.
      eapply (nth_unique (idf s)); [exact Hn|exact Hb|exact Hnth|exact Hi|exact Ei].
    + rewrite H. split.
      * intros [Hb Hi]. apply In_nth_error in Hb as (q & Hq). exists q. split; [|auto].
        intros ->. rewrite Hnth in Hq. injection Hq as <-. unfold idf in Hi. congruence.
      * intros (q & _ & Hb & Hi). split; [eapply nth_error_In; eauto|exact Hi].
  - assert (Ec : with_dict (conts s k) (c_dict (conts s k)) = conts s k) by (now destruct (conts s k)).
    specialize (Hfin (c_dict (conts s k))). rewrite Ec in Hfin. apply Hfin. intros i' b. rewrite H. split.
    + intros [Hb Hi]. apply In_nth_error in Hb as (q & Hq). exists q. split; [|auto].
      intros ->. rewrite Hnth in Hq. injection Hq as <-. unfold idf in Hi. congruence.
    + intros (q & _ & Hb & Hi). split; [eapply nth_error_In; eauto|exact Hi].
Qed.

Theorem succeeds_iff s h k o : empty_conts s -> managed_history h -> no_dirty beq s h ->
  managed o = true -> single o = true ->
  (snd (step (run s h) k o) = RNone <-> succeeds_when beq (run s h) k o).
Proof.
  intros He Hm Hd Ho Hs. assert (Hc := reach_coherent beq s h He Hm Hd k). set (s' := run s h) in *.
  destruct o; try discriminate; cbn [Container.step succeeds_when]; try (split; [easy|]; intros _).
  - now apply add_at_succeeds.
  - now apply add_at_succeeds.
  - now apply remove_succeeds.
  - reflexivity.
  - now apply setitem_succeeds.
  - unfold delitem. destruct (getitem _ _) as [[a|l]|e] eqn:E.
    + apply (getitem_member s' k i a Hc) in E as Hin. rewrite (remove_member beq s' k a Hc Hin). split; eauto.
    + split; [discriminate|intros (a & ?); discriminate].
    + split; [discriminate|intros (a & ?); discriminate].
  - apply refresh_ok. apply Hc.
  - reflexivity.
  - reflexivity.
Qed.

(* ---------- classes ---------- *)

Lemma create_type (c : cont) a o c' : create_id_mapping (B := B) c a o = Ok c' -> c_type c' = c_type c.
Proof. unfold create_id_mapping. destruct (o_id o); [|now intros [= <-]]. destruct (dmem _ _); [easy|]. now intros [= <-]. Qed.

Lemma add_at_type (s : state) k place a k' : c_type (conts (fst (add_at s k place a)) k') = c_type (conts s k').
Proof.
  unfold add_at. destruct (negb _); [easy|]. destruct (create_id_mapping _ _ _) eqn:E; [|easy].
  apply create_type in E. cbn. unfold upd. destruct (Nat.eqb_spec k' k) as [->|]; [|easy]. exact E.
Qed.

Lemma kind_step s k o a : o_kind (objs (fst (step s k o)) a) = o_kind (objs s a).
Proof.
  assert (Hadd : forall place (s : state) b, o_kind (objs (fst (add_at s k place b)) a) = o_kind (objs s a)).
  { intros place s0 b. unfold add_at. destruct (negb _); [easy|].
    destruct (create_id_mapping _ _ _); cbn; unfold upd; destruct (Nat.eqb_spec a b) as [->|]; easy. }
  assert (Hext : forall l (s : state), o_kind (objs (fst (extend s k l)) a) = o_kind (objs s a)).
  { induction l as [|b l IH]; intros s0; [easy|]. cbn [extend].
    assert (H := Hadd (fun l => l ++ [b]) s0 b). fold (append s0 k b) in H. destruct (append s0 k b) as [s1 r].
    cbn in H. destruct r; try (now rewrite IH). exact H. }
  destruct o; cbn [Container.step]; auto.
  - apply Hadd.
  - apply Hadd.
  - now rewrite remove_objs.
  - unfold setitem. destruct (negb _); [easy|]. destruct (set_index i) as [[z|]|e]; try easy.
    destruct (list_get _ z); [|easy]. destruct (py_index _ z); [|easy].
    destruct (match o_id _ with Some _ => _ | None => _ end) as [c|e]; [|easy].
    destruct (create_id_mapping _ _ _); reflexivity.
  - unfold delitem. destruct (getitem _ _) as [[b|l]|e]; [|easy|easy]. now rewrite remove_objs.
  - unfold refresh_index. now destruct (refresh_loop _ _ _).
  - unfold assign_all. rewrite Hext. reflexivity.
  - destruct i; [destruct (id_accepted _)|]; cbn; unfold upd; destruct (Nat.eqb_spec a a0) as [->|]; easy.
  - destruct (py_index _ _); [|easy]. destruct (nth_error _ _); easy.
Qed.

Lemma type_step s k o k' : c_type (conts (fst (step s k o)) k') = c_type (conts s k').
Proof.
  assert (Hext : forall l (s : state), c_type (conts (fst (extend s k l)) k') = c_type (conts s k')).
  { induction l as [|b l IH]; intros s0; [easy|]. cbn [extend].
    assert (H := add_at_type s0 k (fun l => l ++ [b]) b k'). fold (append s0 k b) in H. destruct (append s0 k b) as [s1 r].
    cbn in H. destruct r; try (now rewrite IH). exact H. }
  assert (Hrem : forall a, c_type (conts (fst (remove s k a)) k') = c_type (conts s k')).
  { intros a. unfold remove. set (del := match o_id _ with Some _ => _ | None => _ end).
    assert (Hd : forall c, del = Ok c -> c_type c = c_type (conts s k)).
    { unfold del. destruct (o_id _); [|now intros c [= <-]]. destruct (dmem _ _); [|easy]. now intros c [= <-]. }
    destruct del as [c|e]; [|easy]. specialize (Hd c eq_refl).
    destruct (list_remove _ _ _); cbn; unfold upd; destruct (Nat.eqb_spec k' k) as [->|]; auto. }
  assert (Hput : forall c (s : state), c_type c = c_type (conts s k) -> c_type (upd (conts s) k c k') = c_type (conts s k')).
  { intros c s0 H. unfold upd. destruct (Nat.eqb_spec k' k) as [->|]; auto. }
  destruct o; cbn [Container.step]; auto using add_at_type.
  - apply add_at_type.
  - apply add_at_type.
  - now apply Hput.
  - unfold setitem. destruct (negb _); [easy|]. destruct (set_index i) as [[z|]|e]; try easy.
    destruct (list_get _ z); [|easy]. destruct (py_index _ z); [|easy].
    set (del := match o_id _ with Some _ => _ | None => _ end).
    assert (Hd : forall c, del = Ok c -> c_type c = c_type (conts s k)).
    { unfold del. destruct (o_id _); [|now intros c [= <-]]. destruct (dmem _ _); [|easy]. now intros c [= <-]. }
    destruct del as [c|e]; [|easy]. specialize (Hd c eq_refl).
    destruct (create_id_mapping _ _ _) eqn:E; cbn; apply Hput; auto.
    apply create_type in E. cbn. congruence.
  - unfold delitem. destruct (getitem _ _) as [[b|l]|e]; [apply Hrem|easy|easy].
  - unfold refresh_index. assert (H : forall l c, c_type (fst (refresh_loop s c l)) = c_type c).
    { induction l as [|b l IH]; intros c; [easy|]. cbn. destruct (create_id_mapping c b _) eqn:E; [|easy].
      rewrite IH. now apply create_type in E. }
    specialize (H (c_items (conts s k)) (with_dict (conts s k) [])).
    destruct (refresh_loop _ _ _) as [c r]. cbn in *. now apply Hput.
  - unfold assign_all. rewrite Hext. now apply Hput.
  - now apply Hput.
  - now apply Hput.
  - destruct i; [destruct (id_accepted _)|]; reflexivity.
  - destruct (py_index _ _); [|easy]. destruct (nth_error _ _); [|easy]. now apply Hput.
  - now apply Hput.
Qed.

(* where the members of the next state come from *)
Lemma new_members s k o b : managed o = true -> In b (members (fst (step s k o)) k) ->
  In b (members s k) \/ (In b (added o) /\ class_ok s k b).
Proof.
  assert (Hadd : forall place a (s : state), (forall l x, In x (place l) -> x = a \/ In x l) ->
     In b (members (fst (add_at s k place a)) k) -> In b (members s k) \/ b = a /\ class_ok s k a).
  { intros place a s0 Hp Hb. destruct (type_ok (conts s0 k) (objs s0 a)) eqn:Et.
    - apply type_ok_spec in Et. destruct (add_at_outcome s0 k place a) as [E|E].
      + rewrite (proj1 (add_at_members s0 k place a E)) in Hb. apply Hp in Hb as [->|Hb]; auto.
      + unfold members in *. rewrite add_at_fail in Hb by easy. auto.
    - unfold add_at in Hb. rewrite Et in Hb. auto. }
  assert (Hco : forall place a (s0 : state) x, class_ok (fst (add_at s0 k place a)) k x -> class_ok s0 k x).
  { intros place a s0 x. unfold class_ok. rewrite add_at_type.
    replace (o_kind (objs (fst (add_at s0 k place a)) x)) with (o_kind (objs s0 x)); [easy|].
    unfold add_at. destruct (negb _); [easy|]. destruct (create_id_mapping _ _ _); cbn; unfold upd; destruct (Nat.eqb_spec x a) as [->|]; easy. }
  assert (Hext : forall l (s : state), In b (members (fst (extend s k l)) k) -> In b (members s k) \/ (In b l /\ class_ok s k b)).
  { induction l as [|a l IH]; intros s0 Hb; [auto|]. cbn [extend] in Hb.
    assert (H := Hadd (fun l => l ++ [a]) a s0). assert (Hc := Hco (fun l => l ++ [a]) a s0 b).
    fold (append s0 k a) in *. destruct (append s0 k a) as [s1 r]. cbn [fst] in *.
    assert (Hp : forall (l : list nat) x, In x (l ++ [a]) -> x = a \/ In x l).
    { intros m x. rewrite in_app_iff. cbn. intuition. }
    specialize (H Hp).
    assert (H' : In b (members s1 k) -> In b (members s0 k) \/ In b (a :: l) /\ class_ok s0 k b).
    { intros H1. apply H in H1 as [H1|[-> H1]]; [now left|]. right. split; [now left|easy]. }
    destruct r; auto; apply IH in Hb as [Hb|[Hb Hb']]; auto; right; (split; [now right|auto]). }
  intros Hm Hb. destruct o; cbn [Container.step added] in *; try discriminate.
  - apply Hadd in Hb as [Hb|[-> Hb]]; auto.
    + right. split; [now left|easy].
    + intros m x. rewrite in_app_iff. cbn. intuition.
  - apply Hadd in Hb as [Hb|[-> Hb]]; auto.
    + right. split; [now left|easy].
    + intros m x. unfold list_insert. set (n := slice_bound _ _).
      rewrite in_app_iff. cbn. rewrite <- (firstn_skipn n m) at 3. rewrite in_app_iff. intuition.
  - now apply Hext.
  - left. eapply remove_incl; eauto.
  - unfold members in Hb. cbn in Hb. rewrite upd_same in Hb. destruct Hb.
  - unfold setitem, members in Hb. destruct (type_ok _ _) eqn:Et; [|now left]. cbn [negb] in Hb. apply type_ok_spec in Et.
    destruct (set_index i) as [[z|]|e]; [|now left|now left].
    destruct (list_get _ z) as [cur|]; [|now left]. destruct (py_index _ z) as [n|]; [|now left].
    set (del := match o_id _ with Some _ => _ | None => _ end) in Hb.
    assert (Hd : forall c, del = Ok c -> c_items c = c_items (conts s k)).
    { unfold del. destruct (o_id _); [|now intros c [= <-]]. destruct (dmem _ _); [|easy]. now intros c [= <-]. }
    destruct del as [c|e]; [|now left]. specialize (Hd c eq_refl).
    destruct (create_id_mapping c a _) as [c'|] eqn:E; cbn in Hb; rewrite upd_same in Hb; cbn in Hb.
    + apply create_items in E as [E _]. rewrite E, Hd in Hb. unfold list_set in Hb. rewrite in_app_iff in Hb. cbn in Hb.
      destruct Hb as [Hb|[->|Hb]]; [left|right|left].
      * rewrite <- (firstn_skipn n). apply in_or_app. now left.
      * split; [now left|easy].
      * change (In b (members s k)). rewrite <- (firstn_skipn (S n) (members s k)). apply in_or_app. now right.
    + left. unfold members. now rewrite <- Hd.
  - left. unfold delitem in Hb. destruct (getitem _ _) as [[a|l]|e]; auto. eapply remove_incl; eauto.
  - left. now rewrite refresh_members in Hb.
  - unfold assign_all in Hb. apply Hext in Hb as [Hb|[Hb Hc]].
    + unfold members in Hb. cbn in Hb. rewrite upd_same in Hb. destruct Hb.
    + right. split; [easy|]. unfold class_ok in *. cbn in Hc. rewrite upd_same in Hc. exact Hc.
  - left. unfold members in Hb. cbn in Hb. rewrite upd_same in Hb. cbn in Hb. eapply Permutation_in; [apply ssort_perm|exact Hb].
  - left. unfold members in Hb. cbn in Hb. rewrite upd_same in Hb. cbn in Hb. now apply in_rev.
Qed.

Theorem history_classes h : forall s, classes_ok s -> managed_history h -> classes_ok (run s h).
Proof.
  induction h as [|[k o] h IH]; intros s Hok Hm; [exact Hok|]. cbn [Container.run]. apply IH.
  - intros k' b Hb. unfold class_ok. rewrite type_step, kind_step.
    destruct (Nat.eq_dec k' k) as [->|Hne].
    + apply new_members in Hb as [Hb|[_ Hb]]; [now apply Hok|exact Hb|]. apply (Hm k). now left.
    + rewrite other_containers in Hb by easy. now apply Hok.
  - intros k' o' Hin. apply (Hm k'). now right.
Qed.

Theorem history_classes_empty s h : empty_conts s -> managed_history h -> classes_ok (run s h).
Proof. intros He. apply history_classes. intros k a Ha. unfold members in Ha. now rewrite (proj1 (He k)) in Ha. Qed.

(* ---------- slices and get ---------- *)

Theorem getitem_slice (s : state) k x y :
  let l := members s k in
  let lo := match x with Some z => insert_position (length l) z | None => 0 end in
  let hi := match y with Some z => insert_position (length l) z | None => length l end in
  exists m, getitem (conts s k) (KSlice x y) = Ok (inr m)
    /\ length m = hi - lo
    /\ forall p, lo + p < hi -> nth_error m p = nth_error l (lo + p).
Proof.
  intros l lo hi. eexists. split; [reflexivity|]. unfold py_slice. fold (members s k). fold l.
  assert (Hb : forall z, slice_bound (length l) z = insert_position (length l) z).
  { intros z. unfold slice_bound, insert_position. now rewrite (Z.add_comm z). }
  assert (Hle : forall z, insert_position (length l) z <= length l).
  { intros z. unfold insert_position. destruct (Z.ltb_spec z 0); lia. }
  replace (match x with Some i => slice_bound (length l) i | None => 0 end) with lo
    by (unfold lo; destruct x; auto).
  replace (match y with Some i => slice_bound (length l) i | None => length l end) with hi
    by (unfold hi; destruct y; auto).
  assert (hi <= length l) by (unfold hi; destruct y; auto). split.
  - rewrite firstn_length, skipn_length. lia.
  - intros p Hp. clearbody lo hi. clear -Hp. revert lo Hp. generalize l; clear l.
    intros l lo Hp. transitivity (nth_error (skipn lo l) p).
    + assert (Hq : p < hi - lo) by lia. revert Hq. generalize (hi - lo). intros n. generalize (skipn lo l). clear.
      revert p. induction n as [|n IH]; intros [|p] [|x l] Hn; cbn; auto; try lia. apply IH. lia.
    + clear. revert l; induction lo as [|lo IH]; intros [|x l]; cbn; auto. now destruct p.
Qed.

Theorem get_lookup s h k i : empty_conts s -> managed_history h -> no_dirty beq s h -> id_accepted i = true ->
  (forall a, get (conts (run s h) k) (KStr i) = Ok (Some (inl a)) <-> In a (members (run s h) k) /\ the_id (run s h) a = Some i)
  /\ (get (conts (run s h) k) (KStr i) = Ok None <-> forall a, In a (members (run s h) k) -> the_id (run s h) a <> Some i).
Proof.
  intros He Hm Hd Hi. destruct (history_lookup beq s h k He Hm Hd) as [Hl _]. destruct (Hl i Hi) as [H1 H2].
  assert (Hc : exists r, getitem (conts (run s h) k) (KStr i) = r /\ ((exists a, r = Ok (inl a)) \/ r = Err KeyError)).
  { eexists. split; [reflexivity|]. unfold getitem. rewrite (accepted_not_int _ Hi).
    destruct (dget _ i); eauto. }
  unfold get. destruct Hc as (r & E & [(b & ->)| ->]); rewrite E in *.
  - split.
    + intros a. rewrite <- H1. split; congruence.
    + rewrite <- H2. split; congruence.
  - split.
    + intros a. rewrite <- H1. split; congruence.
    + rewrite <- H2. split; congruence.
Qed.

End P.
