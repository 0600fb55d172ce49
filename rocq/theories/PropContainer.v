(* Property theorems about containers: C03, C04, C05, C06. *)
From Verif Require Import PyStr PySort Ref SpecRef Container SpecContainer ContainerProofs ContainerLaws ContainerExamples.

(* ---------- C03 ---------- *)

(* missing: histories with a remove() that fails after deleting the index entry,
   or an item assignment whose new id is in use; both break the index *)
Theorem C03_history_lookup_partial :
  forall (U : Unicode) (B : Type) (beq : B -> B -> bool) (s : state) (h : list (nat * op)) (k : nat),
  empty_conts s -> managed_history h -> no_dirty beq s h ->
  lookup_exact (run beq s h) k /\ ids_unique (run beq s h) k.
Proof. exact @history_lookup. Qed.
Print Assumptions C03_history_lookup_partial.

Theorem C03_get_partial :
  forall (U : Unicode) (B : Type) (beq : B -> B -> bool) (s : state) (h : list (nat * op)) (k : nat) (i : list N),
  empty_conts s -> managed_history h -> no_dirty beq s h -> id_accepted i = true ->
  (forall a, get (conts (run beq s h) k) (KStr i) = Ok (Some (inl a))
     <-> In a (members (run beq s h) k) /\ the_id (run beq s h) a = Some i)
  /\ (get (conts (run beq s h) k) (KStr i) = Ok None
      <-> forall a, In a (members (run beq s h) k) -> the_id (run beq s h) a <> Some i).
Proof. exact @get_lookup. Qed.
Print Assumptions C03_get_partial.

Theorem C03_refresh_restores :
  forall (U : Unicode) (B : Type) (beq : B -> B -> bool) (s : state) (k : nat),
  snd (step beq s k ORefresh) = RNone ->
  lookup_exact (fst (step beq s k ORefresh)) k /\ ids_unique (fst (step beq s k ORefresh)) k
  /\ members (fst (step beq s k ORefresh)) k = members s k.
Proof. exact @refresh_restores. Qed.
Print Assumptions C03_refresh_restores.

Theorem C03_refresh_succeeds_iff :
  forall (U : Unicode) (B : Type) (beq : B -> B -> bool) (s : state) (k : nat),
  snd (step beq s k ORefresh) = RNone <-> ids_unique s k.
Proof. exact @refresh_succeeds_iff. Qed.
Print Assumptions C03_refresh_succeeds_iff.

Example C03_example : forall U : Unicode,
  empty_conts start /\ managed_history sample_history /\ no_dirty Nat.eqb start sample_history
  /\ outcomes Nat.eqb start sample_history = [RNone; RNone; RExn XigtError; RNone; RNone; RNone; RNone; RNone]
  /\ members (run Nat.eqb start sample_history) 0 = [5; 3; 4].
Proof.
  intros U. split; [easy|]. split.
  - intros k o H. cbn in H. repeat destruct H as [[= <- <-]|H]; try reflexivity. destruct H.
  - assert (E : outcomes Nat.eqb start sample_history = [RNone; RNone; RExn XigtError; RNone; RNone; RNone; RNone; RNone])
      by (vm_compute; reflexivity).
    split; [|split; [exact E|vm_compute; reflexivity]].
    unfold no_dirty. rewrite E. intros j k o r Hj Hr.
    do 8 (destruct j as [|j]; [cbn in Hj, Hr; injection Hj as <- <-; injection Hr as <-; reflexivity|]).
    destruct j; discriminate.
Qed.

(* a managed history after which an id in use is not found: removing an object
   that has the id of a member but is not equal to it *)
Theorem C03_failed_remove_refuted :
  exists (B : Type) (beq : B -> B -> bool) (s : state) (h : list (nat * op)),
  empty_conts s /\ managed_history h /\ forall U : Unicode, ~ lookup_exact (run beq s h) 0.
Proof. exact c03_failed_remove_refuted. Qed.
Print Assumptions C03_failed_remove_refuted.

(* likewise after an item assignment that fails because the id is in use *)
Theorem C03_failed_assignment_refuted :
  exists (B : Type) (beq : B -> B -> bool) (s : state) (h : list (nat * op)),
  empty_conts s /\ managed_history h /\ forall U : Unicode, ~ lookup_exact (run beq s h) 0.
Proof. exact c03_failed_assignment_refuted. Qed.
Print Assumptions C03_failed_assignment_refuted.

(* ---------- C04 ---------- *)

Theorem C04_append_insert_atomic :
  forall (U : Unicode) (B : Type) (beq : B -> B -> bool) (s : state) (k : nat) (o : op),
  (exists a, o = OAppend a) \/ (exists z a, o = OInsert z a) ->
  failed (snd (step beq s k o)) -> forall k', unchanged s (fst (step beq s k o)) k'.
Proof. exact @append_insert_atomic. Qed.
Print Assumptions C04_append_insert_atomic.

Theorem C04_delete_atomic :
  forall (U : Unicode) (B : Type) (beq : B -> B -> bool) (s : state) (h : list (nat * op)) (k : nat) (i : key),
  empty_conts s -> managed_history h -> no_dirty beq s h ->
  failed (snd (step beq (run beq s h) k (ODel i))) ->
  forall k', unchanged (run beq s h) (fst (step beq (run beq s h) k (ODel i))) k'.
Proof. exact @delete_atomic. Qed.
Print Assumptions C04_delete_atomic.

(* missing: the case where the object's id is the id of a member *)
Theorem C04_remove_assign_atomic_partial :
  forall (U : Unicode) (B : Type) (beq : B -> B -> bool) (s : state) (h : list (nat * op)) (k : nat) (o : op),
  empty_conts s -> managed_history h -> no_dirty beq s h ->
  (exists a, o = ORemove a) \/ (exists i a, o = OSet i a) ->
  (forall a b, (o = ORemove a \/ exists i, o = OSet i a) -> In b (members (run beq s h) k) ->
     the_id (run beq s h) b = the_id (run beq s h) a -> the_id (run beq s h) a = None) ->
  failed (snd (step beq (run beq s h) k o)) ->
  forall k', unchanged (run beq s h) (fst (step beq (run beq s h) k o)) k'.
Proof. exact @remove_assign_atomic. Qed.
Print Assumptions C04_remove_assign_atomic_partial.

(* in the missing case a failing remove always damages the index *)
Theorem C04_failed_remove_damages :
  forall (U : Unicode) (B : Type) (beq : B -> B -> bool) (s : state) (h : list (nat * op)) (k : nat) (a : nat) (i : list N),
  empty_conts s -> managed_history h -> no_dirty beq s h ->
  the_id (run beq s h) a = Some i -> id_accepted i = true ->
  snd (step beq (run beq s h) k (ORemove a)) = RExn ValueError ->
  ~ lookup_exact (fst (step beq (run beq s h) k (ORemove a))) k.
Proof. exact @remove_failure_breaks_index. Qed.
Print Assumptions C04_failed_remove_damages.

Example C04_example : forall U : Unicode,
  snd (step Nat.eqb (filled U) 0 (OAppend 2)) = RExn XigtError
  /\ snd (step Nat.eqb (filled U) 0 (ODel (KInt 7))) = RExn IndexError
  /\ snd (step Nat.eqb (filled U) 0 (ORemove 5)) = RExn KeyError
  /\ snd (step Nat.eqb (filled U) 0 (OSet (KInt (-3)) 5)) = RExn IndexError
  /\ snd (step Nat.eqb (filled U) 0 (ORemove 2)) = RExn ValueError.
Proof. intros U. repeat split; vm_compute; reflexivity. Qed.

Theorem C04_remove_refuted :
  exists (B : Type) (beq : B -> B -> bool) (s : state) (a : nat), forall U : Unicode,
  failed (snd (step beq s 0 (ORemove a))) /\ ~ unchanged s (fst (step beq s 0 (ORemove a))) 0.
Proof. exact c04_remove_refuted. Qed.
Print Assumptions C04_remove_refuted.

Theorem C04_assignment_refuted :
  exists (B : Type) (beq : B -> B -> bool) (s : state) (i : key) (a : nat), forall U : Unicode,
  failed (snd (step beq s 0 (OSet i a))) /\ ~ unchanged s (fst (step beq s 0 (OSet i a))) 0.
Proof. exact c04_assignment_refuted. Qed.
Print Assumptions C04_assignment_refuted.

(* ---------- C05 ---------- *)

(* missing: item assignment (never sets the parent) and objects held by two
   containers (only the last one is the parent) *)
Theorem C05_history_parents_partial :
  forall (U : Unicode) (B : Type) (beq : B -> B -> bool) (s : state) (h : list (nat * op)),
  empty_conts s -> managed_history h -> no_assignment h -> exclusive beq s h -> parents_ok (run beq s h).
Proof. exact @history_parents_empty. Qed.
Print Assumptions C05_history_parents_partial.

Example C05_example : forall U : Unicode,
  empty_conts start /\ managed_history parent_history /\ no_assignment parent_history
  /\ exclusive Nat.eqb start parent_history
  /\ members (run Nat.eqb start parent_history) 0 = [3; 0] /\ members (run Nat.eqb start parent_history) 1 = [2; 1; 5].
Proof.
  intros U. split; [easy|]. split.
  { intros k o H. cbn in H. repeat destruct H as [[= <- <-]|H]; try reflexivity. destruct H. }
  split.
  { intros k i a H. cbn in H. repeat destruct H as [H|H]; try discriminate. destruct H. }
  split; [|split; vm_compute; reflexivity].
  repeat split; intros a k' H Hne Hin; cbn in H; repeat destruct H as [<-|H]; try (now destruct H);
    destruct k' as [|[|k']]; try (now destruct Hne); vm_compute in Hin; intuition congruence.
Qed.

Theorem C05_assignment_refuted :
  exists (B : Type) (beq : B -> B -> bool) (s : state) (h : list (nat * op)),
  empty_conts s /\ managed_history h /\ (forall U : Unicode, exclusive beq s h)
  /\ (forall (U : Unicode) r, In r (outcomes beq s h) -> r = RNone) /\ forall U : Unicode, ~ parents_ok (run beq s h).
Proof. exact c05_assignment_refuted. Qed.
Print Assumptions C05_assignment_refuted.

Theorem C05_shared_member_refuted :
  exists (B : Type) (beq : B -> B -> bool) (s : state) (h : list (nat * op)),
  empty_conts s /\ managed_history h /\ no_assignment h
  /\ (forall (U : Unicode) r, In r (outcomes beq s h) -> r = RNone) /\ forall U : Unicode, ~ parents_ok (run beq s h).
Proof. exact c05_shared_member_refuted. Qed.
Print Assumptions C05_shared_member_refuted.

(* ---------- C06 ---------- *)

Theorem C06_list_operations :
  forall (U : Unicode) (B : Type) (beq : B -> B -> bool) (s : state) (k : nat) (o : op),
  snd (step beq s k o) = RNone -> as_list_op beq s (fst (step beq s k o)) k o.
Proof. exact @list_ops. Qed.
Print Assumptions C06_list_operations.

(* when a managed operation succeeds *)
Theorem C06_succeeds_iff :
  forall (U : Unicode) (B : Type) (beq : B -> B -> bool) (s : state) (h : list (nat * op)) (k : nat) (o : op),
  empty_conts s -> managed_history h -> no_dirty beq s h -> managed o = true -> single o = true ->
  (snd (step beq (run beq s h) k o) = RNone <-> succeeds_when beq (run beq s h) k o).
Proof. exact @succeeds_iff. Qed.
Print Assumptions C06_succeeds_iff.

Theorem C06_members_have_class :
  forall (U : Unicode) (B : Type) (beq : B -> B -> bool) (s : state) (h : list (nat * op)),
  empty_conts s -> managed_history h -> classes_ok (run beq s h).
Proof. exact @history_classes_empty. Qed.
Print Assumptions C06_members_have_class.

Theorem C06_slice :
  forall (U : Unicode) (B : Type) (s : state (B := B)) (k : nat) (x y : option Z),
  let l := members s k in
  let lo := match x with Some z => insert_position (length l) z | None => 0 end in
  let hi := match y with Some z => insert_position (length l) z | None => length l end in
  exists m, getitem (conts s k) (KSlice x y) = Ok (inr m)
    /\ length m = hi - lo
    /\ forall p, lo + p < hi -> nth_error m p = nth_error l (lo + p).
Proof. exact @getitem_slice. Qed.
Print Assumptions C06_slice.

Theorem C06_other_containers :
  forall (U : Unicode) (B : Type) (beq : B -> B -> bool) (s : state) (k : nat) (o : op) (k' : nat),
  k' <> k -> members (fst (step beq s k o)) k' = members s k'.
Proof. exact @other_containers. Qed.
Print Assumptions C06_other_containers.

Theorem C06_subscript :
  forall (U : Unicode) (B : Type) (s : state (B := B)) (k : nat) (z : Z),
  (forall a, getitem (conts s k) (KInt z) = Ok (inl a) <->
     exists p, subscript (length (members s k)) z p /\ nth_error (members s k) p = Some a)
  /\ ((forall p, ~ subscript (length (members s k)) z p) -> getitem (conts s k) (KInt z) = Err IndexError).
Proof. exact @getitem_int. Qed.
Print Assumptions C06_subscript.

Theorem C06_delete_by_position :
  forall (U : Unicode) (B : Type) (beq : B -> B -> bool) (s : state) (h : list (nat * op)) (k : nat) (z : Z),
  empty_conts s -> managed_history h -> no_dirty beq s h ->
  let s := run beq s h in
  snd (step beq s k (ODel (KInt z))) = RNone ->
  exists p a, subscript (length (members s k)) z p /\ nth_error (members s k) p = Some a /\
    (the_id s a <> None ->
     members (fst (step beq s k (ODel (KInt z)))) k = firstn p (members s k) ++ skipn (S p) (members s k)).
Proof. exact @delete_by_position. Qed.
Print Assumptions C06_delete_by_position.

Example C06_example : forall U : Unicode,
  let s := run Nat.eqb start [(0, OExtend [0; 1; 3])] in
  members (fst (step Nat.eqb s 0 (OInsert (-1) 5))) 0 = [0; 1; 5; 3]
  /\ members (fst (step Nat.eqb s 0 (OInsert 99 5))) 0 = [0; 1; 3; 5]
  /\ members (fst (step Nat.eqb s 0 (OSet (KInt (-3)) 5))) 0 = [5; 1; 3]
  /\ members (fst (step Nat.eqb s 0 (ORemove 4))) 0 = [0; 1]
  /\ members (fst (step Nat.eqb s 0 (ODel (KInt (-2))))) 0 = [0; 3]
  /\ getitem (conts s 0) (KSlice (Some (-2)%Z) None) = Ok (inr [1; 3]).
Proof. intros U. repeat split; vm_compute; reflexivity. Qed.

(* deleting position p removes the first equal member, which for members
   without id need not be position p *)
Theorem C06_delete_position_refuted :
  exists (B : Type) (beq : B -> B -> bool) (s : state) (z : Z) (p : nat), forall U : Unicode,
  snd (step beq s 0 (ODel (KInt z))) = RNone /\ subscript (length (members s 0)) z p
  /\ members (fst (step beq s 0 (ODel (KInt z)))) 0 <> firstn p (members s 0) ++ skipn (S p) (members s 0).
Proof. exact c06_delete_position_refuted. Qed.
Print Assumptions C06_delete_position_refuted.
