(* Concrete containers for the examples, and counterexamples. *)
From Verif Require Import PyStr PySort Ref SpecRef Container SpecContainer.

(* a heap for the examples: objects 0..3 with ids a, b, a, none; object 2 has
   the id of object 0 but another body; 3 and 4 are equal and have no id *)
Definition heap : nat -> obj (B := nat) := fun n =>
  match n with
  | 0 => {| o_id := Some (L "a"); o_kind := 0; o_body := 0; o_parent := None |}
  | 1 => {| o_id := Some (L "b"); o_kind := 0; o_body := 0; o_parent := None |}
  | 2 => {| o_id := Some (L "a"); o_kind := 0; o_body := 1; o_parent := None |}
  | 5 => {| o_id := Some (L "e"); o_kind := 0; o_body := 5; o_parent := None |}
  | _ => {| o_id := None; o_kind := 0; o_body := 7; o_parent := None |}
  end.
Definition start : state (B := nat) :=
  {| objs := heap; conts := fun k => {| c_items := []; c_dict := []; c_type := Some 0; c_owner := k |} |}.
Definition sample_history : list (nat * op) :=
  [(0, OAppend 0); (0, OInsert (-1) 1); (0, OAppend 2); (0, OExtend [3; 5]); (0, OSet (KInt 1) 4);
   (0, ODel (KStr (L "b"))); (0, OReverse); (1, OAppend 0)].

Definition filled (U : Unicode) : state := run Nat.eqb start [(0, OExtend [0; 1])].
Definition parent_history : list (nat * op) :=
  [(0, OExtend [0; 1; 3]); (1, OInsert 0 2); (0, ORemove 1); (1, OAppend 1); (1, OAppend 5); (0, OReverse)].

Lemma c03_failed_remove_refuted :
  exists (B : Type) (beq : B -> B -> bool) (s : state) (h : list (nat * op)),
  empty_conts s /\ managed_history h /\ forall U : Unicode, ~ lookup_exact (run beq s h) 0.
Proof.
  exists nat, Nat.eqb, start, [(0, OAppend 0); (0, ORemove 2)]. split; [easy|]. split.
  - intros k o [[= <- <-]|[[= <- <-]|[]]]; reflexivity.
  - intros U H. destruct (H (L "a") eq_refl) as [H1 _]. specialize (H1 0).
    assert (E : getitem (conts (run Nat.eqb start [(0, OAppend 0); (0, ORemove 2)]) 0) (KStr (L "a")) = Err KeyError)
      by (vm_compute; reflexivity).
    destruct H1 as [_ H1]. rewrite E in H1. discriminate H1. split; [now left|reflexivity].
Qed.

Lemma c03_failed_assignment_refuted :
  exists (B : Type) (beq : B -> B -> bool) (s : state) (h : list (nat * op)),
  empty_conts s /\ managed_history h /\ forall U : Unicode, ~ lookup_exact (run beq s h) 0.
Proof.
  exists nat, Nat.eqb, start, [(0, OExtend [0; 1]); (0, OSet (KInt 1) 2)]. split; [easy|]. split.
  - intros k o [[= <- <-]|[[= <- <-]|[]]]; reflexivity.
  - intros U H. destruct (H (L "b") eq_refl) as [H1 _]. specialize (H1 1).
    assert (E : getitem (conts (run Nat.eqb start [(0, OExtend [0; 1]); (0, OSet (KInt 1) 2)]) 0) (KStr (L "b")) = Err KeyError)
      by (vm_compute; reflexivity).
    destruct H1 as [_ H1]. rewrite E in H1. discriminate H1. split; [now right; left|reflexivity].
Qed.

Lemma c04_remove_refuted :
  exists (B : Type) (beq : B -> B -> bool) (s : state) (a : nat), forall U : Unicode,
  failed (snd (step beq s 0 (ORemove a))) /\ ~ unchanged s (fst (step beq s 0 (ORemove a))) 0.
Proof.
  exists nat, Nat.eqb, (filled ascii_unicode), 2. intros U. split.
  - exists ValueError. vm_compute. reflexivity.
  - intros [_ H]. vm_compute in H. discriminate.
Qed.

Lemma c04_assignment_refuted :
  exists (B : Type) (beq : B -> B -> bool) (s : state) (i : key) (a : nat), forall U : Unicode,
  failed (snd (step beq s 0 (OSet i a))) /\ ~ unchanged s (fst (step beq s 0 (OSet i a))) 0.
Proof.
  exists nat, Nat.eqb, (filled ascii_unicode), (KInt 1), 2. intros U. split.
  - exists XigtError. vm_compute. reflexivity.
  - intros [_ H]. vm_compute in H. discriminate.
Qed.

Lemma c05_assignment_refuted :
  exists (B : Type) (beq : B -> B -> bool) (s : state) (h : list (nat * op)),
  empty_conts s /\ managed_history h /\ (forall U : Unicode, exclusive beq s h)
  /\ (forall (U : Unicode) r, In r (outcomes beq s h) -> r = RNone) /\ forall U : Unicode, ~ parents_ok (run beq s h).
Proof.
  exists nat, Nat.eqb, start, [(0, OAppend 0); (0, OSet (KInt 0) 1)]. split; [easy|]. split.
  { intros k o [[= <- <-]|[[= <- <-]|[]]]; reflexivity. }
  split.
  { intros U. repeat split; intros a k' [<-|[]] Hne Hin; destruct k' as [|k']; try (now destruct Hne); vm_compute in Hin; intuition congruence. }
  split; [intros U r H; vm_compute in H; intuition congruence|].
  intros U H. specialize (H 0 1 (or_introl eq_refl)). vm_compute in H. discriminate.
Qed.

Lemma c05_shared_member_refuted :
  exists (B : Type) (beq : B -> B -> bool) (s : state) (h : list (nat * op)),
  empty_conts s /\ managed_history h /\ no_assignment h
  /\ (forall (U : Unicode) r, In r (outcomes beq s h) -> r = RNone) /\ forall U : Unicode, ~ parents_ok (run beq s h).
Proof.
  exists nat, Nat.eqb, start, [(0, OAppend 0); (1, OAppend 0)]. split; [easy|]. split.
  { intros k o [[= <- <-]|[[= <- <-]|[]]]; reflexivity. }
  split.
  { intros k i a [H|[H|[]]]; discriminate. }
  split; [intros U r H; vm_compute in H; intuition congruence|].
  intros U H. specialize (H 0 0 (or_introl eq_refl)). vm_compute in H. discriminate.
Qed.

Lemma c06_delete_position_refuted :
  exists (B : Type) (beq : B -> B -> bool) (s : state) (z : Z) (p : nat), forall U : Unicode,
  snd (step beq s 0 (ODel (KInt z))) = RNone /\ subscript (length (members s 0)) z p
  /\ members (fst (step beq s 0 (ODel (KInt z)))) 0 <> firstn p (members s 0) ++ skipn (S p) (members s 0).
Proof.
  exists nat, Nat.eqb, (run (U := ascii_unicode) Nat.eqb start [(0, OExtend [3; 0; 4])]), 2%Z, 2.
  intros U. split; [vm_compute; reflexivity|]. split; [split; [cbn; lia|now left]|].
  vm_compute. discriminate.
Qed.
