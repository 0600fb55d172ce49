(* Specification vocabulary for containers: what users observe of a container
   is its member sequence and what c[id] answers. *)
From Coq Require Import Permutation Sorted.
From Verif Require Import PyStr Ref Container.

Section Spec.
Context {U : Unicode} {B : Type}.
Notation state := (state (B := B)).

Definition members (s : state) (k : nat) : list nat := c_items (conts s k).
Definition the_id (s : state) (a : nat) : option str := o_id (objs s a).

(* no two positions hold members with the same id *)
Definition ids_unique (s : state) (k : nat) : Prop :=
  forall p q a b i, nth_error (members s k) p = Some a -> nth_error (members s k) q = Some b ->
    the_id s a = Some i -> the_id s b = Some i -> p = q.

(* c[id] gives exactly the member with that id, and KeyError when there is none *)
Definition lookup_exact (s : state) (k : nat) : Prop :=
  forall i, id_accepted i = true ->
    (forall a, getitem (conts s k) (KStr i) = Ok (inl a) <-> In a (members s k) /\ the_id s a = Some i)
    /\ (getitem (conts s k) (KStr i) = Err KeyError <-> forall a, In a (members s k) -> the_id s a <> Some i).

(* the operations the container class itself defines, plus sort and reverse *)
Definition managed (o : op) : bool :=
  match o with OSetId _ _ | OPop _ | OIadd _ => false | _ => true end.

(* failures that the code does not roll back: a remove() that fails after
   deleting the index entry, an item assignment with a duplicate id *)
Definition dirty (o : op) (r : outcome) : bool :=
  match o, r with
  | ORemove _, RExn ValueError => true
  | OSet _ _, RExn XigtError => true
  | _, _ => false
  end.

Definition managed_history (h : list (nat * op)) : Prop :=
  forall k o, In (k, o) h -> managed o = true.

Definition no_dirty (beq : B -> B -> bool) (s : state) (h : list (nat * op)) : Prop :=
  forall j k o r, nth_error h j = Some (k, o) -> nth_error (outcomes beq s h) j = Some r -> dirty o r = false.

(* the observable part of a container *)
Definition unchanged (s s' : state) (k : nat) : Prop :=
  members s' k = members s k /\ c_dict (conts s' k) = c_dict (conts s k).

Definition failed (r : outcome) : Prop := exists e, r = RExn e.

(* every member's parent is the owner of the container that holds it *)
Definition parents_ok (s : state) : Prop :=
  forall k a, In a (members s k) -> o_parent (objs s a) = Some (c_owner (conts s k)).

(* the objects an operation adds *)
Definition added (o : op) : list nat :=
  match o with
  | OAppend a | OInsert _ a | OSet _ a => [a]
  | OExtend l | OAssign l => l
  | _ => []
  end.
(* objects are added to a container only while no other container holds them *)
Fixpoint exclusive (beq : B -> B -> bool) (s : state) (h : list (nat * op)) : Prop :=
  match h with
  | [] => True
  | (k, o) :: h' =>
    (forall a k', In a (added o) -> k' <> k -> ~ In a (members s k'))
    /\ exclusive beq (fst (step beq s k o)) h'
  end.
Definition no_assignment (h : list (nat * op)) : Prop :=
  forall k i a, ~ In (k, OSet i a) h.

(* position denoted by an insert index: negative counts from the end, clamped *)
Definition insert_position (len : nat) (z : Z) : nat :=
  if (z <? 0)%Z then Z.to_nat (Z.of_nat len + z) else Nat.min (Z.to_nat z) len.
(* position denoted by a subscript, if valid *)
Definition subscript (len : nat) (z : Z) (n : nat) : Prop :=
  n < len /\ (z = Z.of_nat n \/ z = Z.of_nat n - Z.of_nat len)%Z.
(* Python == between members, as far as containers can tell objects apart *)
Definition equal (beq : B -> B -> bool) (s : state) (a b : nat) : Prop :=
  a = b \/ (o_kind (objs s a) = o_kind (objs s b) /\ the_id s a = the_id s b
            /\ beq (o_body (objs s a)) (o_body (objs s b)) = true).

(* what a successful operation does to the member sequence, in list terms *)
Definition as_list_op (beq : B -> B -> bool) (s s' : state) (k : nat) (o : op) : Prop :=
  let l := members s k in let l' := members s' k in
  match o with
  | OAppend a => l' = l ++ [a]
  | OInsert z a => let p := insert_position (length l) z in l' = firstn p l ++ a :: skipn p l
  | OExtend m => l' = l ++ m
  | ORemove a => exists u b v, l = u ++ b :: v /\ equal beq s b a /\ (forall x, In x u -> ~ equal beq s x a) /\ l' = u ++ v
  | OClear => l' = []
  | OSet j a => exists z p, (j = KInt z \/ exists t, j = KStr t /\ py_int t = Some z)
                 /\ subscript (length l) z p /\ l' = firstn p l ++ a :: skipn (S p) l
  | OAssign m => l' = m
  | OReverse => l' = rev l
  | OSort key => Permutation l' l /\ StronglySorted (fun a b => (key a <= key b)%Z) l'
                 /\ forall z, filter (fun a => Z.eqb (key a) z) l' = filter (fun a => Z.eqb (key a) z) l
  | ORefresh => l' = l
  | ODel j => exists a u b v, getitem (conts s k) j = Ok (inl a) /\ l = u ++ b :: v /\ equal beq s b a
                 /\ (forall x, In x u -> ~ equal beq s x a) /\ l' = u ++ v
  | _ => True
  end.


Definition class_ok (s : state) (k a : nat) : Prop :=
  c_type (conts s k) = None \/ c_type (conts s k) = Some (o_kind (objs s a)).
(* the integer a key denotes in an assignment *)
Definition key_index (j : key) (z : Z) : Prop :=
  j = KInt z \/ exists t, j = KStr t /\ py_int t = Some z.

(* when an operation succeeds *)
Definition succeeds_when (beq : B -> B -> bool) (s : state) (k : nat) (o : op) : Prop :=
  let l := members s k in
  match o with
  | OAppend a | OInsert _ a =>
    class_ok s k a /\ (forall b i, In b l -> the_id s b = Some i -> the_id s a <> Some i)
  | ORemove a => exists b, In b l /\ equal beq s b a
  | OSet j a =>
    class_ok s k a /\ exists z p, key_index j z /\ subscript (length l) z p
      /\ (forall q b i, nth_error l q = Some b -> the_id s b = Some i -> the_id s a = Some i -> q = p)
  | ODel j => exists a, getitem (conts s k) j = Ok (inl a)
  | _ => True
  end.
(* extend and the list property setters are sequences of appends *)
Definition single (o : op) : bool :=
  match o with OExtend _ | OAssign _ => false | _ => true end.

(* all members have the class the container asks for *)
Definition classes_ok (s : state) : Prop := forall k a, In a (members s k) -> class_ok s k a.
End Spec.
