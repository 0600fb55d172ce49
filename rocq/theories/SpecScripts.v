(* What sort, partition and tally are for, without reference to how they work. *)
From Coq Require Import Permutation Sorted.
From Verif Require Import PyStr Model SortTiers Scripts.

(* ---------- natural order ---------- *)

Section Natural.
Context {U : Unicode}.
Definition no_digit (s : str) : Prop := Forall (fun c => is_digit c = false) s.
Definition all_digits (s : str) : Prop := Forall (fun c => is_digit c = true) s.
Definition starts_with_digit (s : str) : Prop := exists c t, s = c :: t /\ is_digit c = true.
(* the number a run of decimal digits stands for *)
Fixpoint number_from (a : Z) (d : str) : Z :=
  match d with
  | [] => a
  | c :: d => number_from (a * 10 + match digit_val c with Some v => Z.of_N v | None => 0 end) d
  end.
Definition number (d : str) : Z := number_from 0 d.

(* a text as the sequence of its maximal runs of other characters and of
   digits, beginning and ending with a (possibly empty) run of the former *)
Inductive natural : str -> list piece -> Prop :=
| nat_last t : no_digit t -> natural t [PStr t]
| nat_more t d rest ps : no_digit t -> all_digits d -> d <> [] -> ~ starts_with_digit rest -> natural rest ps ->
    natural (t ++ d ++ rest) (PStr t :: PInt (number d) :: ps).
End Natural.

(* code point order *)
Definition str_less (s t : str) : Prop :=
  (exists l c r d r', s = l ++ c :: r /\ t = l ++ d :: r' /\ (c < d)%N) \/ (exists c r, t = s ++ c :: r).
Definition piece_less (a b : piece) : Prop :=
  (exists s t, a = PStr s /\ b = PStr t /\ str_less s t) \/ (exists x y, a = PInt x /\ b = PInt y /\ (x < y)%Z).
(* the order of sequences of runs *)
Definition natural_less (a b : list piece) : Prop :=
  (exists l x r y r', a = l ++ x :: r /\ b = l ++ y :: r' /\ piece_less x y) \/ (exists x r, b = a ++ x :: r).

(* ---------- sorting ---------- *)

(* same members, in order of their keys, ties in the order they had *)
Definition sorted_by {A} (key : A -> res (list piece)) (l l' : list A) : Prop :=
  Permutation l' l
  /\ StronglySorted (fun a b => exists ka kb, key a = Ok ka /\ key b = Ok kb /\ (ka = kb \/ natural_less ka kb)) l'
  /\ forall p, (forall a b, p a = true -> p b = true -> key a = key b) -> filter p l' = filter p l.

(* lists of igts, tiers and items sorted level by level *)
Definition sorted_if {A} (key : option (A -> res (list piece))) (l l' : list A) : Prop :=
  match key with Some k => sorted_by k l l' | None => l' = l end.

(* the corpus c with igts, tiers and items sorted as asked; everything else as
   it was.  (What sort_tiers makes of the tiers is C20.) *)
Definition tiers_sorted (fuel : nat) (a : sort_args) (g : igt) (ts : list tier) : Prop :=
  match by_tier a, by_deps a with
  | Some k, _ => sorted_by (k g) (g_tiers g) ts
  | None, Some ras => sort_tiers fuel g ras = Some (Ok ts)
  | None, None => ts = g_tiers g
  end.
(* the igt with its tiers in another order *)
Definition igt_with (g : igt) (l : list tier) : igt := {| g_attrs := g_attrs g; g_md := g_md g; g_tiers := l |}.
Definition sorted_corpus (fuel : nat) (a : sort_args) (c c' : corpus) : Prop :=
  c_attrs c' = c_attrs c /\ c_md c' = c_md c
  /\ exists gs, sorted_if (by_igt a) (c_igts c) gs
     /\ Forall2 (fun g g' => g_attrs g' = g_attrs g /\ g_md g' = g_md g
          /\ exists ts, tiers_sorted fuel a g ts
             /\ Forall2 (fun t t' => t_attrs t' = t_attrs t /\ t_md t' = t_md t
                  /\ match by_item a with
                     | Some k => sorted_by (k (igt_with g ts) t) (t_items t) (t_items t')
                     | None => t_items t' = t_items t
                     end) ts (g_tiers g')) gs (c_igts c').

(* ---------- partition ---------- *)

(* without later repetitions *)
Fixpoint firsts (l : list str) : list str :=
  match l with
  | [] => []
  | x :: l => x :: filter (fun y => negb (str_eqb y x)) (firsts l)
  end.

Section Partition.
Context {M : Type}.
Variable key : M -> res (option str).
Variable load : str -> res (list M).
Variable idof : M -> option str.
Definition contents (fn : str) : list M := match load fn with Ok l => l | Err _ => [] end.
(* all igts of the input files *)
Definition inputs (fns : list str) : list M := flat_map contents (firsts fns).
(* the key of some igt of the files *)
Definition occurs (fns : list str) (k : option str) : Prop := exists g, In g (inputs fns) /\ key g = Ok k.
Definition has_keyb (k : option str) (g : M) : bool :=
  match key g with Ok k' => opt_eqb str_eqb k' k | Err _ => false end.
(* those of one key, in input order *)
Definition of_key (k : option str) (fns : list str) : list M := filter (has_keyb k) (inputs fns).
(* no id twice *)
Definition ids_of (l : list M) : list str :=
  flat_map (fun g => match idof g with Some i => [i] | None => [] end) l.
Definition ids_distinct (l : list M) : Prop := NoDup (ids_of l).
End Partition.
(* the same but for colons, which become hyphens in file names *)
Definition same_but_colons (s t : str) : Prop :=
  Forall2 (fun a b => a = b \/ (In a (L ":-") /\ In b (L ":-"))) s t.
(* what the file of a key is named after *)
Definition name_of (default_key : str) (k : option str) : str := match k with Some s => s | None => default_key end.
Definition relative (s : str) : Prop := forall t, s <> L "/" ++ t.

(* ---------- tally ---------- *)

Definition plain_group (g : list pyval) : Prop := forall v, In v g -> v = VNone \/ exists s, v = VStr s.
Definition group_dec (a b : list pyval) : {a = b} + {a <> b}.
Proof. apply list_eq_dec. intros x y. decide equality; [apply list_eq_dec, N.eq_dec|apply Nat.eq_dec]. Defined.
(* x comes first in l before y does *)
Definition first_before {A} (l : list A) (x y : A) : Prop := exists l1 l2, l = l1 ++ x :: l2 /\ ~ In x l1 /\ ~ In y l1 /\ In y l2.
