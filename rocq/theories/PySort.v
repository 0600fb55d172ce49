(* list.sort / sorted with a key: the stable sort.  Language model.
   Python compares keys with < only; the result of its merge sort is the
   unique stable arrangement, which insertion sort computes. *)
From Verif Require Import PyStr.

Section Sort.
Context {A : Type} (lt : A -> A -> bool).

(* insert x before the first element that is not smaller... keeping x, which
   comes earlier in the input, before its equals *)
Fixpoint sinsert (x : A) (l : list A) : list A :=
  match l with
  | [] => [x]
  | y :: l' => if lt y x then y :: sinsert x l' else x :: l
  end.
Fixpoint ssort (l : list A) : list A :=
  match l with [] => [] | x :: l' => sinsert x (ssort l') end.
End Sort.
