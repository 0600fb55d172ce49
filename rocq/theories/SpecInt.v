(* Specification of the strings that int() reads, xigt/mixins.py:57,69 and
   xigt/ref.py:202-203.  No proofs here. *)
From Verif Require Import PyStr SpecRef.

Section S.
Context {U : Unicode}.
(* a digit of any script with its value *)
Definition digit_of (c d : N) : Prop := cclass c = UDigit d.
(* the number written with the digits ds *)
Definition number (ds : list N) : Z := fold_left (fun a d => a * 10 + Z.of_N d)%Z ds 0%Z.
(* white space, a sign, groups of digits with an underscore between two, white space *)
Definition int_text (s : str) (z : Z) : Prop :=
  exists pre sign groups post ds,
    s = pre ++ sign ++ join (L "_") groups ++ post
    /\ Forall (fun c => cclass c = USpace) (pre ++ post)
    /\ groups <> [] /\ ~ In [] groups /\ Forall2 digit_of (concat groups) ds
    /\ ((sign = [] \/ sign = L "+") /\ z = number ds \/ sign = L "-" /\ z = (- number ds)%Z).
End S.
