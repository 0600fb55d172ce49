(* Specification of comparisons of names.  No proofs here. *)
From Verif Require Import PyStr SpecScripts SpecAttrOrder QName.

(* the order of names: code point order, or the order of attributes *)
Definition name_before (sortkey : bool) (a b : str) : Prop := if sortkey then attr_before a b else str_less a b.
(* what a comparison says of an order *)
Definition says (op : cmpop) (before : str -> str -> Prop) (a b : str) : Prop :=
  match op with
  | CLt => before a b | CLe => before a b \/ a = b | CGt => before b a | CGe => before b a \/ a = b
  | CEq => a = b | CNe => a <> b
  end.
(* the comparison with the sides swapped *)
Definition swapped (op : cmpop) : cmpop :=
  match op with CLt => CGt | CLe => CGe | CGt => CLt | CGe => CLe | CEq => CEq | CNe => CNe end.
