(* Specification of the LaTeX document as a whole.  No proofs here. *)
From Verif Require Import PyStr Model.

(* lines, each with its line feed *)
Definition unlines (l : list str) : str := flat_map (fun s => s ++ [10%N]) l.
(* the blocks of the igts, each followed by a blank line *)
Definition opening : list str := [[]; L "\documentclass{article}"; L "\usepackage{gb4e}"; L "\begin{document}"; []].
Definition closing : list str := [[]; L "\end{document}"; []].
Definition spaced (blocks : list str) : list str := flat_map (fun b => [b; []]) blocks.

(* the tier is of one of the types, whatever its case *)
Definition of_type (lower : str -> str) (types : list str) (t : tier) : Prop :=
  exists ty, a_type (t_attrs t) = Some ty /\ In (lower ty) types.
(* two tiers of the list have the property *)
Definition two_of {A} (P : A -> Prop) (l : list A) : Prop := exists a x b y c, l = a ++ x :: b ++ y :: c /\ P x /\ P y.
(* x is the first with the property *)
Definition first_of {A} (P : A -> Prop) (l : list A) (x : A) : Prop :=
  exists a b, l = a ++ x :: b /\ P x /\ forall y, In y a -> ~ P y.

Definition comment (i : option str) : str :=
  L "%" ++ [10%N] ++ L "% cannot export IGT " ++ match i with Some i => i | None => L "None" end ++ [10%N] ++ L "%".
(* every line of the text is a TeX comment *)
Definition all_comment (s : str) : Prop := forall a b, s = a ++ b -> (a = [] \/ exists a', a = a' ++ [10%N]) -> exists b', b = Ch "%" :: b'.
