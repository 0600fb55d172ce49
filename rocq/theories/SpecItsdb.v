(* Specification of the rows of an export: which expression a cell is to have,
   and which text a phrase is. *)
From Verif Require Import PyStr Model Value SpecValue Itsdb.

(* cells given as texts *)
Definition given (cells : list (str * str)) : list (str * mapper) := map (fun kv => (fst kv, Text (snd kv))) cells.
(* e is the last expression for the cell k *)
Definition expression_of (cells : list (str * str)) (k e : str) : Prop :=
  exists a b, cells = a ++ (k, e) :: b /\ ~ In k (map fst b).
(* the last expression of all *)
Definition last_expression (cells : list (str * str)) (e : str) : Prop := exists a k, cells = a ++ [(k, e)].

(* a tier of the type, the first *)
Definition first_of_type (g : igt) (ty : str) (t : tier) : Prop :=
  exists a b, g_tiers g = a ++ t :: b /\ a_type (t_attrs t) = Some ty /\ forall t', In t' a -> a_type (t_attrs t') <> Some ty.
Definition none_of_type (g : igt) (ty : str) : Prop := forall t, In t (g_tiers g) -> a_type (t_attrs t) <> Some ty.

(* the expression for i-input, if no cells are configured *)
Definition default_expression : str :=
  L "next(igt.select(type=""phrases""), [""""])[0] or "" "".join(item.get_content()          for item in next(igt.select(type=""words""),[]))".
