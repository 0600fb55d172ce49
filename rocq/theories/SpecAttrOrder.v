(* Specification of the order of attributes. *)
From Coq Require Import Permutation.
From Verif Require Import PyStr SpecScripts XmlStd.

(* declarations of namespaces first, then the five attributes of Xigt, then others *)
Inductive place : str -> nat -> Prop :=
| Place_decl s : place (L "xmlns:" ++ s) 0
| Place_id : place (L "id") 1
| Place_type : place (L "type") 2
| Place_alignment : place (L "alignment") 3
| Place_content : place (L "content") 4
| Place_segmentation : place (L "segmentation") 5
| Place_other a : (forall s, a <> L "xmlns:" ++ s) -> ~ In a (map L ["id"; "type"; "alignment"; "content"; "segmentation"]%string) -> place a 6.
(* code point order in the same place *)
Definition attr_before (a b : str) : Prop := exists m n, place a m /\ place b n /\ (m < n \/ m = n /\ str_less a b).
(* each attribute comes before all that follow *)
Inductive in_order : dict str -> Prop :=
| In_order0 : in_order []
| In_order1 k v d : (forall k' v', In (k', v') d -> attr_before k k') -> in_order d -> in_order ((k, v) :: d).
(* the same elements, attributes in any order *)
Inductive same_but_order : xelem -> xelem -> Prop :=
| Same_but_order tag d d' text tail kids kids' : Permutation d d' -> Forall2 same_but_order kids kids' ->
    same_but_order (XElem tag d text tail kids) (XElem tag d' text tail kids').
Inductive all_in_order : xelem -> Prop :=
| All_in_order tag d text tail kids : in_order d -> Forall all_in_order kids -> all_in_order (XElem tag d text tail kids).
