(* Specification of references in paths.  No proofs here. *)
From Verif Require Import PyStr Ref Model Index SpecIndex Path.

Section SpecPathRef.
Context {U : Unicode}.

(* a tier or item of the igt g, which has the ancestors up *)
Definition at_node (g : igt) (up : list obj) (n : node) : pnode :=
  match n with
  | NTier t => {| n_obj := PTier t; n_up := PIgt g :: up |}
  | NItem t i => {| n_obj := PItem i; n_up := PTier t :: PIgt g :: up |}
  end.
(* v is the tier or item of g with the id k, or None if there is none *)
Definition points (g : igt) (up : list obj) (k : str) (v : pval) : Prop :=
  (exists m, In m (all_nodes g) /\ node_id m = Some k /\ v = VNode (at_node g up m))
  \/ v = VNone /\ forall m, In m (all_nodes g) -> node_id m <> Some k.
(* the ids in an object's reference attribute *)
Definition mentions (n : node) (ra : str) : list str :=
  match dget (a_dict (node_attrs n)) ra with Some e => ids e | None => [] end.
(* the tiers of g for a tier, the items of g for an item, in document order *)
Definition peers (g : igt) (n : node) : list node :=
  match n with
  | NTier _ => map NTier (g_tiers g)
  | NItem _ _ => List.concat (map (fun t => map (NItem t) (t_items t)) (g_tiers g))
  end.
(* an object with an id that mentions i in its attribute ra *)
Definition refers (i ra : str) (m : node) : Prop := node_id m <> None /\ lists m ra i.
End SpecPathRef.
