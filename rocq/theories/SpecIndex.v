(* Specification of the reference indices: what refers to what, read off the
   tree. *)
From Verif Require Import PyStr Ref SpecRef Model Value SpecValue Index.

Section SpecIndex.
Context {U : Unicode}.

Definition is_item_of (g : igt) (n : node) : Prop :=
  exists t i, n = NItem t i /\ In t (g_tiers g) /\ In i (t_items t).
Definition is_tier_of (g : igt) (n : node) : Prop := exists t, n = NTier t /\ In t (g_tiers g).

(* the ids in an object's reference attribute; none if it lacks the attribute *)
Definition lists (n : node) (ra i : str) : Prop :=
  exists e, dget (a_dict (node_attrs n)) ra = Some e /\ In i (ids e).

(* what a table holds for an attribute *)
Definition entry (m : refmap) (ra : str) : list str := match dget m ra with Some l => l | None => [] end.

(* all objects of an igt, tiers first *)
Definition all_nodes (g : igt) : list node :=
  map NTier (g_tiers g) ++ List.concat (map (fun t => map (NItem t) (t_items t)) (g_tiers g)).

(* no two positions among tiers and items hold objects with the same id *)
Definition ids_distinct (l : list node) : Prop :=
  forall p q n m i, nth_error l p = Some n -> nth_error l q = Some m ->
    node_id n = Some i -> node_id m = Some i -> p = q.

(* ids are accepted by the id setter, so none is an integer *)
Definition ids_accepted (g : igt) : Prop :=
  forall n i, In n (all_nodes g) -> node_id n = Some i -> id_accepted i = true.

(* the default reference attributes *)
Definition refattr (ra : str) : Prop := In ra [L "alignment"; L "content"; L "segmentation"].

(* one entry per occurrence of i in the attribute, per object, in order *)
Definition occurrences (ra i : str) (n : node) : list str :=
  match node_id n, dget (a_dict (node_attrs n)) ra with
  | Some j, Some e => map (fun _ => j) (filter (fun x => str_eqb x i) (ids e))
  | _, _ => []
  end.

(* a history: the igt at each refresh_indices(), the first being construction *)
Definition index_after (h : list igt) : index := fold_left refresh_indices h empty_index.

End SpecIndex.
