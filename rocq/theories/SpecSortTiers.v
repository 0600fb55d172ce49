(* Specification of sort_tiers: references between tiers and blocks. *)
From Coq Require Import Permutation.
From Verif Require Import PyStr Model Value SpecValue SpecQuery.

(* the tier's prioritized reference: the value of the first attribute it has *)
Definition prio (refattrs : list str) (t : tier) (v : str) : Prop :=
  exists ra, first_attr refattrs t ra /\ dget (a_dict (t_attrs t)) ra = Some v.
(* t refers to rt *)
Definition depends (g : igt) (refattrs : list str) (t rt : tier) : Prop :=
  exists i, prio refattrs t i /\ In rt (g_tiers g) /\ tier_id rt = Some i.
(* directly or indirectly *)
Inductive depends_plus (g : igt) (refattrs : list str) (t : tier) : tier -> Prop :=
| dep_one rt : depends g refattrs t rt -> depends_plus g refattrs t rt
| dep_more t' rt : depends g refattrs t t' -> depends_plus g refattrs t' rt -> depends_plus g refattrs t rt.
(* the tier and all its transitive dependents *)
Definition in_block (g : igt) (refattrs : list str) (a t : tier) : Prop := t = a \/ depends_plus g refattrs t a.

Definition prio_resolvable (g : igt) (refattrs : list str) : Prop :=
  forall t i, In t (g_tiers g) -> prio refattrs t i -> exists rt, In rt (g_tiers g) /\ tier_id rt = Some i.
Definition prio_acyclic (g : igt) (refattrs : list str) (rank : tier -> nat) : Prop :=
  forall t rt, In t (g_tiers g) -> depends g refattrs t rt -> rank rt < rank t.

Definition before {A} (l : list A) (x y : A) : Prop := exists l1 l2 l3, l = l1 ++ x :: l2 ++ y :: l3.
Definition contiguous {A} (l : list A) (P : A -> Prop) : Prop :=
  forall l1 x l2 y l3 z, l = l1 ++ x :: l2 ++ y :: l3 -> P x -> P y -> In z l2 -> P z.

(* t's reference names the tier i through attribute ra *)
Definition refers_via (refattrs : list str) (t : tier) (ra i : str) : Prop :=
  first_attr refattrs t ra /\ dget (a_dict (t_attrs t)) ra = Some i.
(* no reference at all *)
Definition root (refattrs : list str) (t : tier) : Prop := forall ra, In ra refattrs -> ~ has_attr t ra.

(* the first mention of ra comes before any of ra' *)
Definition earlier (refattrs : list str) (ra ra' : str) : Prop :=
  exists l1 l2, refattrs = l1 ++ ra :: l2 /\ ~ In ra' (l1 ++ [ra]).
(* l is the list of tiers of g, every tier after the one it refers to, every tier
   together with its transitive dependents; tiers without a reference in the order
   they had, dependents of one tier by attribute and then in the order they had *)
Definition in_tier_order (g : igt) (refattrs : list str) (l : list tier) : Prop :=
  Permutation l (g_tiers g)
  /\ (forall t rt, In t (g_tiers g) -> depends g refattrs t rt -> before l rt t)
  /\ (forall a, In a (g_tiers g) -> contiguous l (in_block g refattrs a))
  /\ (forall t t', before (g_tiers g) t t' -> root refattrs t -> root refattrs t' -> before l t t')
  /\ (forall t t' ra i, before (g_tiers g) t t' -> refers_via refattrs t ra i -> refers_via refattrs t' ra i -> before l t t')
  /\ (forall t t' ra ra' i, In t (g_tiers g) -> In t' (g_tiers g) -> refers_via refattrs t ra i -> refers_via refattrs t' ra' i ->
        earlier refattrs ra ra' -> before l t t').
