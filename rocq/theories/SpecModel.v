(* Specification of equality: same class, same data; the order of attributes
   and the namespace prefixes do not matter. *)
From Verif Require Import PyStr Model.

Definition same_attrs (a b : attrs) : Prop :=
  a_id a = a_id b /\ a_type a = a_type b /\ a_ns a = a_ns b
  /\ forall k, dget (a_dict a) k = dget (a_dict b) k.

Inductive same_child : mchild -> mchild -> Prop :=
| Same_child n a a' t k k' : same_attrs a a' -> Forall2 same_child k k' ->
    same_child (MChild n a t k) (MChild n a' t k').
Definition same_meta (a b : meta) : Prop :=
  me_text a = me_text b /\ same_attrs (me_attrs a) (me_attrs b) /\ Forall2 same_child (me_kids a) (me_kids b).
Definition same_metadata (a b : metadata) : Prop :=
  same_attrs (md_attrs a) (md_attrs b) /\ Forall2 same_meta (md_metas a) (md_metas b).
Definition same_item (a b : item) : Prop :=
  it_text a = it_text b /\ same_attrs (it_attrs a) (it_attrs b).
Definition same_tier (a b : tier) : Prop :=
  same_attrs (t_attrs a) (t_attrs b) /\ Forall2 same_metadata (t_md a) (t_md b)
  /\ Forall2 same_item (t_items a) (t_items b).
Definition same_igt (a b : igt) : Prop :=
  same_attrs (g_attrs a) (g_attrs b) /\ Forall2 same_metadata (g_md a) (g_md b)
  /\ Forall2 same_tier (g_tiers a) (g_tiers b).
Definition same_corpus (a b : corpus) : Prop :=
  same_attrs (c_attrs a) (c_attrs b) /\ Forall2 same_metadata (c_md a) (c_md b)
  /\ Forall2 same_igt (c_igts a) (c_igts b).
Definition same_obj (a b : obj) : Prop :=
  match a, b with
  | PItem x, PItem y => same_item x y
  | PTier x, PTier y => same_tier x y
  | PIgt x, PIgt y => same_igt x y
  | PCorpus x, PCorpus y => same_corpus x y
  | PMetadata x, PMetadata y => same_metadata x y
  | PMeta x, PMeta y => same_meta x y
  | PChild x, PChild y => same_child x y
  | _, _ => False
  end.

(* dicts have distinct keys *)
Definition wf_attrs (a : attrs) : Prop :=
  NoDup (map fst (a_dict a)) /\ forall m, a_nsmap a = Some m -> NoDup (map fst m).
Inductive wf_child : mchild -> Prop :=
| Wf_child n a t k : wf_attrs a -> Forall wf_child k -> wf_child (MChild n a t k).
Definition wf_meta (m : meta) : Prop := wf_attrs (me_attrs m) /\ Forall wf_child (me_kids m).
Definition wf_metadata (m : metadata) : Prop := wf_attrs (md_attrs m) /\ Forall wf_meta (md_metas m).
Definition wf_item (i : item) : Prop := wf_attrs (it_attrs i).
Definition wf_tier (t : tier) : Prop :=
  wf_attrs (t_attrs t) /\ Forall wf_metadata (t_md t) /\ Forall wf_item (t_items t).
Definition wf_igt (g : igt) : Prop :=
  wf_attrs (g_attrs g) /\ Forall wf_metadata (g_md g) /\ Forall wf_tier (g_tiers g).
Definition wf_corpus (c : corpus) : Prop :=
  wf_attrs (c_attrs c) /\ Forall wf_metadata (c_md c) /\ Forall wf_igt (c_igts c).
Definition wf_obj (o : obj) : Prop :=
  match o with
  | PItem x => wf_item x | PTier x => wf_tier x | PIgt x => wf_igt x | PCorpus x => wf_corpus x
  | PMetadata x => wf_metadata x | PMeta x => wf_meta x | PChild x => wf_child x
  end.

Definition same_class (a b : obj) : Prop :=
  match a, b with
  | PItem _, PItem _ | PTier _, PTier _ | PIgt _, PIgt _ | PCorpus _, PCorpus _
  | PMetadata _, PMetadata _ | PMeta _, PMeta _ | PChild _, PChild _ => True
  | _, _ => False
  end.
