(* Specification: corpora that settle after they were saved once as JSON. *)
From Verif Require Import PyStr SpecRef Model.

(* prefixes that are not taken for something else *)
Definition plain_prefix (p : str) : Prop := ~ In (Ch ":") p /\ forall r, p <> Ch "{" :: r.
Definition plain_map (m : dict str) : Prop := forall p u, In (p, u) m -> plain_prefix p /\ u <> [].
Definition plain_attrs (a : attrs) : Prop := forall m, a_nsmap a = Some m -> plain_map m.
Section Settle.
Context {U : Unicode}.
Definition plain_name (n : str) : Prop :=
  exists c r, n = c :: r /\ is_word c = true /\ is_digit c = false /\ forall x, In x r -> is_word x = true \/ x = Ch "-" \/ x = Ch ".".
Inductive plain_child : mchild -> Prop :=
| Plain_child n a t kids : plain_name n -> plain_attrs a -> Forall plain_child kids -> plain_child (MChild n a t kids).
Definition plain_meta (m : meta) : Prop := plain_attrs (me_attrs m) /\ Forall plain_child (me_kids m).
Definition plain_metadata (m : metadata) : Prop := plain_attrs (md_attrs m) /\ Forall plain_meta (md_metas m).
Definition plain_tier (t : tier) : Prop :=
  plain_attrs (t_attrs t) /\ Forall plain_metadata (t_md t) /\ Forall (fun i => plain_attrs (it_attrs i)) (t_items t).
Definition plain_igt (g : igt) : Prop := plain_attrs (g_attrs g) /\ Forall plain_metadata (g_md g) /\ Forall plain_tier (g_tiers g).
(* no prefix has a colon or begins with a brace, no namespace is empty, and names
   of MetaChild objects have no colon *)
Definition plain_corpus (c : corpus) : Prop := plain_attrs (c_attrs c) /\ Forall plain_metadata (c_md c) /\ Forall plain_igt (c_igts c).
End Settle.
