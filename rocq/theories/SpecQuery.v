(* Specification of the traversals: hops along references between tiers. *)
From Verif Require Import PyStr Ref SpecRef Model Value SpecValue Index SpecIndex Query.

(* l' is l without the members that fail P *)
Inductive sieve {A} (P : A -> Prop) : list A -> list A -> Prop :=
| sieve_nil : sieve P [] []
| sieve_keep a l l' : P a -> sieve P l l' -> sieve P (a :: l) (a :: l')
| sieve_drop a l l' : ~ P a -> sieve P l l' -> sieve P (a :: l) l'.

Section SpecQuery.
Context {U : Unicode}.

(* a traversal starts from an item alone or from all items of a tier *)
Definition start_tier (n : node) : tier := match n with NItem t _ => t | NTier t => t end.
Definition start_items (n : node) : list item := match n with NItem _ i => [i] | NTier t => t_items t end.

Definition has_attr (t : tier) (ra : str) : Prop := dget (a_dict (t_attrs t)) ra <> None.
(* ra is the first of the attributes that the tier has *)
Definition first_attr (refattrs : list str) (t : tier) (ra : str) : Prop :=
  exists l1 l2, refattrs = l1 ++ ra :: l2 /\ has_attr t ra /\ forall r, In r l1 -> ~ has_attr t r.
(* the item mentions the id in its attribute *)
Definition item_lists (it : item) (ra i : str) : Prop :=
  exists e, dget (a_dict (it_attrs it)) ra = Some e /\ In i (ids e).

(* the tier of g that the first id of t's attribute names *)
Definition refers_first (g : igt) (t : tier) (ra : str) (rt : tier) : Prop :=
  exists e i l, dget (a_dict (t_attrs t)) ra = Some e /\ ids e = i :: l /\ the_member tier_id (g_tiers g) i rt.

(* a hop of ancestors() from a tier and some of its items *)
Definition up_hop (g : igt) (refattrs : list str) (t : tier) (items : list item) (h : hop) : Prop :=
  h_from h = t /\ first_attr refattrs t (h_ra h) /\ refers_first g t (h_ra h) (h_to h)
  /\ sieve (fun it => exists i, item_id it = Some i /\ exists it', In it' items /\ item_lists it' (h_ra h) i)
           (t_items (h_to h)) (h_items h).

(* consecutive hops *)
Fixpoint up_chain (g : igt) (refattrs : list str) (t : tier) (items : list item) (hs : list hop) : Prop :=
  match hs with
  | [] => True
  | h :: hs => up_hop g refattrs t items h /\ up_chain g refattrs (h_to h) (h_items h) hs
  end.

(* the chain to its end, or to the first tier seen before *)
Inductive trail (g : igt) (refattrs : list str) : list (option str) -> tier -> list item -> list hop -> Prop :=
| trail_end seen t items : (forall ra, In ra refattrs -> ~ has_attr t ra) -> trail g refattrs seen t items []
| trail_seen seen t items h : up_hop g refattrs t items h -> In (tier_id (h_to h)) seen ->
    trail g refattrs seen t items [h]
| trail_step seen t items h hs : up_hop g refattrs t items h -> ~ In (tier_id (h_to h)) seen ->
    trail g refattrs (tier_id (h_to h) :: seen) (h_to h) (h_items h) hs ->
    trail g refattrs seen t items (h :: hs).

(* every tier's prioritized reference names a tier *)
Definition tiers_resolvable (g : igt) (refattrs : list str) : Prop :=
  forall t ra, In t (g_tiers g) -> first_attr refattrs t ra -> exists rt, refers_first g t ra rt.

(* a generator ends with these results: for every large enough fuel *)
Definition eventually {A} (f : nat -> A) (r : A) : Prop := exists n, forall m, n <= m -> f m = r.

(* t', which has an id, mentions t's id in its attribute *)
Definition tier_refers (g : igt) (t' : tier) (ra : str) (t : tier) : Prop :=
  In t' (g_tiers g) /\ tier_id t' <> None /\ exists i, tier_id t = Some i /\ lists (NTier t') ra i.

(* a hop of descendants() from a tier and some of its items *)
Definition down_hop (g : igt) (refattrs : list str) (items : list item) (h : hop) : Prop :=
  In (h_ra h) refattrs /\ tier_refers g (h_to h) (h_ra h) (h_from h)
  /\ sieve (fun it => exists i it', In it' items /\ item_id it' = Some i /\ item_lists it (h_ra h) i)
           (t_items (h_to h)) (h_items h).

(* every hop starts at the start or where an earlier hop ended *)
Definition down_tree (g : igt) (refattrs : list str) (t : tier) (items : list item) (hs : list hop) : Prop :=
  forall l1 h l2, hs = l1 ++ h :: l2 ->
    exists its, down_hop g refattrs its h
      /\ (h_from h = t /\ its = items \/ exists h0, In h0 l1 /\ h_to h0 = h_from h /\ h_items h0 = its).

(* the hop uses the first attribute by which any tier refers to its source *)
Definition first_down (g : igt) (refattrs : list str) (h : hop) : Prop :=
  exists l1 l2, refattrs = l1 ++ h_ra h :: l2 /\ forall r t', In r l1 -> ~ tier_refers g t' r (h_from h).

(* the tiers that refer to t directly or indirectly *)
Inductive reaches (g : igt) (refattrs : list str) (t : tier) : tier -> Prop :=
| reach_one t' ra : In ra refattrs -> tier_refers g t' ra t -> reaches g refattrs t t'
| reach_more t' t'' ra : reaches g refattrs t t' -> In ra refattrs -> tier_refers g t'' ra t' -> reaches g refattrs t t''.

(* tier ids are distinct and non-empty, as the container and the id setter enforce *)
Definition tiers_named (g : igt) : Prop :=
  (forall t i, In t (g_tiers g) -> tier_id t = Some i -> i <> [] /\ the_member tier_id (g_tiers g) i t).

(* all tier ids are one character long *)
Definition short_ids (g : igt) : Prop := forall t i, In t (g_tiers g) -> tier_id t = Some i -> exists c, i = [c].
(* the prioritized references go down in rank *)
Definition up_acyclic (g : igt) (refattrs : list str) (rank : tier -> nat) : Prop :=
  forall t ra rt, In t (g_tiers g) -> first_attr refattrs t ra -> refers_first g t ra rt -> rank rt < rank t.
(* no tier's id is a character of another tier's id *)
Definition no_char_clash (g : igt) : Prop :=
  forall t t' c i, In t (g_tiers g) -> In t' (g_tiers g) -> tier_id t = Some [c] -> tier_id t' = Some i -> In c i -> i = [c].

End SpecQuery.
