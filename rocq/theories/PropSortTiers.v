(* C20, C21: Igt.sort_tiers. *)
From Coq Require Import Permutation.
From Verif Require Import PyStr Model Value SpecValue Index Query SpecQuery SortTiers SpecSortTiers SortTiersProofs SortTiersUnique SortTiersAny IndexExamples SortTiersExamples.

(* ---------- C20 ---------- *)

(* Acyclic, resolvable references and distinct ids (at most one tier without):
   the result permutes the tiers, every tier comes after the one it refers to,
   every tier and its transitive dependents are contiguous; tiers without a
   reference keep their order, dependents of one tier are ordered by attribute
   and then as before. *)
Theorem C20_order : forall (g : igt) (refattrs : list str) (rank : tier -> nat),
  NoDup (map tier_id (g_tiers g)) -> prio_resolvable g refattrs -> prio_acyclic g refattrs rank ->
  exists n l, (forall m, n <= m -> sort_tiers m g refattrs = Some (Ok l))
  /\ in_tier_order g refattrs l.
Proof. exact sort_tiers_spec. Qed.
Print Assumptions C20_order.

Example C20_example :
  NoDup (map tier_id (g_tiers st_igt)) /\ prio_resolvable st_igt sort_ras /\ prio_acyclic st_igt sort_ras st_rank
  /\ sort_tiers 5 st_igt sort_ras = Some (Ok [st_n; st_p; st_w; st_m; st_g; st_t]).
Proof. exact c20_example. Qed.

(* This order is the only one of that kind, *)
Theorem C20_unique : forall (g : igt) (refattrs : list str) (rank : tier -> nat),
  NoDup (map tier_id (g_tiers g)) -> prio_resolvable g refattrs -> prio_acyclic g refattrs rank ->
  forall l l', in_tier_order g refattrs l -> in_tier_order g refattrs l' -> l = l'.
Proof. exact unique. Qed.
Print Assumptions C20_unique.
(* so that sorting again changes nothing. *)
Theorem C20_again : forall (g : igt) (refattrs : list str) (rank : tier -> nat) (g' : igt),
  NoDup (map tier_id (g_tiers g)) -> prio_resolvable g refattrs -> prio_acyclic g refattrs rank ->
  in_tier_order g refattrs (g_tiers g') -> exists n, forall m, n <= m -> sort_tiers m g' refattrs = Some (Ok (g_tiers g')).
Proof. exact sort_again. Qed.
Print Assumptions C20_again.
Example C20_again_example : sort_tiers 5 (retiered st_igt [st_n; st_p; st_w; st_m; st_g; st_t]) sort_ras = Some (Ok [st_n; st_p; st_w; st_m; st_g; st_t])
  /\ g_tiers st_igt <> [st_n; st_p; st_w; st_m; st_g; st_t].
Proof. split; [reflexivity|]. vm_compute. discriminate. Qed.

(* Whatever ids the tiers have: no tier is lost, and those that share an id (or
   have none) keep their order; *)
Theorem C20_any : forall fuel (g : igt) (refattrs : list str) (l : list tier), sort_tiers fuel g refattrs = Some (Ok l) ->
  Permutation l (g_tiers g) /\ forall k, filter (fun t => opt_eqb str_eqb (tier_id t) k) l = filter (fun t => opt_eqb str_eqb (tier_id t) k) (g_tiers g).
Proof. exact kept_any. Qed.
Print Assumptions C20_any.
(* these come together, with no other tier between them; *)
Theorem C20_together : forall fuel (g : igt) (refattrs : list str) (l : list tier), sort_tiers fuel g refattrs = Some (Ok l) ->
  forall a t b u c x, l = a ++ t :: b ++ u :: c -> tier_id t = tier_id u -> In x b -> tier_id x = tier_id t.
Proof. exact together_any. Qed.
Print Assumptions C20_together.
(* and sorting again changes nothing. *)
Theorem C20_again_any : forall (refattrs : list str) fuel (g : igt) (l : list tier), sort_tiers fuel g refattrs = Some (Ok l) ->
  exists n, forall m, n <= m -> sort_tiers m {| g_attrs := g_attrs g; g_md := g_md g; g_tiers := l |} refattrs = Some (Ok l).
Proof. exact again_any. Qed.
Print Assumptions C20_again_any.
Example C20_any_example : g_tiers ni_mixed = [ni_1; ni_q; ni_2; ni_p]
  /\ sort_tiers 5 ni_mixed sort_ras = Some (Ok [ni_q; ni_1; ni_2; ni_p])
  /\ sort_tiers 5 {| g_attrs := g_attrs ni_mixed; g_md := g_md ni_mixed; g_tiers := [ni_q; ni_1; ni_2; ni_p] |} sort_ras = Some (Ok [ni_q; ni_1; ni_2; ni_p]).
Proof. exact c20_any_example. Qed.

(* With several tiers without id the order can be wrong. *)
Theorem C20_no_ids_refuted : exists (g : igt) (refattrs : list str) (rank : tier -> nat) (l : list tier) (t rt : tier),
  NoDup (g_tiers g) /\ prio_resolvable g refattrs /\ prio_acyclic g refattrs rank
  /\ (forall fuel, 3 <= fuel -> sort_tiers fuel g refattrs = Some (Ok l))
  /\ In t (g_tiers g) /\ depends g refattrs t rt /\ ~ before l rt t.
Proof. exact c20_no_ids. Qed.
Print Assumptions C20_no_ids_refuted.

(* ---------- C21 ---------- *)

(* Full statement: it returns whenever the references name existing tiers.
   Missing: cyclic references. *)
Theorem C21_terminates_partial : forall (g : igt) (refattrs : list str) (rank : tier -> nat),
  NoDup (map tier_id (g_tiers g)) -> prio_resolvable g refattrs -> prio_acyclic g refattrs rank ->
  exists n l, forall m, n <= m -> sort_tiers m g refattrs = Some (Ok l).
Proof. exact sort_tiers_terminates. Qed.
Print Assumptions C21_terminates_partial.

(* On a cycle it never returns. *)
Theorem C21_cycle : forall (g : igt) (refattrs : list str), NoDup (map tier_id (g_tiers g)) ->
  forall t, In t (g_tiers g) -> prio_resolvable g refattrs -> depends_plus g refattrs t t ->
  forall m, sort_tiers m g refattrs = None.
Proof. exact sort_tiers_cycle. Qed.
Print Assumptions C21_cycle.

Theorem C21_refuted : exists (g : igt) (refattrs : list str),
  NoDup (map tier_id (g_tiers g)) /\ prio_resolvable g refattrs /\ forall fuel, sort_tiers fuel g refattrs = None.
Proof. exact c21_cycle. Qed.
Print Assumptions C21_refuted.

(* It returns exactly if the references name existing tiers and are acyclic. *)
Theorem C21_exactly : forall (g : igt) (refattrs : list str), NoDup (map tier_id (g_tiers g)) ->
  (exists m l, sort_tiers m g refattrs = Some (Ok l)) <-> (prio_resolvable g refattrs /\ exists rank, prio_acyclic g refattrs rank).
Proof. exact returns_iff. Qed.
Print Assumptions C21_exactly.

(* A reference to no tier raises KeyError when references are otherwise acyclic. *)
Theorem C21_missing : forall (g : igt) (refattrs : list str) (rank : tier -> nat),
  NoDup (map tier_id (g_tiers g)) -> prio_acyclic g refattrs rank ->
  forall t i, In t (g_tiers g) -> prio refattrs t i -> (~ exists rt, In rt (g_tiers g) /\ tier_id rt = Some i) ->
  exists n, forall m, n <= m -> sort_tiers m g refattrs = Some (Err KeyError).
Proof. exact sort_tiers_missing. Qed.
Print Assumptions C21_missing.

Example C21_cycle_example :
  NoDup (map tier_id (g_tiers cyc_igt)) /\ In cyc_1 (g_tiers cyc_igt) /\ prio_resolvable cyc_igt sort_ras
  /\ depends_plus cyc_igt sort_ras cyc_1 cyc_1.
Proof. exact c21_cycle_example. Qed.
Example C21_missing_example :
  sort_tiers 3 (mk_igt [st_p; cyc_1]) sort_ras = Some (Err KeyError)
  /\ prio sort_ras cyc_1 (L "b") /\ ~ exists rt, In rt [st_p; cyc_1] /\ tier_id rt = Some (L "b").
Proof. exact c21_missing_example. Qed.
