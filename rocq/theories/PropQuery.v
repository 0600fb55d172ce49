(* C18, C19: the traversals of xigt/query.py. *)
From Verif Require Import PyStr Ref SpecRef Model Value SpecValue ValueExamples Index SpecIndex IndexExamples Query SpecQuery QueryProofs QueryExamples.

(* ---------- C18 ---------- *)

(* What is yielded is a chain of hops with exactly the referred items, however
   far the generator is run. *)
Theorem C18_hops : forall (U : Unicode) (fuel : nat) (g : igt) (h : list igt) (refattrs : list str) (n : node),
  tiers_named g ->
  up_chain g refattrs (start_tier n) (start_items n) (fst (ancestors fuel g (index_after h) refattrs n)).
Proof. exact @ancestors_sound. Qed.
Print Assumptions C18_hops.

(* When it stops by itself: at the end of the chain, back at the start tier, or
   at a tier whose id is a character of an earlier tier's id. *)
Theorem C18_stops : forall (U : Unicode) (fuel : nat) (g : igt) (h : list igt) (refattrs : list str) (n : node) (hs : list hop),
  ~ In [] refattrs -> ancestors fuel g (index_after h) refattrs n = (hs, Finished) ->
  (exists t', last (map h_to hs) (start_tier n) = t' /\ forall ra, In ra refattrs -> ~ has_attr t' ra)
  \/ exists hs' h, hs = hs' ++ [h] /\
       (tier_id (h_to h) = tier_id (start_tier n)
        \/ exists c h' i, tier_id (h_to h) = Some [c] /\ In h' hs' /\ tier_id (h_to h') = Some i /\ In c i).
Proof. exact @ancestors_stop. Qed.
Print Assumptions C18_stops.

(* Full statement: on every igt with resolvable references the hops are the
   trail, which ends at the first revisited tier.  Missing: ids longer than one
   character ... *)
Theorem C18_short_ids_partial : forall (U : Unicode) (g : igt) (h : list igt) (refattrs : list str) (n : node),
  tiers_named g -> ~ In [] refattrs -> short_ids g -> tiers_resolvable g refattrs ->
  In (start_tier n) (g_tiers g) ->
  exists hs, trail g refattrs [tier_id (start_tier n)] (start_tier n) (start_items n) hs
    /\ eventually (fun f => ancestors f g (index_after h) refattrs n) (hs, Finished).
Proof. exact @ancestors_short. Qed.
Print Assumptions C18_short_ids_partial.

(* ... for which the chain must be acyclic and no id a character of another. *)
Theorem C18_acyclic_partial : forall (U : Unicode) (g : igt) (h : list igt) (refattrs : list str) (rank : tier -> nat) (n : node),
  tiers_named g -> ~ In [] refattrs -> tiers_resolvable g refattrs ->
  up_acyclic g refattrs rank -> no_char_clash g -> In (start_tier n) (g_tiers g) ->
  exists hs, trail g refattrs [tier_id (start_tier n)] (start_tier n) (start_items n) hs
    /\ (forall ra, In ra refattrs -> ~ has_attr (last (map h_to hs) (start_tier n)) ra)
    /\ eventually (fun f => ancestors f g (index_after h) refattrs n) (hs, Finished).
Proof. exact @ancestors_acyclic. Qed.
Print Assumptions C18_acyclic_partial.

(* Acyclic references suffice for termination, by finishing or by raising. *)
Theorem C18_acyclic_terminates : forall (U : Unicode) (g : igt) (h : list igt) (refattrs : list str) (rank : tier -> nat) (n : node),
  tiers_named g -> up_acyclic g refattrs rank -> In (start_tier n) (g_tiers g) ->
  exists hs e, e <> Unfinished /\ eventually (fun f => ancestors f g (index_after h) refattrs n) (hs, e).
Proof. exact @ancestors_terminates. Qed.
Print Assumptions C18_acyclic_terminates.

(* On a cycle that does not contain the start tier the generator never ends. *)
Theorem C18_diverges_refuted : forall U : Unicode, exists (g : igt) (h : list igt) (n : node),
  tiers_named g /\ tiers_resolvable g [L "alignment"; L "segmentation"] /\ In (start_tier n) (g_tiers g)
  /\ forall fuel, snd (ancestors fuel g (index_after h) [L "alignment"; L "segmentation"] n) = Unfinished.
Proof. exact @c18_diverges. Qed.
Print Assumptions C18_diverges_refuted.

(* It can stop early although no tier was visited twice. *)
Theorem C18_early_stop_refuted : forall U : Unicode, exists (g : igt) (h : list igt) (n : node) (hs : list hop) (ra : str),
  tiers_named g /\ tiers_resolvable g [L "alignment"; L "segmentation"] /\ In (start_tier n) (g_tiers g)
  /\ (forall fuel, 5 <= fuel -> ancestors fuel g (index_after h) [L "alignment"; L "segmentation"] n = (hs, Finished))
  /\ NoDup (tier_id (start_tier n) :: map (fun h => tier_id (h_to h)) hs)
  /\ In ra [L "alignment"; L "segmentation"] /\ has_attr (last (map h_to hs) (start_tier n)) ra.
Proof. exact @c18_early_stop. Qed.
Print Assumptions C18_early_stop_refuted.

Example C18_example : forall U : Unicode,
  tiers_named sample_igt /\ tiers_resolvable sample_igt up_ras /\ short_ids sample_igt
  /\ up_acyclic sample_igt up_ras sample_rank /\ no_char_clash sample_igt
  /\ exists h1 h2, (forall fuel, 4 <= fuel -> ancestors fuel sample_igt (construct_index sample_igt) up_ras (NItem tm m1) = ([h1; h2], Finished))
       /\ h_to h1 = tw /\ h_items h1 = [w1] /\ h_to h2 = tp /\ h_items h2 = [p1].
Proof. exact @c18_example. Qed.

(* ---------- C19 ---------- *)

(* Termination, soundness and completeness, for every reference graph. *)
Theorem C19_descendants : forall (U : Unicode) (g : igt) (x : index) (refattrs : list str) (first : bool) (n : node),
  tiers_named g -> In (start_tier n) (g_tiers g) -> tier_id (start_tier n) <> None ->
  exists hs, eventually (fun f => descendants f g x refattrs first n) (hs, Finished)
    /\ down_tree g refattrs (start_tier n) (start_items n) hs
    /\ (first = true -> forall h, In h hs -> first_down g refattrs h)
    /\ (first = false -> forall t', reaches g refattrs (start_tier n) t' -> exists h, In h hs /\ h_to h = t').
Proof. exact @descendants_sound. Qed.
Print Assumptions C19_descendants.

Example C19_example : forall U : Unicode,
  tiers_named sample_igt /\ In tp (g_tiers sample_igt) /\ tier_id tp <> None
  /\ reaches sample_igt [L "segmentation"; L "alignment"] tp tm
  /\ exists h1 h2, (forall fuel, 4 <= fuel -> descendants fuel sample_igt (construct_index sample_igt) [L "segmentation"; L "alignment"] false (NItem tp p1) = ([h1; h2], Finished))
       /\ h_to h1 = tw /\ h_items h1 = [w1] /\ h_to h2 = tm /\ h_items h2 = [m1; m2].
Proof. exact @c19_example. Qed.

Example C19_cycle_example : forall U : Unicode,
  tiers_named ring_igt /\ exists hs, (forall fuel, 5 <= fuel -> descendants fuel ring_igt (construct_index ring_igt) [L "alignment"] false (NTier tbb) = (hs, Finished))
    /\ map (fun h => tier_id (h_to h)) hs = [Some (L "aa"); Some (L "cc"); Some (L "bb")].
Proof. exact @c19_cycle_example. Qed.

(* A start tier without id raises before anything is yielded. *)
Theorem C19_no_id : forall (U : Unicode) (f : nat) (g : igt) (h : list igt) (refattrs : list str) (first : bool) (n : node),
  tier_id (start_tier n) = None -> descendants (S f) g (index_after h) refattrs first n = ([], Raised XigtError).
Proof. exact @descendants_no_id. Qed.
Print Assumptions C19_no_id.

Example C19_no_id_example : tier_id (start_tier (NTier {| t_attrs := {| a_id := None; a_type := None; a_dict := []; a_ns := None; a_nsmap := None |}; t_md := []; t_items := [] |})) = None.
Proof. reflexivity. Qed.
