(* Concrete igts for the sort_tiers theorems, and counterexamples. *)
From Coq Require Import Permutation.
From Verif Require Import PyStr PyStrFacts Model ModelExamples Value SpecValue ValueExamples Index IndexExamples Query SpecQuery QueryExamples SortTiers SpecSortTiers SortTiersProofs.

Definition sort_ras : list str := [L "segmentation"; L "alignment"; L "content"].

(* decision procedures for the hypotheses *)
Lemma prio_resolvable_by g refattrs :
  forallb (fun t => match first_refattr 0 refattrs t with
    | Some (i, _) => existsb (fun rt => opt_eqb str_eqb (tier_id rt) (Some i)) (g_tiers g)
    | None => true end) (g_tiers g) = true -> prio_resolvable g refattrs.
Proof.
  intros H t i Ht Hp. rewrite forallb_forall in H. specialize (H t Ht).
  destruct (first_refattr_prio _ _ _ Hp 0) as [j Hj]. rewrite Hj in H. apply existsb_exists in H as (rt & Hrt & E).
  exists rt. split; [easy|]. destruct (tier_id rt) as [k|]; [|discriminate]. cbn in E. apply str_eqb_eq in E. now subst.
Qed.
Lemma prio_acyclic_by g refattrs rank :
  forallb (fun t => match first_refattr 0 refattrs t with
    | Some (i, _) => forallb (fun rt => negb (opt_eqb str_eqb (tier_id rt) (Some i)) || (rank rt <? rank t)) (g_tiers g)
    | None => true end) (g_tiers g) = true -> prio_acyclic g refattrs rank.
Proof.
  intros H t rt Ht (i & Hp & Hrt & Hi). rewrite forallb_forall in H. specialize (H t Ht).
  destruct (first_refattr_prio _ _ _ Hp 0) as [j Hj]. rewrite Hj in H. rewrite forallb_forall in H. specialize (H rt Hrt).
  rewrite Hi in H. cbn in H. rewrite str_eqb_refl in H. cbn in H. now apply Nat.ltb_lt.
Qed.

(* glosses -> words; tags -> words; words -> phrases; notes *)
Definition st_g : tier := mk_tier (L "glosses") [(L "alignment", L "words")] [].
Definition st_n : tier := mk_tier (L "notes") [] [].
Definition st_w : tier := mk_tier (L "words") [(L "segmentation", L "phrases"); (L "alignment", L "notes")] [].
Definition st_m : tier := mk_tier (L "morphs") [(L "segmentation", L "words")] [].
Definition st_p : tier := mk_tier (L "phrases") [] [].
Definition st_t : tier := mk_tier (L "tags") [(L "alignment", L "words")] [].
Definition st_igt : igt := mk_igt [st_g; st_n; st_w; st_m; st_p; st_t].
Definition st_rank (t : tier) : nat :=
  if opt_eqb str_eqb (tier_id t) (Some (L "notes")) || opt_eqb str_eqb (tier_id t) (Some (L "phrases")) then 0
  else if opt_eqb str_eqb (tier_id t) (Some (L "words")) then 1 else 2.
Lemma c20_example :
  NoDup (map tier_id (g_tiers st_igt)) /\ prio_resolvable st_igt sort_ras /\ prio_acyclic st_igt sort_ras st_rank
  /\ sort_tiers 5 st_igt sort_ras = Some (Ok [st_n; st_p; st_w; st_m; st_g; st_t]).
Proof.
  split; [repeat constructor; vm_compute; intuition discriminate|].
  split; [apply prio_resolvable_by; reflexivity|]. split; [apply prio_acyclic_by; reflexivity|vm_compute; reflexivity].
Qed.

(* tiers without id share their entries *)
Definition noid_tier (ats : list (str * str)) : tier :=
  {| t_attrs := {| a_id := None; a_type := None; a_dict := ats; a_ns := None; a_nsmap := None |}; t_md := []; t_items := [] |}.
Definition ni_q : tier := mk_tier (L "q") [] [].
Definition ni_1 : tier := noid_tier [(L "segmentation", L "p")].
Definition ni_2 : tier := noid_tier [(L "segmentation", L "q")].
Definition ni_p : tier := mk_tier (L "p") [] [].
Definition ni_igt : igt := mk_igt [ni_q; ni_1; ni_2; ni_p].
Definition ni_mixed : igt := mk_igt [ni_1; ni_q; ni_2; ni_p].
Lemma c20_any_example : g_tiers ni_mixed = [ni_1; ni_q; ni_2; ni_p]
  /\ sort_tiers 5 ni_mixed sort_ras = Some (Ok [ni_q; ni_1; ni_2; ni_p])
  /\ sort_tiers 5 {| g_attrs := g_attrs ni_mixed; g_md := g_md ni_mixed; g_tiers := [ni_q; ni_1; ni_2; ni_p] |} sort_ras = Some (Ok [ni_q; ni_1; ni_2; ni_p]).
Proof. repeat split; vm_compute; reflexivity. Qed.
Lemma c20_no_ids : exists (g : igt) (refattrs : list str) (rank : tier -> nat) (l : list tier) (t rt : tier),
  NoDup (g_tiers g) /\ prio_resolvable g refattrs /\ prio_acyclic g refattrs rank
  /\ (forall fuel, 3 <= fuel -> sort_tiers fuel g refattrs = Some (Ok l))
  /\ In t (g_tiers g) /\ depends g refattrs t rt /\ ~ before l rt t.
Proof.
  exists ni_igt, sort_ras, (fun t => match tier_id t with None => 1 | _ => 0 end), [ni_q; ni_1; ni_2; ni_p], ni_1, ni_p.
  split; [repeat constructor; vm_compute; intuition discriminate|].
  split; [apply prio_resolvable_by; reflexivity|]. split; [apply prio_acyclic_by; reflexivity|].
  split; [intros fuel Hf; do 3 (destruct fuel as [|fuel]; [lia|]); vm_compute; reflexivity|].
  split; [right; now left|]. split.
  - exists (L "p"). split; [|split; [right; right; right; now left|reflexivity]].
    apply (first_refattr_some sort_ras ni_1 0 (L "p") 0). reflexivity.
  - intros (l1 & l2 & l3 & E).
    assert (Hne : ni_p <> ni_q /\ ni_p <> ni_1 /\ ni_p <> ni_2 /\ ni_1 <> ni_p)
      by (repeat split; vm_compute; discriminate).
    destruct Hne as (N1 & N2 & N3 & N4).
    assert (Hl : length [ni_q; ni_1; ni_2; ni_p] = length (l1 ++ ni_p :: l2 ++ ni_1 :: l3)) by now rewrite E.
    do 3 (destruct l1 as [|? l1]; [injection E as E _; congruence|]; injection E as _ E).
    rewrite !app_length in Hl. cbn in Hl. rewrite app_length in Hl. cbn in Hl. lia.
Qed.

(* two tiers referring to each other *)
Definition cyc_1 : tier := mk_tier (L "a") [(L "alignment", L "b")] [].
Definition cyc_2 : tier := mk_tier (L "b") [(L "alignment", L "a")] [].
Definition cyc_igt : igt := mk_igt [cyc_1; cyc_2].
Lemma cyc_ids : NoDup (map tier_id (g_tiers cyc_igt)).
Proof. repeat constructor; vm_compute; intuition discriminate. Qed.
Lemma cyc_depends : depends cyc_igt sort_ras cyc_1 cyc_2 /\ depends cyc_igt sort_ras cyc_2 cyc_1.
Proof.
  split; [exists (L "b")|exists (L "a")]; (split; [|split; [vm_compute; auto|reflexivity]]).
  - apply (first_refattr_some sort_ras cyc_1 0 (L "b") 1). reflexivity.
  - apply (first_refattr_some sort_ras cyc_2 0 (L "a") 1). reflexivity.
Qed.
Lemma c21_cycle : exists (g : igt) (refattrs : list str),
  NoDup (map tier_id (g_tiers g)) /\ prio_resolvable g refattrs /\ forall fuel, sort_tiers fuel g refattrs = None.
Proof.
  exists cyc_igt, sort_ras. split; [exact cyc_ids|]. split; [apply prio_resolvable_by; reflexivity|].
  apply (sort_tiers_cycle cyc_igt sort_ras cyc_ids cyc_1); [now left|apply prio_resolvable_by; reflexivity|].
  apply dep_more with (t' := cyc_2); [apply cyc_depends|]. apply dep_one. apply cyc_depends.
Qed.
Lemma c21_cycle_example :
  NoDup (map tier_id (g_tiers cyc_igt)) /\ In cyc_1 (g_tiers cyc_igt) /\ prio_resolvable cyc_igt sort_ras
  /\ depends_plus cyc_igt sort_ras cyc_1 cyc_1.
Proof.
  split; [exact cyc_ids|]. split; [now left|]. split; [apply prio_resolvable_by; reflexivity|].
  apply dep_more with (t' := cyc_2); [apply cyc_depends|]. apply dep_one. apply cyc_depends.
Qed.
Lemma c21_missing_example :
  sort_tiers 3 (mk_igt [st_p; cyc_1]) sort_ras = Some (Err KeyError)
  /\ prio sort_ras cyc_1 (L "b") /\ ~ exists rt, In rt [st_p; cyc_1] /\ tier_id rt = Some (L "b").
Proof.
  split; [vm_compute; reflexivity|]. split; [apply (first_refattr_some sort_ras cyc_1 0 (L "b") 1); reflexivity|].
  intros (rt & [<-|[<-|[]]] & H); discriminate.
Qed.
