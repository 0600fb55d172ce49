(* Concrete igts for the traversal theorems, and counterexamples. *)
From Verif Require Import PyStr PyStrFacts Ref SpecRef Model ModelExamples Value SpecValue ValueProofs ValueExamples Index SpecIndex IndexProofs IndexExamples Query SpecQuery QueryProofs.

Section Ex.
Context {U : Unicode}.

Lemma named_by g : forallb (fun t => match tier_id t with
    | Some i => negb (str_eqb i []) && (length (filter (fun y => opt_eqb str_eqb (tier_id y) (Some i)) (g_tiers g)) =? 1)
    | None => true end) (g_tiers g) = true -> tiers_named g.
Proof.
  intros H t i Ht Hi. rewrite forallb_forall in H. specialize (H t Ht). rewrite Hi in H. apply andb_prop in H as [H1 H2].
  apply Nat.eqb_eq in H2. split; [intros ->; discriminate|]. split; [easy|]. split; [easy|]. intros y Hy Ey.
  assert (Hf : forall z, In z (g_tiers g) -> tier_id z = Some i -> In z (filter (fun y => opt_eqb str_eqb (tier_id y) (Some i)) (g_tiers g))).
  { intros z Hz Ez. apply filter_In. split; [easy|]. rewrite Ez. cbn. apply str_eqb_refl. }
  assert (Fx := Hf t Ht Hi). assert (Fy := Hf y Hy Ey).
  destruct (filter _ (g_tiers g)) as [|a [|b l']]; try discriminate. destruct Fx as [<-|[]], Fy as [<-|[]]. easy.
Qed.

Definition up_ras : list str := [L "alignment"; L "segmentation"].
(* a decision procedure for tiers_resolvable *)
Lemma resolvable_by g refattrs : tiers_named g ->
  forallb (fun t => match find (dmem (a_dict (t_attrs t))) refattrs with
    | None => true
    | Some ra => match dereference g empty_index (NTier t) ra with Ok (Some (NTier _)) => true | _ => false end
    end) (g_tiers g) = true -> tiers_resolvable g refattrs.
Proof.
  intros Hn H t ra Ht Ha. rewrite forallb_forall in H. specialize (H t Ht). apply find_first_attr in Ha. rewrite Ha in H.
  destruct (dereference g empty_index (NTier t) ra) as [[[rt|]|]|] eqn:E; try discriminate. exists rt.
  apply (dereference_tier g empty_index); auto. intros k n [=].
Qed.
Lemma acyclic_by g refattrs rank : tiers_named g ->
  forallb (fun t => match find (dmem (a_dict (t_attrs t))) refattrs with
    | None => true
    | Some ra => match dereference g empty_index (NTier t) ra with Ok (Some (NTier rt)) => rank rt <? rank t | _ => true end
    end) (g_tiers g) = true -> up_acyclic g refattrs rank.
Proof.
  intros Hn H t ra rt Ht Ha Hr. rewrite forallb_forall in H. specialize (H t Ht). apply find_first_attr in Ha. rewrite Ha in H.
  apply (dereference_tier g empty_index) in Hr; auto; [|intros k n [=]]. rewrite Hr in H. now apply Nat.ltb_lt.
Qed.

(* aa -> bb -> cc -> bb *)
Definition taa : tier := mk_tier (L "aa") [(L "alignment", L "bb")] [].
Definition tbb : tier := mk_tier (L "bb") [(L "alignment", L "cc")] [].
Definition tcc : tier := mk_tier (L "cc") [(L "alignment", L "bb")] [].
Definition ring_igt : igt := mk_igt [taa; tbb; tcc].

Lemma ring_step f x visited t t' i : In (t, t', i) [(taa, tbb, L "bb"); (tbb, tcc, L "cc"); (tcc, tbb, L "bb")] ->
  okey_mem (Some i) visited = false ->
  snd (ancestors_from (S f) ring_igt x up_ras visited t [])
  = snd (ancestors_from f ring_igt x up_ras (visited_update visited i) t' []).
Proof.
  intros Hin Hv.
  assert (Hd : dereference ring_igt x (NTier t) (L "alignment") = Ok (Some (NTier t')) /\ tier_id t' = Some i
               /\ dget (a_dict (t_attrs t)) (L "alignment") <> None /\ t_items t' = []).
  { destruct Hin as [[= <- <- <-]|[[= <- <- <-]|[[= <- <- <-]|[]]]]; (split; [vm_compute; reflexivity|]); (split; [reflexivity|]);
      (split; [vm_compute; discriminate|reflexivity]). }
  destruct Hd as (Hd & Hi & Ha & He). cbn [ancestors_from].
  assert (Hf : find (dmem (a_dict (t_attrs t))) up_ras = Some (L "alignment")).
  { unfold up_ras. cbn [find]. unfold dmem. now destruct (dget (a_dict (t_attrs t)) (L "alignment")). }
  rewrite Hf. change (L "alignment") with (Ch "a" :: L "lignment") at 1. cbn iota. rewrite Hd, Hi, Hv, He. cbn [filter].
  destruct (ancestors_from f _ _ _ _ _ _) as [hs e]. reflexivity.
Qed.
Lemma two_chars visited i j b c : j = [b; c] ->
  okey_mem (Some j) visited = false -> okey_mem (Some j) (visited_update visited i) = false.
Proof.
  intros -> Hv. unfold okey_mem, visited_update in *. rewrite existsb_app, Hv, orb_false_r.
  induction i as [|d i IH]; [easy|]. cbn [map existsb]. rewrite IH, orb_false_r.
  destruct (okey_spec (Some [b; c]) (Some [d])); [discriminate|easy].
Qed.
Lemma ring_diverges f x : forall visited t, In t [taa; tbb; tcc] ->
  okey_mem (Some (L "bb")) visited = false -> okey_mem (Some (L "cc")) visited = false ->
  snd (ancestors_from f ring_igt x up_ras visited t []) = Unfinished.
Proof.
  induction f as [|f IH]; intros visited t Hin Hb Hc; [reflexivity|].
  assert (exists t' i, In (t, t', i) [(taa, tbb, L "bb"); (tbb, tcc, L "cc"); (tcc, tbb, L "bb")]
           /\ In t' [taa; tbb; tcc] /\ okey_mem (Some i) visited = false) as (t' & i & H1 & H2 & H4).
  { destruct Hin as [<-|[<-|[<-|[]]]].
    - exists tbb, (L "bb"). split; [now left|]. split; [right; now left|]. easy.
    - exists tcc, (L "cc"). split; [right; now left|]. split; [right; right; now left|]. easy.
    - exists tbb, (L "bb"). split; [right; right; now left|]. split; [right; now left|]. easy. }
  rewrite (ring_step f x visited t t' i H1 H4). apply IH; [easy| |]; eapply two_chars; eauto; reflexivity.
Qed.
Lemma c18_diverges : exists (g : igt) (h : list igt) (n : node),
  tiers_named g /\ tiers_resolvable g [L "alignment"; L "segmentation"] /\ In (start_tier n) (g_tiers g)
  /\ forall fuel, snd (ancestors fuel g (index_after h) [L "alignment"; L "segmentation"] n) = Unfinished.
Proof.
  exists ring_igt, [ring_igt], (NTier taa). assert (Hn : tiers_named ring_igt) by (apply named_by; reflexivity).
  split; [easy|]. split; [apply resolvable_by; [easy|reflexivity]|]. split; [now left|].
  intros fuel. apply ring_diverges; [now left|reflexivity|reflexivity].
Qed.

(* gloss -> words -> w -> p *)
Definition early_igt : igt :=
  mk_igt [mk_tier (L "gloss") [(L "alignment", L "words")] []; mk_tier (L "words") [(L "segmentation", L "w")] [];
          mk_tier (L "w") [(L "segmentation", L "p")] []; mk_tier (L "p") [] []].
Lemma c18_early_stop : exists (g : igt) (h : list igt) (n : node) (hs : list hop) (ra : str),
  tiers_named g /\ tiers_resolvable g [L "alignment"; L "segmentation"] /\ In (start_tier n) (g_tiers g)
  /\ (forall fuel, 5 <= fuel -> ancestors fuel g (index_after h) [L "alignment"; L "segmentation"] n = (hs, Finished))
  /\ NoDup (tier_id (start_tier n) :: map (fun h => tier_id (h_to h)) hs)
  /\ In ra [L "alignment"; L "segmentation"] /\ has_attr (last (map h_to hs) (start_tier n)) ra.
Proof.
  assert (Hn : tiers_named early_igt) by (apply named_by; reflexivity).
  exists early_igt, [early_igt], (NTier (mk_tier (L "gloss") [(L "alignment", L "words")] [])).
  eexists _, (L "segmentation"). split; [easy|]. split; [apply resolvable_by; [easy|reflexivity]|]. split; [now left|].
  split; [intros fuel Hf; do 5 (destruct fuel as [|fuel]; [lia|]); vm_compute; reflexivity|].
  split; [|split; [vm_compute; auto|vm_compute; discriminate]].
  repeat constructor; vm_compute; intuition discriminate.
Qed.

Lemma c18_example :
  tiers_named sample_igt /\ tiers_resolvable sample_igt up_ras /\ short_ids sample_igt
  /\ up_acyclic sample_igt up_ras sample_rank /\ no_char_clash sample_igt
  /\ exists h1 h2, (forall fuel, 4 <= fuel -> ancestors fuel sample_igt (construct_index sample_igt) up_ras (NItem tm m1) = ([h1; h2], Finished))
       /\ h_to h1 = tw /\ h_items h1 = [w1] /\ h_to h2 = tp /\ h_items h2 = [p1].
Proof.
  assert (Hn : tiers_named sample_igt) by (apply named_by; reflexivity).
  split; [easy|]. split; [apply resolvable_by; [easy|reflexivity]|].
  split; [intros t i [<-|[<-|[<-|[]]]] [= <-]; eexists; reflexivity|].
  split; [apply acyclic_by; [easy|reflexivity]|]. split.
  - intros t t' c i Ht [<-|[<-|[<-|[]]]] E [= <-] [H|[]]; now rewrite <- H.
  - eexists _, _. split; [intros fuel Hf; do 4 (destruct fuel as [|fuel]; [lia|]); vm_compute; reflexivity|]. repeat split; reflexivity.
Qed.

Lemma c19_example :
  tiers_named sample_igt /\ In tp (g_tiers sample_igt) /\ tier_id tp <> None
  /\ reaches sample_igt [L "segmentation"; L "alignment"] tp tm
  /\ exists h1 h2, (forall fuel, 4 <= fuel -> descendants fuel sample_igt (construct_index sample_igt) [L "segmentation"; L "alignment"] false (NItem tp p1) = ([h1; h2], Finished))
       /\ h_to h1 = tw /\ h_items h1 = [w1] /\ h_to h2 = tm /\ h_items h2 = [m1; m2].
Proof.
  split; [apply named_by; reflexivity|]. split; [vm_compute; auto|]. split; [discriminate|]. split.
  - apply reach_more with (t' := tw) (ra := L "segmentation"); [|now left|].
    + apply reach_one with (ra := L "segmentation"); [now left|]. split; [vm_compute; auto|]. split; [discriminate|].
      exists (L "p"). split; [reflexivity|]. exists (L "p"). split; [reflexivity|vm_compute; auto].
    + split; [vm_compute; auto|]. split; [discriminate|]. exists (L "w"). split; [reflexivity|]. exists (L "w"). split; [reflexivity|vm_compute; auto].
  - eexists _, _. split; [intros fuel Hf; do 4 (destruct fuel as [|fuel]; [lia|]); vm_compute; reflexivity|]. repeat split; reflexivity.
Qed.
(* and on a cycle *)
Lemma c19_cycle_example :
  tiers_named ring_igt /\ exists hs, (forall fuel, 5 <= fuel -> descendants fuel ring_igt (construct_index ring_igt) [L "alignment"] false (NTier tbb) = (hs, Finished))
    /\ map (fun h => tier_id (h_to h)) hs = [Some (L "aa"); Some (L "cc"); Some (L "bb")].
Proof.
  split; [apply named_by; reflexivity|]. eexists. split; [|].
  - intros fuel Hf. do 5 (destruct fuel as [|fuel]; [lia|]). vm_compute. reflexivity.
  - reflexivity.
Qed.
End Ex.
