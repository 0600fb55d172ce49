(* Concrete igts for the index theorems, and counterexamples. *)
From Verif Require Import PyStr PyStrFacts Ref SpecRef Model ModelExamples Value SpecValue ValueExamples Index SpecIndex IndexProofs.

Definition mk_igt (l : list tier) : igt := {| g_attrs := mk_attrs (L "i1") []; g_md := []; g_tiers := l |}.
Definition node_ids (g : igt) : list (option str) := map node_id (all_nodes g).

Section Ex.
Context {U : Unicode}.

Fixpoint all_distinct (l : list (option str)) : bool :=
  match l with
  | [] => true
  | None :: l => all_distinct l
  | Some i :: l => negb (existsb (fun o => opt_eqb str_eqb o (Some i)) l) && all_distinct l
  end.
Lemma distinct_by l : all_distinct (map node_id l) = true -> ids_distinct l.
Proof.
  intros H.
  assert (W : forall p q n m i, p < q -> nth_error l p = Some n -> nth_error l q = Some m ->
              node_id n = Some i -> node_id m = Some i -> False).
  { induction l as [|a l IH]; intros p q n m i Hpq Hp Hq Hn Hm; [destruct p; discriminate|].
    destruct q as [|q]; [lia|]. cbn [nth_error map all_distinct] in *. destruct p as [|p].
    - injection Hp as ->. rewrite Hn in H. apply andb_prop in H as [H _]. apply negb_true_iff in H.
      assert (E : existsb (fun o => opt_eqb str_eqb o (Some i)) (map node_id l) = true); [|congruence].
      apply existsb_exists. exists (Some i). split; [|cbn; apply str_eqb_refl]. rewrite <- Hm. apply in_map.
      now apply nth_error_In in Hq.
    - apply (IH) with (p := p) (q := q) (n := n) (m := m) (i := i); auto; [|lia].
      destruct (node_id a); [now apply andb_prop in H|easy]. }
  intros p q n m i Hp Hq Hn Hm. destruct (Nat.lt_trichotomy p q) as [Hlt|[E|Hlt]]; [|easy|]; exfalso; eauto.
Qed.
Lemma accepted_by g : forallb (fun o => match o with Some i => id_accepted i | None => true end) (node_ids g) = true -> ids_accepted g.
Proof.
  intros H n i Hn Hi. rewrite forallb_forall in H. specialize (H (Some i)). apply H. rewrite <- Hi. now apply in_map.
Qed.

Lemma sample_ok : ids_distinct (all_nodes sample_igt) /\ ids_accepted sample_igt.
Proof. split; [now apply distinct_by|now apply accepted_by]. Qed.

(* two items of different tiers may share an id *)
Definition ga : item := mk_item (L "a") (L "x").
Definition gb : item := ref_item (L "b") [(L "content", L "a")].
Definition gb' : item := mk_item (L "b") (L "y").
Definition shared_igt : igt := mk_igt [mk_tier (L "t1") [] [ga]; mk_tier (L "t2") [] [gb]; mk_tier (L "t3") [] [gb']].
Lemma c15_shared_refuted : exists (g : igt) (n n' : node) (i j ra : str) (mi mj : refmap),
  is_item_of g n /\ node_id n = Some i /\ is_item_of g n' /\ node_id n' = Some j
  /\ referrers g (construct_index g) i None = Ok mi /\ referents g (construct_index g) j None = Ok mj
  /\ In j (entry mi ra) /\ ~ In i (entry mj ra).
Proof.
  exists shared_igt, (NItem (mk_tier (L "t1") [] [ga]) ga), (NItem (mk_tier (L "t2") [] [gb]) gb), (L "a"), (L "b"), (L "content").
  eexists _, _. split; [exists (mk_tier (L "t1") [] [ga]), ga; split; [easy|]; split; vm_compute; auto|]. split; [easy|].
  split; [exists (mk_tier (L "t2") [] [gb]), gb; split; [easy|]; split; vm_compute; auto|]. split; [easy|].
  split; [vm_compute; reflexivity|]. split; [vm_compute; reflexivity|]. split; vm_compute; [auto|intros []].
Qed.

(* so may an item and a tier *)
Definition clash_tier : tier := mk_tier (L "b") [] [gb].
Definition clash_igt : igt := mk_igt [mk_tier (L "t1") [] [ga]; clash_tier].
Lemma c15_clash_refuted : exists (g : igt) (n n' : node) (i j ra : str) (mi mj : refmap),
  ids_distinct (item_nodes g) /\ ids_distinct (tier_nodes g)
  /\ is_item_of g n /\ node_id n = Some i /\ is_item_of g n' /\ node_id n' = Some j
  /\ referrers g (construct_index g) i None = Ok mi /\ referents g (construct_index g) j None = Ok mj
  /\ In j (entry mi ra) /\ ~ In i (entry mj ra).
Proof.
  exists clash_igt, (NItem (mk_tier (L "t1") [] [ga]) ga), (NItem clash_tier gb), (L "a"), (L "b"), (L "content").
  eexists _, _. split; [now apply distinct_by|]. split; [now apply distinct_by|].
  split; [exists (mk_tier (L "t1") [] [ga]), ga; split; [easy|]; split; vm_compute; auto|]. split; [easy|].
  split; [exists clash_tier, gb; split; [easy|]; split; vm_compute; auto|]. split; [easy|].
  split; [vm_compute; reflexivity|]. split; [vm_compute; reflexivity|]. split; vm_compute; [auto|intros []].
Qed.

(* an id mentioned twice is cached twice, but found once *)
Definition twice_igt : igt :=
  mk_igt [mk_tier (L "t1") [] [ga]; mk_tier (L "t2") [] [ref_item (L "c") [(L "content", L "a,a")]]].
(* an item may refer to a tier *)
Definition cross_igt : igt :=
  mk_igt [mk_tier (L "t1") [] [ga]; mk_tier (L "t2") [] [ref_item (L "c") [(L "content", L "t1")]]].
Lemma c16_twice_refuted : exists (g : igt) (i ra : str) (m : refmap),
  ids_distinct (all_nodes g) /\ ids_accepted g /\ refattr ra
  /\ referrers g (construct_index g) i (Some [ra]) = Ok m
  /\ length (entry (cached_referrers (construct_index g) i) ra) = 2 /\ length (entry m ra) = 1.
Proof.
  exists twice_igt, (L "a"), (L "content"). eexists. split; [now apply distinct_by|]. split; [now apply accepted_by|].
  split; [vm_compute; auto|]. split; [vm_compute; reflexivity|]. split; reflexivity.
Qed.
Lemma c16_cross_refuted : exists (g : igt) (i j ra : str) (m : refmap),
  ids_distinct (all_nodes g) /\ ids_accepted g /\ refattr ra
  /\ referrers g (construct_index g) i (Some [ra]) = Ok m
  /\ In j (entry (cached_referrers (construct_index g) i) ra) /\ ~ In j (entry m ra).
Proof.
  exists cross_igt, (L "t1"), (L "c"), (L "content"). eexists. split; [now apply distinct_by|]. split; [now apply accepted_by|].
  split; [vm_compute; auto|]. split; [vm_compute; reflexivity|]. split; vm_compute; [auto|intros []].
Qed.

(* a removed item is still found *)
Lemma c17_stale_refuted : exists (g1 g2 : igt) (k : str) (n : node),
  get_item (index_after [g1; g2]) k = Some n /\ forall m, is_item_of g2 m -> node_id m <> Some k.
Proof.
  exists twice_igt, (mk_igt []), (L "a"). eexists. split; [vm_compute; reflexivity|]. intros m (t & i & _ & [] & _).
Qed.

(* the hypotheses of the theorems, on the sample igt *)
Lemma c15_example :
  the_member tier_id (g_tiers sample_igt) (L "p") tp /\ the_member tier_id (g_tiers sample_igt) (L "w") tw
  /\ ids_distinct (all_nodes sample_igt) /\ ids_accepted sample_igt
  /\ is_item_of sample_igt (NItem tp p1) /\ is_item_of sample_igt (NItem tm m2)
  /\ referrers sample_igt (construct_index sample_igt) (L "p1") (Some [L "content"]) = Ok [(L "content", [L "m2"])]
  /\ referents sample_igt (construct_index sample_igt) (L "m2") (Some [L "content"]) = Ok [(L "content", [L "p1"; L "p1"])].
Proof.
  split; [now apply the_member_by|]. split; [now apply the_member_by|]. split; [apply sample_ok|]. split; [apply sample_ok|].
  split; [exists tp, p1; vm_compute; auto|]. split; [exists tm, m2; vm_compute; auto 10|]. split; vm_compute; reflexivity.
Qed.

Definition clean_igt : igt := mk_igt [mk_tier (L "t1") [] [ga]; mk_tier (L "t2") [(L "content", L "t1")] [gb]].
Lemma c16_example :
  ids_distinct (all_nodes clean_igt) /\ ids_accepted clean_igt
  /\ (forall o ra, refattr ra -> In o (all_nodes clean_igt) -> lists o ra (L "a") -> (is_tier_of clean_igt o <-> is_tier_of clean_igt (NItem (mk_tier (L "t1") [] [ga]) ga)))
  /\ (forall o e ra, In o (all_nodes clean_igt) -> dget (a_dict (node_attrs o)) ra = Some e -> NoDup (ids e))
  /\ entry (cached_referrers (construct_index clean_igt) (L "a")) (L "content") = [L "b"].
Proof.
  split; [now apply distinct_by|]. split; [now apply accepted_by|]. split; [|split; [|reflexivity]].
  - intros o ra Hra [<-|[<-|[<-|[<-|[]]]]] (e & E & H);
      destruct Hra as [<-|[<-|[<-|[]]]]; vm_compute in E; try discriminate E; injection E as <-; vm_compute in H;
      try (destruct H as [H|[]]; discriminate H).
    split; intros (t & [=] & _).
  - intros o e ra [<-|[<-|[<-|[<-|[]]]]] E; cbn in E; try discriminate E;
      (destruct (str_eqb _ _); [|discriminate E]; injection E as <-; vm_compute; constructor; [easy|constructor]).
Qed.

Lemma c17_example :
  get_item (construct_index sample_igt) (L "w1") = Some (NItem tw w1)
  /\ get_item (construct_index sample_igt) (L "zz") = None
  /\ get_item (index_after [sample_igt; sample_igt]) (L "m2") = Some (NItem tm m2).
Proof. repeat split; vm_compute; reflexivity. Qed.

Lemma c50_example :
  dget (a_dict (node_attrs (NItem tm m2))) (L "content") = Some (show m2_expr) /\ wf_loose m2_expr
  /\ dereference sample_igt (construct_index sample_igt) (NItem tm m2) (L "content") = Ok (Some (NItem tp p1))
  /\ dereference_all sample_igt (construct_index sample_igt) (NItem tm m2) (L "content")
     = Ok [Some (NItem tp p1); Some (NItem tp p1)]
  /\ dereference sample_igt (construct_index sample_igt) (NTier tm) (L "content") = Ok (Some (NTier tp)).
Proof. split; [reflexivity|]. split; [exact wf_m2|]. repeat split; vm_compute; reflexivity. Qed.
End Ex.
