(* C15, C16, C17, C50: the reference indices of an Igt. *)
From Verif Require Import PyStr Ref SpecRef Model Value SpecValue ValueExamples Index SpecIndex IndexProofs IndexExamples.

(* ---------- C15 ---------- *)

(* Tiers: ids must be unique among tiers, which the container enforces.  None
   for refattrs means the default attributes. *)
Theorem C15_tiers : forall (U : Unicode) (g : igt) (x : index) (refattrs : option (list str)) (t t' : tier) (i j : str),
  the_member tier_id (g_tiers g) i t -> the_member tier_id (g_tiers g) j t' ->
  exists mi mj, referrers g x i refattrs = Ok mi /\ referents g x j refattrs = Ok mj
    /\ forall ra, In ra (match refattrs with Some l => l | None => [L "alignment"; L "content"; L "segmentation"] end) ->
         (In j (entry mi ra) <-> In i (entry mj ra)) /\ (In i (entry mj ra) <-> lists (NTier t') ra i).
Proof. exact @inverse_tiers. Qed.
Print Assumptions C15_tiers.

(* Items: full for igts in which no two objects share an id. *)
Theorem C15_items : forall (U : Unicode) (g : igt) (x : index) (refattrs : option (list str)) (n n' : node) (i j : str),
  ids_distinct (all_nodes g) -> ids_accepted g ->
  is_item_of g n -> node_id n = Some i -> is_item_of g n' -> node_id n' = Some j ->
  exists mi mj, referrers g (refresh_indices x g) i refattrs = Ok mi /\ referents g (refresh_indices x g) j refattrs = Ok mj
    /\ forall ra, In ra (match refattrs with Some l => l | None => [L "alignment"; L "content"; L "segmentation"] end) ->
         (In j (entry mi ra) <-> In i (entry mj ra)) /\ (In i (entry mj ra) <-> lists n' ra i).
Proof. exact @inverse_items. Qed.
Print Assumptions C15_items.

(* The cached tables are inverse to each other for every igt. *)
Theorem C15_cached : forall (U : Unicode) (x : index) (g : igt) (i j ra : str),
  In j (entry (cached_referrers (refresh_indices x g) i) ra)
  <-> In i (entry (cached_referents (refresh_indices x g) j) ra).
Proof. exact @inverse_cached. Qed.
Print Assumptions C15_cached.

(* Item ids are only unique within their tier: shared ids break the law. *)
Theorem C15_shared_ids_refuted : forall U : Unicode, exists (g : igt) (n n' : node) (i j ra : str) (mi mj : refmap),
  is_item_of g n /\ node_id n = Some i /\ is_item_of g n' /\ node_id n' = Some j
  /\ referrers g (construct_index g) i None = Ok mi /\ referents g (construct_index g) j None = Ok mj
  /\ In j (entry mi ra) /\ ~ In i (entry mj ra).
Proof. exact @c15_shared_refuted. Qed.
Print Assumptions C15_shared_ids_refuted.

(* So does an item with the id of a tier. *)
Theorem C15_tier_item_clash_refuted : forall U : Unicode, exists (g : igt) (n n' : node) (i j ra : str) (mi mj : refmap),
  ids_distinct (item_nodes g) /\ ids_distinct (tier_nodes g)
  /\ is_item_of g n /\ node_id n = Some i /\ is_item_of g n' /\ node_id n' = Some j
  /\ referrers g (construct_index g) i None = Ok mi /\ referents g (construct_index g) j None = Ok mj
  /\ In j (entry mi ra) /\ ~ In i (entry mj ra).
Proof. exact @c15_clash_refuted. Qed.
Print Assumptions C15_tier_item_clash_refuted.

Example C15_example : forall U : Unicode,
  the_member tier_id (g_tiers sample_igt) (L "p") tp /\ the_member tier_id (g_tiers sample_igt) (L "w") tw
  /\ ids_distinct (all_nodes sample_igt) /\ ids_accepted sample_igt
  /\ is_item_of sample_igt (NItem tp p1) /\ is_item_of sample_igt (NItem tm m2)
  /\ referrers sample_igt (construct_index sample_igt) (L "p1") (Some [L "content"]) = Ok [(L "content", [L "m2"])]
  /\ referents sample_igt (construct_index sample_igt) (L "m2") (Some [L "content"]) = Ok [(L "content", [L "p1"; L "p1"])].
Proof. exact @c15_example. Qed.

(* ---------- C16 ---------- *)

Theorem C16_referents : forall (U : Unicode) (g : igt) (x : index) (refattrs : option (list str)) (n : node) (i ra : str),
  ids_distinct (all_nodes g) -> ids_accepted g -> In n (all_nodes g) -> node_id n = Some i ->
  refattr ra -> In ra (match refattrs with Some l => l | None => [L "alignment"; L "content"; L "segmentation"] end) ->
  exists m, referents g (refresh_indices x g) i refattrs = Ok m
    /\ entry (cached_referents (refresh_indices x g) i) ra = entry m ra
    /\ forall k, In k (entry m ra) <-> lists n ra k.
Proof. exact @cached_referents_direct. Qed.
Print Assumptions C16_referents.

(* What the referrer cache holds: one entry for each mention of the id. *)
Theorem C16_referrer_cache : forall (U : Unicode) (g : igt) (x : index) (i ra : str),
  ids_distinct (all_nodes g) -> refattr ra ->
  entry (cached_referrers (refresh_indices x g) i) ra = flat_map (occurrences ra i) (all_nodes g).
Proof. exact @cached_referrers_exact. Qed.
Print Assumptions C16_referrer_cache.

(* Full statement: the cache and the direct scan agree for every igt with
   distinct ids.  Missing: igts in which a tier mentions an item or an item a
   tier, and (for equality of lists) expressions that mention an id twice. *)
Theorem C16_referrers_partial : forall (U : Unicode) (g : igt) (x : index) (refattrs : option (list str)) (n : node) (i ra : str),
  ids_distinct (all_nodes g) -> ids_accepted g -> In n (all_nodes g) -> node_id n = Some i ->
  refattr ra -> In ra (match refattrs with Some l => l | None => [L "alignment"; L "content"; L "segmentation"] end) ->
  NoDup (match refattrs with Some l => l | None => [L "alignment"; L "content"; L "segmentation"] end) ->
  (forall o, In o (all_nodes g) -> lists o ra i -> (is_tier_of g o <-> is_tier_of g n)) ->
  exists m, referrers g (refresh_indices x g) i refattrs = Ok m
    /\ (forall j, In j (entry (cached_referrers (refresh_indices x g) i) ra) <-> In j (entry m ra))
    /\ ((forall o e, In o (all_nodes g) -> dget (a_dict (node_attrs o)) ra = Some e -> NoDup (ids e)) ->
        entry (cached_referrers (refresh_indices x g) i) ra = entry m ra).
Proof. exact @cached_referrers_direct. Qed.
Print Assumptions C16_referrers_partial.

Theorem C16_repeated_mention_refuted : forall U : Unicode, exists (g : igt) (i ra : str) (m : refmap),
  ids_distinct (all_nodes g) /\ ids_accepted g /\ refattr ra
  /\ referrers g (construct_index g) i (Some [ra]) = Ok m
  /\ length (entry (cached_referrers (construct_index g) i) ra) = 2 /\ length (entry m ra) = 1.
Proof. exact @c16_twice_refuted. Qed.
Print Assumptions C16_repeated_mention_refuted.

Theorem C16_cross_reference_refuted : forall U : Unicode, exists (g : igt) (i j ra : str) (m : refmap),
  ids_distinct (all_nodes g) /\ ids_accepted g /\ refattr ra
  /\ referrers g (construct_index g) i (Some [ra]) = Ok m
  /\ In j (entry (cached_referrers (construct_index g) i) ra) /\ ~ In j (entry m ra).
Proof. exact @c16_cross_refuted. Qed.
Print Assumptions C16_cross_reference_refuted.

Example C16_example : forall U : Unicode,
  ids_distinct (all_nodes clean_igt) /\ ids_accepted clean_igt
  /\ (forall o ra, refattr ra -> In o (all_nodes clean_igt) -> lists o ra (L "a") -> (is_tier_of clean_igt o <-> is_tier_of clean_igt (NItem (mk_tier (L "t1") [] [ga]) ga)))
  /\ (forall o e ra, In o (all_nodes clean_igt) -> dget (a_dict (node_attrs o)) ra = Some e -> NoDup (ids e))
  /\ entry (cached_referrers (construct_index clean_igt) (L "a")) (L "content") = [L "b"].
Proof. exact @c16_example. Qed.

(* ---------- C17 ---------- *)

(* After construction: the last item with the id. *)
Theorem C17_constructed : forall (U : Unicode) (g : igt) (k : str),
  (forall n, get_item (construct_index g) k = Some n ->
     is_item_of g n /\ node_id n = Some k
     /\ exists l1 l2, item_nodes g = l1 ++ n :: l2 /\ forall m, In m l2 -> node_id m <> Some k)
  /\ (get_item (construct_index g) k = None <-> forall n, is_item_of g n -> node_id n <> Some k).
Proof. exact @get_item_constructed. Qed.
Print Assumptions C17_constructed.

(* Full statement: after any edits and a refresh the lookup is exact.  Missing:
   ids that no item has any more; for those the older answer is kept. *)
Theorem C17_refreshed_partial : forall (U : Unicode) (h : list igt) (g : igt) (k : str),
  ((exists n, is_item_of g n /\ node_id n = Some k) ->
     exists n, get_item (index_after (h ++ [g])) k = Some n /\ is_item_of g n /\ node_id n = Some k)
  /\ ((forall n, is_item_of g n -> node_id n <> Some k) ->
     get_item (index_after (h ++ [g])) k = get_item (index_after h) k).
Proof. exact @get_item_history. Qed.
Print Assumptions C17_refreshed_partial.

(* Exact for histories that never lose the id. *)
Theorem C17_growing_partial : forall (U : Unicode) (h : list igt) (g : igt) (k : str),
  (forall g' n, In g' h -> is_item_of g' n -> node_id n = Some k -> exists m, is_item_of g m /\ node_id m = Some k) ->
  (forall n, get_item (index_after (h ++ [g])) k = Some n -> is_item_of g n /\ node_id n = Some k)
  /\ (get_item (index_after (h ++ [g])) k = None <-> forall n, is_item_of g n -> node_id n <> Some k).
Proof. exact @get_item_growing. Qed.
Print Assumptions C17_growing_partial.

Theorem C17_stale_refuted : forall U : Unicode, exists (g1 g2 : igt) (k : str) (n : node),
  get_item (index_after [g1; g2]) k = Some n /\ forall m, is_item_of g2 m -> node_id m <> Some k.
Proof. exact @c17_stale_refuted. Qed.
Print Assumptions C17_stale_refuted.

Example C17_example : forall U : Unicode,
  get_item (construct_index sample_igt) (L "w1") = Some (NItem tw w1)
  /\ get_item (construct_index sample_igt) (L "zz") = None
  /\ get_item (index_after [sample_igt; sample_igt]) (L "m2") = Some (NItem tm m2).
Proof. exact @c17_example. Qed.

(* ---------- C50 ---------- *)

Theorem C50_first : forall (U : Unicode) (g : igt) (x : index) (n : node) (ra : str) (s : sel) (e : expr) (m : node),
  ids_distinct (all_nodes g) -> ids_accepted g ->
  dget (a_dict (node_attrs n)) ra = Some (show (s :: e)) -> wf_loose (s :: e) ->
  In m (all_nodes g) -> node_id m = Some (sl_id s) ->
  dereference g (refresh_indices x g) n ra = Ok (Some m).
Proof. exact @dereference_first. Qed.
Print Assumptions C50_first.

Theorem C50_missing : forall (U : Unicode) (g : igt) (n : node) (ra : str) (s : sel) (e : expr),
  dget (a_dict (node_attrs n)) ra = Some (show (s :: e)) -> wf_loose (s :: e) ->
  (forall m, In m (all_nodes g) -> node_id m <> Some (sl_id s)) ->
  dereference g (construct_index g) n ra = Ok None.
Proof. exact @dereference_missing. Qed.
Print Assumptions C50_missing.

Theorem C50_failures : forall (U : Unicode) (g : igt) (x : index) (n : node) (ra : str),
  (dereference g x n ra = Err KeyError <-> dget (a_dict (node_attrs n)) ra = None)
  /\ (dereference g x n ra = Err IndexError <-> exists e, dget (a_dict (node_attrs n)) ra = Some e /\ ids e = []).
Proof. exact @dereference_failures. Qed.
Print Assumptions C50_failures.

Theorem C50_all : forall (U : Unicode) (g : igt) (n : node) (ra : str) (e : expr),
  ids_distinct (all_nodes g) -> ids_accepted g ->
  dget (a_dict (node_attrs n)) ra = Some (show e) -> wf_loose e ->
  exists l, dereference_all g (construct_index g) n ra = Ok l
    /\ Forall2 (fun s o => (exists m, o = Some m /\ In m (all_nodes g) /\ node_id m = Some (sl_id s))
                          \/ o = None /\ forall m, In m (all_nodes g) -> node_id m <> Some (sl_id s)) e l.
Proof. exact @dereference_all_total. Qed.
Print Assumptions C50_all.

(* after any refresh, when the ids are all present *)
Theorem C50_all_refreshed : forall (U : Unicode) (g : igt) (x : index) (n : node) (ra : str) (e : expr),
  ids_distinct (all_nodes g) -> ids_accepted g ->
  dget (a_dict (node_attrs n)) ra = Some (show e) -> wf_loose e ->
  (forall s, In s e -> exists m, In m (all_nodes g) /\ node_id m = Some (sl_id s)) ->
  exists l, dereference_all g (refresh_indices x g) n ra = Ok (map Some l)
    /\ Forall2 (fun s m => In m (all_nodes g) /\ node_id m = Some (sl_id s)) e l.
Proof. exact @dereference_all_spec. Qed.
Print Assumptions C50_all_refreshed.

Example C50_example : forall U : Unicode,
  dget (a_dict (node_attrs (NItem tm m2))) (L "content") = Some (show m2_expr) /\ wf_loose m2_expr
  /\ dereference sample_igt (construct_index sample_igt) (NItem tm m2) (L "content") = Ok (Some (NItem tp p1))
  /\ dereference_all sample_igt (construct_index sample_igt) (NItem tm m2) (L "content")
     = Ok [Some (NItem tp p1); Some (NItem tp p1)]
  /\ dereference sample_igt (construct_index sample_igt) (NTier tm) (L "content") = Ok (Some (NTier tp)).
Proof. exact @c50_example. Qed.
