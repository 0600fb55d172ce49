(* referent() and referrer() in paths. *)
From Verif Require Import PyStr PyStrFacts PySort SpecRef Ref RefProofs RefLossless Model Value SpecValue ValueProofs Attr SpecAttr Index SpecIndex IndexProofs
  Path SpecPath SpecPathRef PathProofs PathLaws.

Section PathRef.
Context {U : Unicode}.
Variable vfuel : nat.
Notation F := (findall construct_index vfuel).

Lemma mentions_refs n ra : mentions n ra = node_refs n ra.
Proof. unfold mentions, node_refs. destruct (dget _ ra); [easy|]. symmetry; exact (ids_nil (U := U)). Qed.
Lemma igt_of_node g up n : igt_of (at_node g up n) = Some (g, up).
Proof. now destruct n. Qed.
Lemma id_of_node g up n : a_id (attrs_of (n_obj (at_node g up n))) = node_id n.
Proof. now destruct n. Qed.
Lemma of_index_node g up n : of_index g up (Some n) = VNode (at_node g up n).
Proof. now destruct n. Qed.
Lemma mention_int n ra k : In k (mentions n ra) -> py_int k = None.
Proof.
  unfold mentions. destruct (dget _ ra) as [e|]; [|easy]. intros H.
  pose proof (id_tokens_shape _ _ (ids_tokens e)) as S. rewrite Forall_forall in S. now apply id_shape_int, S.
Qed.
Lemma pointed g up k : ids_distinct (all_nodes g) -> ids_accepted g -> py_int k = None ->
  points g up k (of_index g up (get_any g (construct_index g) k)).
Proof.
  intros Hd Ha Hi.
  destruct (in_dec (fun a b : option str => Bool.reflect_dec (a = b) (okey_eqb a b) (okey_spec a b)) (Some k) (map node_id (all_nodes g))) as [Hin|Hin].
  - apply in_map_iff in Hin as (m & Em & Hm). left. exists m. split; [easy|]. split; [easy|].
    unfold construct_index. rewrite (get_any_exact g empty_index m k) by easy. apply of_index_node.
  - right. assert (Hno : forall m, In m (all_nodes g) -> node_id m <> Some k).
    { intros m Hm E. apply Hin. rewrite <- E. now apply in_map. }
    split; [|easy]. now rewrite get_any_absent.
Qed.

Lemma strip_quoted_arg s : plain s -> strip_q (quoted s) = s.
Proof.
  intros [Hq _]. assert (H : forall s, ~ In 34%N s -> lstrip_q s = s).
  { intros [|c t] H; [easy|]. cbn. destruct (N.eqb_spec c 34); [|easy]. exfalso; apply H; subst; now left. }
  unfold strip_q, quoted. change (L """") with [34%N]. cbn [app lstrip_q]. rewrite N.eqb_refl.
  assert (E : lstrip_q (s ++ [34%N]) = s ++ [34%N] \/ s = []).
  { destruct s as [|c t]; [now right|]. left. cbn. destruct (N.eqb_spec c 34); [|easy]. exfalso; apply Hq; subst; now left. }
  destruct E as [E| ->]; [|reflexivity]. rewrite E, rev_app_distr. cbn [rev app lstrip_q]. rewrite N.eqb_refl.
  rewrite H by (rewrite <- in_rev; easy). apply rev_involutive.
Qed.

Lemma call_law f arg v l : keyword f -> match arg with Some s => plain s | None => True end ->
  sres (function construct_index vfuel v f (match arg with Some s => [quoted s] | None => [] end)) = Some l ->
  F v (f ++ L "(" ++ match arg with Some s => quoted s | None => [] end ++ L ")") = Ok l.
Proof.
  intros Hf Ha E.
  assert (T : f ++ L "(" ++ match arg with Some s => quoted s | None => [] end ++ L ")" = concat (head_toks (HCall f arg))).
  { destruct arg; cbn; rewrite ?app_nil_r; reflexivity. }
  rewrite T. apply one_step; try easy; destruct arg; exact E.
Qed.

(* the refmaps, sorted *)
Lemma sort_one {A} (lt : A -> A -> bool) x : ssort lt [x] = [x].
Proof. reflexivity. Qed.
Definition all_ras : list str := [L "alignment"; L "content"; L "segmentation"].

Lemma referents_map g n i (arg : option str) : ids_distinct (all_nodes g) -> ids_accepted g -> In n (all_nodes g) -> node_id n = Some i ->
  referents g (construct_index g) i (match arg with Some ra => Some [ra] | None => None end)
  = Ok (map (fun ra => (ra, mentions n ra)) (match arg with Some ra => [ra] | None => all_ras end)).
Proof.
  intros Hd Ha Hn Hi. unfold referents, construct_index. rewrite (get_any_exact g empty_index n i) by easy.
  destruct arg as [ra|]; cbn [fold_left map all_ras allowed_refattrs]; rewrite !mentions_refs; reflexivity.
Qed.
Lemma sorted_ras {A} (f : str -> A) (arg : option str) :
  let ras := match arg with Some ra => [ra] | None => all_ras end in
  ssort (fun a b => str_ltb (fst a) (fst b)) (map (fun ra => (ra, f ra)) ras) = map (fun ra => (ra, f ra)) ras.
Proof. destruct arg; reflexivity. Qed.

Lemma flat_pairs {A B} (h : A -> B) (f : str -> list A) ras :
  flat_map (fun kv => map h (snd kv)) (map (fun ra => (ra, f ra)) ras) = map h (flat_map f ras).
Proof. induction ras as [|r ras IH]; [easy|]. cbn [map flat_map snd]. now rewrite IH, map_app. Qed.

Theorem referent_law g up n i arg :
  ids_distinct (all_nodes g) -> ids_accepted g -> In n (all_nodes g) -> node_id n = Some i ->
  match arg with Some ra => plain ra | None => True end ->
  exists l, F (VNode (at_node g up n)) (L "referent(" ++ match arg with Some ra => quoted ra | None => [] end ++ L ")") = Ok l
  /\ Forall2 (points g up) (flat_map (mentions n) (match arg with Some ra => [ra] | None => all_ras end)) l.
Proof.
  intros Hd Ha Hn Hi Harg.
  set (ks := flat_map (mentions n) (match arg with Some ra => [ra] | None => all_ras end)).
  exists (map (fun k => of_index g up (get_any g (construct_index g) k)) ks). split.
  - apply (call_law (L "referent") arg); [unfold keyword; tauto|easy|].
    change (function _ _ ?v (L "referent") ?a) with (find_refs construct_index referents v (refattr_args a)).
    unfold find_refs. rewrite igt_of_node, id_of_node, Hi.
    assert (E : refattr_args match arg with Some s => [quoted s] | None => [] end = match arg with Some ra => Some [ra] | None => None end).
    { destruct arg as [ra|]; [|easy]. unfold refattr_args. cbn [filter].
      destruct (str_eqb_spec (quoted ra) (L ",")) as [E|_]; [|cbn [negb map]; now rewrite strip_quoted_arg].
      unfold quoted in E. vm_compute in E. discriminate. }
    rewrite E, (referents_map g n i arg) by easy. cbn [bind]. rewrite sorted_ras. cbn.
    f_equal. apply flat_pairs.
  - assert (Hk : forall k, In k ks -> py_int k = None).
    { intros k H. apply in_flat_map in H as (ra & _ & H). now apply mention_int in H. }
    clearbody ks. induction ks as [|k ks IH]; cbn [map]; constructor; [apply pointed; auto; apply Hk; now left|].
    apply IH. intros; apply Hk; now right.
Qed.

(* ---------- referrers ---------- *)

Lemma peers_in g n m : In n (all_nodes g) -> In m (peers g n) -> In m (all_nodes g).
Proof. unfold all_nodes. intros _ H. apply in_or_app. destruct n; auto. Qed.
Lemma peers_nodes g n : peers g n = match n with NTier _ => tier_nodes g | NItem _ _ => item_nodes g end.
Proof. destruct n; [easy|]. unfold item_nodes. now rewrite flat_map_concat_map. Qed.

Definition hit (i ra : str) (m : node) : list str :=
  match node_id m with Some j => if existsb (str_eqb i) (node_refs m ra) then [j] else [] | None => [] end.

Lemma add_one i ra d ms l : dget d ra = Some l -> (forall k, k <> ra -> dget d k = None) -> length d = 1 ->
  fold_left (add_referrer i (Some [ra])) ms d = [(ra, l ++ flat_map (hit i ra) ms)].
Proof.
  intros Hl _ Hd. destruct d as [|[k l0] [|? ?]]; try discriminate. clear Hd.
  unfold dget, dget_ in Hl. cbn in Hl. destruct (str_eqb_spec ra k) as [<-|]; [|easy]. injection Hl as ->.
  revert l. induction ms as [|m ms IH]; intros l; cbn [fold_left flat_map]; [now rewrite app_nil_r|].
  assert (E : add_referrer i (Some [ra]) [(ra, l)] m = [(ra, l ++ hit i ra m)]).
  { unfold add_referrer, hit. destruct (node_id m) as [j|]; [|now rewrite app_nil_r]. cbn [fold_left].
    unfold dget, dset; cbn. rewrite !str_eqb_refl. destruct (existsb _ _); rewrite ?app_nil_r; cbn; now rewrite ?str_eqb_refl. }
  rewrite E, IH. now rewrite app_assoc.
Qed.
Lemma add_three i ms : forall a b c,
  fold_left (add_referrer i None) ms [(L "alignment", a); (L "content", b); (L "segmentation", c)]
  = [(L "alignment", a ++ flat_map (hit i (L "alignment")) ms); (L "content", b ++ flat_map (hit i (L "content")) ms);
     (L "segmentation", c ++ flat_map (hit i (L "segmentation")) ms)].
Proof.
  induction ms as [|m ms IH]; intros a b c; cbn [fold_left flat_map]; [now rewrite !app_nil_r|].
  assert (E : add_referrer i None [(L "alignment", a); (L "content", b); (L "segmentation", c)] m
    = [(L "alignment", a ++ hit i (L "alignment") m); (L "content", b ++ hit i (L "content") m);
       (L "segmentation", c ++ hit i (L "segmentation") m)]).
  { unfold add_referrer, hit. destruct (node_id m) as [j|]; [|now rewrite !app_nil_r].
    unfold allowed_refattrs. cbn [fold_left].
    change ALIGNMENT with (L "alignment"). change CONTENT with (L "content"). change SEGMENTATION with (L "segmentation").
    destruct (existsb _ (node_refs m (L "alignment"))), (existsb _ (node_refs m (L "content"))), (existsb _ (node_refs m (L "segmentation")));
      rewrite ?app_nil_r; reflexivity. }
  rewrite E, IH. now rewrite !app_assoc.
Qed.
Lemma add_three_start i ms :
  fold_left (add_referrer i None) ms [] = []
    /\ (forall ra, flat_map (hit i ra) ms = [])
  \/ fold_left (add_referrer i None) ms []
     = map (fun ra => (ra, flat_map (hit i ra) ms)) all_ras.
Proof.
  induction ms as [|m ms IH]; [now left|]. cbn [fold_left].
  destruct (node_id m) as [j|] eqn:Ej.
  - right. assert (E : add_referrer i None [] m = add_referrer i None [(L "alignment", []); (L "content", []); (L "segmentation", [])] m).
    { unfold add_referrer. rewrite Ej. unfold allowed_refattrs. cbn [fold_left].
      change ALIGNMENT with (L "alignment"). change CONTENT with (L "content"). change SEGMENTATION with (L "segmentation").
      destruct (existsb _ (node_refs m (L "alignment"))), (existsb _ (node_refs m (L "content"))), (existsb _ (node_refs m (L "segmentation"))); reflexivity. }
    rewrite E.
    exact (add_three i (m :: ms) [] [] []).
  - assert (E : add_referrer i None [] m = []) by (unfold add_referrer; now rewrite Ej). rewrite E.
    cbn [flat_map map all_ras]. unfold hit at 1 3 5 7. rewrite Ej. cbn [app]. exact IH.
Qed.

Lemma hits_picked g i ra ms : ids_distinct (all_nodes g) -> ids_accepted g -> (forall m, In m ms -> In m (all_nodes g)) ->
  forall up, exists l, picked (refers i ra) ms l
    /\ map (fun k => of_index g up (get_any g (construct_index g) k)) (flat_map (hit i ra) ms) = map (fun m => VNode (at_node g up m)) l.
Proof.
  intros Hd Ha Hin up. induction ms as [|m ms IH]; [exists []; split; [constructor|easy]|].
  destruct IH as (l & Hp & E); [intros; apply Hin; now right|]. cbn [flat_map]. rewrite map_app, E.
  unfold hit at 1. destruct (node_id m) as [j|] eqn:Ej.
  - destruct (existsb _ _) eqn:Ex.
    + exists (m :: l). split; [constructor; [|easy]; split; [congruence|]; now apply node_refs_lists, existsb_in|].
      cbn [map app]. unfold construct_index. rewrite (get_any_exact g empty_index m j) by (try easy; apply Hin; now left).
      now rewrite of_index_node.
    + exists l. split; [|easy]. constructor; [|easy]. intros [_ H]. apply node_refs_lists, existsb_in in H. congruence.
  - exists l. split; [|easy]. constructor; [|easy]. intros [H _]. congruence.
Qed.

Lemma referrers_map g n i (arg : option str) : ids_distinct (all_nodes g) -> ids_accepted g -> In n (all_nodes g) -> node_id n = Some i ->
  exists m, referrers g (construct_index g) i (match arg with Some ra => Some [ra] | None => None end) = Ok m
  /\ flat_map snd (ssort (fun a b => str_ltb (fst a) (fst b)) m)
     = flat_map (fun ra => flat_map (hit i ra) (peers g n)) (match arg with Some ra => [ra] | None => all_ras end).
Proof.
  intros Hd Ha Hn Hi.
  assert (Hint : py_int i = None) by (apply accepted_not_int; eapply Ha; eauto).
  unfold referrers.
  assert (E : match container_item tier_id (g_tiers g) i with
              | Ok _ => Ok (tier_nodes g)
              | Err KeyError => match get_item (construct_index g) i with Some _ => Ok (item_nodes g) | None => Err XigtLookupError end
              | Err e => Err e
              end = Ok (peers g n)).
  { pose proof (get_any_exact g empty_index n i Hd Ha Hn Hi) as G.
    apply in_all_nodes in Hn as [(t & -> & Ht)|Hn].
    - now rewrite (container_item_member tier_id _ i t (container_get_unique_tier g t i Hd Ht Hi)).
    - assert (N : no_member tier_id (g_tiers g) i).
      { intros t Ht Et. assert (NTier t = n) as <-.
        { apply (distinct_nodes (all_nodes g) (NTier t) n i); auto; apply in_all_nodes; [left; now exists t|now right]. }
        destruct Hn as (? & ? & [=] & _). }
      rewrite container_item_absent by easy.
      unfold get_any in G. rewrite get_no_member in G by easy. unfold construct_index. rewrite G, peers_nodes.
      destruct Hn as (t & it & -> & _). reflexivity. }
  rewrite E. cbn [bind]. eexists; split; [reflexivity|]. destruct arg as [ra|].
  - rewrite (add_one i ra _ _ []).
    + rewrite sort_one. cbn. now rewrite app_nil_r.
    + cbn. unfold dget, dset, dset_. cbn. now rewrite str_eqb_refl.
    + intros k Hk. unfold dget, dset; cbn. destruct (str_eqb_spec k ra); congruence.
    + reflexivity.
  - destruct (add_three_start i (peers g n)) as [[E1 E2]|E1]; rewrite E1.
    + cbn. now rewrite !E2.
    + rewrite (sorted_ras (fun ra => flat_map (hit i ra) (peers g n)) None). rewrite flat_map_concat_map, map_map. cbn [snd].
      now rewrite <- flat_map_concat_map.
Qed.

Theorem referrer_law g up n i arg :
  ids_distinct (all_nodes g) -> ids_accepted g -> In n (all_nodes g) -> node_id n = Some i ->
  match arg with Some ra => plain ra | None => True end ->
  exists ls, Forall2 (fun ra l => picked (refers i ra) (peers g n) l) (match arg with Some ra => [ra] | None => all_ras end) ls
  /\ F (VNode (at_node g up n)) (L "referrer(" ++ match arg with Some ra => quoted ra | None => [] end ++ L ")")
     = Ok (map (fun m => VNode (at_node g up m)) (concat ls)).
Proof.
  intros Hd Ha Hn Hi Harg.
  destruct (referrers_map g n i arg Hd Ha Hn Hi) as (m & Em & Es).
  assert (H : exists ls, Forall2 (fun ra l => picked (refers i ra) (peers g n) l) (match arg with Some ra => [ra] | None => all_ras end) ls
    /\ map (fun k => of_index g up (get_any g (construct_index g) k))
         (flat_map (fun ra => flat_map (hit i ra) (peers g n)) (match arg with Some ra => [ra] | None => all_ras end))
       = map (fun m => VNode (at_node g up m)) (concat ls)).
  { generalize (match arg with Some ra => [ra] | None => all_ras end). intros ras. clear Es.
    induction ras as [|ra ras (ls & H1 & H2)]; [exists []; split; [constructor|easy]|].
    destruct (hits_picked g i ra (peers g n) Hd Ha (fun m => peers_in g n m Hn) up) as (l & H3 & H4).
    exists (l :: ls). split; [now constructor|]. cbn [flat_map concat]. now rewrite !map_app, H2, H4. }
  destruct H as (ls & H1 & H2). exists ls. split; [easy|].
  apply (call_law (L "referrer") arg); [unfold keyword; tauto|easy|].
  change (function _ _ ?v (L "referrer") ?a) with (find_refs construct_index referrers v (refattr_args a)).
  unfold find_refs. rewrite igt_of_node, id_of_node, Hi.
  assert (E : refattr_args match arg with Some s => [quoted s] | None => [] end = match arg with Some ra => Some [ra] | None => None end).
  { destruct arg as [ra|]; [|easy]. unfold refattr_args. cbn [filter].
    destruct (str_eqb_spec (quoted ra) (L ",")) as [E|_]; [|cbn [negb map]; now rewrite strip_quoted_arg].
    unfold quoted in E. vm_compute in E. discriminate. }
  rewrite E, Em. cbn [bind]. cbn. f_equal. rewrite <- H2, <- Es.
  rewrite !flat_map_concat_map, concat_map, map_map. reflexivity.
Qed.

(* value() *)
Theorem value_law g up t i x : value vfuel (Some g) (Some t) i value_refattrs = Ok x ->
  F (VNode (at_node g up (NItem t i))) (L "value()") = Ok [match x with Some s => VStr s | None => VNone end].
Proof.
  intros H. apply (call_law (L "value") None); [unfold keyword; tauto|easy|].
  change (function _ _ ?v (L "value") ?a) with (of_res (do x <- value_of_val vfuel v; Ok [x])).
  unfold value_of_val. cbn [at_node n_obj n_up]. rewrite H. cbn. now destruct x.
Qed.
End PathRef.
