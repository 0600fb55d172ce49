From Verif Require Import PyStr PyStrFacts Ref SpecRef RefProofs RefLaws Model Value SpecValue ValueProofs Index SpecIndex IndexProofs Query SpecQuery.

Lemma filter_sieve {A} (f : A -> bool) (P : A -> Prop) l : (forall a, In a l -> (f a = true <-> P a)) -> sieve P l (filter f l).
Proof.
  induction l as [|a l IH]; intros H; [constructor|]. cbn. destruct (f a) eqn:E.
  - constructor; [apply H; [now left|easy]|]. apply IH. intros; apply H; now right.
  - constructor; [intros Hp; apply H in Hp; [congruence|now left]|]. apply IH. intros; apply H; now right.
Qed.

Lemma eventually_S {A} (f : nat -> A) r : eventually (fun n => f (S n)) r -> eventually f r.
Proof. intros [n H]. exists (S n). intros [|m] Hm; [lia|]. apply H. lia. Qed.
Lemma eventually_const {A} (f : nat -> A) r : (forall n, f n = r) -> eventually f r.
Proof. intros H. exists 0. auto. Qed.
Lemma eventually_map {A B} (k : A -> B) f r : eventually f r -> eventually (fun n => k (f n)) (k r).
Proof. intros [n H]. exists n. intros m Hm. now rewrite H. Qed.

Lemma last_change {A} (l : list A) : forall x a b, last (x :: l) a = last (x :: l) b.
Proof. induction l as [|y l IH]; intros x a b; [easy|]. exact (IH y a b). Qed.

Section QP.
Context {U : Unicode}.

Lemma start_of_spec n : start_of n = (start_tier n, start_items n).
Proof. now destruct n. Qed.

Lemma find_first_attr refattrs t ra : find (dmem (a_dict (t_attrs t))) refattrs = Some ra <-> first_attr refattrs t ra.
Proof.
  unfold first_attr, has_attr. induction refattrs as [|r l IH]; cbn [find].
  - split; [easy|]. intros (l1 & l2 & E & _). destruct l1; discriminate.
  - unfold dmem at 1. destruct (dget (a_dict (t_attrs t)) r) eqn:E.
    + split.
      * intros [= <-]. exists [], l. split; [easy|]. split; [congruence|intros ? []].
      * intros (l1 & l2 & El & H1 & H2). destruct l1 as [|r' l1]; injection El as <-; [easy|].
        exfalso. apply (H2 r); [now left|congruence].
    + rewrite IH. split; intros (l1 & l2 & El & H1 & H2).
      * exists (r :: l1), l2. split; [now rewrite El|]. split; [easy|]. intros r' [<-|Hr]; [congruence|now apply H2].
      * destruct l1 as [|r' l1]; injection El as ? El; subst; [congruence|]. exists l1, l2. split; [easy|]. split; [easy|].
        intros r'' Hr. apply H2. now right.
Qed.
Lemma find_no_attr refattrs t : find (dmem (a_dict (t_attrs t))) refattrs = None <-> forall ra, In ra refattrs -> ~ has_attr t ra.
Proof.
  split.
  - intros H ra Hin Ha. apply (find_none _ _ H) in Hin. unfold dmem in Hin. unfold has_attr in Ha.
    destruct (dget _ ra); congruence.
  - intros H. destruct (find _ refattrs) as [ra|] eqn:E; [|easy]. apply find_some in E as [Hin E]. exfalso.
    apply (H ra Hin). unfold dmem in E. unfold has_attr. now destruct (dget _ ra).
Qed.

Lemma item_refs_lists it ra i : In i (item_refs it ra) <-> item_lists it ra i.
Proof.
  unfold item_refs, item_lists. destruct (dget _ ra) as [e|].
  - split; [intros H; now exists e|]. intros (e' & [= <-] & H). exact H.
  - rewrite ids_nil. split; [easy|]. intros (e' & [=] & _).
Qed.

Lemma ids_not_int e i l : ids e = i :: l -> py_int i = None.
Proof.
  intros H. assert (Ht := id_tokens_shape _ _ (ids_tokens e)). rewrite H in Ht. inversion Ht. now apply id_shape_int.
Qed.

(* ---------- the index holds items only ---------- *)

Definition items_only (x : index) : Prop := forall k n, get_item x k = Some n -> exists t i, n = NItem t i.
Lemma index_items_only h : items_only (index_after h).
Proof.
  induction h as [|g h IH] using rev_ind; intros k n; [easy|].
  unfold index_after. rewrite fold_left_app. cbn [fold_left]. rewrite get_item_refresh.
  destruct (last_with _ (Some k)) as [m|] eqn:E; [|apply IH]. intros [= <-].
  apply last_with_some in E as (l1 & l2 & E & _). assert (H : In m (item_nodes g)) by (rewrite E; apply in_elt).
  apply in_item_nodes in H as (t & i & -> & _). eauto.
Qed.

Lemma dereference_tier g x t ra rt : tiers_named g -> items_only x ->
  dereference g x (NTier t) ra = Ok (Some (NTier rt)) <-> refers_first g t ra rt.
Proof.
  intros Hn Hx. unfold dereference, refers_first. cbn [node_attrs].
  destruct (dget _ ra) as [e|]; [|split; [easy|intros (? & ? & ? & [=] & _)]].
  destruct (ids e) as [|i l] eqn:E.
  - split; [easy|]. intros (e' & i & l & [= <-] & E' & _). congruence.
  - unfold get_any. split.
    + destruct (container_get tier_id (g_tiers g) i) as [t'|] eqn:Eg.
      * intros [= ->]. exists e, i, l. split; [easy|]. split; [easy|]. unfold container_get in Eg.
        destruct (find_id _ _ i) as [t'|] eqn:Ef.
        -- injection Eg as ->. apply find_id_some in Ef as [H1 H2]. now apply Hn.
        -- rewrite (ids_not_int _ _ _ E) in Eg. discriminate.
      * intros [= H]. apply Hx in H as (? & ? & [=]).
    + intros (e' & i' & l' & [= <-] & E' & Hm). rewrite E in E'. injection E' as <- <-. now rewrite (get_member _ _ _ _ Hm).
Qed.

(* ---------- ancestors ---------- *)

Definition mk_hop (t : tier) (items : list item) (ra : str) (rt : tier) : hop :=
  {| h_from := t; h_ra := ra; h_to := rt;
     h_items := filter (fun it => id_in (item_id it) (flat_map (fun it => item_refs it ra) items)) (t_items rt) |}.

Lemma mk_hop_up g refattrs t items ra rt : first_attr refattrs t ra -> refers_first g t ra rt ->
  up_hop g refattrs t items (mk_hop t items ra rt).
Proof.
  intros Ha Hr. split; [easy|]. split; [easy|]. split; [easy|]. cbn. apply filter_sieve. intros it _. unfold id_in.
  destruct (item_id it) as [i|]; [|split; [easy|intros (? & [=] & _)]]. rewrite existsb_in, in_flat_map. split.
  - intros (it' & Hin & H). exists i. split; [easy|]. exists it'. split; [easy|]. now apply item_refs_lists.
  - intros (i' & [= <-] & it' & Hin & H). exists it'. split; [easy|]. now apply item_refs_lists.
Qed.
Lemma sieve_det {A} (P : A -> Prop) l a : sieve P l a -> forall b, sieve P l b -> a = b.
Proof.
  induction 1 as [|x l l' Hp H IH|x l l' Hp H IH]; intros b Hb; inversion Hb; subst; try easy.
  - f_equal. auto.
  - auto.
Qed.
Lemma first_attr_det refattrs t a b : first_attr refattrs t a -> first_attr refattrs t b -> a = b.
Proof. intros Ha Hb. apply find_first_attr in Ha, Hb. congruence. Qed.
Lemma refers_first_det g t ra a b : refers_first g t ra a -> refers_first g t ra b -> a = b.
Proof.
  intros (e & i & l & E & Ei & Ha & Hi & Hu) (e' & i' & l' & E' & Ei' & Hb & Hi' & Hu').
  rewrite E in E'. injection E' as <-. rewrite Ei in Ei'. injection Ei' as <- <-. now apply Hu'.
Qed.
Lemma up_hop_det g refattrs t items h : up_hop g refattrs t items h ->
  h = mk_hop t items (h_ra h) (h_to h) /\ first_attr refattrs t (h_ra h) /\ refers_first g t (h_ra h) (h_to h).
Proof.
  intros (E & Ha & Hr & Hs). split; [|easy]. assert (Hm := mk_hop_up g refattrs t items _ _ Ha Hr).
  destruct Hm as (_ & _ & _ & Hs'). destruct h as [f r o its]. cbn in *. unfold mk_hop. subst f. f_equal. exact (sieve_det _ _ _ Hs _ Hs').
Qed.

(* one step of the loop *)
Lemma anc_step f g x refattrs visited t items ra rt :
  tiers_named g -> items_only x -> ~ In [] refattrs -> first_attr refattrs t ra -> refers_first g t ra rt ->
  ancestors_from (S f) g x refattrs visited t items =
    (if okey_mem (tier_id rt) visited then ([mk_hop t items ra rt], Finished)
     else match tier_id rt with
          | None => ([mk_hop t items ra rt], Raised TypeError)
          | Some i => let '(hs, e) := ancestors_from f g x refattrs (visited_update visited i) rt (h_items (mk_hop t items ra rt)) in
                      (mk_hop t items ra rt :: hs, e)
          end).
Proof.
  intros Hn Hx Hne Ha Hr. cbn [ancestors_from].
  assert (Hin : In ra refattrs) by (destruct Ha as (l1 & l2 & -> & _); apply in_elt).
  rewrite (proj2 (find_first_attr _ _ _) Ha). destruct ra as [|c ra']; [easy|].
  now rewrite (proj2 (dereference_tier g x t _ rt Hn Hx) Hr).
Qed.
Lemma anc_stop f g x refattrs visited t items : (forall ra, In ra refattrs -> ~ has_attr t ra) ->
  ancestors_from (S f) g x refattrs visited t items = ([], Finished).
Proof. intros H. cbn [ancestors_from]. now rewrite (proj2 (find_no_attr _ _) H). Qed.

(* soundness, for any fuel *)
Lemma ancestors_from_sound f g x refattrs : tiers_named g -> items_only x -> forall visited t items,
  up_chain g refattrs t items (fst (ancestors_from f g x refattrs visited t items)).
Proof.
  intros Hn Hx. induction f as [|f IH]; intros visited t items; [exact I|]. cbn [ancestors_from].
  destruct (find _ refattrs) as [ra|] eqn:E; [|exact I]. apply find_first_attr in E.
  destruct ra as [|c ra']; [exact I|]. set (ra := c :: ra') in *.
  destruct (dereference g x (NTier t) ra) as [[[rt|? ?]|]|] eqn:Ed; try exact I.
  apply dereference_tier in Ed; auto.
  change ({| h_from := t; h_ra := ra; h_to := rt; h_items := _ |}) with (mk_hop t items ra rt).
  assert (Hh := mk_hop_up g refattrs t items ra rt E Ed).
  destruct (okey_mem _ visited); [cbn; auto|]. destruct (tier_id rt) as [i|]; [|cbn; auto].
  specialize (IH (visited_update visited i) rt (h_items (mk_hop t items ra rt))). cbn [mk_hop h_items] in IH.
  destruct (ancestors_from f _ _ _ _ _ _) as [hs e]. cbn [fst up_chain mk_hop h_to h_items] in *. auto.
Qed.
Theorem ancestors_sound fuel g h refattrs n : tiers_named g ->
  up_chain g refattrs (start_tier n) (start_items n) (fst (ancestors fuel g (index_after h) refattrs n)).
Proof.
  intros Hn. unfold ancestors. rewrite start_of_spec. set (t := start_tier n) in *. set (items := start_items n) in *. clearbody t items. cbn [fst snd].
  apply ancestors_from_sound; [easy|apply index_items_only].
Qed.

(* where it stops *)
Lemma okey_mem_in k l : okey_mem k l = true <-> In k l.
Proof.
  unfold okey_mem. rewrite existsb_exists. split.
  - intros (y & Hy & E). now destruct (okey_spec k y); [subst|].
  - intros H. exists k. split; [easy|]. now destruct (okey_spec k k).
Qed.
Lemma ancestors_from_stop f g x refattrs : ~ In [] refattrs -> forall visited t items hs,
  ancestors_from f g x refattrs visited t items = (hs, Finished) ->
  (exists t', last (map h_to hs) t = t' /\ forall ra, In ra refattrs -> ~ has_attr t' ra)
  \/ exists hs' h, hs = hs' ++ [h] /\
       (In (tier_id (h_to h)) visited
        \/ exists c h' i, tier_id (h_to h) = Some [c] /\ In h' hs' /\ tier_id (h_to h') = Some i /\ In c i).
Proof.
  intros Hne. induction f as [|f IH]; intros visited t items hs; [easy|]. cbn [ancestors_from].
  destruct (find _ refattrs) as [ra|] eqn:E.
  2:{ intros [= <-]. left. exists t. split; [easy|]. now apply find_no_attr. }
  apply find_first_attr in E. assert (Hin : In ra refattrs) by (destruct E as (l1 & l2 & -> & _); apply in_elt).
  destruct ra as [|c0 ra']; [easy|]. set (ra := c0 :: ra') in *.
  destruct (dereference g x (NTier t) ra) as [[[rt|? ?]|]|] eqn:Ed; try easy.
  change ({| h_from := t; h_ra := ra; h_to := rt; h_items := _ |}) with (mk_hop t items ra rt).
  destruct (okey_mem _ visited) eqn:Ev.
  { intros [= <-]. right. exists [], (mk_hop t items ra rt). split; [easy|]. left. now apply okey_mem_in. }
  destruct (tier_id rt) as [i|] eqn:Ei; [|easy].
  destruct (ancestors_from f _ _ _ _ _ _) as [hs1 e] eqn:Er. intros [= <- ->].
  apply IH in Er as [(t' & El & Hno)|(hs' & h & -> & Hv)].
  - left. exists t'. split; [|easy]. cbn [map]. destruct hs1 as [|h1 hs1]; [exact El|].
    rewrite <- El. apply (last_change (map h_to hs1) (h_to h1)).
  - right. exists (mk_hop t items ra rt :: hs'), h. split; [easy|]. destruct Hv as [Hv|(c & h' & j & H1 & H2 & H3 & H4)].
    + unfold visited_update in Hv. apply in_app_iff in Hv as [Hv|Hv]; [|now left]. right.
      apply in_map_iff in Hv as (c & Ec & Hc). exists c, (mk_hop t items ra rt), i. split; [easy|]. split; [now left|]. auto.
    + right. exists c, h', j. split; [easy|]. split; [now right|]. auto.
Qed.
Theorem ancestors_stop fuel g h refattrs n hs : ~ In [] refattrs ->
  ancestors fuel g (index_after h) refattrs n = (hs, Finished) ->
  (exists t', last (map h_to hs) (start_tier n) = t' /\ forall ra, In ra refattrs -> ~ has_attr t' ra)
  \/ exists hs' h, hs = hs' ++ [h] /\
       (tier_id (h_to h) = tier_id (start_tier n)
        \/ exists c h' i, tier_id (h_to h) = Some [c] /\ In h' hs' /\ tier_id (h_to h') = Some i /\ In c i).
Proof.
  intros Hne. unfold ancestors. rewrite start_of_spec. set (t := start_tier n) in *. set (items := start_items n) in *. clearbody t items. cbn [fst]. intros H.
  apply ancestors_from_stop in H as [H|(hs' & k & -> & [[H|[]]|H])]; auto.
  - right. exists hs', k. split; [easy|]. left. congruence.
  - right. exists hs', k. auto.
Qed.

(* one-character ids: the full claim *)

Lemma refers_first_in g t ra rt : refers_first g t ra rt -> In rt (g_tiers g) /\ exists i, tier_id rt = Some i.
Proof. intros (e & i & l & _ & _ & H1 & H2 & _). eauto. Qed.

Lemma short_trail g x refattrs seen t items hs : tiers_named g -> items_only x -> ~ In [] refattrs -> short_ids g ->
  trail g refattrs seen t items hs ->
  forall visited, (forall t', In t' (g_tiers g) -> (In (tier_id t') visited <-> In (tier_id t') seen)) ->
  eventually (fun f => ancestors_from f g x refattrs visited t items) (hs, Finished).
Proof.
  intros Hn Hx Hne Hs. induction 1 as [seen t items H|seen t items h H Hin|seen t items h hs H Hin Ht IH]; intros visited Hv;
    apply eventually_S.
  - apply eventually_const. intros n. now apply anc_stop.
  - apply up_hop_det in H as (-> & Ha & Hr). apply eventually_const. intros n. rewrite (anc_step n g x refattrs visited t items _ _ Hn Hx Hne Ha Hr).
    cbn [mk_hop h_to] in Hin. apply Hv in Hin; [|now apply refers_first_in in Hr]. apply okey_mem_in in Hin. cbn [mk_hop h_to]. now rewrite Hin.
  - apply up_hop_det in H as (E & Ha & Hr). destruct (refers_first_in _ _ _ _ Hr) as (Hrt & i & Hi).
    assert (Hno : okey_mem (tier_id (h_to h)) visited = false).
    { destruct (okey_mem _ visited) eqn:Em; [|easy]. exfalso. apply Hin, Hv; [easy|]. now apply okey_mem_in. }
    specialize (IH (visited_update visited i)). destruct IH as [n Hn'].
    { intros t' Ht'. unfold visited_update. rewrite in_app_iff. destruct (Hs _ _ Hrt Hi) as [c ->]. rewrite Hi. cbn [map In].
      rewrite <- (Hv t' Ht'). tauto. }
    exists n. intros m Hm. rewrite (anc_step m g x refattrs visited t items _ _ Hn Hx Hne Ha Hr), Hno, Hi, <- E.
    now rewrite Hn'.
Qed.

(* tiers not yet seen *)
Definition unseen (g : igt) (seen : list (option str)) : nat :=
  length (filter (fun t => negb (okey_mem (tier_id t) seen)) (g_tiers g)).
Lemma filter_lt {A} (f f' : A -> bool) l x : (forall y, f' y = true -> f y = true) -> In x l -> f x = true -> f' x = false ->
  length (filter f' l) < length (filter f l).
Proof.
  intros Hle Hin Hx Hx'.
  assert (W : forall l, length (filter f' l) <= length (filter f l)).
  { induction l0 as [|y l0 IH]; [easy|]. cbn. destruct (f' y) eqn:E; [rewrite (Hle y E); cbn; lia|]. destruct (f y); cbn; lia. }
  induction l as [|y l IH]; [easy|]. cbn. destruct Hin as [->|Hin].
  - rewrite Hx, Hx'. cbn. specialize (W l). lia.
  - specialize (IH Hin). destruct (f' y) eqn:E; [rewrite (Hle y E); cbn; lia|]. destruct (f y); cbn; lia.
Qed.
Lemma trail_exists g refattrs : tiers_resolvable g refattrs -> forall n seen t items, unseen g seen <= n -> In t (g_tiers g) ->
  exists hs, trail g refattrs seen t items hs.
Proof.
  intros Hres. induction n as [n IH] using lt_wf_ind. intros seen t items Hu Ht.
  destruct (find (dmem (a_dict (t_attrs t))) refattrs) as [ra|] eqn:E.
  2:{ exists []. constructor. now apply find_no_attr. }
  apply find_first_attr in E. destruct (Hres t ra Ht E) as [rt Hr]. assert (Hh := mk_hop_up g refattrs t items ra rt E Hr).
  destruct (okey_mem (tier_id rt) seen) eqn:Em.
  - exists [mk_hop t items ra rt]. apply trail_seen; [easy|]. now apply okey_mem_in.
  - destruct (refers_first_in _ _ _ _ Hr) as (Hrt & i & Hi).
    assert (Hlt : unseen g (tier_id rt :: seen) < unseen g seen).
    { apply (filter_lt _ _ (g_tiers g) rt); [|easy| |].
      - intros y Hy. apply negb_true_iff in Hy. apply negb_true_iff. cbn in Hy. now apply orb_false_elim in Hy.
      - now rewrite Em.
      - apply negb_false_iff. apply okey_mem_in. now left. }
    destruct (IH (unseen g (tier_id rt :: seen)) ltac:(lia) (tier_id rt :: seen) rt (h_items (mk_hop t items ra rt)) ltac:(lia) Hrt) as [hs Hhs].
    exists (mk_hop t items ra rt :: hs). apply trail_step; [easy| |easy]. intros Hin. apply okey_mem_in in Hin. cbn [mk_hop h_to] in Hin. congruence.
Qed.

Theorem ancestors_short g h refattrs n : tiers_named g -> ~ In [] refattrs -> short_ids g -> tiers_resolvable g refattrs ->
  In (start_tier n) (g_tiers g) ->
  exists hs, trail g refattrs [tier_id (start_tier n)] (start_tier n) (start_items n) hs
    /\ eventually (fun f => ancestors f g (index_after h) refattrs n) (hs, Finished).
Proof.
  intros Hn Hne Hs Hr Hin. unfold ancestors. rewrite start_of_spec. set (t := start_tier n) in *. set (items := start_items n) in *. clearbody t items. cbn [fst snd] in *.
  destruct (trail_exists g refattrs Hr _ [tier_id t] t items (le_n _) Hin) as [hs Hhs]. exists hs. split; [easy|].
  eapply short_trail; eauto; [apply index_items_only|]. reflexivity.
Qed.

(* acyclic references *)

Theorem ancestors_terminates g h refattrs rank n : tiers_named g -> up_acyclic g refattrs rank -> In (start_tier n) (g_tiers g) ->
  exists hs e, e <> Unfinished /\ eventually (fun f => ancestors f g (index_after h) refattrs n) (hs, e).
Proof.
  intros Hn Hac Hin. unfold ancestors. assert (Hx := index_items_only h). revert Hx. generalize (index_after h). intros x Hx.
  rewrite start_of_spec. set (t := start_tier n) in *. set (items := start_items n) in *. clearbody t items. cbn [fst] in Hin. generalize [tier_id t]. revert items.
  remember (rank t) as r eqn:Er. revert t Er Hin. induction r as [r IH] using lt_wf_ind. intros t -> Hin items visited.
  destruct (find (dmem (a_dict (t_attrs t))) refattrs) as [ra|] eqn:E.
  2:{ exists [], Finished. split; [easy|]. apply eventually_S, eventually_const. intros f. cbn [ancestors_from]. now rewrite E. }
  destruct ra as [|c0 ra'].
  { exists [], Finished. split; [easy|]. apply eventually_S, eventually_const. intros f. cbn [ancestors_from]. now rewrite E. }
  set (ra := c0 :: ra') in *.
  destruct (dereference g x (NTier t) ra) as [[[rt|t' i']|]|er] eqn:Ed.
  2-4: eexists [], (Raised _); (split; [easy|]); apply eventually_S, eventually_const; intros f; cbn [ancestors_from]; rewrite E; subst ra; cbn iota; rewrite Ed; reflexivity.
  assert (Hr := Ed). apply dereference_tier in Hr; auto. destruct (refers_first_in _ _ _ _ Hr) as (Hrt & i & Hi).
  destruct (okey_mem (tier_id rt) visited) eqn:Em.
  - exists [mk_hop t items ra rt], Finished. split; [easy|]. apply eventually_S, eventually_const. intros f. cbn [ancestors_from].
    rewrite E. subst ra; cbn iota. rewrite Ed, Em. reflexivity.
  - assert (Hlt : rank rt < rank t) by (apply find_first_attr in E; eapply Hac; eauto).
    destruct (IH (rank rt) Hlt rt eq_refl Hrt (h_items (mk_hop t items ra rt)) (visited_update visited i)) as (hs & e & He & n0 & Hn0).
    exists (mk_hop t items ra rt :: hs), e. split; [easy|]. apply eventually_S. exists n0. intros m Hm. cbn [ancestors_from].
    rewrite E. subst ra; cbn iota. rewrite Ed, Em, Hi. change (filter _ (t_items rt)) with (h_items (mk_hop t items (c0 :: ra') rt)).
    now rewrite Hn0.
Qed.

Theorem ancestors_acyclic g h refattrs rank n : tiers_named g -> ~ In [] refattrs -> tiers_resolvable g refattrs ->
  up_acyclic g refattrs rank -> no_char_clash g -> In (start_tier n) (g_tiers g) ->
  exists hs, trail g refattrs [tier_id (start_tier n)] (start_tier n) (start_items n) hs
    /\ (forall ra, In ra refattrs -> ~ has_attr (last (map h_to hs) (start_tier n)) ra)
    /\ eventually (fun f => ancestors f g (index_after h) refattrs n) (hs, Finished).
Proof.
  intros Hn Hne Hres Hac Hcc Hin. unfold ancestors. assert (Hx := index_items_only h). revert Hx. generalize (index_after h). intros x Hx.
  rewrite start_of_spec. set (t := start_tier n) in *. set (items := start_items n) in *. clearbody t items. cbn [fst snd] in *.
  enough (W : forall r t items visited seen, rank t = r -> In t (g_tiers g) ->
     (forall t', In t' (g_tiers g) -> In (tier_id t') visited -> tier_id t' <> None -> rank t <= rank t') ->
     (forall t', In t' (g_tiers g) -> In (tier_id t') seen -> tier_id t' <> None -> rank t <= rank t') ->
     exists hs, trail g refattrs seen t items hs
      /\ (forall ra, In ra refattrs -> ~ has_attr (last (map h_to hs) t) ra)
      /\ eventually (fun f => ancestors_from f g x refattrs visited t items) (hs, Finished)).
  { apply (W (rank t)); auto; intros t' Ht' [E|[]] Hne'.
    - destruct (tier_id t) as [i|] eqn:Ei; [|congruence]. destruct (Hn _ _ Hin Ei) as (_ & _ & _ & Hu). rewrite (Hu t'); auto.
    - destruct (tier_id t) as [i|] eqn:Ei; [|congruence]. destruct (Hn _ _ Hin Ei) as (_ & _ & _ & Hu). rewrite (Hu t'); auto. }
  clear t items Hin. induction r as [r IH] using lt_wf_ind. intros t items visited seen <- Hin Hv Hs.
  destruct (find (dmem (a_dict (t_attrs t))) refattrs) as [ra|] eqn:E.
  2:{ assert (E' := proj1 (find_no_attr _ _) E). exists []. split; [now constructor|]. split; [exact E'|].
      apply eventually_S, eventually_const. intros f. now apply anc_stop. }
  assert (Ha := proj1 (find_first_attr _ _ _) E). destruct (Hres t ra Hin Ha) as [rt Hr]. destruct (refers_first_in _ _ _ _ Hr) as (Hrt & i & Hi).
  assert (Hlt : rank rt < rank t) by (eapply Hac; eauto).
  assert (Hnv : ~ In (tier_id rt) visited) by (intros H; apply Hv in H; [lia|easy|congruence]).
  assert (Hns : ~ In (tier_id rt) seen) by (intros H; apply Hs in H; [lia|easy|congruence]).
  destruct (Hn _ _ Hrt Hi) as (_ & _ & _ & Hu).
  destruct (IH (rank rt) Hlt rt (h_items (mk_hop t items ra rt)) (visited_update visited i) (tier_id rt :: seen) eq_refl Hrt) as (hs & Ht & Hl & n0 & Hn0).
  - intros t' Ht' H Hne'. unfold visited_update in H. apply in_app_iff in H as [H|H]; [|apply Hv in H; auto; lia].
    apply in_map_iff in H as (c & Ec & Hc). symmetry in Ec. assert (Hic : i = [c]) by (apply (Hcc t' rt c i); auto). subst i. rewrite (Hu t'); auto.
  - intros t' Ht' [H|H] Hne'; [|apply Hs in H; auto; lia]. rewrite (Hu t'); auto. congruence.
  - exists (mk_hop t items ra rt :: hs). split; [|split].
    + apply trail_step; [now apply mk_hop_up|easy|easy].
    + cbn [map]. intros r Hr'. specialize (Hl r Hr'). destruct hs as [|h1 hs]; [exact Hl|].
      intros Hh. apply Hl. cbn [map]. rewrite (last_change (map h_to hs) (h_to h1) _ t). exact Hh.
    + apply eventually_S. exists n0. intros m Hm. rewrite (anc_step m g x refattrs visited t items ra rt); auto.
      destruct (okey_mem (tier_id rt) visited) eqn:Em; [exfalso; apply Hnv; now apply okey_mem_in|]. rewrite Hi. now rewrite Hn0.
Qed.

(* ---------- descendants ---------- *)

Lemma container_item_known g i t : tiers_named g -> In t (g_tiers g) -> tier_id t = Some i ->
  container_item tier_id (g_tiers g) i = Ok t.
Proof. intros Hn Ht Hi. apply container_item_member. now apply Hn. Qed.

(* who refers to a tier *)
Lemma tier_referrers_ok g x t i refattrs : tiers_named g -> In t (g_tiers g) -> tier_id t = Some i ->
  exists m, tier_referrers g x t refattrs = Ok m
    /\ forall ra j, In j (refs_at m ra) <-> exists t', tier_id t' = Some j /\ In ra refattrs /\ tier_refers g t' ra t.
Proof.
  intros Hn Ht Hi. destruct (Hn t i Ht Hi) as (Hne & Hm). unfold tier_referrers.
  assert (Hg : g_tiers g <> []) by (intros E; rewrite E in Ht; destruct Ht).
  destruct (g_tiers g) as [|t0 l0] eqn:Eg; [easy|]. rewrite <- Eg in *. rewrite Hi. destruct i as [|c i']; [easy|].
  destruct (referrers_of g x (c :: i') (Some refattrs) (tier_nodes g)) as (m & Em & Hr).
  { left. split; [easy|]. exists t. now apply container_item_member. }
  exists m. split; [easy|]. intros ra j. change (refs_at m ra) with (entry m ra). rewrite Hr, in_flat_map. split.
  - intros (o & Ho & H). apply in_tier_nodes in Ho as (t' & -> & Ht'). apply in_adds in H as (H1 & H2 & H3).
    exists t'. split; [exact H1|]. split; [exact H2|]. split; [easy|]. split; [change (tier_id t' = Some j) in H1; congruence|]. eauto.
  - intros (t' & H1 & H2 & H3 & _ & k & Hk & Hl). exists (NTier t'). split; [apply in_tier_nodes; now exists t'|].
    apply in_adds. rewrite Hi in Hk. injection Hk as <-. auto.
Qed.

Definition mk_down (t : tier) (items : list item) (ra : str) (rt : tier) : hop :=
  {| h_from := t; h_ra := ra; h_to := rt;
     h_items := filter (fun it => existsb (fun i => okey_mem (Some i) (map item_id items)) (item_refs it ra)) (t_items rt) |}.
Lemma mk_down_hop g refattrs t items ra rt : In ra refattrs -> tier_refers g rt ra t ->
  down_hop g refattrs items (mk_down t items ra rt).
Proof.
  intros Hin Hr. split; [easy|]. split; [easy|]. cbn. apply filter_sieve. intros it _. rewrite existsb_exists. split.
  - intros (i & Hi & Hm). apply okey_mem_in, in_map_iff in Hm as (it' & E & Hit). exists i, it'. split; [easy|]. split; [easy|].
    now apply item_refs_lists.
  - intros (i & it' & Hit & E & Hl). exists i. split; [now apply item_refs_lists|]. apply okey_mem_in. rewrite <- E. now apply in_map.
Qed.

Lemma visit_ids_ok g t items ra l : tiers_named g -> (forall j, In j l -> exists t', In t' (g_tiers g) /\ tier_id t' = Some j) ->
  exists rts, visit_ids g t (map item_id items) ra l = (map (mk_down t items ra) rts, None)
    /\ Forall2 (fun j rt => In rt (g_tiers g) /\ tier_id rt = Some j) l rts.
Proof.
  intros Hn. induction l as [|j l IH]; intros H; [exists []; split; [easy|constructor]|].
  destruct (H j (or_introl eq_refl)) as (t' & Ht' & Hj). destruct IH as (rts & E & F); [intros; apply H; now right|].
  exists (t' :: rts). split; [|now constructor]. cbn [visit_ids]. rewrite (container_item_known g j t' Hn Ht' Hj), E. reflexivity.
Qed.

Lemma pair_spec (a b : option str * str) : reflect (a = b) (pair_eqb a b).
Proof.
  unfold pair_eqb. destruct a as [a1 a2], b as [b1 b2]. cbn. destruct (okey_spec a1 b1) as [->|]; [|constructor; congruence].
  destruct (str_eqb_spec a2 b2) as [->|]; constructor; congruence.
Qed.
Definition seen_pair (v : list (option str * str)) (p : option str * str) : bool := existsb (pair_eqb p) v.
Lemma seen_pair_in v p : seen_pair v p = true <-> In p v.
Proof.
  unfold seen_pair. rewrite existsb_exists. split.
  - intros (y & Hy & E). now destruct (pair_spec p y); [subst|].
  - intros H. exists p. split; [easy|]. now destruct (pair_spec p p).
Qed.

Lemma visit_attrs_ok g x t i items refattrs m : tiers_named g -> In t (g_tiers g) -> tier_id t = Some i ->
  (forall ra j, In j (refs_at m ra) <-> exists t', tier_id t' = Some j /\ In ra refattrs /\ tier_refers g t' ra t) ->
  tier_referrers g x t refattrs = Ok m ->
  forall ras visited, exists v hs, visit_attrs g t (map item_id items) m visited ras = (v, hs, None)
    /\ (forall p, In p v <-> In p visited \/ fst p = tier_id t /\ In (snd p) ras)
    /\ (forall h, In h hs -> exists rt, h = mk_down t items (h_ra h) rt /\ In (h_ra h) ras /\ In (h_ra h) refattrs
           /\ tier_refers g rt (h_ra h) t)
    /\ (forall ra t', In ra ras -> In ra refattrs -> ~ In (tier_id t, ra) visited -> tier_refers g t' ra t ->
           exists h, In h hs /\ h_ra h = ra /\ h_to h = t')
    /\ ((forall ra, In ra ras -> In (tier_id t, ra) visited) -> hs = []).
Proof.
  intros Hn Ht Hi Hm Em. induction ras as [|ra ras IH]; intros visited.
  { exists visited, []. split; [easy|]. split; [intros p; cbn; tauto|]. split; [easy|]. split; [easy|easy]. }
  cbn [visit_attrs]. change (existsb (pair_eqb (tier_id t, ra)) visited) with (seen_pair visited (tier_id t, ra)).
  destruct (seen_pair visited (tier_id t, ra)) eqn:Es.
  - apply seen_pair_in in Es. destruct (IH visited) as (v & hs & E & H1 & H2 & H3 & H4). exists v, hs. split; [easy|]. split; [|split; [|split]].
    + intros p. rewrite H1. cbn [In]. split; [tauto|]. intros [H|[Hf [Hs|H]]]; auto. left. replace p with (tier_id t, ra); [easy|]. destruct p; cbn in *; congruence.
    + intros h Hh. destruct (H2 h Hh) as (rt & A & B & C). exists rt. split; [easy|]. split; [now right|easy].
    + intros r t' [<-|Hr] Hin Hnv Hre; [easy|eauto].
    + intros H. apply H4. intros r Hr. apply H. now right.
  - assert (Hns : ~ In (tier_id t, ra) visited) by (intros H; apply seen_pair_in in H; congruence).
    destruct (visit_ids_ok g t items ra (refs_at m ra) Hn) as (rts & E & F).
    { intros j Hj. apply Hm in Hj as (t' & Hj & _ & Ht' & _). eauto. }
    rewrite E. destruct (IH ((tier_id t, ra) :: visited)) as (v & hs & E' & H1 & H2 & H3 & H4). rewrite E'.
    eexists _, _. split; [reflexivity|]. split; [|split; [|split]].
    + intros p. rewrite H1. cbn [In]. split.
      * intros [[<-|H]|[H1' H2']]; auto.
      * intros [H|[Hf [Hs|H]]]; auto. left. left. destruct p; cbn in *; congruence.
    + intros h Hh. apply in_app_iff in Hh as [Hh|Hh].
      * apply in_map_iff in Hh as (rt & <- & Hrt). exists rt. cbn [mk_down h_ra]. split; [easy|]. split; [now left|].
        apply In_nth_error in Hrt as [k Hk]. 
        assert (exists j, In j (refs_at m ra) /\ In rt (g_tiers g) /\ tier_id rt = Some j) as (j & Hj & Hrt & Hij).
        { clear - F Hk. revert k Hk. induction F as [|j rt' l rts H F IH]; intros k Hk; [destruct k; discriminate|].
          destruct k; cbn in Hk; [injection Hk as ->; exists j; split; [now left|easy]|].
          destruct (IH k Hk) as (j' & A & B). exists j'. split; [now right|easy]. }
        apply Hm in Hj as (t' & Hj & Hin & Hre). destruct Hre as (Ht' & Hre). destruct (Hn _ _ Hrt Hij) as (_ & _ & _ & Hu).
        rewrite (Hu t' Ht' Hj) in *. split; [easy|]. split; easy.
      * destruct (H2 h Hh) as (rt & A & B & C). exists rt. split; [easy|]. split; [now right|easy].
    + intros r t' Hr Hin Hnv Hre. destruct (str_eqb_spec ra r) as [->|Hne].
      * assert (Hj : exists j, tier_id t' = Some j) by (destruct Hre as (_ & H & _); destruct (tier_id t'); [eauto|easy]).
        destruct Hj as [j Hj]. assert (In j (refs_at m r)) as Hjm by (apply Hm; eauto).
        assert (In t' rts) as Hrt.
        { clear - F Hjm Hj Hn Hre. induction F as [|j' rt' l rts H F IH]; [easy|]. destruct Hjm as [->|Hjm]; [|right; auto].
          left. destruct H as [H1 H2]. destruct (Hn _ _ H1 H2) as (_ & _ & _ & Hu). symmetry. apply Hu; [apply Hre|easy]. }
        exists (mk_down t items r t'). split; [apply in_app_iff; left; now apply in_map|easy].
      * destruct Hr as [->|Hr]; [easy|]. destruct (H3 r t' Hr Hin) as (h & Hh & A & B); auto.
        -- intros [[= Hc]|H]; auto.
        -- exists h. split; [apply in_app_iff; now right|easy].
    + intros H. exfalso. apply Hns. apply H. now left.
Qed.

(* pairs not yet visited *)
Definition universe (g : igt) (refattrs : list str) : list (option str * str) := list_prod (map tier_id (g_tiers g)) refattrs.
Definition unvisited (g : igt) (refattrs : list str) (v : list (option str * str)) : nat :=
  length (filter (fun p => negb (seen_pair v p)) (universe g refattrs)).

Definition closed (g : igt) (refattrs : list str) (S : list hop) (t : tier) : Prop :=
  forall ra t', In ra refattrs -> tier_refers g t' ra t -> exists h, In h S /\ h_to h = t'.
(* what the hops so far and the agenda guarantee *)
Definition coverage (g : igt) (refattrs : list str) (visited : list (option str * str)) (agenda : list (tier * list item))
    (Y : list hop) : Prop :=
  (forall t ra t', In (tier_id t, ra) visited -> tier_refers g t' ra t -> exists h, In h Y /\ h_to h = t')
  /\ (forall h, In h Y -> In (h_to h) (map fst agenda) \/ forall ra t', In ra refattrs -> tier_refers g t' ra (h_to h) ->
        In (tier_id (h_to h), ra) visited).

Definition agenda_tree (g : igt) (refattrs : list str) (agenda : list (tier * list item)) (hs : list hop) : Prop :=
  forall l1 h l2, hs = l1 ++ h :: l2 ->
    exists its, down_hop g refattrs its h
      /\ (In (h_from h, its) agenda \/ exists h0, In h0 l1 /\ h_to h0 = h_from h /\ h_items h0 = its).

Lemma followed_in first m refattrs ra : In ra (followed first m refattrs) -> In ra refattrs /\ refs_at m ra <> [].
Proof.
  unfold followed. intros H.
  assert (H' : In ra (filter (fun ra => match refs_at m ra with [] => false | _ => true end) refattrs)).
  { destruct first; [|easy]. rewrite <- (firstn_skipn 1). apply in_app_iff. now left. }
  apply filter_In in H' as [H1 H2]. split; [easy|]. now destruct (refs_at m ra).
Qed.
Lemma followed_first m refattrs ra : In ra (followed true m refattrs) ->
  exists l1 l2, refattrs = l1 ++ ra :: l2 /\ forall r, In r l1 -> refs_at m r = [].
Proof.
  unfold followed. induction refattrs as [|r l IH]; [easy|]. cbn [filter]. destruct (refs_at m r) as [|z zs] eqn:E.
  - intros H. apply IH in H as (l1 & l2 & -> & H). exists (r :: l1), l2. split; [easy|]. intros r' [<-|Hr]; auto.
  - cbn [firstn]. intros [->|[]]. exists [], l. split; [easy|]. intros ? [].
Qed.

Lemma app_split {A} (l1 l2 a b : list A) (x : A) : l1 ++ l2 = a ++ x :: b ->
  (exists c, l1 = a ++ x :: c) \/ (exists c, a = l1 ++ c /\ l2 = c ++ x :: b).
Proof.
  revert a. induction l1 as [|y l1 IH]; intros a E; [right; exists a; auto|].
  destruct a as [|z a]; injection E as -> E; [left; now exists l1|].
  destruct (IH a E) as [[c ->]|(c & -> & ->)]; [left; now exists c|right; now exists c].
Qed.

Lemma desc_assemble g x refattrs first t i items visited agenda m v hs0 hs1 :
  tier_id t = Some i ->
  tier_referrers g x t refattrs = Ok m ->
  (forall ra j, In j (refs_at m ra) <-> exists t', tier_id t' = Some j /\ In ra refattrs /\ tier_refers g t' ra t) ->
  visit_attrs g t (map item_id items) m visited (followed first m refattrs) = (v, hs0, None) ->
  (forall p, In p v <-> In p visited \/ fst p = tier_id t /\ In (snd p) (followed first m refattrs)) ->
  (forall h, In h hs0 -> exists rt, h = mk_down t items (h_ra h) rt /\ In (h_ra h) (followed first m refattrs) /\ In (h_ra h) refattrs
           /\ tier_refers g rt (h_ra h) t) ->
  (forall ra t', In ra (followed first m refattrs) -> In ra refattrs -> ~ In (tier_id t, ra) visited -> tier_refers g t' ra t ->
           exists h, In h hs0 /\ h_ra h = ra /\ h_to h = t') ->
  let agenda' := agenda ++ map (fun h => (h_to h, h_items h)) hs0 in
  (eventually (fun f => descendants_from f g x refattrs first v agenda') (hs1, Finished)
    /\ agenda_tree g refattrs agenda' hs1
    /\ (first = true -> forall h, In h hs1 -> first_down g refattrs h)
    /\ (first = false -> forall Y, coverage g refattrs v agenda' Y ->
          (forall h, In h (Y ++ hs1) -> closed g refattrs (Y ++ hs1) (h_to h))
          /\ forall t its, In (t, its) agenda' -> closed g refattrs (Y ++ hs1) t)) ->
  eventually (fun f => descendants_from f g x refattrs first visited ((t, items) :: agenda)) (hs0 ++ hs1, Finished)
    /\ agenda_tree g refattrs ((t, items) :: agenda) (hs0 ++ hs1)
    /\ (first = true -> forall h, In h (hs0 ++ hs1) -> first_down g refattrs h)
    /\ (first = false -> forall Y, coverage g refattrs visited ((t, items) :: agenda) Y ->
          (forall h, In h (Y ++ hs0 ++ hs1) -> closed g refattrs (Y ++ hs0 ++ hs1) (h_to h))
          /\ forall t' its, In (t', its) ((t, items) :: agenda) -> closed g refattrs (Y ++ hs0 ++ hs1) t').
Proof.
  intros Hi Em Hm E0 V1 V2 V3 agenda' (P1 & P2 & P3 & P4). split; [|split; [|split]].
  - destruct P1 as [n0 P1]. apply eventually_S. exists n0. intros f Hf. cbn [descendants_from]. rewrite Em, E0.
    fold agenda'. now rewrite (P1 f Hf).
  - intros l1 h l2 E. apply app_split in E as [[c Ec]|(c & -> & Ec)].
    + exists items. assert (Hh : In h hs0) by (rewrite Ec; apply in_elt). destruct (V2 h Hh) as (rt & -> & _ & Hra & Hre).
      split; [now apply mk_down_hop|]. left. now left.
    + destruct (P2 c h l2 Ec) as (its & Hd & Hs). exists its. split; [easy|]. destruct Hs as [Hs|(h0 & Hh0 & Hs)].
      * subst agenda'. apply in_app_iff in Hs as [Hs|Hs]; [left; now right|].
        apply in_map_iff in Hs as (h0 & [= <- <-] & Hh0). right. exists h0. split; [apply in_app_iff; now left|easy].
      * right. exists h0. split; [apply in_app_iff; now right|easy].
  - intros -> h Hh. apply in_app_iff in Hh as [Hh|Hh]; [|now apply P3]. destruct (V2 h Hh) as (rt & -> & Hf & _ & _).
    cbn [mk_down h_ra] in Hf. apply followed_first in Hf as (l1 & l2 & E & Hno). exists l1, l2. split; [easy|].
    intros r t' Hr Hre. cbn [mk_down h_from] in Hre.
    assert (exists j, tier_id t' = Some j) as [j Hj] by (destruct Hre as (_ & H & _); destruct (tier_id t'); [eauto|easy]).
    assert (In j (refs_at m r)) as H; [|rewrite (Hno r Hr) in H; destruct H].
    apply Hm. exists t'. split; [easy|]. split; [|easy]. rewrite E. apply in_app_iff. now left.
  - intros Hf Y [C1 C2].
    assert (Hproc : forall ra t', In ra refattrs -> tier_refers g t' ra t -> In (tier_id t, ra) v).
    { intros ra t' Hra Hre. apply V1. right. split; [easy|]. cbn [snd]. subst first. unfold followed. apply filter_In. split; [easy|].
      assert (exists j, tier_id t' = Some j) as [j Hj] by (destruct Hre as (_ & H & _); destruct (tier_id t'); [eauto|easy]).
      assert (In j (refs_at m ra)) as H by (apply Hm; eauto). now destruct (refs_at m ra). }
    assert (C1' : forall t0 ra t', In (tier_id t0, ra) v -> tier_refers g t' ra t0 -> exists h, In h (Y ++ hs0) /\ h_to h = t').
    { intros t0 ra t' Hv Hre. destruct (seen_pair visited (tier_id t0, ra)) eqn:Es.
      - apply seen_pair_in in Es. destruct (C1 _ _ _ Es Hre) as (h & Hh & E). exists h. split; [apply in_app_iff; now left|easy].
      - apply V1 in Hv as [Hv|[Hv1 Hv2]]; [apply seen_pair_in in Hv; congruence|]. cbn [fst snd] in *.
        assert (Hre' : tier_refers g t' ra t).
        { destruct Hre as (A & B & k & Hk & Hl). split; [easy|]. split; [easy|]. exists k. split; [congruence|easy]. }
        destruct (V3 ra t' Hv2) as (h & Hh & _ & E); auto.
        + now apply followed_in in Hv2.
        + intros H. apply seen_pair_in in H. congruence.
        + exists h. split; [apply in_app_iff; now right|easy]. }
    assert (C2' : coverage g refattrs v agenda' (Y ++ hs0)).
    { split; [exact C1'|]. intros h Hh. subst agenda'. rewrite map_app, in_app_iff. apply in_app_iff in Hh as [Hh|Hh].
      - destruct (C2 h Hh) as [[E|Hin]|H].
        + cbn [fst] in E. right. rewrite <- E. exact Hproc.
        + left. now left.
        + right. intros ra t' Hra Hre. apply V1. left. eauto.
      - left. right. rewrite map_map. cbn [fst]. now apply in_map. }
    destruct (P4 Hf (Y ++ hs0) C2') as [Q1 Q2]. rewrite app_assoc. split; [exact Q1|].
    intros t' its [[= <- <-]|Hin].
    + intros ra t' Hra Hre. destruct (C1' t ra t' (Hproc ra t' Hra Hre) Hre) as (h & Hh & E). exists h. split; [apply in_app_iff; now left|easy].
    + apply (Q2 t' its). subst agenda'. apply in_app_iff. now left.
Qed.

Lemma desc_main g x refattrs first : tiers_named g -> forall n visited, unvisited g refattrs visited <= n -> forall agenda,
  (forall t its, In (t, its) agenda -> In t (g_tiers g) /\ tier_id t <> None) ->
  exists hs, eventually (fun f => descendants_from f g x refattrs first visited agenda) (hs, Finished)
    /\ agenda_tree g refattrs agenda hs
    /\ (first = true -> forall h, In h hs -> first_down g refattrs h)
    /\ (first = false -> forall Y, coverage g refattrs visited agenda Y ->
          (forall h, In h (Y ++ hs) -> closed g refattrs (Y ++ hs) (h_to h))
          /\ forall t its, In (t, its) agenda -> closed g refattrs (Y ++ hs) t).
Proof.
  intros Hn. induction n as [n IHn] using lt_wf_ind. intros visited Hcount agenda. remember (length agenda) as k eqn:Ek.
  revert visited Hcount agenda Ek. induction k as [k IHk] using lt_wf_ind. intros visited Hcount agenda -> Hag.
  destruct agenda as [|[t items] agenda].
  { exists []. split; [apply eventually_S, eventually_const; easy|]. split; [intros l1 h l2 E; destruct l1; discriminate|].
    split; [easy|]. intros _ Y [C1 C2]. rewrite app_nil_r. split; [|easy]. intros h Hh ra t' Hra Hre.
    destruct (C2 h Hh) as [[]|H]. eapply C1; [exact (H ra t' Hra Hre)|exact Hre]. }
  destruct (Hag t items (or_introl eq_refl)) as [Ht Hid]. destruct (tier_id t) as [i|] eqn:Hi; [clear Hid|easy].
  destruct (tier_referrers_ok g x t i refattrs Hn Ht Hi) as (m & Em & Hm).
  destruct (visit_attrs_ok g x t i items refattrs m Hn Ht Hi Hm Em (followed first m refattrs) visited) as (v & hs0 & E0 & V1 & V2 & V3 & V4).
  set (agenda' := agenda ++ map (fun h => (h_to h, h_items h)) hs0).
  assert (Hag' : forall t its, In (t, its) agenda' -> In t (g_tiers g) /\ tier_id t <> None).
  { intros t' its H. apply in_app_iff in H as [H|H]; [apply (Hag t' its); now right|].
    apply in_map_iff in H as (h & [= <- <-] & Hh). destruct (V2 h Hh) as (rt & -> & _ & _ & H1 & H2 & _). auto. }
  assert (Hle : unvisited g refattrs v <= unvisited g refattrs visited).
  { unfold unvisited. assert (W : forall l, length (filter (fun p => negb (seen_pair v p)) l) <= length (filter (fun p => negb (seen_pair visited p)) l)).
    { induction l as [|p l IH]; [easy|]. cbn [filter].
      destruct (seen_pair v p) eqn:E1; cbn [negb].
      - destruct (negb (seen_pair visited p)); cbn; lia.
      - destruct (seen_pair visited p) eqn:E2; cbn [negb length]; [|lia]. apply seen_pair_in in E2.
        assert (In p v) by (apply V1; auto). apply seen_pair_in in H. congruence. }
    apply W. }
  destruct (forallb (fun ra => seen_pair visited (tier_id t, ra)) (followed first m refattrs)) eqn:Eall.
  - (* nothing new *)
    rewrite forallb_forall in Eall. assert (hs0 = []) as H0 by (apply V4; intros ra Hra; apply seen_pair_in; auto).
    destruct (IHk (length agenda') ltac:(subst agenda'; rewrite H0, app_nil_r; cbn; lia) v ltac:(lia) agenda' eq_refl Hag') as (hs1 & P).
    exists (hs0 ++ hs1). revert P. apply desc_assemble with (m := m) (i := i); auto.
  - assert (exists ra, In ra (followed first m refattrs) /\ ~ In (tier_id t, ra) visited) as (ra & Hra & Hnew).
    { clear - Eall. induction (followed first m refattrs) as [|r l IH]; [discriminate|]. cbn in Eall.
      destruct (seen_pair visited (tier_id t, r)) eqn:E.
      - destruct (IH Eall) as (ra & H1 & H2). exists ra. split; [now right|easy].
      - exists r. split; [now left|]. intros H. apply seen_pair_in in H. congruence. }
    assert (Hlt : unvisited g refattrs v < unvisited g refattrs visited).
    { apply (filter_lt _ _ (universe g refattrs) (tier_id t, ra)).
      - intros p Hp. apply negb_true_iff in Hp. apply negb_true_iff. destruct (seen_pair visited p) eqn:E2; [|easy].
        apply seen_pair_in in E2. assert (In p v) by (apply V1; auto). apply seen_pair_in in H. congruence.
      - apply in_prod; [now apply in_map|]. now apply followed_in in Hra.
      - apply negb_true_iff. destruct (seen_pair visited (tier_id t, ra)) eqn:E2; [|easy]. now apply seen_pair_in in E2.
      - apply negb_false_iff. apply seen_pair_in. apply V1. now right. }
    destruct (IHn (unvisited g refattrs v) ltac:(lia) v (le_n _) agenda' Hag') as (hs1 & P).
    exists (hs0 ++ hs1). revert P. apply desc_assemble with (m := m) (i := i); auto.
Qed.

Theorem descendants_sound g x refattrs first n : tiers_named g ->
  In (start_tier n) (g_tiers g) -> tier_id (start_tier n) <> None ->
  exists hs, eventually (fun f => descendants f g x refattrs first n) (hs, Finished)
    /\ down_tree g refattrs (start_tier n) (start_items n) hs
    /\ (first = true -> forall h, In h hs -> first_down g refattrs h)
    /\ (first = false -> forall t', reaches g refattrs (start_tier n) t' -> exists h, In h hs /\ h_to h = t').
Proof.
  intros Hn Hin Hid. unfold descendants. rewrite start_of_spec. set (t := start_tier n) in *. set (items := start_items n) in *. clearbody t items. cbn [fst snd] in *.
  destruct (desc_main g x refattrs first Hn _ [] (le_n _) [(t, items)]) as (hs & H1 & H2 & H3 & H4).
  { intros t0 its [[= <- <-]|[]]. auto. }
  exists hs. split; [easy|]. split; [|split; [easy|]].
  - intros l1 h l2 E. destruct (H2 l1 h l2 E) as (its & Hd & Hs). exists its. split; [easy|]. destruct Hs as [[Hs|[]]|Hs]; [|now right].
    injection Hs as <- <-. now left.
  - intros Hf. destruct (H4 Hf []) as [C1 C2]; [split; easy|]. cbn [app] in *. intros t' Hr.
    induction Hr as [t' ra Hra Ht'|t' t'' ra Hr IH Hra Ht''].
    + apply (C2 t items (or_introl eq_refl) ra t' Hra Ht').
    + destruct IH as (h & Hh & <-). apply (C1 h Hh ra t'' Hra Ht'').
Qed.

End QP.

Theorem descendants_no_id {U : Unicode} f g h refattrs first n : tier_id (start_tier n) = None ->
  descendants (S f) g (index_after h) refattrs first n = ([], Raised XigtError).
Proof.
  intros H. unfold descendants. cbn [descendants_from]. rewrite start_of_spec. unfold tier_referrers. rewrite H. now destruct (g_tiers g).
Qed.
