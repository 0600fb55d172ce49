(* The order of a corpus does not matter for saving it; sorting again (C71). *)
From Coq Require Import Permutation Sorted.
From Verif Require Import PyStr PyStrFacts PySort PySortFacts Ref Model Value Attr Index XmlStd Xml SpecXml XmlProofs SpecReload ReloadProofs IntProofs
  SortTiers SpecSortTiers SortTiersProofs SortTiersUnique SortTiersAny Scripts SpecScripts SortScriptProofs Path SpecPath PathLaws Command SpecCommand.

(* ---------- saving ---------- *)

Lemma nests_any m k o o' : nests m k -> tree_ok o k -> tree_ok o' k.
Proof.
  intros Hn Ht. inversion Hn as [? tag a text kids m' Em He Hd Hk]; subst. inversion Ht; subst.
  assert (E : forall x, in_force a x = m') by (intros x; unfold in_force; now rewrite Em).
  constructor; rewrite ?E in *; auto.
Qed.
Lemma fits_kids m0 tag a text kids kids' : fits m0 (XT tag a text kids) ->
  (forall k', In k' kids' -> exists k, In k kids /\ forall m, fits m k -> fits m k') -> fits m0 (XT tag a text kids').
Proof.
  intros [Ht Hn] H. inversion Hn as [? ? ? ? ? m Em He Hd Hk]; subst.
  assert (E : forall x, in_force a x = m) by (intros x; unfold in_force; now rewrite Em).
  assert (Hf : Forall (fits m) kids').
  { apply Forall_forall. intros k' Hk'. destruct (H k' Hk') as (k & Hin & Hm). apply Hm.
    rewrite Forall_forall in Hk. split; [|now apply Hk]. intros outer. specialize (Ht []). inversion Ht as [? ? ? ? ? _ _ _ HF]; subst.
    rewrite E in HF. rewrite Forall_forall in HF. apply (nests_any m k m); auto. }
  split.
  - intros outer. specialize (Ht outer). inversion Ht; subst. constructor; auto. rewrite E. eapply Forall_impl; [|exact Hf].
    intros k [K _]. apply K.
  - econstructor; eauto. eapply Forall_impl; [|exact Hf]. now intros k [_ K].
Qed.
Lemma Forall2_in_r {A B} (R : A -> B -> Prop) l l' y : Forall2 R l l' -> In y l' -> exists x, In x l /\ R x y.
Proof. induction 1 as [|a b l l' H _ IH]; [easy|]. intros [<-|Hy]; [exists a; split; [now left|easy]|]. destruct (IH Hy) as (x & Hx & Hr). exists x. split; [now right|easy]. Qed.

Lemma fits_tier t t' m : reordered_tier t t' -> fits m (tier_tree t) -> fits m (tier_tree t').
Proof.
  intros (Ea & Em & Hp) Hf. unfold tier_tree in *. rewrite Ea, Em. eapply fits_kids; [exact Hf|]. intros k Hk. exists k. split; [|auto].
  apply in_app_iff in Hk as [Hk|Hk]; apply in_app_iff; [now left|right].
  eapply Permutation_in; [|exact Hk]. now apply Permutation_map.
Qed.
Lemma fits_igt g g' m : reordered_igt g g' -> fits m (igt_tree g) -> fits m (igt_tree g').
Proof.
  intros (Ea & Em & ts & Hp & H2) Hf. unfold igt_tree in *. rewrite Ea, Em. eapply fits_kids; [exact Hf|]. intros k Hk.
  apply in_app_iff in Hk as [Hk|Hk].
  - exists k. split; [apply in_app_iff; now left|auto].
  - apply in_map_iff in Hk as (t' & <- & Ht'). destruct (Forall2_in_r _ _ _ _ H2 Ht') as (t & Ht & Hr).
    exists (tier_tree t). split; [apply in_app_iff; right; apply in_map; eapply Permutation_in; eauto|]. intros n. now apply fits_tier.
Qed.
Lemma fits_corpus c c' m : reordered c c' -> fits m (corpus_tree c) -> fits m (corpus_tree c').
Proof.
  intros (Ea & Em & gs & Hp & H2) Hf. unfold corpus_tree in *. rewrite Ea, Em. eapply fits_kids; [exact Hf|]. intros k Hk.
  apply in_app_iff in Hk as [Hk|Hk].
  - exists k. split; [apply in_app_iff; now left|auto].
  - apply in_map_iff in Hk as (g' & <- & Hg'). destruct (Forall2_in_r _ _ _ _ H2 Hg') as (g & Hg & Hr).
    exists (igt_tree g). split; [apply in_app_iff; right; apply in_map; eapply Permutation_in; eauto|]. intros n. now apply fits_igt.
Qed.

Lemma some_ids_perm l l' : Permutation l l' -> Permutation (some_ids l) (some_ids l').
Proof. apply Permutation_flat_map. Qed.
Lemma Forall2_map_eq {A B} (f : A -> B) l l' : Forall2 (fun x y => f y = f x) l l' -> map f l' = map f l.
Proof. induction 1; cbn; congruence. Qed.
Lemma nodup_ids {A} (f : A -> option str) l ts l' : NoDup (some_ids (map f l)) -> Permutation ts l -> Forall2 (fun x y => f y = f x) ts l' ->
  NoDup (some_ids (map f l')).
Proof.
  intros H Hp H2. rewrite (Forall2_map_eq _ _ _ H2). eapply Permutation_NoDup; [|exact H]. apply some_ids_perm, Permutation_map. now symmetry.
Qed.
Lemma Forall_perm2 {A} (P : A -> Prop) (R : A -> A -> Prop) l ts l' : (forall x y, R x y -> P x -> P y) ->
  Forall P l -> Permutation ts l -> Forall2 R ts l' -> Forall P l'.
Proof.
  intros HR HP Hp H2. apply Forall_forall. intros y Hy. destruct (Forall2_in_r _ _ _ _ H2 Hy) as (x & Hx & Hr). apply (HR x y Hr).
  rewrite Forall_forall in HP. apply HP. eapply Permutation_in; eauto.
Qed.
Lemma Forall_perm {A} (P : A -> Prop) l l' : Forall P l -> Permutation l' l -> Forall P l'.
Proof. intros H Hp. eapply Permutation_Forall; [symmetry; exact Hp|exact H]. Qed.
Lemma tier_ok_reordered {U : Unicode} t t' : reordered_tier t t' -> tier_ok t -> tier_ok t'.
Proof.
  intros (Ea & Em & Hp) (H1 & H2 & H3 & H4). unfold tier_ok. rewrite Ea, Em. split; [easy|]. split; [easy|].
  split; [now apply (Forall_perm _ (t_items t))|]. eapply Permutation_NoDup; [|exact H4]. apply some_ids_perm, Permutation_map. now symmetry.
Qed.
Lemma igt_ok_reordered {U : Unicode} g g' : reordered_igt g g' -> igt_ok g -> igt_ok g'.
Proof.
  intros (Ea & Em & ts & Hp & HF) (H1 & H2 & H3 & H4). unfold igt_ok. rewrite Ea, Em. split; [easy|]. split; [easy|].
  split; [exact (Forall_perm2 _ _ _ _ _ tier_ok_reordered H3 Hp HF)|].
  eapply (nodup_ids _ _ _ _ H4 Hp). eapply Forall2_impl; [|exact HF]. intros x y (E & _). now rewrite E.
Qed.
Lemma corpus_ok_reordered {U : Unicode} c c' : reordered c c' -> corpus_ok c -> corpus_ok c'.
Proof.
  intros (Ea & Em & gs & Hp & HF) (H1 & H2 & H3 & H4 & H5 & H6). unfold corpus_ok. rewrite Ea, Em. repeat (split; [easy|]).
  split; [exact (Forall_perm2 _ _ _ _ _ igt_ok_reordered H5 Hp HF)|].
  eapply (nodup_ids _ _ _ _ H6 Hp). eapply Forall2_impl; [|exact HF]. intros x y (E & _). now rewrite E.
Qed.
Lemma tier_kept_reordered {U : Unicode} t t' : reordered_tier t t' -> tier_kept t -> tier_kept t'.
Proof. intros (Ea & Em & Hp) (H1 & H2). unfold tier_kept. rewrite Em. split; [easy|]. now apply (Forall_perm _ (t_items t)). Qed.
Lemma corpus_kept_reordered {U : Unicode} c c' : reordered c c' -> corpus_kept c -> corpus_kept c'.
Proof.
  intros (Ea & Em & gs & Hp & HF) (H1 & H2 & H3). unfold corpus_kept. rewrite Ea, Em. split; [easy|]. split; [easy|].
  refine (Forall_perm2 _ _ _ _ _ _ H3 Hp HF). intros g g' (Eg & Egm & ts & Hpt & HFt) (K1 & K2). rewrite Egm. split; [easy|].
  exact (Forall_perm2 _ _ _ _ _ tier_kept_reordered K2 Hpt HFt).
Qed.
Theorem reordered_dump {U : Unicode} ahead e c c' indent : tidy_document e -> xml_load ahead e = Ok c -> reordered c c' ->
  exists e', xml_dump c' indent = Ok e' /\ forall ahead', xml_load ahead' e' = Ok c'.
Proof.
  intros Hd El Hr. destruct (load_good ahead e c Hd El) as (Hf & Hc & Hk). apply dump_load.
  - now apply (fits_corpus c).
  - now apply (corpus_ok_reordered c).
  - now apply (corpus_kept_reordered c).
Qed.

(* ---------- what sorting does ---------- *)

Lemma sorted_perm {A} (key : option (A -> res (list piece))) l l' : sorted_if key l l' -> Permutation l' l.
Proof. destruct key; cbn; [intros H; apply H|now intros ->]. Qed.
Lemma sort_tiers_perm fuel g ras ts : sort_tiers fuel g ras = Some (Ok ts) -> Permutation ts (g_tiers g).
Proof.
  unfold sort_tiers. destruct (tier_keys _ _ _ _ _) as [[d|]|]; try easy. intros [= <-]. apply ssort_perm.
Qed.
Lemma tiers_sorted_perm fuel a g ts : tiers_sorted fuel a g ts -> Permutation ts (g_tiers g).
Proof.
  unfold tiers_sorted. destruct (by_tier a); [intros H; apply H|]. destruct (by_deps a); [apply sort_tiers_perm|now intros ->].
Qed.
Lemma sorted_reordered fuel a c c' : sorted_corpus fuel a c c' -> reordered c c'.
Proof.
  intros (Ea & Em & gs & Hs & HF). split; [easy|]. split; [easy|]. exists gs. split; [now apply sorted_perm in Hs|].
  eapply Forall2_impl; [|exact HF]. cbn. intros g g' (Eg & Egm & ts & Ht & HFt). split; [easy|]. split; [easy|].
  exists ts. split; [now apply tiers_sorted_perm in Ht|]. eapply Forall2_impl; [|exact HFt]. cbn. intros t t' (Et & Etm & Hi).
  split; [easy|]. split; [easy|]. destruct (by_item a); [apply Hi|now rewrite Hi].
Qed.

(* ---------- sorting again ---------- *)

Lemma msort_sorted_id {A} (lt : A -> A -> res bool) l : StronglySorted (fun a b => lt b a = Ok false) l -> msort lt l = Ok l.
Proof.
  induction 1 as [|x l Hs IH Hx]; [easy|]. cbn. rewrite IH. cbn. destruct l as [|y l]; [easy|]. cbn. inversion Hx as [|? ? E _]; subst. now rewrite E.
Qed.
Lemma sort_keyed_id {A} (key : A -> res (list piece)) l ks : Forall2 (fun x k => key x = Ok k) l ks ->
  StronglySorted (fun a b => key_lt b a = Ok false) ks -> sort_keyed key l = Ok l.
Proof.
  intros H Hs. unfold sort_keyed.
  assert (E : mapM (fun x => do k <- key x; Ok (k, x)) l = Ok (combine ks l)).
  { clear Hs. induction H as [|x k l ks E _ IH]; [easy|]. cbn. rewrite E. cbn. now rewrite IH. }
  rewrite E. cbn. rewrite msort_sorted_id.
  - cbn. f_equal. clear -H. induction H as [|x k l ks E _ IH]; [easy|]. cbn. now f_equal.
  - clear E. induction H as [|x k l ks E H IH]; [constructor|]. cbn. inversion_clear Hs as [|? ? Hs' Hk]. constructor; [now apply IH|].
    apply Forall_forall. intros [k' x'] Hin. apply in_combine_l in Hin. rewrite Forall_forall in Hk. cbn. now apply Hk.
Qed.
Lemma sort_keyed_keys {A} (key : A -> res (list piece)) l l' : sort_keyed key l = Ok l' ->
  exists ks, Forall2 (fun x k => key x = Ok k) l' ks /\ StronglySorted (fun a b => key_lt b a = Ok false) ks.
Proof.
  intros E. assert (Hk : forall x, In x l' -> exists k, key x = Ok k).
  { intros x Hx. pose proof (sort_keyed_spec key l l' E) as (Hp & _). apply (Permutation_in _ Hp) in Hx. unfold sort_keyed in E.
    destruct (mapM _ l) as [ks|] eqn:Em; [|easy]. apply mapM_ok in Em. clear -Em Hx. induction Em as [|y k l ks Ey _ IH]; [easy|].
    destruct Hx as [<-|Hx]; [|auto]. destruct (key y); [eauto|easy]. }
  apply sort_keyed_spec in E as (_ & Hs & _). induction Hs as [|x l' Hs IH Hx].
  - exists []. split; constructor.
  - destruct IH as (ks & H1 & H2); [intros y Hy; apply Hk; now right|]. destruct (Hk x (or_introl eq_refl)) as (k & Ek).
    exists (k :: ks). split; [now constructor|]. constructor; [easy|]. apply Forall_forall. intros k' Hk'.
    destruct (Forall2_in_r _ _ _ _ H1 Hk') as (y & Hy & Ey). rewrite Forall_forall in Hx. destruct (Hx y Hy) as (ka & kb & Ea & Eb & H).
    assert (ka = k) by congruence. assert (kb = k') by congruence. subst. now apply key_le.
Qed.
Lemma sort_keyed_again {A} (key key' : A -> res (list piece)) l l1 l2 : sort_keyed key l = Ok l1 ->
  Forall2 (fun x y => key' y = key x) l1 l2 -> sort_keyed key' l2 = Ok l2.
Proof.
  intros E H. destruct (sort_keyed_keys _ _ _ E) as (ks & H1 & H2). apply (sort_keyed_id _ _ ks); [|easy].
  clear -H H1. revert ks H1. induction H as [|x y l1 l2 E _ IH]; intros ks H1; inversion H1; subst; constructor; auto. now rewrite E.
Qed.

(* only the attributes of the tiers count *)
Lemma NoDup_map_eq {A B} (f : A -> B) l x y : NoDup (map f l) -> In x l -> In y l -> f x = f y -> x = y.
Proof.
  induction l as [|z l IH]; [easy|]. cbn. intros Hn Hx Hy E. inversion_clear Hn as [|? ? Hz Hn'].
  destruct Hx as [<-|Hx], Hy as [<-|Hy]; auto; exfalso; apply Hz; [rewrite E|rewrite <- E]; now apply in_map.
Qed.
Definition same_attrs (t t' : tier) : Prop := t_attrs t' = t_attrs t.
Lemma indices_same l l' : Forall2 same_attrs l l' -> forall i d, tier_indices i l' d = tier_indices i l d.
Proof. induction 1 as [|t t' l l' E _ IH]; intros i d; [easy|]. cbn. unfold tier_id. rewrite E. apply IH. Qed.
Lemma refattr_same t t' : same_attrs t t' -> forall ras i, first_refattr i ras t' = first_refattr i ras t.
Proof. intros E. induction ras as [|ra ras IH]; intros i; [easy|]. cbn. rewrite E. now rewrite IH. Qed.
Lemma prioritized_same ras l l' : Forall2 same_attrs l l' -> prioritized ras l' = prioritized ras l.
Proof.
  intros H. unfold prioritized. generalize (@nil (option str * (str * nat))). induction H as [|t t' l l' E _ IH]; intros d; [easy|]. cbn [fold_left].
  rewrite (refattr_same t t' E). unfold tier_id. rewrite E. apply IH.
Qed.
Lemma keys_same m idx pr l l' : Forall2 same_attrs l l' -> forall d, tier_keys m idx pr l' d = tier_keys m idx pr l d.
Proof. induction 1 as [|t t' l l' E _ IH]; intros d; [easy|]. cbn. unfold SortTiers.tier_key, tier_id. rewrite E. destruct (dget_ _ _ _); [|easy]. destruct (chain_key _ _ _ _ _) as [[]|]; auto. Qed.
Lemma sort_tiers_same m g g' ras : Forall2 same_attrs (g_tiers g) (g_tiers g') ->
  sort_tiers m g ras = Some (Ok (g_tiers g)) -> sort_tiers m g' ras = Some (Ok (g_tiers g')).
Proof.
  intros H. unfold sort_tiers. rewrite (indices_same _ _ H), (prioritized_same _ _ _ H), (keys_same _ _ _ _ _ H).
  destruct (tier_keys _ _ _ _ _) as [[d|]|]; try easy. intros E. do 2 f_equal.
  set (lt := fun a b => SortTiers.key_lt (dfi_of d a) (dfi_of d b)) in *.
  assert (G : StronglySorted (fun a b => lt b a = false) (g_tiers g)).
  { assert (E2 : ssort lt (g_tiers g) = g_tiers g) by congruence. rewrite <- E2. apply ssort_sorted; [apply lt_asym_|apply lt_trans_]. }
  apply ssort_sorted_id. clear E.
  assert (Hd : forall t t', same_attrs t t' -> dfi_of d t' = dfi_of d t) by (intros t t' E; unfold dfi_of, tier_id; now rewrite E).
  induction H as [|t t' l l' E H IH]; [constructor|]. inversion_clear G as [|? ? Gl Gf]. constructor; [auto|].
  clear -H Gf E Hd. induction H as [|u u' l l' Eu _ IH]; [constructor|]. inversion_clear Gf as [|? ? G1 G2]. constructor; [|auto].
  unfold lt in *. now rewrite (Hd t t' E), (Hd u u' Eu).
Qed.
Lemma deps_again_ fuel g g' ras ts : sort_tiers fuel g ras = Some (Ok ts) -> Forall2 same_attrs ts (g_tiers g') ->
  exists n, forall m, n <= m -> sort_tiers m g' ras = Some (Ok (g_tiers g')).
Proof.
  intros E H. destruct (again_any ras fuel g ts E) as (n & Hn). exists n. intros m Hm.
  apply (sort_tiers_same m (retiered g ts)); [exact H|]. now apply Hn.
Qed.

(* sort_corpus step by step *)
Definition tiers_res (fuel : nat) (a : sort_args) (g : igt) : res (list tier) :=
  match by_tier a, by_deps a with
  | Some k, _ => sort_keyed (k g) (g_tiers g)
  | None, Some ras => sort_tiers_by fuel g ras
  | None, None => Ok (g_tiers g)
  end.
Definition items_res (a : sort_args) (g : igt) (t t' : tier) : Prop :=
  t_attrs t' = t_attrs t /\ t_md t' = t_md t /\ sort_if (at_ t (at_ g (by_item a))) (t_items t) = Ok (t_items t').
Definition igt_res (fuel : nat) (a : sort_args) (g g' : igt) : Prop :=
  g_attrs g' = g_attrs g /\ g_md g' = g_md g
  /\ exists ts, tiers_res fuel a g = Ok ts /\ Forall2 (items_res a (with_tiers_ g ts)) ts (g_tiers g').
Lemma sort_corpus_iff fuel a c c' : sort_corpus fuel a c = Ok c' <->
  c_attrs c' = c_attrs c /\ c_md c' = c_md c
  /\ exists gs, sort_if (by_igt a) (c_igts c) = Ok gs /\ Forall2 (igt_res fuel a) gs (c_igts c').
Proof.
  assert (E2 : forall gs, match by_tier a, by_deps a with
           | Some _, _ => mapM (fun g => do ts <- sort_if (at_ g (by_tier a)) (g_tiers g); Ok (with_tiers_ g ts)) gs
           | None, Some ras => mapM (fun g => do ts <- sort_tiers_by fuel g ras; Ok (with_tiers_ g ts)) gs
           | None, None => Ok gs
           end = mapM (fun g => do ts <- tiers_res fuel a g; Ok (with_tiers_ g ts)) gs).
  { intros gs. unfold tiers_res. destruct (by_tier a); [easy|]. destruct (by_deps a); [easy|].
    induction gs as [|g gs IH]; [easy|]. cbn [mapM bind] in *. rewrite <- IH. now destruct g. }
  assert (E3 : forall g ts ts', mapM (fun t => do l <- sort_if (at_ t (at_ g (by_item a))) (t_items t); Ok (with_items_ t l)) ts = Ok ts' <-> Forall2 (items_res a g) ts ts').
  { intros g ts ts'. rewrite mapM_ok. split; intros H; (eapply Forall2_impl; [|exact H]); cbn; intros t t'; unfold items_res.
    - destruct (sort_if _ _); [|easy]. cbn. intros [= <-]. easy.
    - intros (H1 & H2 & ->). cbn. f_equal. destruct t, t'. cbn in *. unfold with_items_. cbn. congruence. }
  unfold sort_corpus. split.
  - destruct (sort_if (by_igt a) (c_igts c)) as [gs|]; [|easy]. cbn [bind]. rewrite E2.
    destruct (mapM _ gs) as [gs2|] eqn:K2; [|easy]. cbn [bind]. destruct (mapM _ gs2) as [gs3|] eqn:K3; [|easy]. cbn [bind]. intros [= <-].
    split; [easy|]. split; [easy|]. exists gs. split; [easy|]. cbn [c_igts with_igts_]. apply mapM_ok in K2, K3.
    eapply Forall2_comp; [|exact K2|exact K3]. cbn. intros g g2 g3 H2 H3. destruct (tiers_res fuel a g) as [ts|] eqn:Et; [|easy]. cbn in H2. injection H2 as <-.
    destruct (mapM _ _) as [ts'|] eqn:Em in H3; [|easy]. cbn in H3. injection H3 as <-. split; [easy|]. split; [easy|]. exists ts. split; [easy|]. now apply E3.
  - intros (Ea & Em & gs & E1 & H). rewrite E1. cbn [bind]. rewrite E2.
    assert (K : exists gs2, mapM (fun g => do ts <- tiers_res fuel a g; Ok (with_tiers_ g ts)) gs = Ok gs2
      /\ mapM (fun g => do ts <- mapM (fun t => do l <- sort_if (at_ t (at_ g (by_item a))) (t_items t); Ok (with_items_ t l)) (g_tiers g); Ok (with_tiers_ g ts)) gs2 = Ok (c_igts c')).
    { clear -H E3. induction H as [|g g' gs gs' (Hg & Hm & ts & Ht & Hi) _ IH]; [exists []; easy|]. destruct IH as (gs2 & K1 & K2).
      exists (with_tiers_ g ts :: gs2). cbn [mapM]. rewrite Ht. cbn [bind]. rewrite K1. split; [easy|]. cbn [mapM g_tiers with_tiers_].
      apply E3 in Hi. rewrite Hi. cbn [bind]. rewrite K2. cbn [bind]. do 2 f_equal. destruct g', g. cbn in *. unfold with_tiers_. cbn. congruence. }
    destruct K as (gs2 & K1 & K2). rewrite K1. cbn [bind]. rewrite K2. cbn [bind]. f_equal. destruct c, c'. cbn in *. unfold with_igts_. cbn. congruence.
Qed.
Lemma enough {A} (P : nat -> A -> Prop) l : Forall (fun x => exists n, forall m, n <= m -> P m x) l -> exists n, forall m, n <= m -> Forall (P m) l.
Proof.
  induction 1 as [|x l (n & Hn) _ (n' & Hn')]; [exists 0; intros; constructor|]. exists (n + n'). intros m Hm. constructor; [apply Hn; lia|apply Hn'; lia].
Qed.
Lemma Forall2_right {A B} (P : B -> Prop) (R : A -> B -> Prop) l l' : (forall x y, In x l -> R x y -> P y) -> Forall2 R l l' -> Forall P l'.
Proof. intros H H2. induction H2; constructor; [eapply H; [now left|eassumption]|]. apply IHForall2. intros a b Ha. apply H. now right. Qed.
Lemma Forall_diag {A} (R : A -> A -> Prop) l : Forall (fun x => R x x) l -> Forall2 R l l.
Proof. induction 1; constructor; auto. Qed.

Ltac nodes := unfold reordered_node, igt_in, tier_in, item_in; cbn [n_obj n_up];
  repeat match goal with |- Forall2 _ (_ :: _) _ => apply Forall2_cons | |- Forall2 _ [] _ => apply Forall2_nil end; try assumption; try reflexivity.
Lemma split_on_spec c s : s = join [c] (split_on c s) /\ split_on c s <> [] /\ Forall (fun w => ~ In c w) (split_on c s).
Proof.
  induction s as [|x s (E & Hne & HF)]; [cbn; repeat split; [easy|constructor; [easy|constructor]]|]. cbn [split_on].
  destruct (N.eqb_spec x c) as [->|Hx].
  - split; [|split; [easy|now constructor; [easy|]]]. destruct (split_on c s) as [|w ws]; [easy|]. cbn [join app]. cbn. f_equal. exact E.
  - destruct (split_on c s) as [|w ws]; [easy|]. split; [|split; [easy|]].
    + destruct ws; cbn in *; now f_equal.
    + inversion_clear HF as [|? ? H1 H2]. constructor; [|easy]. intros [K|K]; [now apply Hx|easy].
Qed.
Lemma joined_unique c l : forall l', join [c] l = join [c] l' -> l <> [] -> l' <> [] -> Forall (fun w => ~ In c w) l -> Forall (fun w => ~ In c w) l' -> l = l'.
Proof.
  assert (Hj : forall (w : str) ws, ws <> [] -> join [c] (w :: ws) = w ++ c :: join [c] ws) by (intros w [|? ?] H; easy).
  assert (K : forall w w' r r', ~ In c w -> ~ In c w' -> w ++ c :: r = w' ++ c :: r' -> w = w' /\ r = r').
  { induction w as [|x w IH]; intros [|y w'] r r' H H' E; cbn in E; [now injection E|injection E as E1 E2..].
    - subst y. destruct H'. now left.
    - subst x. destruct H. now left.
    - subst y. destruct (IH w' r r') as [-> ->]; [intros Z; apply H; now right|intros Z; apply H'; now right|easy|easy]. }
  assert (K1 : forall w w' r : str, ~ In c w -> w = w' ++ c :: r -> False) by (intros w w' r H ->; apply H, in_app_iff; right; now left).
  induction l as [|w l IH]; intros [|w' l'] E Hn Hn' H H'; try easy. inversion_clear H as [|? ? H1 H2]. inversion_clear H' as [|? ? H1' H2'].
  destruct l as [|v l], l' as [|v' l'].
  - cbn in E. now subst.
  - rewrite (Hj w' (v' :: l')) in E by easy. exfalso. now apply (K1 w w' (join [c] (v' :: l'))).
  - rewrite (Hj w (v :: l)) in E by easy. exfalso. now apply (K1 w' w (join [c] (v :: l))).
  - rewrite (Hj w (v :: l)), (Hj w' (v' :: l')) in E by easy. apply K in E as [-> E]; [|easy|easy]. f_equal. apply IH; easy.
Qed.
Theorem commas s l : by_commas s l <-> split_on (Ch ",") s = l.
Proof.
  pose proof (split_on_spec (Ch ",") s) as (E & Hne & HF). split.
  - intros (E' & Hne' & HF'). change (L ",") with [Ch ","] in E'. rewrite E in E' at 1. now apply (joined_unique (Ch ",")).
  - intros <-. now split.
Qed.
Section Cmd.
Context {U : Unicode}.
Variable ix : igt -> index.
Variable vfuel : nat.
Notation sort_document := (sort_document ix vfuel).
Notation args_of := (args_of ix vfuel).

Theorem sorts fuel ahead o e e' : tidy_document e -> sort_document fuel ahead o e = Ok e' ->
  exists c c', xml_load ahead e = Ok c /\ sorted_corpus fuel (args_of o c) c c' /\ forall ahead', xml_load ahead' e' = Ok c'.
Proof.
  intros Hd E. unfold Command.sort_document in E. destruct (xml_load ahead e) as [c|] eqn:El; [|easy]. cbn in E.
  destruct (sort_corpus _ _ c) as [c'|] eqn:Es; [|easy]. cbn in E. apply sort_corpus_spec in Es. exists c, c'. split; [easy|]. split; [easy|].
  destruct (reordered_dump ahead e c c' (Some 2) Hd El (sorted_reordered _ _ _ _ Es)) as (e2 & E2 & H). rewrite E2 in E. now injection E as <-.
Qed.
Theorem fails fuel ahead o e x : tidy_document e -> sort_document fuel ahead o e = Err x ->
  xml_load ahead e = Err x \/ exists c, xml_load ahead e = Ok c /\ sort_corpus fuel (args_of o c) c = Err x.
Proof.
  intros Hd E. unfold Command.sort_document in E. destruct (xml_load ahead e) as [c|] eqn:El; cbn in E; [|left; congruence]. right. exists c. split; [easy|].
  destruct (sort_corpus _ _ c) as [c'|] eqn:Es; cbn in E; [|congruence]. exfalso. apply sort_corpus_spec in Es.
  destruct (reordered_dump ahead e c c' (Some 2) Hd El (sorted_reordered _ _ _ _ Es)) as (e2 & E2 & H). now rewrite E2 in E.
Qed.


(* the keys *)
Theorem keys paths n k : key_at ix vfuel paths n = Ok k <-> keyed (text_at ix vfuel n) paths k.
Proof.
  unfold key_at, keyed. rewrite make_sortkey_spec. split.
  - intros (vs & H & ->). exists vs, (map (fun v => map safe_int (split_digits (match v with Some s => s | None => [] end))) vs). split; [easy|]. split; [|easy].
    clear. induction vs; constructor; [apply key_natural|easy].
  - intros (vs & ks & H & Hk & ->). exists vs. split; [easy|]. f_equal. clear -Hk. induction Hk as [|v k vs ks Hn _ IH]; [easy|]. cbn. f_equal; [|easy].
    eapply natural_fun; [exact Hn|apply key_natural].
Qed.
Lemma key_same paths (what : obj -> Prop) n n' : what (n_obj n) -> reordered_node n n' -> (forall p, In p paths -> order_blind ix vfuel what p) ->
  key_at ix vfuel paths n' = key_at ix vfuel paths n.
Proof.
  intros Hw Hr H. unfold key_at, make_sortkey. f_equal.
  induction paths as [|p paths IH]; [easy|]. cbn [mapM]. rewrite (H p (or_introl eq_refl) n n' Hw Hr). rewrite IH; [easy|]. intros q Hq. apply H. now right.
Qed.

Theorem again fuel ahead o e e' : tidy_document e ->
  each (igt_key o) (order_blind ix vfuel an_igt) -> each (tier_key o) (order_blind ix vfuel a_tier) -> each (item_key o) (order_blind ix vfuel an_item) ->
  sort_document fuel ahead o e = Ok e' ->
  exists n, forall fuel' ahead', n <= fuel' -> sort_document fuel' ahead' o e' = Ok e'.
Proof.
  intros Hd Bg Bt Bi E. unfold Command.sort_document in E. destruct (xml_load ahead e) as [c|] eqn:El; [|easy]. cbn in E.
  destruct (sort_corpus _ _ c) as [c'|] eqn:Es; [|easy]. cbn in E.
  assert (Hr : reordered c c') by (eapply sorted_reordered, sort_corpus_spec, Es).
  destruct (reordered_dump ahead e c c' (Some 2) Hd El Hr) as (e2 & E2 & Hl). rewrite E2 in E. injection E as ->.
  destruct (load_good ahead e c Hd El) as (_ & Hok & _).
  cut (exists n, forall m, n <= m -> sort_corpus m (args_of o c') c' = Ok c').
  { intros (n & Hn). exists n. intros m ahead' Hm. unfold Command.sort_document. rewrite Hl. cbn. rewrite (Hn m Hm). exact E2. }
  apply sort_corpus_iff in Es as (Ea & Em & gs & Eg & HF).
  assert (Hgs : Permutation gs (c_igts c)).
  { unfold sort_if in Eg. destruct (by_igt (args_of o c)); [apply sort_keyed_spec in Eg; apply Eg|now injection Eg as <-]. }
  assert (HR : Forall2 (fun g g' => reordered_igt g g' /\ igt_res fuel (args_of o c) g g' /\ In g (c_igts c)) gs (c_igts c')).
  { destruct Hr as (_ & _ & gs' & _ & _).
    assert (Hin : forall g, In g gs -> In g (c_igts c)) by (intros g Hg; eapply Permutation_in; eauto).
    clear -HF Hin. induction HF as [|g g' gs gs' H HF IH]; constructor; [|apply IH; intros x Hx; apply Hin; now right].
    split; [|split; [exact H|apply Hin; now left]]. destruct H as (H1 & H2 & ts & Ht & HFt). split; [easy|]. split; [easy|]. exists ts. split.
    - unfold tiers_res in Ht. destruct (by_tier _); [apply sort_keyed_spec in Ht; apply Ht|]. destruct (by_deps _); [|now injection Ht as <-].
      unfold sort_tiers_by in Ht. destruct (sort_tiers _ _ _) as [r|] eqn:E; [|easy]. subst r. now apply sort_tiers_perm in E.
    - eapply Forall2_impl; [|exact HFt]. intros t t' (T1 & T2 & T3). split; [easy|]. split; [easy|].
      unfold sort_if in T3. destruct (at_ t _); [apply sort_keyed_spec in T3; apply T3|now injection T3 as <-]. }
  destruct (enough (fun m g => igt_res m (args_of o c') g g) (c_igts c')) as (n & Hn).
  2: { exists n. intros m Hm. apply sort_corpus_iff. split; [easy|]. split; [easy|]. exists (c_igts c'). split.
    - unfold args_of in *. cbn [by_igt] in *. destruct (igt_key o) as [ps|] eqn:Ek; [|easy]. cbn in Eg |- *.
      eapply sort_keyed_again; [exact Eg|]. eapply Forall2_impl; [|exact HR]. cbn. intros g g' (Hg & _).
      apply (key_same ps an_igt); [now exists g| |intros p Hp; now apply (Bg p ps)]. nodes.
    - apply Forall_diag. now apply Hn. }
  refine (Forall2_right _ _ _ _ _ HR). clear Hgs HF HR Eg. intros g g' _ (Hg & (Ha & Hm & ts & Et & HFt) & Hin).
  assert (HG : reordered_igt (with_tiers_ g ts) g').
  { split; [easy|]. split; [easy|]. exists ts. split; [easy|]. eapply Forall2_impl; [|exact HFt]. intros t t' (T1 & T2 & T3). split; [easy|]. split; [easy|].
    unfold sort_if in T3. destruct (at_ t _); [apply sort_keyed_spec in T3; apply T3|now injection T3 as <-]. }
  assert (HI : Forall2 (items_res (args_of o c') g') (g_tiers g') (g_tiers g')).
  { apply Forall_diag. refine (Forall2_right _ _ _ _ _ HFt). intros t t' _ (T1 & T2 & T3). split; [easy|]. split; [easy|].
    unfold args_of in *. cbn [by_item] in *. destruct (item_key o) as [ps|] eqn:Ek; [|easy]. cbn in T3 |- *.
    eapply sort_keyed_again; [exact T3|]. assert (HT : reordered_tier t t') by (split; [easy|]; split; [easy|]; apply sort_keyed_spec in T3; apply T3).
    clear T3. induction (t_items t') as [|i l IH]; constructor; [|easy].
    apply (key_same ps an_item); [now exists i| |intros p Hp; now apply (Bi p ps)]. nodes. }
  assert (W : with_tiers_ g' (g_tiers g') = g') by now destruct g'.
  cut (exists n, forall m, n <= m -> tiers_res m (args_of o c') g' = Ok (g_tiers g')).
  { intros (n & Hn). exists n. intros m Hnm. split; [easy|]. split; [easy|]. exists (g_tiers g'). rewrite W. auto. }
  assert (Ed : by_deps (args_of o c') = by_deps (args_of o c)) by easy.
  unfold tiers_res in *. rewrite Ed. unfold args_of in Et |- *. cbn [by_tier] in *. destruct (tier_key o) as [ps|] eqn:Ek; cbn [option_map] in *.
  - exists 0. intros m _. eapply sort_keyed_again; [exact Et|]. eapply Forall2_impl; [|exact HFt]. intros t t' (T1 & T2 & T3).
    apply (key_same ps a_tier); [now exists t| |intros p Hp; now apply (Bt p ps)]. nodes. split; [easy|]. split; [easy|].
    unfold sort_if in T3. destruct (at_ t _); [apply sort_keyed_spec in T3; apply T3|now injection T3 as <-].
  - change (by_deps {| by_igt := _; by_tier := _; by_deps := ?d; by_item := _ |}) with d in *.
    destruct (match tier_deps o with Some (_ :: _ as s) => _ | _ => _ end) as [ras|] eqn:Er.
    + unfold sort_tiers_by in Et. destruct (sort_tiers fuel g ras) as [r|] eqn:Es; [|easy]. subst r.
      destruct (deps_again_ fuel g g' ras ts) as (n & Hn).
      * easy.
      * eapply Forall2_impl; [|exact HFt]. intros t t' (T1 & _). exact T1.
      * exists n. intros m Hm2. unfold sort_tiers_by. now rewrite Hn.
    + exists 0. now intros.
Qed.

(* one path for each level *)
Theorem succeeds fuel ahead o e c : tidy_document e -> xml_load ahead e = Ok c ->
  single (igt_key o) (texts_for ix vfuel an_igt) -> single (tier_key o) (texts_for ix vfuel a_tier) -> single (item_key o) (texts_for ix vfuel an_item) ->
  (tier_deps o = None \/ tier_key o <> None) ->
  exists e', sort_document fuel ahead o e = Ok e'.
Proof.
  intros Hd El Sg St Si Hde. unfold Command.sort_document. rewrite El. cbn [bind].
  cut (exists c', sort_corpus fuel (args_of o c) c = Ok c').
  { intros (c' & Es). rewrite Es. cbn [bind]. apply sort_corpus_spec in Es.
    destruct (reordered_dump ahead e c c' (Some 2) Hd El (sorted_reordered _ _ _ _ Es)) as (e2 & E2 & _). eauto. }
  assert (G : exists gs, sort_if (by_igt (args_of o c)) (c_igts c) = Ok gs).
  { unfold Command.args_of. cbn [by_igt]. destruct Sg as [->|(p & -> & Hp)]; [cbn; eauto|]. cbn [option_map sort_if].
    destruct (sort_one_path (fun g p => text_at ix vfuel (igt_in c g) p) p (c_igts c)) as (l & Hl).
    - intros g _. apply Hp. now exists g.
    - exists l. exact Hl. }
  destruct G as (gs & Eg).
  assert (T : forall g, exists g', igt_res fuel (args_of o c) g g').
  { intros g.
    assert (T1 : exists ts, tiers_res fuel (args_of o c) g = Ok ts).
    { unfold tiers_res, Command.args_of. cbn [by_tier by_deps]. destruct St as [Et|(p & Et & Hp)]; rewrite Et; cbn [option_map].
      - destruct Hde as [->|H]; [eauto|congruence].
      - destruct (sort_one_path (fun t p => text_at ix vfuel (tier_in c g t) p) p (g_tiers g)) as (l & Hl).
        + intros t _. apply Hp. now exists t.
        + exists l. exact Hl. }
    destruct T1 as (ts & Ets).
    assert (T2 : forall t, exists t', items_res (args_of o c) (with_tiers_ g ts) t t').
    { intros t.
      assert (T3 : exists l, sort_if (at_ t (at_ (with_tiers_ g ts) (by_item (args_of o c)))) (t_items t) = Ok l).
      { unfold Command.args_of. cbn [by_item]. destruct Si as [->|(p & -> & Hp)]; [cbn; eauto|]. cbn [option_map at_ sort_if].
        destruct (sort_one_path (fun i p => text_at ix vfuel (item_in c (with_tiers_ g ts) t i) p) p (t_items t)) as (l & Hl).
        - intros i _. apply Hp. now exists i.
        - exists l. exact Hl. }
      destruct T3 as (l & Hl). exists (with_items_ t l). split; [easy|]. split; [easy|exact Hl]. }
    assert (T4 : forall l, exists l', Forall2 (items_res (args_of o c) (with_tiers_ g ts)) l l').
    { induction l as [|t l (l' & IH)]; [exists []; constructor|]. destruct (T2 t) as (t' & Ht). exists (t' :: l'). now constructor. }
    destruct (T4 ts) as (ts' & HF). exists (with_tiers_ g ts'). split; [easy|]. split; [easy|]. exists ts. now split. }
  assert (T5 : forall l, exists l', Forall2 (igt_res fuel (args_of o c)) l l').
  { induction l as [|g l (l' & IH)]; [exists []; constructor|]. destruct (T g) as (g' & Hg). exists (g' :: l'). now constructor. }
  destruct (T5 gs) as (gs' & HF). exists (with_igts_ c gs'). apply sort_corpus_iff. split; [easy|]. split; [easy|]. exists gs. now split.
Qed.
Lemma find_first v p l : findall ix vfuel v p = Ok l -> find ix vfuel v p = Ok (hd_error l).
Proof.
  unfold findall, find. destruct (iterfind _ _ _ _ _) as [[|x m] [e|]]; try easy; now intros [= <-].
Qed.
Lemma id_text n : text_at ix vfuel n (L "@id") = Ok (a_id (attrs_of (n_obj n))).
Proof. unfold text_at. rewrite (find_first _ _ _ (id_law ix vfuel n)). now destruct (a_id _). Qed.
Lemma type_text n : text_at ix vfuel n (L "@type") = Ok (a_type (attrs_of (n_obj n))).
Proof. unfold text_at. rewrite (find_first _ _ _ (type_law ix vfuel n)). now destruct (a_type _). Qed.
Theorem id_texts : texts_for ix vfuel (fun _ => True) (L "@id") /\ texts_for ix vfuel (fun _ => True) (L "@type")
  /\ texts_for ix vfuel an_item (L "text()").
Proof.
  split; [intros n _; eexists; apply id_text|]. split; [intros n _; eexists; apply type_text|].
  intros n [i Ei]. exists (it_text i). unfold text_at. erewrite find_first by (apply (text_law ix vfuel n (it_text i)); now rewrite Ei).
  now destruct (it_text i).
Qed.
(* --igt-key=@id *)
Theorem by_id fuel ahead e c : tidy_document e -> xml_load ahead e = Ok c ->
  let o := {| igt_key := Some [L "@id"]; tier_key := None; tier_deps := None; item_key := None |} in
  exists e' c', sort_document fuel ahead o e = Ok e' /\ (forall ahead', xml_load ahead' e' = Ok c')
    /\ c_attrs c' = c_attrs c /\ c_md c' = c_md c /\ Permutation (c_igts c') (c_igts c)
    /\ StronglySorted (fun g h => exists kg kh, natural (match a_id (g_attrs g) with Some i => i | None => [] end) kg
         /\ natural (match a_id (g_attrs h) with Some i => i | None => [] end) kh /\ (kg = kh \/ natural_less kg kh)) (c_igts c')
    /\ forall i, filter (fun g => opt_eqb str_eqb (a_id (g_attrs g)) i) (c_igts c') = filter (fun g => opt_eqb str_eqb (a_id (g_attrs g)) i) (c_igts c).
Proof.
  intros Hd El o. destruct (succeeds fuel ahead o e c Hd El) as (e' & E); try (now left).
  { right. exists (L "@id"). split; [easy|]. intros n _. eexists. apply id_text. }
  destruct (sorts fuel ahead o e e' Hd E) as (c0 & c' & El0 & (Ha & Hm & gs & Hs & HF) & Hl). rewrite El in El0. injection El0 as <-.
  exists e', c'. split; [easy|]. split; [easy|]. split; [easy|]. split; [easy|].
  assert (Eg : c_igts c' = gs).
  { clear -HF. induction HF as [|g g' gs gs' (H1 & H2 & ts & H3 & H4) _ IH]; [easy|]. rewrite IH. f_equal. cbn in H3. subst ts.
    destruct g, g'. cbn in *. subst. f_equal. clear -H4. induction H4 as [|t t' l l' (T1 & T2 & T3) _ IH]; [easy|]. rewrite IH. f_equal. destruct t, t'. cbn in *. now subst. }
  rewrite Eg. destruct Hs as (Hp & Hso & Hst). split; [easy|].
  assert (Ek : forall g k, key_at ix vfuel [L "@id"] (igt_in c g) = Ok k -> natural (match a_id (g_attrs g) with Some i => i | None => [] end) k).
  { intros g k Hk. apply sortkey_one in Hk as (v & Hv & Hk). rewrite id_text in Hv. injection Hv as <-. exact Hk. }
  split.
  - clear -Hso Ek. induction Hso as [|g l _ IH H]; constructor; [exact IH|]. eapply Forall_impl; [|exact H]. cbn. intros h (ka & kb & H1 & H2 & H3). exists ka, kb. auto.
  - intros i. apply Hst. intros g h Hg Hh. assert (Ei : a_id (g_attrs g) = a_id (g_attrs h)).
    { destruct (a_id (g_attrs g)) as [x|], i as [y|]; cbn in Hg; try easy; destruct (a_id (g_attrs h)) as [z|]; cbn in Hh; try easy.
      apply str_eqb_eq in Hg, Hh. now subst. }
    cbn. unfold key_at, make_sortkey. cbn [mapM]. rewrite !id_text. cbn [n_obj igt_in attrs_of]. now rewrite Ei.
Qed.

(* what the options ask for *)
Theorem finds_text n p t : text_at ix vfuel n p = Ok t <-> finds ix vfuel n p t.
Proof.
  unfold text_at, finds. destruct (find ix vfuel (VNode n) p) as [[v|]|x]; cbn [bind].
  - destruct t as [s|]; unfold found_text, empty_value.
    + destruct v as [m|s'| |[|? ?]]; split; try easy; try congruence. destruct (members_of (n_obj m)) as [[|]|]; easy.
    + split.
      * destruct v as [m|s'| |[|? ?]]; try easy; intros H; right; eexists; (split; [reflexivity|]); [|exact I|exact I]. cbv iota beta.
        destruct (n_obj m) as [i|t|g|c|md|me|[? ? ? k]]; cbn [members_of] in H; try easy;
          (match type of H with context [map _ ?l] => destruct l; cbn in H |- *; [reflexivity|discriminate H] end).
      * intros [H|(v' & [= <-] & H)]; [easy|]. destruct v as [m|s'| |[|? ?]]; try easy.
        destruct (n_obj m) as [i|t|g|c|md|me|[? ? ? k]]; cbn [members_of]; try easy; now rewrite H.
  - cbn. destruct t; split; intros H; [discriminate H|discriminate H|now left|reflexivity].
  - destruct t; split; intros H; [discriminate H|discriminate H|discriminate H|]. now destruct H as [H|(v & H & _)].
Qed.
Lemma key_asked_at paths n : key_asked ix vfuel paths n (key_at ix vfuel paths n).
Proof.
  intros k. rewrite keys. unfold keyed.
  split; intros (ts & ks & H & H'); exists ts, ks; (split; [|easy]); (eapply Forall2_impl; [|exact H]); intros p t; now rewrite finds_text.
Qed.
Lemma strip_trimmed w : trimmed w (strip w).
Proof.
  assert (Hh : forall s c r, lstrip s = c :: r -> cclass c <> USpace).
  { induction s as [|x s IH]; intros c r; [easy|]. cbn. destruct (is_space x) eqn:E; [apply IH|]. intros [= <- <-] K. apply space_class in K. congruence. }
  split; [apply strip_split|]. split.
  - intros c r E. destruct (lstrip w) as [|d l] eqn:El; [unfold strip in E; rewrite El in E; easy|].
    assert (d = c); [|subst; eauto]. unfold strip in E. rewrite El in E. unfold rstrip in E.
    destruct (lstrip_split (rev (d :: l))) as (u & Eu & _). apply (f_equal (@rev N)) in Eu. rewrite rev_involutive, rev_app_distr, E in Eu. cbn in Eu. congruence.
  - intros c r E. unfold strip, rstrip in E. apply (f_equal (@rev N)) in E. rewrite rev_involutive, rev_app_distr in E. eapply Hh. exact E.
Qed.
Theorem options o c : asked ix vfuel o c (args_of o c).
Proof.
  unfold asked, Command.args_of. cbn [by_igt by_tier by_deps by_item].
  split; [destruct (igt_key o); cbn; [intros; apply key_asked_at|easy]|]. split; [destruct (tier_key o); cbn; [intros; apply key_asked_at|easy]|].
  split; [destruct (item_key o); cbn; [intros; apply key_asked_at|easy]|].
  destruct (tier_deps o) as [[|x s]|]; [easy| |easy]. split; [easy|]. exists (split_on (Ch ",") (x :: s)). split; [exact (proj2 (commas _ _) eq_refl)|].
  generalize (split_on (Ch ",") (x :: s)). induction l as [|w l IH]; constructor; [apply strip_trimmed|exact IH].
Qed.
Theorem sorts_asked fuel ahead o e e' : tidy_document e -> sort_document fuel ahead o e = Ok e' ->
  exists c c' a, xml_load ahead e = Ok c /\ asked ix vfuel o c a /\ sorted_corpus fuel a c c' /\ forall ahead', xml_load ahead' e' = Ok c'.
Proof.
  intros Hd E. destruct (sorts fuel ahead o e e' Hd E) as (c & c' & H1 & H2 & H3). exists c, c', (args_of o c). split; [easy|]. split; [apply options|]. now split.
Qed.

(* in place or printed *)
Theorem in_place_printed fuel ahead o file : tidy_document file ->
  match sort_document fuel ahead o file with
  | Ok e => run_sort ix vfuel fuel ahead o false file = (Ok (Some e), Some file) /\ run_sort ix vfuel fuel ahead o true file = (Ok None, Some e)
  | Err x => forall in_place, run_sort ix vfuel fuel ahead o in_place file = (Err x, Some file)
  end.
Proof.
  intros Hd. unfold run_sort, Command.sort_document. destruct (xml_load ahead file) as [c|] eqn:El; cbn [bind]; [|easy].
  destruct (sort_corpus _ _ c) as [c'|] eqn:Es; [|easy]. cbn [bind]. apply sort_corpus_spec in Es.
  destruct (reordered_dump ahead file c c' (Some 2) Hd El (sorted_reordered _ _ _ _ Es)) as (e2 & -> & _). now split.
Qed.
End Cmd.
