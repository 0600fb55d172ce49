From Coq Require Import Permutation Sorted.
From Verif Require Import PyStr PyStrFacts PySort PySortFacts Model Value SpecValue Index SpecIndex IndexProofs Query SpecQuery QueryProofs SortTiers SpecSortTiers.

(* ---------- the order on keys ---------- *)

Lemma lt2_spec a b : lt2 a b = true <-> fst a < fst b \/ fst a = fst b /\ snd a < snd b.
Proof.
  unfold lt2. rewrite orb_true_iff, andb_true_iff, !Nat.ltb_lt, Nat.eqb_eq. tauto.
Qed.
Lemma lt2_irrefl a : lt2 a a = false.
Proof. destruct (lt2 a a) eqn:E; [|easy]. apply lt2_spec in E. lia. Qed.
Lemma lt2_total a b : lt2 a b = false -> lt2 b a = false -> a = b.
Proof.
  intros H1 H2. destruct a as [a1 a2], b as [b1 b2].
  assert (~ (a1 < b1 \/ a1 = b1 /\ a2 < b2)) by (rewrite <- (lt2_spec (a1, a2) (b1, b2)); congruence).
  assert (~ (b1 < a1 \/ b1 = a1 /\ b2 < a2)) by (rewrite <- (lt2_spec (b1, b2) (a1, a2)); congruence).
  f_equal; lia.
Qed.
Lemma lt2_asym a b : lt2 a b = true -> lt2 b a = false.
Proof. intros H. destruct (lt2 b a) eqn:E; [|easy]. apply lt2_spec in H, E. lia. Qed.
Lemma lt2_trans a b c : lt2 a b = true -> lt2 b c = true -> lt2 a c = true.
Proof. rewrite !lt2_spec. lia. Qed.

Lemma key_lt_irrefl a : key_lt a a = false.
Proof. induction a as [|x a IH]; [easy|]. cbn. now rewrite lt2_irrefl, IH. Qed.
Lemma key_lt_asym a : forall b, key_lt a b = true -> key_lt b a = false.
Proof.
  induction a as [|x a IH]; intros [|y b]; cbn; try easy. intros H. apply orb_prop in H as [H|H].
  - rewrite (lt2_asym _ _ H), H. easy.
  - apply andb_prop in H as [H1 H2]. apply negb_true_iff in H1. rewrite H1. cbn. rewrite (IH _ H2). now rewrite andb_false_r.
Qed.
Lemma key_lt_trans a : forall b c, key_lt a b = true -> key_lt b c = true -> key_lt a c = true.
Proof.
  induction a as [|x a IH]; intros [|y b] [|z c]; cbn; try easy. intros H1 H2.
  apply orb_prop in H1 as [H1|H1]; apply orb_prop in H2 as [H2|H2].
  - now rewrite (lt2_trans _ _ _ H1 H2).
  - apply andb_prop in H2 as [H2 _]. apply negb_true_iff in H2. destruct (lt2 y z) eqn:E; [now rewrite (lt2_trans _ _ _ H1 E)|].
    rewrite <- (lt2_total _ _ E H2). now rewrite H1.
  - apply andb_prop in H1 as [H1 _]. apply negb_true_iff in H1. destruct (lt2 x y) eqn:E; [now rewrite (lt2_trans _ _ _ E H2)|].
    rewrite (lt2_total _ _ E H1). now rewrite H2.
  - apply andb_prop in H1 as [H1 H1']. apply andb_prop in H2 as [H2 H2']. apply negb_true_iff in H1, H2.
    destruct (lt2 x y) eqn:E1.
    + destruct (lt2 y z) eqn:E2; [now rewrite (lt2_trans _ _ _ E1 E2)|]. rewrite <- (lt2_total _ _ E2 H2). now rewrite E1.
    + assert (x = y) by now apply lt2_total. subst y. rewrite (IH b c H1' H2'). rewrite H2. now rewrite orb_true_r.
Qed.
Lemma key_lt_total a : forall b, key_lt a b = false -> key_lt b a = false -> a = b.
Proof.
  induction a as [|x a IH]; intros [|y b]; cbn; try easy. intros H1 H2.
  apply orb_false_elim in H1 as [H1 H1']. apply orb_false_elim in H2 as [H2 H2'].
  rewrite H2 in H1'. rewrite H1 in H2'. cbn in *. f_equal; [now apply lt2_total|auto].
Qed.
Lemma key_le_trans a b c : key_lt b a = false -> key_lt c b = false -> key_lt c a = false.
Proof.
  intros H1 H2. destruct (key_lt c a) eqn:E; [|easy]. destruct (key_lt a b) eqn:E1.
  - rewrite (key_lt_trans _ _ _ E E1) in H2. discriminate.
  - rewrite (key_lt_total _ _ E1 H1) in E. congruence.
Qed.

(* between two keys with the same beginning *)
Lemma key_between p : forall i j r j' r' z,
  key_lt z (p ++ (i, j) :: r) = false -> key_lt (p ++ (i, j') :: r') z = false ->
  exists j2 r2, z = p ++ (i, j2) :: r2.
Proof.
  induction p as [|x p IH]; intros i j r j' r' z H1 H2.
  - destruct z as [|[i0 j0] z]; [discriminate|]. cbn in *. apply orb_false_elim in H1 as [H1 _], H2 as [H2 _].
    assert (~ (i0 < i \/ i0 = i /\ j0 < j)) by (rewrite <- (lt2_spec (i0, j0) (i, j)); congruence).
    assert (~ (i < i0 \/ i = i0 /\ j' < j0)) by (rewrite <- (lt2_spec (i, j') (i0, j0)); congruence).
    assert (i0 = i) by lia. subst. eauto.
  - destruct z as [|y z]; [discriminate|]. cbn [app key_lt] in *.
    apply orb_false_elim in H1 as [H1 H1'], H2 as [H2 H2']. rewrite H2 in H1'. rewrite H1 in H2'. cbn in H1', H2'.
    rewrite (lt2_total _ _ H1 H2). destruct (IH i j r j' r' z H1' H2') as (j2 & r2 & ->). eauto.
Qed.
Lemma key_prefix_lt p i j r : key_lt (p ++ [(i, 0)]) (p ++ (i, j) :: r) = true \/ (j = 0 /\ r = []).
Proof.
  destruct (j =? 0) eqn:Ej.
  - apply Nat.eqb_eq in Ej. subst. destruct r as [|x r]; [now right|]. left.
    induction p as [|y p IH]; cbn [app key_lt]; now rewrite lt2_irrefl, ?IH.
  - apply Nat.eqb_neq in Ej. left. induction p as [|y p IH]; cbn [app key_lt].
    + assert (lt2 (i, 0) (i, j) = true) as -> by (apply lt2_spec; cbn; lia). easy.
    + now rewrite lt2_irrefl, IH.
Qed.

Lemma key_common_lt p x y r r' : lt2 x y = true -> key_lt (p ++ x :: r) (p ++ y :: r') = true.
Proof. intros H. induction p as [|z p IH]; cbn [app key_lt]; [now rewrite H|]. now rewrite lt2_irrefl, IH. Qed.

Lemma nth_error_app2_length {A} (l1 : list A) x l2 : nth_error (l1 ++ x :: l2) (length l1) = Some x.
Proof. rewrite nth_error_app2, Nat.sub_diag by lia. reflexivity. Qed.
Lemma app_inj_length {A} (l1 l2 m1 m2 : list A) : l1 ++ l2 = m1 ++ m2 -> length l1 = length m1 -> l1 = m1 /\ l2 = m2.
Proof.
  revert m1. induction l1 as [|x l1 IH]; intros [|y m1] E H; try discriminate; [easy|].
  injection E as <- E. injection H as H. destruct (IH m1 E H) as [-> ->]. easy.
Qed.
Lemma app_split_longer {A} (l1 : list A) x l2 m1 y m2 : m1 ++ y :: m2 = l1 ++ x :: l2 -> length l1 < length m1 -> exists m, m1 = l1 ++ x :: m.
Proof.
  revert m1. induction l1 as [|a l1 IH]; intros [|b m1] E H; cbn in H; try lia.
  - injection E as -> _. now exists m1.
  - injection E as -> E. destruct (IH m1 E ltac:(lia)) as [m ->]. now exists m.
Qed.

(* ---------- the dictionaries ---------- *)


Lemma tier_indices_some l : forall i d k n, dget_ okey_eqb (tier_indices i l d) k = Some n ->
  (exists p t, nth_error l p = Some t /\ tier_id t = k /\ n = i + p) \/ dget_ okey_eqb d k = Some n.
Proof.
  induction l as [|t l IH]; intros i d k n H; [now right|]. cbn in H. apply IH in H as [(p & t' & H1 & H2 & H3)|H].
  - left. exists (S p), t'. split; [easy|]. split; [easy|lia].
  - rewrite (dget_dset okey_eqb okey_spec) in H. destruct (okey_spec k (tier_id t)) as [->|]; [|now right].
    injection H as <-. left. exists 0, t. split; [easy|]. split; [easy|lia].
Qed.
Lemma tier_indices_total l : forall i d k, In k (map tier_id l) \/ dget_ okey_eqb d k <> None ->
  dget_ okey_eqb (tier_indices i l d) k <> None.
Proof.
  induction l as [|t l IH]; intros i d k H; [destruct H as [[]|H]; exact H|]. cbn. apply IH.
  destruct (okey_spec k (tier_id t)) as [->|Hne].
  - right. rewrite (dget_dset okey_eqb okey_spec). now destruct (okey_spec (tier_id t) (tier_id t)).
  - destruct H as [[H|H]|H]; [congruence|now left|]. right. rewrite (dget_dset okey_eqb okey_spec). now destruct (okey_spec k (tier_id t)).
Qed.
Lemma prioritized_get refattrs l : forall d t, NoDup (map tier_id l) ->
  (forall t, In t l -> dget_ okey_eqb d (tier_id t) = None) ->
  In t l -> dget_ okey_eqb (fold_left (fun d t => match first_refattr 0 refattrs t with
                        | Some r => dset_ okey_eqb d (tier_id t) r | None => d end) l d) (tier_id t) = first_refattr 0 refattrs t.
Proof.
  assert (Hkeep : forall l d k, ~ In k (map tier_id l) ->
     dget_ okey_eqb (fold_left (fun d t => match first_refattr 0 refattrs t with
                        | Some r => dset_ okey_eqb d (tier_id t) r | None => d end) l d) k = dget_ okey_eqb d k).
  { induction l0 as [|t l0 IH]; intros d k Hk; [easy|]. cbn [fold_left]. rewrite IH by (intros H; apply Hk; now right).
    destruct (first_refattr 0 refattrs t); [|easy]. rewrite (dget_dset okey_eqb okey_spec).
    destruct (okey_spec k (tier_id t)) as [->|]; [exfalso; apply Hk; now left|easy]. }
  induction l as [|t0 l IH]; intros d t Hn Hd Hin; [easy|]. inversion Hn as [|? ? Hnin Hn']; subst. cbn [fold_left].
  destruct Hin as [->|Hin].
  - rewrite Hkeep by easy. destruct (first_refattr 0 refattrs t) as [r|]; [|apply Hd; now left].
    rewrite (dget_dset okey_eqb okey_spec). now destruct (okey_spec (tier_id t) (tier_id t)).
  - apply IH; auto. intros t' Ht'. destruct (first_refattr 0 refattrs t0); [|apply Hd; now right].
    rewrite (dget_dset okey_eqb okey_spec). destruct (okey_spec (tier_id t') (tier_id t0)) as [E|]; [|apply Hd; now right].
    exfalso. apply Hnin. rewrite <- E. now apply in_map.
Qed.

Lemma first_refattr_some refattrs t : forall i v j, first_refattr i refattrs t = Some (v, j) -> prio refattrs t v.
Proof.
  induction refattrs as [|ra l IH]; intros i v j; [easy|]. cbn. destruct (dget _ ra) as [w|] eqn:E.
  - intros [= -> _]. exists ra. split; [|easy]. exists [], l. split; [easy|]. split; [unfold has_attr; congruence|intros ? []].
  - intros H. apply IH in H as (ra' & (l1 & l2 & -> & H1 & H2) & H3). exists ra'. split; [|easy].
    exists (ra :: l1), l2. split; [easy|]. split; [easy|]. intros r [<-|Hr]; [unfold has_attr; congruence|auto].
Qed.
Lemma first_refattr_via refattrs t ra v : refers_via refattrs t ra v -> forall i, exists l1 l2,
  refattrs = l1 ++ ra :: l2 /\ ~ In ra l1 /\ first_refattr i refattrs t = Some (v, i + length l1).
Proof.
  intros [(l1 & l2 & -> & H1 & H2) Hv] i. exists l1, l2. split; [easy|]. split; [intros H; exact (H2 _ H H1)|].
  revert i. induction l1 as [|r l1 IH]; intros i; cbn.
  - rewrite Hv. do 2 f_equal. lia.
  - assert (Hr : ~ has_attr t r) by (apply H2; now left). unfold has_attr in Hr.
    destruct (dget _ r); [exfalso; apply Hr; congruence|]. rewrite IH; [|intros; apply H2; now right]. do 2 f_equal. lia.
Qed.
Lemma first_refattr_root refattrs t : root refattrs t -> forall i, first_refattr i refattrs t = None.
Proof.
  induction refattrs as [|r l IH]; intros H i; [easy|]. cbn. assert (Hr : ~ has_attr t r) by (apply H; now left).
  unfold has_attr in Hr. destruct (dget _ r); [exfalso; apply Hr; congruence|]. apply IH. intros ra Hra. apply H. now right.
Qed.
Lemma split_same {A} (x : A) l1 l2 l1' l2' : l1 ++ x :: l2 = l1' ++ x :: l2' -> ~ In x l1 -> ~ In x l1' -> length l1 = length l1'.
Proof.
  revert l1'. induction l1 as [|a l1 IH]; intros [|b l1'] E H H'; [easy|..].
  - injection E as <- _. exfalso. apply H'. now left.
  - injection E as -> _. exfalso. apply H. now left.
  - injection E as <- E. cbn. f_equal. apply IH; auto; intros ?; [apply H|apply H']; now right.
Qed.
Lemma first_refattr_prio refattrs t v : prio refattrs t v -> forall i, exists j, first_refattr i refattrs t = Some (v, j).
Proof.
  intros (ra & (l1 & l2 & -> & H1 & H2) & Hv). induction l1 as [|r l1 IH]; intros i; cbn.
  - rewrite Hv. eauto.
  - assert (Hr : ~ has_attr t r) by (apply H2; now left). unfold has_attr in Hr.
    destruct (dget _ r); [exfalso; apply Hr; congruence|]. apply IH. intros; apply H2; now right.
Qed.

(* ---------- keys ---------- *)

Section ST.
Context (g : igt) (refattrs : list str) (rank : tier -> nat).
Hypothesis Hids : NoDup (map tier_id (g_tiers g)).
Let idx := tier_indices 1 (g_tiers g) [].
Let pr := prioritized refattrs (g_tiers g).

Definition num (t : tier) : nat := match dget_ okey_eqb idx (tier_id t) with Some n => n | None => 0 end.
Lemma idx_num t : In t (g_tiers g) -> dget_ okey_eqb idx (tier_id t) = Some (num t).
Proof.
  intros H. unfold num. destruct (dget_ okey_eqb idx (tier_id t)) eqn:E; [easy|]. exfalso. revert E.
  apply tier_indices_total. left. now apply in_map.
Qed.
Lemma same_id t t' : In t (g_tiers g) -> In t' (g_tiers g) -> tier_id t = tier_id t' -> t = t'.
Proof.
  intros H H' E. revert Hids H H' E. clear. intros Hids. induction (g_tiers g) as [|a l IH]; [easy|]. inversion Hids as [|? ? Hn Hl]; subst. intros [->|H] [->|H'] E; auto.
  - exfalso. apply Hn. rewrite E. now apply in_map.
  - exfalso. apply Hn. rewrite <- E. now apply in_map.
Qed.
Lemma num_inj t t' : In t (g_tiers g) -> In t' (g_tiers g) -> num t = num t' -> t = t'.
Proof.
  intros H H' E. apply same_id; auto.
  assert (E1 := idx_num t H). assert (E2 := idx_num t' H'). rewrite E in E1.
  apply tier_indices_some in E1 as [(p & a & Ha & Hi & Hp)|E1]; [|discriminate].
  apply tier_indices_some in E2 as [(q & b & Hb & Hj & Hq)|E2]; [|discriminate].
  assert (p = q) by lia. subst q. congruence.
Qed.
Lemma num_pos t p : nth_error (g_tiers g) p = Some t -> num t = S p.
Proof.
  intros H. assert (Ht := nth_error_In _ _ H). assert (E := idx_num t Ht).
  apply tier_indices_some in E as [(q & a & Ha & Hi & Hq)|E]; [|discriminate].
  assert (p = q); [|lia]. assert (a = t) by (apply same_id; auto; now apply nth_error_In in Ha). subst a.
  assert (Hn := NoDup_map_inv _ _ Hids). apply (NoDup_nth_error (g_tiers g)); auto; [|congruence].
  apply nth_error_Some. congruence.
Qed.
Lemma pr_get t : In t (g_tiers g) -> dget_ okey_eqb pr (tier_id t) = first_refattr 0 refattrs t.
Proof. intros H. apply (prioritized_get refattrs (g_tiers g) []); auto. Qed.

(* the entries the loop adds for a tier *)
Inductive path : tier -> list (nat * nat) -> Prop :=
| path_end t : first_refattr 0 refattrs t = None -> path t []
| path_step t i j rt c : first_refattr 0 refattrs t = Some (i, j) -> In rt (g_tiers g) -> tier_id rt = Some i ->
    path rt c -> path t ((num rt, j) :: c).

Lemma chain_path t c : path t c -> In t (g_tiers g) -> exists n, forall m, n <= m -> forall key,
  chain_key m idx pr key (dget_ okey_eqb pr (tier_id t)) = Some (Ok (key ++ c)).
Proof.
  induction 1 as [t H|t i j rt c H Hrt Hi Hp IH]; intros Ht.
  - exists 1. intros [|m] Hm key; [lia|]. cbn. rewrite pr_get by easy. now rewrite H, app_nil_r.
  - destruct (IH Hrt) as [n Hn]. exists (S n). intros [|m] Hm key; [lia|]. cbn. rewrite pr_get by easy. rewrite H.
    assert (E := idx_num rt Hrt). rewrite Hi in E. rewrite E. rewrite <- Hi, Hn by lia. now rewrite <- app_assoc.
Qed.

Hypothesis Hres : prio_resolvable g refattrs.
Hypothesis Hac : prio_acyclic g refattrs rank.

Lemma path_exists t : In t (g_tiers g) -> exists c, path t c.
Proof.
  remember (rank t) as r eqn:Er. revert t Er. induction r as [r IH] using lt_wf_ind. intros t -> Ht.
  destruct (first_refattr 0 refattrs t) as [[i j]|] eqn:E; [|exists []; now constructor].
  assert (Hp := first_refattr_some _ _ _ _ _ E). destruct (Hres t i Ht Hp) as (rt & Hrt & Hi).
  destruct (IH (rank rt)) with (t := rt) as (c & Hc); auto.
  { apply (Hac t rt Ht). exists i. auto. }
  exists ((num rt, j) :: c). econstructor; eauto.
Qed.
Lemma path_det t c : path t c -> forall c', path t c' -> c = c'.
Proof.
  induction 1 as [t H|t i j rt c H Hrt Hi Hp IH]; intros c' Hc'; inversion Hc' as [? E|? i' j' rt' c'' E Hrt' Hi' Hp']; subst; try congruence.
  rewrite H in E. injection E as <- <-. assert (rt = rt') by (apply same_id; auto; congruence). subst. f_equal. auto.
Qed.

(* the key of a tier *)
Definition keyed (t : tier) (k : list (nat * nat)) : Prop := exists c, path t c /\ k = rev c ++ [(num t, 0)].
Lemma keyed_det t k k' : keyed t k -> keyed t k' -> k = k'.
Proof. intros (c & H & ->) (c' & H' & ->). now rewrite (path_det _ _ H _ H'). Qed.
Lemma tier_key_path t : In t (g_tiers g) -> exists k n, keyed t k /\ forall m, n <= m -> tier_key m idx pr t = Some (Ok k).
Proof.
  intros Ht. destruct (path_exists t Ht) as [c Hc]. destruct (chain_path t c Hc Ht) as [n Hn].
  exists (rev c ++ [(num t, 0)]), n. split; [now exists c|]. intros m Hm. unfold tier_key. rewrite idx_num, Hn by easy.
  reflexivity.
Qed.
Lemma tier_keys_ok l : (forall t, In t l -> In t (g_tiers g)) -> forall d, exists n d', (forall m, n <= m -> tier_keys m idx pr l d = Some (Ok d'))
  /\ forall k, dget_ okey_eqb d' k = dget_ okey_eqb d k \/ exists t v, In t l /\ tier_id t = k /\ keyed t v /\ dget_ okey_eqb d' k = Some v.
Proof.
  induction l as [|t l IH]; intros Hl d.
  - exists 0, d. split; [easy|]. auto.
  - destruct (tier_key_path t) as (k & n & Hk & Hn); [apply Hl; now left|].
    destruct (IH (fun t H => Hl t (or_intror H)) (dset_ okey_eqb d (tier_id t) k)) as (n' & d' & Hd & Hget).
    exists (Nat.max n n'), d'. split.
    + intros m Hm. cbn. rewrite Hn by lia. apply Hd. lia.
    + intros k'. destruct (Hget k') as [E|(t' & v & Ht' & Hi & Hv & E)].
      * rewrite (dget_dset okey_eqb okey_spec) in E. destruct (okey_spec k' (tier_id t)) as [Ek|]; [|now left].
        right. exists t, k. split; [now left|auto].
      * right. exists t', v. split; [now right|auto].
Qed.
Lemma tier_keys_all : exists n d, (forall m, n <= m -> tier_keys m idx pr (g_tiers g) [] = Some (Ok d))
  /\ forall t, In t (g_tiers g) -> keyed t (dfi_of d t).
Proof.
  destruct (tier_keys_ok (g_tiers g) (fun _ H => H) []) as (n & d & Hd & Hget). exists n, d. split; [easy|].
  (* every id is present *)
  assert (Hpres : forall m l d0 d1, tier_keys m idx pr l d0 = Some (Ok d1) -> forall k, In k (map tier_id l) \/ dget_ okey_eqb d0 k <> None -> dget_ okey_eqb d1 k <> None).
  { induction l as [|t l IH]; intros d0 d1 E k Hk; cbn in E.
    - injection E as <-. destruct Hk as [[]|Hk]; exact Hk.
    - destruct (tier_key m idx pr t) as [[kk|]|]; try discriminate. apply (IH _ _ E).
      destruct (okey_spec k (tier_id t)) as [->|Hne].
      + right. rewrite (dget_dset okey_eqb okey_spec). now destruct (okey_spec (tier_id t) (tier_id t)).
      + destruct Hk as [[Hk|Hk]|Hk]; [congruence|now left|]. right. rewrite (dget_dset okey_eqb okey_spec). now destruct (okey_spec k (tier_id t)). }
  intros t Ht. unfold dfi_of. destruct (Hget (tier_id t)) as [E|(t' & v & Ht' & Hi & Hv & E)].
  - exfalso. apply (Hpres n (g_tiers g) [] d (Hd n (le_n _)) (tier_id t)); [left; now apply in_map|exact E].
  - rewrite E. now rewrite <- (same_id t' t Ht' Ht Hi).
Qed.

(* ---------- blocks ---------- *)

Lemma path_in t c : path t c -> forall p i j r, c = p ++ (i, j) :: r -> exists a, In a (g_tiers g) /\ i = num a /\ path a r /\ depends_plus g refattrs t a.
Proof.
  induction 1 as [t H|t i0 j0 rt c H Hrt Hi Hp IH]; intros p i j r E; [destruct p; discriminate|].
  assert (Hd : depends g refattrs t rt) by (exists i0; split; [now apply first_refattr_some in H|auto]).
  destruct p as [|x p].
  - injection E as <- <- <-. exists rt. split; [easy|]. split; [easy|]. split; [easy|]. now apply dep_one.
  - injection E as _ E. destruct (IH p i j r E) as (a & Ha & Hn & Hpa & Hda). exists a. split; [easy|]. split; [easy|]. split; [easy|].
    now apply dep_more with (t' := rt).
Qed.
Lemma path_of_dep t a : depends_plus g refattrs t a -> forall c ca, path t c -> path a ca -> exists p j, c = p ++ (num a, j) :: ca.
Proof.
  assert (Hstep : forall t rt c, depends g refattrs t rt -> path t c -> exists j c', c = (num rt, j) :: c' /\ path rt c').
  { intros t0 rt c (i & Hpr & Hrt & Hi) Hc. destruct (first_refattr_prio _ _ _ Hpr 0) as [j Hj].
    inversion Hc as [? E|? i' j' rt' c'' E Hrt' Hi' Hp']; subst; [congruence|]. rewrite Hj in E. injection E as <- <-.
    assert (rt = rt') by (apply same_id; auto; congruence). subst. eauto. }
  induction 1 as [t rt Hd|t t' rt Hd Hdp IH]; intros c ca Hc Hca; destruct (Hstep _ _ _ Hd Hc) as (j & c' & -> & Hc').
  - exists [], j. cbn. now rewrite (path_det _ _ Hca _ Hc').
  - destruct (IH c' ca Hc' Hca) as (p & j' & ->). exists ((num t', j) :: p), j'. reflexivity.
Qed.

(* keys of the block of a *)
Lemma block_key a ca t k : path a ca -> keyed t k -> In t (g_tiers g) -> In a (g_tiers g) ->
  in_block g refattrs a t <-> exists j r, k = rev ca ++ (num a, j) :: r.
Proof.
  intros Ha (c & Hc & ->) Ht Hin. split.
  - intros [->|Hd].
    + exists 0, []. now rewrite (path_det _ _ Ha _ Hc).
    + destruct (path_of_dep t a Hd c ca Hc Ha) as (p & j & ->). exists j, (rev p ++ [(num t, 0)]).
      rewrite rev_app_distr. cbn [rev]. rewrite <- !app_assoc. reflexivity.
  - intros (j & r & E). destruct r as [|x r] using rev_ind.
    + apply app_inj_tail in E as [E1 E2]. injection E2 as E2 _. left. apply num_inj; auto.
    + clear IHr. rewrite app_comm_cons, app_assoc in E. apply app_inj_tail in E as [E _].
      apply (f_equal (@rev _)) in E. rewrite rev_involutive, rev_app_distr, rev_involutive in E. cbn [rev] in E.
      rewrite <- app_assoc in E. cbn [app] in E. right. destruct (path_in t c Hc _ _ _ _ E) as (b & Hb & Hnb & _ & Hd).
      now rewrite (num_inj a b Hin Hb Hnb).
Qed.
Lemma dep_key_lt t rt k kr : In t (g_tiers g) -> depends g refattrs t rt -> keyed t k -> keyed rt kr -> key_lt kr k = true.
Proof.
  intros Ht Hd Hk (cr & Hcr & ->). assert (Hrt : In rt (g_tiers g)) by (destruct Hd as (? & _ & ? & _); auto).
  destruct (proj1 (block_key rt cr t k Hcr Hk Ht Hrt)) as (j & r & ->); [right; now apply dep_one|].
  destruct (key_prefix_lt (rev cr) (num rt) j r) as [H|[-> ->]]; [exact H|]. exfalso.
  assert (E : t = rt).
  { destruct Hk as (c & Hc & E). apply app_inj_tail in E as [_ E]. injection E as E. symmetry. now apply num_inj. }
  subst rt. specialize (Hac t t Ht Hd). lia.
Qed.

Theorem sort_tiers_spec : exists n l, (forall m, n <= m -> sort_tiers m g refattrs = Some (Ok l))
  /\ in_tier_order g refattrs l.
Proof.
  destruct tier_keys_all as (n & d & Hd & Hk). set (lt := fun a b => key_lt (dfi_of d a) (dfi_of d b)).
  exists n, (ssort lt (g_tiers g)). split; [|].
  { intros m Hm. unfold sort_tiers. fold idx pr. rewrite (Hd m Hm). reflexivity. }
  assert (Hperm := ssort_perm lt (g_tiers g)).
  assert (Hsort : StronglySorted (fun a b => lt b a = false) (ssort lt (g_tiers g))).
  { apply ssort_sorted; intros; unfold lt in *; [now apply key_lt_asym|]. eapply key_le_trans; eauto. }
  assert (Hin : forall t, In t (ssort lt (g_tiers g)) <-> In t (g_tiers g)) by (intros t; split; apply Permutation_in; [|symmetry]; exact Hperm).
  revert Hperm Hsort Hin. generalize (ssort lt (g_tiers g)). intros l Hperm Hsort Hin.
  assert (Hord : forall l1 x l2 y l3, l = l1 ++ x :: l2 ++ y :: l3 -> lt y x = false).
  { intros l1 x l2 y l3 ->. clear - Hsort. induction l1 as [|a l1 IH]; cbn in Hsort.
    - inversion Hsort as [|? ? _ Hf]; subst. rewrite Forall_forall in Hf. apply Hf. apply in_elt.
    - inversion Hsort; subst. auto. }
  assert (Hlt : forall x y, In x (g_tiers g) -> In y (g_tiers g) -> lt x y = true -> before l x y).
  { intros x y Hx Hy Hlt. apply Hin in Hy. apply in_split in Hy as (l1 & l2 & E). apply Hin in Hx. rewrite E in Hx.
    apply in_app_iff in Hx as [Hx|[->|Hx]].
    - apply in_split in Hx as (l1a & l1b & ->). exists l1a, l1b, l2. rewrite E. now rewrite <- app_assoc.
    - unfold lt in Hlt. rewrite key_lt_irrefl in Hlt. discriminate.
    - apply in_split in Hx as (l2a & l2b & ->). rewrite (Hord l1 y l2a x l2b E) in Hlt. discriminate. }
  assert (Hbin : forall x y, before (g_tiers g) x y -> In x (g_tiers g) /\ In y (g_tiers g) /\ num x < num y).
  { intros x y (l1 & l2 & l3 & E). assert (Hx : In x (g_tiers g)) by (rewrite E; apply in_elt).
    assert (Hy : In y (g_tiers g)) by (rewrite E; apply in_app_iff; right; right; apply in_elt).
    split; [easy|]. split; [easy|].
    assert (Nx : num x = S (length l1)) by (apply num_pos; rewrite E; apply nth_error_app2_length).
    assert (Ny : num y = S (S (length l1 + length l2))).
    { replace (S (length l1 + length l2)) with (length (l1 ++ x :: l2)) by (rewrite app_length; cbn; lia).
      apply num_pos. rewrite E. rewrite (app_comm_cons l2 (y :: l3) x), app_assoc. apply nth_error_app2_length. }
    lia. }
  split; [exact Hperm|]. split; [|split; [|split; [|split]]].
  - intros t rt Ht Hdep. assert (Hrt : In rt (g_tiers g)) by (destruct Hdep as (? & _ & ? & _); auto).
    apply Hlt; auto. unfold lt. exact (dep_key_lt t rt _ _ Ht Hdep (Hk t Ht) (Hk rt Hrt)).
  - intros a Ha l1 x l2 y l3 z E Hx Hy Hz. destruct (path_exists a Ha) as [ca Hca].
    assert (Hxt : In x (g_tiers g)) by (apply Hin; rewrite E; apply in_elt).
    assert (Hyt : In y (g_tiers g)) by (apply Hin; rewrite E; apply in_app_iff; right; right; apply in_elt).
    assert (Hzt : In z (g_tiers g)) by (apply Hin; rewrite E; apply in_app_iff; right; right; apply in_app_iff; now left).
    apply in_split in Hz as (l2a & l2b & ->).
    assert (H1 : lt z x = false) by (apply (Hord l1 x l2a z (l2b ++ y :: l3)); rewrite E, <- app_assoc; reflexivity).
    assert (H2 : lt y z = false) by (apply (Hord (l1 ++ x :: l2a) z l2b y l3); rewrite E, <- !app_assoc; reflexivity).
    apply (block_key a ca x _ Hca (Hk x Hxt) Hxt Ha) in Hx as (jx & rx & Ex).
    apply (block_key a ca y _ Hca (Hk y Hyt) Hyt Ha) in Hy as (jy & ry & Ey).
    apply (block_key a ca z _ Hca (Hk z Hzt) Hzt Ha). unfold lt in H1, H2. rewrite Ex in H1. rewrite Ey in H2.
    exact (key_between _ _ _ _ _ _ _ H1 H2).
  - intros t t' Hb Hr Hr'. destruct (Hbin t t' Hb) as (Ht & Ht' & Hnum). apply Hlt; auto. unfold lt.
    rewrite (keyed_det t _ ([] ++ [(num t, 0)]) (Hk t Ht)) by (exists []; split; [constructor; now apply first_refattr_root|easy]).
    rewrite (keyed_det t' _ ([] ++ [(num t', 0)]) (Hk t' Ht')) by (exists []; split; [constructor; now apply first_refattr_root|easy]).
    cbn. assert (lt2 (num t, 0) (num t', 0) = true) as -> by (apply lt2_spec; cbn; lia). easy.
  - intros t t' ra i Hb Hr Hr'. destruct (Hbin t t' Hb) as (Ht & Ht' & Hnum). apply Hlt; auto. unfold lt.
    destruct (first_refattr_via _ _ _ _ Hr 0) as (l1 & l2 & E & Hni & Hf), (first_refattr_via _ _ _ _ Hr' 0) as (l1' & l2' & E' & Hni' & Hf').
    rewrite <- (split_same ra l1 l2 l1' l2') in Hf' by (congruence || easy).
    destruct (Hres t i Ht (first_refattr_some _ _ _ _ _ Hf)) as (rt & Hrt & Hi). destruct (path_exists rt Hrt) as [c Hc].
    rewrite (keyed_det t _ (rev ((num rt, 0 + length l1) :: c) ++ [(num t, 0)]) (Hk t Ht)) by (eexists; split; [econstructor; eauto|easy]).
    rewrite (keyed_det t' _ (rev ((num rt, 0 + length l1) :: c) ++ [(num t', 0)]) (Hk t' Ht')) by (eexists; split; [econstructor; eauto|easy]).
    apply key_common_lt. apply lt2_spec. cbn. lia.
  - intros t t' ra ra' i Ht Ht' Hr Hr' (m1 & m2 & Em & Hm). apply Hlt; auto. unfold lt.
    destruct (first_refattr_via _ _ _ _ Hr 0) as (l1 & l2 & E & Hni & Hf), (first_refattr_via _ _ _ _ Hr' 0) as (l1' & l2' & E' & Hni' & Hf').
    assert (Hll : length l1 < length l1').
    { assert (length l1 <= length m1 /\ length m1 < length l1') as [? ?]; [|lia]. split.
      - destruct (Nat.le_gt_cases (length l1) (length m1)) as [H|H]; [exact H|]. exfalso. apply Hni.
        destruct (app_split_longer m1 ra m2 l1 ra l2) as (m & ->); [congruence|lia|]. apply in_elt.
      - destruct (Nat.le_gt_cases (length l1') (length m1)) as [H|H]; [|exact H]. exfalso. apply Hm.
        destruct (Nat.eq_dec (length l1') (length m1)) as [He|He].
        + rewrite E' in Em. apply app_inj_length in Em as [-> Em]; [|exact He]. injection Em as -> _. apply in_elt.
        + destruct (app_split_longer l1' ra' l2' m1 ra m2) as (m & ->); [congruence|lia|]. rewrite <- app_assoc. apply in_elt. }
    destruct (Hres t i Ht (first_refattr_some _ _ _ _ _ Hf)) as (rt & Hrt & Hi). destruct (path_exists rt Hrt) as [c Hc].
    rewrite (keyed_det t _ (rev ((num rt, 0 + length l1) :: c) ++ [(num t, 0)]) (Hk t Ht)) by (eexists; split; [econstructor; eauto|easy]).
    rewrite (keyed_det t' _ (rev ((num rt, 0 + length l1') :: c) ++ [(num t', 0)]) (Hk t' Ht')) by (eexists; split; [econstructor; eauto|easy]).
    cbn [rev]. rewrite <- !app_assoc. apply key_common_lt. apply lt2_spec. cbn. lia.
Qed.
End ST.

(* ---------- cycles ---------- *)

Section Cycle.
Context (g : igt) (refattrs : list str).
Hypothesis Hids : NoDup (map tier_id (g_tiers g)).

Lemma dep_first t rt : depends g refattrs t rt -> exists i j, first_refattr 0 refattrs t = Some (i, j) /\ In rt (g_tiers g) /\ tier_id rt = Some i.
Proof. intros (i & Hp & Hrt & Hi). destruct (first_refattr_prio _ _ _ Hp 0) as [j Hj]. eauto. Qed.

(* a set of tiers closed under following the reference never lets the loop end *)
Lemma chain_never (P : tier -> Prop) : (forall t, P t -> In t (g_tiers g) /\ exists t', P t' /\ depends g refattrs t t') ->
  forall m t key, P t -> chain_key m (tier_indices 1 (g_tiers g) []) (prioritized refattrs (g_tiers g)) key
      (dget_ okey_eqb (prioritized refattrs (g_tiers g)) (tier_id t)) = None.
Proof.
  intros HP. induction m as [|m IH]; intros t key Ht; [easy|]. destruct (HP t Ht) as (Hin & t' & Ht' & Hd).
  destruct (dep_first _ _ Hd) as (i & j & Hf & Hin' & Hi). cbn [chain_key].
  rewrite (pr_get g refattrs Hids t Hin), Hf. rewrite <- Hi. rewrite (idx_num g t' Hin'). apply IH. exact Ht'.
Qed.
Theorem sort_tiers_cycle t : In t (g_tiers g) -> prio_resolvable g refattrs -> depends_plus g refattrs t t ->
  forall m, sort_tiers m g refattrs = None.
Proof.
  intros Ht Hres Hc m.
  assert (Hinv : forall x, depends_plus g refattrs x t -> In x (g_tiers g) -> In x (g_tiers g) /\ exists y, (In y (g_tiers g) /\ depends_plus g refattrs y t) /\ depends g refattrs x y).
  { intros x Hx Hin. split; [easy|]. inversion Hx as [? Hd|t' ? Hd Hdp]; subst.
    - exists t. split; [|easy]. split; easy.
    - exists t'. split; [|easy]. split; [|easy]. destruct Hd as (? & _ & ? & _). easy. }
  set (P := fun x => In x (g_tiers g) /\ depends_plus g refattrs x t).
  assert (HP : forall x, P x -> In x (g_tiers g) /\ exists y, P y /\ depends g refattrs x y).
  { intros x [H1 H2]. now apply Hinv. }
  (* no error can occur before, since references resolve *)
  assert (Hnoerr : forall m x, In x (g_tiers g) -> forall key e,
     chain_key m (tier_indices 1 (g_tiers g) []) (prioritized refattrs (g_tiers g)) key
       (dget_ okey_eqb (prioritized refattrs (g_tiers g)) (tier_id x)) <> Some (Err e)).
  { clear m. induction m as [|m IH]; intros x Hx key e; [easy|]. cbn [chain_key]. rewrite (pr_get g refattrs Hids x Hx).
    destruct (first_refattr 0 refattrs x) as [[i j]|] eqn:E; [|easy].
    destruct (Hres x i Hx (first_refattr_some _ _ _ _ _ E)) as (y & Hy & Hi). rewrite <- Hi, (idx_num g y Hy). now apply IH. }
  unfold sort_tiers.
  assert (W : forall l d, incl l (g_tiers g) -> In t l -> tier_keys m (tier_indices 1 (g_tiers g) []) (prioritized refattrs (g_tiers g)) l d = None).
  { induction l as [|x l IH]; intros d Hl Hin; [easy|]. cbn [tier_keys]. assert (Hx : In x (g_tiers g)) by (apply Hl; now left).
    unfold tier_key. rewrite (idx_num g x Hx).
    destruct (chain_key m _ _ _ (dget_ okey_eqb (prioritized refattrs (g_tiers g)) (tier_id x))) as [[k|e]|] eqn:E.
    - destruct Hin as [->|Hin]; [|apply IH; [intros y Hy; apply Hl; now right|easy]].
      rewrite (chain_never P HP m t) in E; [discriminate|]. split; easy.
    - exfalso. exact (Hnoerr m x Hx _ _ E).
    - easy. }
  rewrite W; [easy|apply incl_refl|easy].
Qed.
End Cycle.

Theorem sort_tiers_terminates g refattrs rank :
  NoDup (map tier_id (g_tiers g)) -> prio_resolvable g refattrs -> prio_acyclic g refattrs rank ->
  exists n l, forall m, n <= m -> sort_tiers m g refattrs = Some (Ok l).
Proof. intros H1 H2 H3. destruct (sort_tiers_spec g refattrs rank H1 H2 H3) as (n & l & H & _). eauto. Qed.

(* ---------- missing tiers ---------- *)

Section Missing.
Context (g : igt) (refattrs : list str) (rank : tier -> nat).
Hypothesis Hids : NoDup (map tier_id (g_tiers g)).
Hypothesis Hac : prio_acyclic g refattrs rank.
Let idx := tier_indices 1 (g_tiers g) [].
Let pr := prioritized refattrs (g_tiers g).

(* each tier's loop ends, normally or with KeyError; with KeyError if the
   tier's own reference is missing *)
Lemma chain_ends t : In t (g_tiers g) -> exists n b, (forall m, n <= m -> forall key, exists k,
    chain_key m idx pr key (dget_ okey_eqb pr (tier_id t)) = Some (if b : bool then Ok k else Err KeyError))
  /\ forall i, prio refattrs t i -> (~ exists rt, In rt (g_tiers g) /\ tier_id rt = Some i) -> b = false.
Proof.
  remember (rank t) as r eqn:Er. revert t Er. induction r as [r IH] using lt_wf_ind. intros t -> Ht. assert (Hpt : dget_ okey_eqb pr (tier_id t) = first_refattr 0 refattrs t) by exact (pr_get g refattrs Hids t Ht).
  destruct (first_refattr 0 refattrs t) as [[i j]|] eqn:E.
  - assert (Hp := first_refattr_some _ _ _ _ _ E).
    assert (Hpu : forall i', prio refattrs t i' -> i' = i).
    { intros i' Hi'. destruct (first_refattr_prio _ _ _ Hi' 0) as [j' Hj']. congruence. }
    destruct (dget_ okey_eqb idx (Some i)) as [n|] eqn:Ei.
    + destruct (tier_indices_some _ _ _ _ _ Ei) as [(p & rt & Hn & Hrt & _)|]; [|discriminate].
      apply nth_error_In in Hn.
      destruct (IH (rank rt)) with (t := rt) as (n' & b & Hn' & Hb); auto.
      { apply (Hac t rt Ht). exists i. auto. }
      exists (S n'), b. split.
      * intros [|m] Hm key; [lia|]. cbn. rewrite Hpt, Ei, <- Hrt. apply Hn'. lia.
      * intros i' Hi' Hno. exfalso. apply Hno. exists rt. split; [easy|]. now rewrite (Hpu i' Hi').
    + exists 1, false. split; [|easy]. intros [|m] Hm key; [lia|]. exists key. cbn.   now rewrite Hpt, Ei.
  - exists 1, true. split.
    + intros [|m] Hm key; [lia|]. exists key. cbn. now rewrite Hpt.
    + intros i Hi. destruct (first_refattr_prio _ _ _ Hi 0) as [j' Hj']. congruence.
Qed.
Lemma keys_end l : incl l (g_tiers g) -> exists n b, (forall m, n <= m -> forall d, exists k,
    tier_keys m idx pr l d = Some (if b : bool then Ok k else Err KeyError))
  /\ forall t i, In t l -> prio refattrs t i -> (~ exists rt, In rt (g_tiers g) /\ tier_id rt = Some i) -> b = false.
Proof.
  induction l as [|t l IH]; intros Hl.
  - exists 0, true. split; [|easy]. intros m _ d. now exists d.
  - destruct (chain_ends t) as (n1 & b1 & H1 & Hb1); [apply Hl; now left|].
    destruct IH as (n2 & b2 & H2 & Hb2); [intros x Hx; apply Hl; now right|].
    exists (Nat.max n1 n2), (b1 && b2). split.
    + intros m Hm d. cbn [tier_keys]. unfold tier_key. unfold idx at 1. rewrite (idx_num g t) by (apply Hl; now left).
      destruct (H1 m ltac:(lia) [(num g t, 0)]) as [k Hk]. rewrite Hk. destruct b1; [|exists d; reflexivity].
      apply H2. lia.
    + intros t' i [<-|Hin] Hp Hno; [rewrite (Hb1 i Hp Hno); easy|]. rewrite (Hb2 t' i Hin Hp Hno). apply andb_false_r.
Qed.
Lemma sort_tiers_missing_ex t i : In t (g_tiers g) -> prio refattrs t i -> (~ exists rt, In rt (g_tiers g) /\ tier_id rt = Some i) ->
  exists n, forall m, n <= m -> sort_tiers m g refattrs = Some (Err KeyError).
Proof.
  intros Ht Hp Hno. destruct (keys_end (g_tiers g) (incl_refl _)) as (n & b & H & Hb). rewrite (Hb t i Ht Hp Hno) in H.
  exists n. intros m Hm. unfold sort_tiers. fold idx pr. destruct (H m Hm []) as [k ->]. reflexivity.
Qed.
End Missing.
Theorem sort_tiers_missing g refattrs rank :
  NoDup (map tier_id (g_tiers g)) -> prio_acyclic g refattrs rank ->
  forall t i, In t (g_tiers g) -> prio refattrs t i -> (~ exists rt, In rt (g_tiers g) /\ tier_id rt = Some i) ->
  exists n, forall m, n <= m -> sort_tiers m g refattrs = Some (Err KeyError).
Proof. intros H1 H2 t i. exact (sort_tiers_missing_ex g refattrs rank H1 H2 t i). Qed.
