(* Proofs about xigt query --tally and --unique: C47. *)
From Coq Require Import Permutation Sorted.
From Verif Require Import PyStr PyStrFacts PySort PySortFacts Model Scripts SpecScripts SortScriptProofs PartitionProofs.

Lemma val_eqb_spec a b : reflect (a = b) (val_eqb a b).
Proof.
  destruct a, b; cbn; try (constructor; congruence).
  - destruct (str_eqb_spec s s0); constructor; congruence.
  - destruct (Nat.eqb_spec n n0); constructor; congruence.
Qed.
Lemma group_eqb_spec a : forall b, reflect (a = b) (group_eqb a b).
Proof.
  induction a as [|x a IH]; intros [|y b]; cbn; try (constructor; congruence).
  destruct (val_eqb_spec x y) as [->|]; cbn; [|constructor; congruence]. destruct (IH b); constructor; congruence.
Qed.
Lemma hashable_plain g : hashable g = true <-> plain_group g.
Proof.
  unfold hashable, plain_group. rewrite forallb_forall. split; intros H v Hv; specialize (H v Hv).
  - destruct v; [auto|eauto|discriminate].
  - destruct H as [->|(s & ->)]; easy.
Qed.

Lemma SS_impl {A} (R S : A -> A -> Prop) l : (forall a b, R a b -> S a b) -> StronglySorted R l -> StronglySorted S l.
Proof. intros H. induction 1 as [|a l Hl IH Hf]; constructor; [easy|]. eapply Forall_impl; [|exact Hf]. auto. Qed.
Notation group := (list pyval).
Definition bump (c : counter) (g : group) : counter :=
  dset_ group_eqb c g (S (match dget_ group_eqb c g with Some n => n | None => 0 end)).
Lemma loop_ok {M} (sub : M -> res group) ms : forall c c', tally_loop sub ms c = Ok c' <->
  exists gs, mapM sub ms = Ok gs /\ Forall plain_group gs /\ c' = fold_left bump gs c.
Proof.
  induction ms as [|m ms IH]; intros c c'; cbn.
  - split; [intros [= <-]; exists []; auto|intros (gs & [= <-] & _ & ->); easy].
  - destruct (sub m) as [g|]; cbn; [|split; [discriminate|intros (gs & H & _); discriminate]].
    unfold count1. destruct (hashable g) eqn:Eh; cbn.
    + apply hashable_plain in Eh. fold (bump c g). rewrite IH. split.
      * intros (gs & E & HF & ->). rewrite E. cbn. exists (g :: gs). auto.
      * intros (gs & E & HF & ->). destruct (mapM sub ms) as [l|]; [|discriminate]. cbn in E. injection E as <-. inversion HF; subst. exists l. auto.
    + split; [discriminate|]. intros (gs & E & HF & _). destruct (mapM sub ms) as [l|]; [|discriminate]. cbn in E. injection E as <-.
      inversion HF as [|? ? Hg _]; subst. apply hashable_plain in Hg. congruence.
Qed.

Record counted (gs : list group) (c : counter) : Prop := {
  c_nodup : NoDup (map fst c);
  c_count : forall g n, In (g, n) c <-> 0 < n /\ n = count_occ group_dec gs g;
  c_sum : list_sum (map snd c) = length gs;
  c_order : StronglySorted (fun a b => first_before gs (fst a) (fst b)) c }.

Lemma dset_sum (c : counter) g : NoDup (map fst c) -> list_sum (map snd (bump c g)) = S (list_sum (map snd c)).
Proof.
  unfold bump. induction c as [|[k n] c IH]; cbn; [easy|]. intros H. inversion H; subst. destruct (group_eqb_spec g k) as [->|N]; cbn; [easy|]. cbn in IH. unfold list_sum in IH. rewrite IH by easy. lia.
Qed.
Lemma first_before_app {A} (l r : list A) x y : first_before l x y -> first_before (l ++ r) x y.
Proof. intros (l1 & l2 & -> & H). exists l1, (l2 ++ r). rewrite <- app_assoc. cbn. rewrite in_app_iff. intuition. Qed.
Lemma dset_sorted (R : group -> group -> Prop) (c : counter) g n : StronglySorted (fun a b => R (fst a) (fst b)) c ->
  (forall k, In k (map fst c) -> ~ In g (map fst c) -> R k g) -> StronglySorted (fun a b => R (fst a) (fst b)) (dset_ group_eqb c g n).
Proof.
  induction c as [|[k m] c IH]; cbn; intros H Hg; [repeat constructor|]. inversion H as [|? ? Hs Hf]; subst. destruct (group_eqb_spec g k) as [->|N].
  - constructor; [easy|]. apply Hf.
  - constructor.
    + apply IH; [easy|]. intros k' Hk Hn. apply Hg; [auto|]. intros [->|?]; easy.
    + rewrite Forall_forall in *. intros [k' m'] Hi. cbn. destruct (group_eqb_spec k' g) as [->|N'].
      * destruct (in_dec group_dec g (map fst c)) as [Hgi|Hgn].
        -- apply in_map_iff in Hgi as ([g' m''] & E & Hgi). cbn in E. subst g'. apply (Hf _ Hgi).
        -- apply Hg; [auto|]. intros [->|?]; easy.
      * assert (Hi' : In (k', m') c).
        { clear - Hi N'. induction c as [|[a b] c IH]; cbn in *.
          - destruct Hi as [[= <- <-]|[]]. easy.
          - destruct (group_eqb_spec g a) as [->|]; cbn in Hi; [destruct Hi as [[= <- <-]|]; [easy|auto]|]. destruct Hi as [|]; auto. }
        apply (Hf _ Hi').
Qed.
Lemma first_split (g : group) l : In g l -> exists l1 l2, l = l1 ++ g :: l2 /\ ~ In g l1.
Proof.
  induction l as [|x l IH]; [intros []|]. destruct (group_dec x g) as [->|N]; [exists [], l; auto|].
  intros [->|H]; [easy|]. destruct (IH H) as (l1 & l2 & -> & Hn). exists (x :: l1), l2. split; [easy|]. intros [|]; auto.
Qed.
Lemma count_keys gs c g : counted gs c -> In g (map fst c) <-> In g gs.
Proof.
  intros [H1 H2 _ _]. split; intros H.
  - apply in_map_iff in H as ([g' n] & <- & Hi). apply H2 in Hi as (H & ->). now apply (count_occ_In group_dec).
  - apply (count_occ_In group_dec) in H. apply in_map_iff. exists (g, count_occ group_dec gs g). split; [easy|]. now apply H2.
Qed.
Lemma counted_bump gs c g : counted gs c -> counted (gs ++ [g]) (bump c g).
Proof.
  intros HC. pose proof (count_keys gs c) as Hkeys. specialize (fun g => Hkeys g HC). destruct HC as [H1 H2 H3 H4].
  assert (Hnd : NoDup (map fst (bump c g))) by (apply dset_nodup; [apply group_eqb_spec|exact H1]).
  constructor.
  - exact Hnd.
  - intros g' n. rewrite count_occ_app. cbn [count_occ].
    assert (Hd : In (g', n) (bump c g) <-> dget_ group_eqb (bump c g) g' = Some n).
    { split; [apply dget_nodup; [apply group_eqb_spec|exact Hnd]|apply dget_in, group_eqb_spec]. }
    assert (Hc : forall h m, dget_ group_eqb c h = Some m <-> 0 < m /\ m = count_occ group_dec gs h).
    { intros h m. rewrite <- H2. split; [apply dget_in, group_eqb_spec|apply dget_nodup; [apply group_eqb_spec|exact H1]]. }
    rewrite Hd. unfold bump. rewrite (dget_dset group_eqb group_eqb_spec).
    destruct (group_eqb_spec g' g) as [->|N].
    + destruct (group_dec g g) as [_|]; [|easy]. destruct (dget_ group_eqb c g) as [m|] eqn:E.
      * apply Hc in E as (Hm & ->). split; [intros [= <-]; lia|intros [_ ->]; f_equal; lia].
      * assert (count_occ group_dec gs g = 0).
        { destruct (count_occ group_dec gs g) eqn:Eo; [easy|]. destruct (Hc g (S n0)) as [_ Hx]. rewrite Hx in E by lia. discriminate. }
        rewrite H. split; [intros [= <-]; auto|intros [_ ->]; easy].
    + destruct (group_dec g g'); [congruence|]. rewrite Nat.add_0_r. apply Hc.
  - rewrite dset_sum by exact H1. rewrite H3, app_length. cbn. lia.
  - unfold bump. apply (dset_sorted (first_before (gs ++ [g]))).
    + eapply SS_impl; [|exact H4]. intros a b. apply first_before_app.
    + intros k Hk Hn. rewrite Hkeys in Hk, Hn. destruct (first_split k gs Hk) as (l1 & l2 & -> & Hl). exists l1, (l2 ++ [g]).
      rewrite <- app_assoc. split; [easy|]. split; [easy|]. split; [intros Hi; apply Hn, in_or_app; now left|]. apply in_or_app. right. now left.
Qed.
Lemma counted_fold gs : counted gs (fold_left bump gs []).
Proof.
  induction gs as [|g gs IH] using rev_ind.
  - constructor; cbn; [constructor| |easy|constructor]. intros g n. split; [intros []|]. intros (H & ->). lia.
  - rewrite fold_left_app. cbn. now apply counted_bump.
Qed.

Lemma SS_perm_stable (c d : counter) gs : Permutation d c -> StronglySorted (fun a b => snd a <= snd b -> snd a = snd b) d ->
  (forall n, filter (fun a => Nat.eqb (snd a) n) d = filter (fun a => Nat.eqb (snd a) n) c) ->
  StronglySorted (fun a b => first_before gs (fst a) (fst b)) c ->
  StronglySorted (fun a b => snd b < snd a \/ snd a = snd b /\ first_before gs (fst a) (fst b)) d.
Proof.
  intros _ Hd Hst Hc.
  assert (Hall : forall n, StronglySorted (fun a b => first_before gs (fst a) (fst b)) (filter (fun a => Nat.eqb (snd a) n) d)).
  { intros n. rewrite Hst. clear - Hc. induction Hc as [|a l Hl IH Hf]; cbn; [constructor|]. destruct (Nat.eqb (snd a) n); [|exact IH].
    constructor; [exact IH|]. rewrite Forall_forall in *. intros b Hb. apply filter_In in Hb as (Hb & _). now apply Hf. }
  clear Hst Hc. induction Hd as [|a l Hl IH Hf]; [constructor|]. constructor.
  - apply IH. intros n. specialize (Hall n). cbn in Hall. destruct (Nat.eqb (snd a) n); [now inversion Hall|exact Hall].
  - rewrite Forall_forall in *. intros b Hb. specialize (Hf b Hb). destruct (Nat.lt_ge_cases (snd b) (snd a)) as [|Hge]; [now left|]. right.
    specialize (Hf Hge). split; [exact Hf|]. specialize (Hall (snd a)). cbn in Hall. rewrite Nat.eqb_refl in Hall. inversion Hall as [|? ? _ HF]; subst.
    rewrite Forall_forall in HF. apply HF. apply filter_In. split; [exact Hb|]. rewrite Hf. apply Nat.eqb_refl.
Qed.

Lemma list_sum_perm l l' : Permutation l l' -> list_sum l = list_sum l'.
Proof. unfold list_sum. induction 1; cbn; lia. Qed.

Theorem tally_spec {M} (sub : M -> res group) ms c : tally sub (Ok ms) = Ok c ->
  exists gs, mapM sub ms = Ok gs
  /\ NoDup (map fst c)
  /\ (forall g n, In (g, n) c <-> 0 < n /\ n = count_occ group_dec gs g)
  /\ list_sum (map snd c) = length ms
  /\ StronglySorted (fun a b => snd b < snd a \/ snd a = snd b /\ first_before gs (fst a) (fst b)) c.
Proof.
  unfold tally. cbn. destruct (tally_loop sub ms []) as [c0|] eqn:E; [|discriminate]. cbn. intros [= <-].
  apply loop_ok in E as (gs & Em & Hp & ->). exists gs. split; [exact Em|]. destruct (counted_fold gs) as [H1 H2 H3 H4].
  set (c0 := fold_left bump gs []) in *. unfold most_common. set (lt := fun a b : group * nat => Nat.ltb (snd b) (snd a)).
  pose proof (ssort_perm lt c0) as HP. split; [|split; [|split]].
  - eapply Permutation_NoDup; [apply Permutation_map; symmetry; exact HP|exact H1].
  - intros g n. rewrite <- H2. split; apply Permutation_in; [exact HP|symmetry; exact HP].
  - rewrite (list_sum_perm _ (map snd c0)) by (apply Permutation_map; exact HP). rewrite H3. apply mapM_ok in Em.
    clear - Em. induction Em; cbn; congruence.
  - apply (SS_perm_stable c0); [exact HP| | |exact H4].
    + eapply SS_impl; [|apply (ssort_sorted lt)]; unfold lt; cbn.
      * intros a b H. apply Nat.ltb_ge in H. lia.
      * intros a b H. apply Nat.ltb_lt in H. apply Nat.ltb_ge. lia.
      * intros a b c H K. apply Nat.ltb_ge in H, K. apply Nat.ltb_ge. lia.
    + intros n. apply ssort_stable. intros x y _ _ Hx Hy. unfold lt. apply Nat.eqb_eq in Hx, Hy. apply Nat.ltb_ge. lia.
Qed.

Theorem tally_ok {M} (sub : M -> res group) ms gs : mapM sub ms = Ok gs ->
  (exists c, tally sub (Ok ms) = Ok c) <-> Forall plain_group gs.
Proof.
  intros Hm. unfold tally. cbn. destruct (tally_loop sub ms []) as [c|] eqn:E; cbn.
  - apply loop_ok in E as (gs' & Hm' & Hp & _). rewrite Hm in Hm'. injection Hm' as <-. split; eauto.
  - split; [intros (c & H); discriminate|]. intros Hp. assert (K : tally_loop sub ms [] = Ok (fold_left bump gs [])) by (apply loop_ok; eauto). congruence.
Qed.
Theorem tally_objects {M} (sub : M -> res group) ms gs : mapM sub ms = Ok gs -> ~ Forall plain_group gs ->
  tally sub (Ok ms) = Err TypeError.
Proof.
  intros Hm Hn. unfold tally. cbn. replace (tally_loop sub ms []) with (@Err counter TypeError); [easy|]. symmetry.
  revert gs Hm Hn. generalize (@nil (group * nat)). induction ms as [|m ms IH]; intros c gs; cbn.
  - intros [= <-] H. now destruct H.
  - destruct (sub m) as [g|]; [|discriminate]. cbn. destruct (mapM sub ms) as [l|] eqn:E; [|discriminate]. cbn. intros [= <-] Hn.
    unfold count1. destruct (hashable g) eqn:Eh; [|easy]. cbn. apply (IH _ l eq_refl). intros HF. apply Hn. constructor; [now apply hashable_plain|exact HF].
Qed.

Theorem unique_spec vs : plain_group vs -> exists n l, unique (Ok vs) = Ok n /\ length l = n /\ NoDup l /\ forall v, In v l <-> In v vs.
Proof.
  intros Hp. unfold unique. cbn. destruct (counted_fold (map (fun v => [v]) vs)) as [H1 H2 H3 H4] eqn:Ed. clear Ed.
  set (c := fold_left bump (map (fun v => [v]) vs) []) in *.
  assert (Hl : tally_loop (fun v => Ok [v]) vs [] = Ok c).
  { apply loop_ok. exists (map (fun v => [v]) vs). split; [|split; [|easy]].
    - clear. induction vs as [|v vs IH]; cbn; [easy|]. now rewrite IH.
    - apply Forall_forall. intros g Hg. apply in_map_iff in Hg as (v & <- & Hv). intros w [<-|[]]. now apply Hp. }
  rewrite Hl. cbn. exists (length c), (map (fun a => match fst a with v :: _ => v | [] => VNone end) c).
  assert (Hk : forall g, In g (map fst c) <-> exists v, g = [v] /\ In v vs).
  { intros g. rewrite (count_keys (map (fun v => [v]) vs) c) by now constructor. rewrite in_map_iff. split; intros (v & H); exists v; intuition congruence. }
  split; [easy|]. split; [apply map_length|]. rewrite <- (map_map fst (fun g => match g with v :: _ => v | [] => VNone end)). split.
  - clear - H1 Hk. assert (Hs : forall g, In g (map fst c) -> exists v, g = [v]) by (intros g Hg; apply Hk in Hg as (v & Hv & _); eauto). clear Hk.
    induction (map fst c) as [|g l IH]; cbn; [constructor|]. inversion H1; subst. constructor; [|apply IH; auto; intros; apply Hs; now right].
    intros Hi. apply in_map_iff in Hi as (g' & E & Hg'). destruct (Hs g (or_introl eq_refl)) as (v & ->). destruct (Hs g' (or_intror Hg')) as (v' & ->). now subst.
  - intros v. rewrite in_map_iff. split.
    + intros (g & <- & Hg). apply Hk in Hg as (w & -> & Hw). exact Hw.
    + intros Hv. exists [v]. split; [easy|]. apply Hk. eauto.
Qed.
Theorem unique_objects vs n : In (VObj n) vs -> unique (Ok vs) = Err TypeError.
Proof.
  unfold unique. cbn. intros H. replace (tally_loop (fun v => Ok [v]) vs []) with (@Err counter TypeError); [easy|]. symmetry.
  generalize (@nil (group * nat)). induction vs as [|v vs IH]; intros c; [destruct H|]. destruct H as [->|H].
  - reflexivity.
  - cbn. unfold count1. destruct (hashable [v]); [cbn; now apply IH|easy].
Qed.
