(* Sorting tiers again changes nothing, whatever ids they have (C71): tiers that share
   an id, or have none, stay together, and can be represented by one of them. *)
From Coq Require Import Permutation Sorted.
From Verif Require Import PyStr PyStrFacts PySort PySortFacts Model Value SpecValue Index IndexProofs SpecQuery SortTiers SpecSortTiers SortTiersProofs SortTiersUnique.

(* more fuel *)
Section Fuel.
Context (idx : list (option str * nat)) (pr : list (option str * (str * nat))).
Lemma chain_more m : forall m' key tmp r, m <= m' -> chain_key m idx pr key tmp = Some r -> chain_key m' idx pr key tmp = Some r.
Proof.
  induction m as [|m IH]; intros m' key tmp r Hm E; [easy|]. destruct m' as [|m']; [lia|]. cbn in *. destruct tmp as [[i j]|]; [|easy].
  destruct (dget_ okey_eqb idx (Some i)); [|easy]. apply IH; [lia|exact E].
Qed.
Lemma tier_key_more m m' t r : m <= m' -> SortTiers.tier_key m idx pr t = Some r -> SortTiers.tier_key m' idx pr t = Some r.
Proof.
  intros Hm. unfold SortTiers.tier_key. destruct (dget_ okey_eqb idx (tier_id t)); [|easy].
  destruct (chain_key m idx pr _ _) as [x|] eqn:E; [|easy]. now rewrite (chain_more m m' _ _ x Hm E).
Qed.
Lemma tier_keys_more m m' l : m <= m' -> forall d r, tier_keys m idx pr l d = Some r -> tier_keys m' idx pr l d = Some r.
Proof.
  intros Hm. induction l as [|t l IH]; intros d r; [easy|]. cbn. destruct (SortTiers.tier_key m idx pr t) as [x|] eqn:E; [|easy].
  rewrite (tier_key_more m m' t x Hm E). destruct x; auto.
Qed.
End Fuel.
Lemma sort_tiers_more m m' g ras r : m <= m' -> sort_tiers m g ras = Some r -> sort_tiers m' g ras = Some r.
Proof.
  intros Hm. unfold sort_tiers. destruct (tier_keys m _ _ _ _) as [x|] eqn:E; [|easy]. now rewrite (tier_keys_more _ _ m m' _ Hm _ x E).
Qed.


(* ---------- keys of two indices that agree ---------- *)

Section Transfer.
Context (idx idx' : list (option str * nat)) (pr pr' : list (option str * (str * nat))).
Hypothesis Hdom : forall k, dget_ okey_eqb idx k = None <-> dget_ okey_eqb idx' k = None.
Hypothesis Hiso : forall k k' n n' q q', dget_ okey_eqb idx k = Some n -> dget_ okey_eqb idx k' = Some n' ->
  dget_ okey_eqb idx' k = Some q -> dget_ okey_eqb idx' k' = Some q' -> (n < n' <-> q < q').
Hypothesis Hpr : forall k, dget_ okey_eqb idx k <> None -> dget_ okey_eqb pr k = dget_ okey_eqb pr' k.
Definition kr (x y : nat * nat) : Prop := snd x = snd y /\ exists k, dget_ okey_eqb idx k = Some (fst x) /\ dget_ okey_eqb idx' k = Some (fst y).
Lemma lt2_kr x y x' y' : kr x x' -> kr y y' -> lt2 x y = lt2 x' y'.
Proof.
  destruct x as [n j], y as [n' j'], x' as [q i], y' as [q' i']. intros (E & k & H1 & H2) (E' & k' & H1' & H2'). cbn in *. subst i i'.
  pose proof (Hiso _ _ _ _ _ _ H1 H1' H2 H2') as A. pose proof (Hiso _ _ _ _ _ _ H1' H1 H2' H2) as B.
  apply eq_true_iff_eq. rewrite !lt2_spec. cbn [fst snd]. split; (intros [K|[K K']]; [left; tauto|right; split; [lia|easy]]).
Qed.
Lemma key_lt_kr a : forall b a' b', Forall2 kr a a' -> Forall2 kr b b' -> key_lt a b = key_lt a' b'.
Proof.
  induction a as [|x a IH]; intros [|y b] a' b' Ha Hb; inversion Ha; inversion Hb; subst; cbn [key_lt]; try easy.
  rewrite (lt2_kr x y y0 y1), (lt2_kr y x y1 y0) by easy. erewrite IH; eauto.
Qed.
Lemma chain_kr m : forall key key' tmp k, Forall2 kr key key' -> chain_key m idx pr key tmp = Some (Ok k) ->
  exists k', chain_key m idx' pr' key' tmp = Some (Ok k') /\ Forall2 kr k k'.
Proof.
  induction m as [|m IH]; intros key key' tmp k Hk E; [easy|]. cbn in E |- *. destruct tmp as [[i j]|]; [|injection E as <-; eauto].
  destruct (dget_ okey_eqb idx (Some i)) as [n|] eqn:En; [|easy].
  destruct (dget_ okey_eqb idx' (Some i)) as [q|] eqn:Eq; [|apply Hdom in Eq; congruence].
  rewrite <- Hpr by congruence. eapply IH; [|exact E]. apply Forall2_app; [easy|]. constructor; [|constructor]. split; [easy|]. cbn. eauto.
Qed.
Lemma tier_key_kr m t t' k : tier_id t' = tier_id t -> tier_key m idx pr t = Some (Ok k) ->
  exists k', tier_key m idx' pr' t' = Some (Ok k') /\ Forall2 kr k k'.
Proof.
  unfold tier_key. intros ->. destruct (dget_ okey_eqb idx (tier_id t)) as [n|] eqn:En; [|easy].
  destruct (dget_ okey_eqb idx' (tier_id t)) as [q|] eqn:Eq; [|apply Hdom in Eq; congruence].
  destruct (chain_key m idx pr [(n, 0)] _) as [[x|]|] eqn:Ec; try easy. intros [= <-]. rewrite <- Hpr by congruence.
  assert (H0 : Forall2 kr [(n, 0)] [(q, 0)]) by (constructor; [split; [easy|cbn; eauto]|constructor]).
  destruct (chain_kr m _ _ _ _ H0 Ec) as (k' & -> & Hk).
  eexists. split; [reflexivity|]. clear -Hk. induction Hk as [|a b l l' H _ IH]; cbn; [constructor|]. apply Forall2_app; [easy|repeat constructor; apply H].
Qed.
End Transfer.

(* ---------- the keys that are looked up ---------- *)

Section Keys.
Context (m : nat) (idx : list (option str * nat)) (pr : list (option str * (str * nat))).
Lemma tier_key_id t u : tier_id t = tier_id u -> tier_key m idx pr t = tier_key m idx pr u.
Proof. unfold tier_key. now intros ->. Qed.
Lemma keys_found l : forall d0 d, tier_keys m idx pr l d0 = Some (Ok d) ->
  (forall t, In t l -> tier_key m idx pr t = Some (Ok (dfi_of d t))) /\ (forall k, ~ In k (map tier_id l) -> dget_ okey_eqb d k = dget_ okey_eqb d0 k).
Proof.
  induction l as [|x l IH]; intros d0 d E; [injection E as <-; now split|]. cbn in E.
  destruct (tier_key m idx pr x) as [[k|]|] eqn:Ek; try easy. apply IH in E as [H1 H2]. split.
  - intros t [<-|Ht]; [|auto]. destruct (in_dec (fun a b => Bool.reflect_dec _ _ (okey_spec a b)) (tier_id x) (map tier_id l)) as [Hi|Hn].
    + apply in_map_iff in Hi as (u & Eu & Hu). rewrite <- (tier_key_id u x Eu), (H1 u Hu). unfold dfi_of. now rewrite Eu.
    + unfold dfi_of. rewrite (H2 _ Hn), (dget_dset okey_eqb okey_spec). destruct (okey_spec (tier_id x) (tier_id x)); [easy|congruence].
  - intros k' Hk. cbn in Hk. rewrite H2 by tauto. rewrite (dget_dset okey_eqb okey_spec). destruct (okey_spec k' (tier_id x)) as [->|]; [tauto|easy].
Qed.
Lemma keys_made l : (forall t, In t l -> exists k, tier_key m idx pr t = Some (Ok k)) -> forall d0, exists d, tier_keys m idx pr l d0 = Some (Ok d).
Proof.
  induction l as [|x l IH]; intros H d0; [eexists; reflexivity|]. cbn. destruct (H x (or_introl eq_refl)) as (k & ->). apply IH. intros t Ht. apply H. now right.
Qed.
End Keys.

(* ---------- representatives ---------- *)

Definition same_id (t u : tier) : bool := okey_eqb (tier_id t) (tier_id u).
Lemma same_id_iff t u : same_id t u = true <-> tier_id t = tier_id u.
Proof. unfold same_id. destruct (okey_spec (tier_id t) (tier_id u)); easy. Qed.
Fixpoint lastp (p : tier -> bool) (l : list tier) : option tier :=
  match l with [] => None | t :: l => match lastp p l with Some u => Some u | None => if p t then Some t else None end end.
Lemma lastp_some p l u : lastp p l = Some u -> In u l /\ p u = true.
Proof.
  induction l as [|t l IH]; [easy|]. cbn. destruct (lastp p l) as [v|]; [intros [= ->]; destruct IH; auto|].
  destruct (p t) eqn:E; [|easy]. intros [= ->]. auto.
Qed.
Lemma lastp_none p l : lastp p l = None -> forall t, In t l -> p t = false.
Proof.
  induction l as [|t l IH]; [easy|]. cbn. destruct (lastp p l) as [v|]; [easy|]. destruct (p t) eqn:E; [easy|]. intros _ u [<-|Hu]; auto.
Qed.
Lemma lastp_filter p q l : (forall t, p t = true -> q t = true) -> lastp p (filter q l) = lastp p l.
Proof.
  intros H. induction l as [|t l IH]; [easy|]. cbn. destruct (q t) eqn:Eq; cbn; rewrite IH; [easy|].
  destruct (lastp p l); [easy|]. destruct (p t) eqn:Ep; [apply H in Ep; congruence|easy].
Qed.
Lemma lastp_ext p q l : (forall t, p t = q t) -> lastp p l = lastp q l.
Proof. intros H. induction l as [|t l IH]; [easy|]. cbn. now rewrite IH, H. Qed.
Fixpoint sq (r : tier -> tier) (l : list tier) : list tier :=
  match l with [] => [] | t :: l => if existsb (same_id t) l then sq r l else r t :: sq r l end.
Fixpoint lastidx (l : list tier) (k : option str) : option nat :=
  match l with [] => None | t :: l => match lastidx l k with Some p => Some (S p) | None => if okey_eqb (tier_id t) k then Some 0 else None end end.
Lemma indices_last l : forall i d k, dget_ okey_eqb (tier_indices i l d) k = match lastidx l k with Some p => Some (i + p) | None => dget_ okey_eqb d k end.
Proof.
  induction l as [|t l IH]; intros i d k; [easy|]. cbn [tier_indices lastidx]. rewrite IH. destruct (lastidx l k); [f_equal; lia|].
  rewrite (dget_dset okey_eqb okey_spec). destruct (okey_spec k (tier_id t)), (okey_spec (tier_id t) k); try congruence. f_equal. lia.
Qed.
Lemma lastidx_in l k : lastidx l k <> None <-> In k (map tier_id l).
Proof.
  induction l as [|t l IH]; [easy|]. cbn [lastidx map In]. destruct (lastidx l k) as [p|].
  - split; [intros _; right; now apply IH|easy].
  - destruct (okey_spec (tier_id t) k) as [E|N]; [split; [now left|easy]|]. split; [easy|]. intros [H|H]; [easy|]. now apply IH in H.
Qed.

Section Rep.
Context (r : tier -> tier) (Hid : forall t, tier_id (r t) = tier_id t).
Lemma exists_same t l : existsb (same_id t) l = true <-> In (tier_id t) (map tier_id l).
Proof.
  rewrite existsb_exists, in_map_iff. split; intros (u & H1 & H2); exists u; [apply same_id_iff in H2|]; rewrite ?same_id_iff; auto.
Qed.
Lemma sq_ids l k : In k (map tier_id (sq r l)) <-> In k (map tier_id l).
Proof.
  induction l as [|t l IH]; [easy|]. cbn [sq]. destruct (existsb (same_id t) l) eqn:E.
  - apply exists_same in E. rewrite IH. cbn. split; [tauto|]. intros [<-|H]; easy.
  - cbn [map In]. rewrite Hid, IH. easy.
Qed.
Lemma sq_nodup l : NoDup (map tier_id (sq r l)).
Proof.
  induction l as [|t l IH]; [constructor|]. cbn [sq]. destruct (existsb (same_id t) l) eqn:E; [easy|]. cbn. constructor; [|easy].
  rewrite Hid, sq_ids, <- exists_same. congruence.
Qed.
Lemma sq_some l x : In x (sq r l) -> exists t, In t l /\ x = r t.
Proof.
  induction l as [|t l IH]; [easy|]. cbn [sq]. destruct (existsb (same_id t) l).
  - intros H. destruct (IH H) as (u & Hu & ->). exists u. split; [now right|easy].
  - intros [<-|H]; [exists t; split; [now left|easy]|]. destruct (IH H) as (u & Hu & ->). exists u. split; [now right|easy].
Qed.
Lemma sq_in l : (forall t u, In t l -> In u l -> tier_id t = tier_id u -> r t = r u) -> forall t, In t l -> In (r t) (sq r l).
Proof.
  induction l as [|x l IH]; intros Hr t; [easy|]. cbn [sq].
  assert (Hr' : forall t u, In t l -> In u l -> tier_id t = tier_id u -> r t = r u) by (intros a b Ha Hb; apply Hr; now right).
  destruct (existsb (same_id x) l) eqn:E.
  - apply existsb_exists in E as (u & Hu & Eu). apply same_id_iff in Eu. intros [<-|Ht]; [|auto].
    rewrite (Hr x u); [auto|now left|now right|easy].
  - intros [<-|Ht]; [now left|right; auto].
Qed.
Lemma sq_iso l : forall k k' p p', lastidx l k = Some p -> lastidx l k' = Some p' ->
  exists q q', lastidx (sq r l) k = Some q /\ lastidx (sq r l) k' = Some q' /\ (p < p' <-> q < q').
Proof.
  induction l as [|t l IH]; intros k k' p p' H H'; [easy|].
  assert (N : forall k, lastidx l k = None -> lastidx (sq r l) k = None).
  { intros k0 E. destruct (lastidx (sq r l) k0) eqn:E2; [|easy]. assert (X : lastidx (sq r l) k0 <> None) by congruence.
    rewrite lastidx_in, sq_ids, <- lastidx_in in X. congruence. }
  cbn [sq]. destruct (existsb (same_id t) l) eqn:E.
  - apply exists_same in E. apply lastidx_in in E. cbn in H, H'.
    destruct (lastidx l k) as [a|] eqn:Ea; [|destruct (okey_spec (tier_id t) k) as [<-|]; congruence].
    destruct (lastidx l k') as [b|] eqn:Eb; [|destruct (okey_spec (tier_id t) k') as [<-|]; congruence].
    injection H as <-. injection H' as <-. destruct (IH _ _ _ _ Ea Eb) as (q & q' & H1 & H2 & H3). exists q, q'. repeat split; try easy; lia.
  - cbn [lastidx] in *. rewrite Hid.
    destruct (lastidx l k) as [a|] eqn:Ea, (lastidx l k') as [b|] eqn:Eb.
    + injection H as <-. injection H' as <-. destruct (IH _ _ _ _ Ea Eb) as (q & q' & -> & -> & H3). eexists _, _. repeat split; try reflexivity; lia.
    + injection H as <-. destruct (IH _ _ _ _ Ea Ea) as (q & q' & -> & _). rewrite (N _ Eb). destruct (okey_eqb (tier_id t) k'); [|easy]. injection H' as <-.
      eexists _, _. repeat split; try reflexivity; lia.
    + injection H' as <-. destruct (IH _ _ _ _ Eb Eb) as (q & q' & -> & _). rewrite (N _ Ea). destruct (okey_eqb (tier_id t) k); [|easy]. injection H as <-.
      eexists _, _. repeat split; try reflexivity; lia.
    + rewrite (N _ Ea), (N _ Eb). destruct (okey_eqb (tier_id t) k), (okey_eqb (tier_id t) k'); try easy. injection H as <-. injection H' as <-.
      eexists _, _. repeat split; try reflexivity; lia.
Qed.
(* sorted lists of tiers and of their representatives *)
Lemma sq_sorted (lt lt0 : tier -> tier -> bool) l : (forall t u, In t l -> In u l -> lt0 (r t) (r u) = lt t u) ->
  StronglySorted (fun a b => lt b a = false) l -> StronglySorted (fun a b => lt0 b a = false) (sq r l).
Proof.
  intros He H. induction H as [|t l Hl IH Hf]; [constructor|]. cbn [sq].
  assert (He' : forall t u, In t l -> In u l -> lt0 (r t) (r u) = lt t u) by (intros a b Ha Hb; apply He; now right).
  destruct (existsb (same_id t) l); [auto|]. constructor; [auto|]. apply Forall_forall. intros x Hx. apply sq_some in Hx as (u & Hu & ->).
  rewrite He by (try (now left); now right). rewrite Forall_forall in Hf. now apply Hf.
Qed.
Lemma sorted_sq (lt lt1 lt2 : tier -> tier -> bool) l :
  (forall t u, In t l -> In u l -> tier_id t = tier_id u -> r t = r u) ->
  (forall t u, In t l -> In u l -> lt1 (r t) (r u) = lt2 t u) -> (forall t, lt2 t t = false) ->
  (forall t u, tier_id t = tier_id u -> forall v, lt t v = lt u v /\ lt2 t v = lt2 u v /\ lt2 v t = lt2 v u) ->
  (forall t u, In t l -> In u l -> lt t u = false -> lt u t = false -> tier_id t = tier_id u) ->
  StronglySorted (fun a b => lt b a = false) l -> StronglySorted (fun a b => lt1 b a = false) (sq r l) -> StronglySorted (fun a b => lt2 b a = false) l.
Proof.
  intros Hr He Hi Hs Ht H. induction H as [|t l Hl IH Hf]; intros H1; [constructor|]. cbn [sq] in H1.
  assert (IH' : StronglySorted (fun a b => lt1 b a = false) (sq r l) -> StronglySorted (fun a b => lt2 b a = false) l).
  { apply IH; intros a b Ha Hb; [apply Hr|apply He|apply Ht]; now right. }
  clear IH. rewrite Forall_forall in Hf. destruct (existsb (same_id t) l) eqn:E.
  - specialize (IH' H1). constructor; [easy|]. apply existsb_exists in E as (v & Hv & Ev). apply same_id_iff in Ev.
    destruct l as [|w l]; [easy|]. assert (Ew : tier_id t = tier_id w).
    { destruct Hv as [->|Hv]; [easy|]. apply Ht; [now left|right; now left| |apply Hf; now left].
      rewrite (proj1 (Hs t v Ev w)). inversion_clear Hl as [|? ? _ Hw]. rewrite Forall_forall in Hw. now apply Hw. }
    apply Forall_forall. intros u Hu. rewrite (proj2 (proj2 (Hs t w Ew u))). destruct Hu as [<-|Hu]; [apply Hi|].
    inversion_clear IH' as [|? ? _ Hw]. rewrite Forall_forall in Hw. now apply Hw.
  - inversion_clear H1 as [|? ? H2 H3]. constructor; [auto|]. apply Forall_forall. intros u Hu. rewrite Forall_forall in H3.
    rewrite <- He by (try (now left); now right). apply H3. apply sq_in; [|easy]. intros a b Ha Hb. apply Hr; now right.
Qed.
End Rep.
Lemma sorted_unique (lt : tier -> tier -> bool) l : forall l', Permutation l l' ->
  (forall t u, In t l -> In u l -> lt t u = false -> lt u t = false -> t = u) ->
  StronglySorted (fun a b => lt b a = false) l -> StronglySorted (fun a b => lt b a = false) l' -> l = l'.
Proof.
  induction l as [|t l IH]; intros l' P Ha H H'; [now apply Permutation_nil in P|].
  destruct l' as [|u l']; [now apply Permutation_sym, Permutation_nil in P|].
  inversion_clear H as [|? ? Hl Hf]. inversion_clear H' as [|? ? Hl' Hf']. rewrite Forall_forall in Hf, Hf'.
  assert (E : t = u).
  { assert (A : In t (u :: l')) by (rewrite <- P; now left). assert (B : In u (t :: l)) by (rewrite P; now left).
    destruct A as [<-|A]; [easy|]. destruct B as [<-|B]; [easy|]. apply Ha; [now left|now right| |]; auto. }
  subst u. f_equal. apply IH; auto.
  - eapply Permutation_cons_inv; eauto.
  - intros a b Hx Hy. apply Ha; now right.
Qed.

(* ---------- the representative of an id ---------- *)

Section Main.
Context (refattrs : list str).
Definition has (t : tier) : bool := match first_refattr 0 refattrs t with Some _ => true | None => false end.
Definition rep (l : list tier) (t : tier) : tier :=
  match lastp (fun u => same_id t u && has u) l with
  | Some u => u
  | None => match lastp (same_id t) l with Some u => u | None => t end
  end.
Lemma rep_id l t : tier_id (rep l t) = tier_id t.
Proof.
  unfold rep. destruct (lastp _ l) as [u|] eqn:E.
  - apply lastp_some in E as [_ E]. apply andb_prop in E as [E _]. now apply same_id_iff in E.
  - destruct (lastp (same_id t) l) as [u|] eqn:E2; [|easy]. apply lastp_some in E2 as [_ E2]. now apply same_id_iff in E2.
Qed.
Lemma rep_same l t u : In t l -> tier_id t = tier_id u -> rep l t = rep l u.
Proof.
  intros Ht E. unfold rep.
  assert (S1 : forall x, same_id t x = same_id u x) by (intros x; unfold same_id; now rewrite E).
  rewrite (lastp_ext (fun x => same_id t x && has x) (fun x => same_id u x && has x)) by (intros x; now rewrite S1).
  rewrite (lastp_ext (same_id t) (same_id u)) by easy. destruct (lastp (fun x => _) l); [easy|].
  destruct (lastp (same_id u) l) eqn:E2; [easy|]. pose proof (lastp_none _ _ E2 t Ht) as K. unfold same_id in K. rewrite E in K.
  destruct (okey_spec (tier_id u) (tier_id u)); congruence.
Qed.
Lemma rep_stable l l' t : (forall t, filter (same_id t) l' = filter (same_id t) l) -> rep l' t = rep l t.
Proof.
  intros H. unfold rep.
  assert (A : lastp (fun u => same_id t u && has u) l' = lastp (fun u => same_id t u && has u) l).
  { rewrite <- (lastp_filter _ (same_id t) l'), <- (lastp_filter _ (same_id t) l), H; [easy| |]; intros x Hx; now apply andb_prop in Hx. }
  assert (B : lastp (same_id t) l' = lastp (same_id t) l) by now rewrite <- (lastp_filter _ (same_id t) l'), <- (lastp_filter _ (same_id t) l), H.
  now rewrite A, B.
Qed.
Lemma pr_rep l t : In t l -> dget_ okey_eqb (prioritized refattrs l) (tier_id t) = first_refattr 0 refattrs (rep l t).
Proof.
  intros Ht.
  assert (G : forall l d, dget_ okey_eqb (fold_left (fun d t => match first_refattr 0 refattrs t with Some r => dset_ okey_eqb d (tier_id t) r | None => d end) l d) (tier_id t)
    = match lastp (fun u => same_id t u && has u) l with Some u => first_refattr 0 refattrs u | None => dget_ okey_eqb d (tier_id t) end).
  { induction l0 as [|x l0 IH]; intros d; [easy|]. cbn [fold_left lastp]. rewrite IH. destruct (lastp _ l0) as [u|]; [easy|].
    unfold has, same_id. destruct (first_refattr 0 refattrs x) as [y|] eqn:Ex.
    - rewrite (dget_dset okey_eqb okey_spec). rewrite andb_true_r. destruct (okey_eqb (tier_id t) (tier_id x)); easy.
    - now rewrite andb_false_r. }
  unfold prioritized. rewrite G. unfold rep. destruct (lastp (fun u => _) l) as [u|] eqn:E; [easy|].
  destruct (lastp (same_id t) l) as [u|] eqn:E2.
  - apply lastp_some in E2 as [Hu E2]. pose proof (lastp_none _ _ E u Hu) as K. cbn in K. rewrite E2 in K. unfold has in K.
    destruct (first_refattr 0 refattrs u); easy.
  - pose proof (lastp_none _ _ E2 t Ht) as K. unfold same_id in K. destruct (okey_spec (tier_id t) (tier_id t)); congruence.
Qed.

(* the indices of tiers and of their representatives agree *)
Section Both.
Context (l : list tier).
Let r := rep l.
Let s := sq r l.
Let idx := tier_indices 1 l [].
Let idx' := tier_indices 1 s [].
Let pr := prioritized refattrs l.
Let pr' := prioritized refattrs s.
Lemma both_dom k : dget_ okey_eqb idx k = None <-> dget_ okey_eqb idx' k = None.
Proof.
  unfold idx, idx'. rewrite !indices_last. cbn [dget_].
  assert (X : lastidx l k <> None <-> lastidx s k <> None) by (rewrite !lastidx_in; symmetry; apply sq_ids; intros; apply rep_id).
  destruct (lastidx l k), (lastidx s k); split; intros H; try easy; exfalso; [apply (proj1 X)|apply (proj2 X)]; easy.
Qed.
Lemma both_iso k k' n n' q q' : dget_ okey_eqb idx k = Some n -> dget_ okey_eqb idx k' = Some n' ->
  dget_ okey_eqb idx' k = Some q -> dget_ okey_eqb idx' k' = Some q' -> (n < n' <-> q < q').
Proof.
  unfold idx, idx'. rewrite !indices_last. cbn [dget_]. destruct (lastidx l k) as [a|] eqn:Ea; [|easy]. destruct (lastidx l k') as [b|] eqn:Eb; [|easy].
  destruct (sq_iso r (rep_id l) l _ _ _ _ Ea Eb) as (c & d & H1 & H2 & H3). fold s in H1, H2. rewrite H1, H2.
  intros [= <-] [= <-] [= <-] [= <-]. lia.
Qed.
Lemma both_pr k : dget_ okey_eqb idx k <> None -> dget_ okey_eqb pr k = dget_ okey_eqb pr' k.
Proof.
  unfold idx. rewrite indices_last. cbn [dget_]. intros H. assert (Hk : In k (map tier_id l)) by (apply lastidx_in; destruct (lastidx l k); easy).
  apply in_map_iff in Hk as (t & <- & Ht). unfold pr, pr'. rewrite (pr_rep l t Ht). fold r.
  rewrite <- (rep_id l t). fold r. symmetry. apply (prioritized_get refattrs s []).
  - apply sq_nodup. apply rep_id.
  - easy.
  - apply sq_in; [|easy]. intros a b Ha Hb. now apply rep_same.
Qed.
Lemma to_sq m t k : In t l -> tier_key m idx pr t = Some (Ok k) -> exists k', tier_key m idx' pr' (r t) = Some (Ok k') /\ Forall2 (kr idx idx') k k'.
Proof. intros Ht. apply tier_key_kr; [apply both_dom|apply both_pr|apply rep_id]. Qed.
Lemma of_sq m t k : In t l -> tier_key m idx' pr' (r t) = Some (Ok k) -> exists k', tier_key m idx pr t = Some (Ok k') /\ Forall2 (kr idx' idx) k k'.
Proof.
  intros Ht. apply tier_key_kr.
  - intros k0. symmetry. apply both_dom.
  - intros k0 H. symmetry. apply both_pr. intros E. now apply both_dom in E.
  - symmetry. apply rep_id.
Qed.
End Both.

Lemma keyed_sorts m g d : tier_keys m (tier_indices 1 (g_tiers g) []) (prioritized refattrs (g_tiers g)) (g_tiers g) [] = Some (Ok d) ->
  sort_tiers m g refattrs = Some (Ok (ssort (fun a b => key_lt (dfi_of d a) (dfi_of d b)) (g_tiers g))).
Proof. unfold sort_tiers. now intros ->. Qed.
(* tiers with different ids have different keys *)
Lemma keys_apart m g t u k : NoDup (map tier_id (g_tiers g)) -> In t (g_tiers g) -> In u (g_tiers g) ->
  let idx := tier_indices 1 (g_tiers g) [] in let pr := prioritized refattrs (g_tiers g) in
  tier_key m idx pr t = Some (Ok k) -> tier_key m idx pr u = Some (Ok k) -> t = u.
Proof.
  intros Hn Ht Hu idx pr. unfold tier_key. unfold idx at 1 3. rewrite (idx_num g t Ht), (idx_num g u Hu). fold idx.
  destruct (chain_key m idx pr [(num g t, 0)] _) as [[a|]|] eqn:Ea; try easy. destruct (chain_key m idx pr [(num g u, 0)] _) as [[b|]|] eqn:Eb; try easy.
  intros [= <-] [= E]. apply (f_equal (@rev _)) in E. rewrite !rev_involutive in E. subst b.
  apply chain_prefix in Ea as (c & -> & _). apply chain_prefix in Eb as (c' & E & _). injection E as E _. now apply (num_inj g Hn).
Qed.
Lemma lt_asym_ d a b : key_lt (dfi_of d a) (dfi_of d b) = true -> key_lt (dfi_of d b) (dfi_of d a) = false.
Proof. apply key_lt_asym. Qed.
Lemma lt_trans_ d a b c : key_lt (dfi_of d b) (dfi_of d a) = false -> key_lt (dfi_of d c) (dfi_of d b) = false -> key_lt (dfi_of d c) (dfi_of d a) = false.
Proof. apply key_le_trans. Qed.

Theorem again_any fuel g l1 : sort_tiers fuel g refattrs = Some (Ok l1) ->
  exists n, forall m, n <= m -> sort_tiers m (retiered g l1) refattrs = Some (Ok l1).
Proof.
  intros E. pose proof E as E'. unfold sort_tiers in E'. set (l := g_tiers g) in *.
  destruct (tier_keys fuel _ _ l []) as [[d|]|] eqn:Ed; try easy. injection E' as E1. set (lt := fun a b => key_lt (dfi_of d a) (dfi_of d b)) in *.
  destruct (keys_found _ _ _ _ _ _ Ed) as [Hk _].
  set (r := rep l). set (s := sq r l). set (g0 := retiered g s).
  assert (Hrid : forall t, tier_id (r t) = tier_id t) by apply rep_id.
  assert (Hrs : forall t u, In t l -> tier_id t = tier_id u -> r t = r u) by apply rep_same.
  assert (Hn : NoDup (map tier_id (g_tiers g0))) by (apply sq_nodup; apply Hrid).
  (* the representatives can be sorted *)
  destruct (keys_made fuel (tier_indices 1 s []) (prioritized refattrs s) s) with (d0 := @nil (option str * list (nat * nat))) as (d0 & Ed0).
  { intros x Hx. apply sq_some in Hx as (t & Ht & ->). destruct (to_sq l fuel t _ Ht (Hk t Ht)) as (k' & Hk' & _). eauto. }
  destruct (keys_found _ _ _ _ _ _ Ed0) as [Hk0 _]. set (lt0 := fun a b => key_lt (dfi_of d0 a) (dfi_of d0 b)).
  pose proof (keyed_sorts fuel g0 d0 Ed0) as Es0. fold lt0 in Es0. change (g_tiers g0) with s in Es0.
  assert (Hin : forall t, In t l -> In (r t) s) by (apply sq_in; intros; now apply Hrs).
  assert (Hlt : forall t u, In t l -> In u l -> lt0 (r t) (r u) = lt t u).
  { intros t u Ht Hu. destruct (to_sq l fuel t _ Ht (Hk t Ht)) as (a & Ha & Ra), (to_sq l fuel u _ Hu (Hk u Hu)) as (b & Hb & Rb).
    fold r s in Ha, Hb. rewrite (Hk0 _ (Hin t Ht)) in Ha. rewrite (Hk0 _ (Hin u Hu)) in Hb. injection Ha as <-. injection Hb as <-.
    unfold lt0, lt. symmetry. eapply key_lt_kr; [|exact Ra|exact Rb]. apply both_iso. }
  assert (Hanti : forall a b, In a s -> In b s -> lt0 a b = false -> lt0 b a = false -> a = b).
  { intros a b Ha Hb K1 K2. pose proof (key_lt_total _ _ K1 K2) as K. apply (keys_apart fuel g0 a b (dfi_of d0 a) Hn Ha Hb); [now apply Hk0|]. rewrite K. now apply Hk0. }
  assert (Htot : forall t u, In t l -> In u l -> lt t u = false -> lt u t = false -> tier_id t = tier_id u).
  { intros t u Ht Hu K1 K2. rewrite <- Hlt in K1, K2 by easy. apply Hanti in K1; auto. rewrite <- (Hrid t), <- (Hrid u). now rewrite K1. }
  (* in the order of the tiers *)
  assert (P1 : Permutation l1 l) by (rewrite <- E1; apply ssort_perm).
  assert (Hl1 : forall t, In t l1 <-> In t l) by (intros t; split; apply Permutation_in; [|symmetry]; easy).
  assert (S1 : StronglySorted (fun a b => lt b a = false) l1).
  { rewrite <- E1. apply ssort_sorted; [apply lt_asym_|apply lt_trans_]. }
  assert (Hfil : forall t, filter (same_id t) l1 = filter (same_id t) l).
  { intros t. rewrite <- E1. apply ssort_stable. intros x y Hx Hy X Y. apply same_id_iff in X, Y. unfold lt, dfi_of. rewrite <- X, <- Y. apply key_lt_irrefl. }
  assert (Es : sq r l1 = ssort lt0 s).
  { symmetry. apply (sorted_unique lt0).
    - rewrite ssort_perm. apply NoDup_Permutation; [apply (NoDup_map_inv _ _ Hn)|apply (NoDup_map_inv tier_id); now apply sq_nodup|].
      intros x. split; intros Hx; apply sq_some in Hx as (t & Ht & ->).
      + apply sq_in; [|now apply Hl1]. intros a b Ha Hb. apply Hrs. now apply Hl1.
      + apply Hin. now apply Hl1.
    - intros a b Ha Hb. apply Hanti; (eapply Permutation_in; [apply ssort_perm|eassumption]).
    - apply ssort_sorted; [apply lt_asym_|apply lt_trans_].
    - apply (sq_sorted r lt); [|easy]. intros t u Ht Hu. apply Hlt; now apply Hl1. }
  (* sorting the representatives again *)
  destruct (returns g0 refattrs Hn fuel _ Es0) as [Hr (rank & Ha)].
  destruct (sort_tiers_spec g0 refattrs rank Hn Hr Ha) as (n & l2 & Hl2 & Ho).
  assert (l2 = ssort lt0 s).
  { pose proof (sort_tiers_more fuel (n + fuel) g0 refattrs _ ltac:(lia) Es0) as E2. rewrite (Hl2 (n + fuel)) in E2 by lia. congruence. }
  subst l2. destruct (sort_again_ g0 refattrs rank _ Hn Hr Ha Ho) as (n' & Hn'). exists n'. intros m Hm. specialize (Hn' m Hm). rewrite <- Es in Hn'.
  (* and so the tiers *)
  assert (Er : forall t, rep l1 t = r t) by (intros t; now apply rep_stable).
  assert (Esq : sq (rep l1) l1 = sq r l1).
  { clear -Er. induction l1 as [|x l1' IH] in Er |- *; [easy|]. revert Er. generalize (rep (x :: l1')). intros f Er. clear IH.
    generalize (x :: l1'). intros l0. induction l0 as [|y l0 IH]; [easy|]. cbn [sq]. now rewrite IH, Er. }
  unfold sort_tiers in Hn'. change (g_tiers (retiered g0 (sq r l1))) with (sq r l1) in Hn'.
  destruct (tier_keys m _ _ (sq r l1) []) as [[d1|]|] eqn:Ed1; try easy. injection Hn' as Hs1.
  set (lt1 := fun a b => key_lt (dfi_of d1 a) (dfi_of d1 b)) in *. destruct (keys_found _ _ _ _ _ _ Ed1) as [Hk1 _].
  assert (Hin1 : forall t, In t l1 -> In (r t) (sq r l1)) by (apply sq_in; intros a b Ha1 Hb1; apply Hrs; now apply Hl1).
  assert (Hk1' : forall t, In t l1 -> tier_key m (tier_indices 1 (sq (rep l1) l1) []) (prioritized refattrs (sq (rep l1) l1)) (rep l1 t) = Some (Ok (dfi_of d1 (r t)))).
  { intros t Ht. rewrite Er, Esq. now apply Hk1, Hin1. }
  destruct (keys_made m (tier_indices 1 l1 []) (prioritized refattrs l1) l1) with (d0 := @nil (option str * list (nat * nat))) as (d2 & Ed2).
  { intros t Ht. destruct (of_sq l1 m t _ Ht (Hk1' t Ht)) as (k' & Hk' & _). eauto. }
  destruct (keys_found _ _ _ _ _ _ Ed2) as [Hk2 _]. rewrite (keyed_sorts m (retiered g l1) d2 Ed2). do 2 f_equal. cbn [g_tiers retiered].
  apply ssort_sorted_id. apply (sorted_sq r lt lt1 (fun a b => key_lt (dfi_of d2 a) (dfi_of d2 b))).
  - intros t u Ht Hu. apply Hrs. now apply Hl1.
  - intros t u Ht Hu. destruct (of_sq l1 m t _ Ht (Hk1' t Ht)) as (a & Ha1 & Ra), (of_sq l1 m u _ Hu (Hk1' u Hu)) as (b & Hb1 & Rb).
    rewrite (Hk2 _ Ht) in Ha1. rewrite (Hk2 _ Hu) in Hb1. injection Ha1 as <-. injection Hb1 as <-.
    unfold lt1. eapply key_lt_kr; [|exact Ra|exact Rb]. intros k k' a a' b b' X1 X2 X3 X4. symmetry. eapply both_iso; eauto.
  - intros t. apply key_lt_irrefl.
  - intros t u Etu v. unfold lt, dfi_of. now rewrite Etu.
  - intros t u Ht Hu. apply Htot; now apply Hl1.
  - easy.
  - rewrite <- Hs1. apply ssort_sorted; [apply lt_asym_|apply lt_trans_].
Qed.
End Main.

(* whatever ids they have, no tier is lost, and those that share an id keep their order *)
Theorem kept_any fuel g refattrs l : sort_tiers fuel g refattrs = Some (Ok l) ->
  Permutation l (g_tiers g) /\ forall k, filter (fun t => opt_eqb str_eqb (tier_id t) k) l = filter (fun t => opt_eqb str_eqb (tier_id t) k) (g_tiers g).
Proof.
  unfold sort_tiers. destruct (tier_keys _ _ _ _ _) as [[d|]|]; try easy. set (lt := fun a b => key_lt (dfi_of d a) (dfi_of d b)).
  intros E. assert (E1 : ssort lt (g_tiers g) = l) by congruence. clear E. rewrite <- E1. split; [apply ssort_perm|].
  intros k. apply ssort_stable. intros x y Hx Hy X Y.
  assert (Eid : forall a b : option str, opt_eqb str_eqb a b = true -> a = b).
  { intros [a|] [b|]; cbn; try easy. intros E. apply str_eqb_eq in E. now subst. }
  apply Eid in X, Y. unfold lt, dfi_of. rewrite X, Y. apply key_lt_irrefl.
Qed.

(* tiers that share an id stay, or come, together *)
Lemma lastidx_inj l : forall k k' p, lastidx l k = Some p -> lastidx l k' = Some p -> k = k'.
Proof.
  induction l as [|t l IH]; intros k k' p; [easy|]. cbn [lastidx].
  destruct (lastidx l k) as [q|] eqn:E, (lastidx l k') as [q'|] eqn:E'.
  - intros [= <-] [= <-]. now apply (IH k k' q').
  - destruct (okey_eqb (tier_id t) k'); [|easy]. now intros [= <-] [= F].
  - destruct (okey_eqb (tier_id t) k); [|easy]. now intros [= <-] [= F].
  - destruct (okey_spec (tier_id t) k) as [<-|], (okey_spec (tier_id t) k') as [<-|]; easy.
Qed.
Lemma key_id m g refattrs t u k : let l := g_tiers g in let idx := tier_indices 1 l [] in let pr := prioritized refattrs l in
  tier_key m idx pr t = Some (Ok k) -> tier_key m idx pr u = Some (Ok k) -> tier_id t = tier_id u.
Proof.
  intros l idx pr. unfold tier_key. destruct (dget_ okey_eqb idx (tier_id t)) as [p|] eqn:Ep; [|easy]. destruct (dget_ okey_eqb idx (tier_id u)) as [q|] eqn:Eq; [|easy].
  destruct (chain_key m idx pr [(p, 0)] _) as [[a|]|] eqn:Ea; try easy. destruct (chain_key m idx pr [(q, 0)] _) as [[b|]|] eqn:Eb; try easy.
  intros [= <-] [= E]. apply (f_equal (@rev _)) in E. rewrite !rev_involutive in E. subst b.
  apply chain_prefix in Ea as (c & -> & _). apply chain_prefix in Eb as (c' & E & _). injection E as E _. subst q.
  unfold idx in Ep, Eq. rewrite indices_last in Ep, Eq. destruct (lastidx l (tier_id t)) as [x|] eqn:Ex; [|easy]. destruct (lastidx l (tier_id u)) as [y|] eqn:Ey; [|easy].
  assert (x = y) by (injection Ep; injection Eq; lia). subst y. now apply (lastidx_inj l _ _ x).
Qed.
Theorem together_any fuel g refattrs l : sort_tiers fuel g refattrs = Some (Ok l) ->
  forall a t b u c x, l = a ++ t :: b ++ u :: c -> tier_id t = tier_id u -> In x b -> tier_id x = tier_id t.
Proof.
  unfold sort_tiers. destruct (tier_keys _ _ _ _ _) as [[d|]|] eqn:Ed; try easy. set (lt := fun a b => key_lt (dfi_of d a) (dfi_of d b)).
  intros E. assert (E1 : ssort lt (g_tiers g) = l) by congruence. clear E. intros a t b u c x El Eid Hx.
  destruct (keys_found _ _ _ _ _ _ Ed) as [Hk _].
  assert (S1 : StronglySorted (fun a b => lt b a = false) l) by (rewrite <- E1; apply ssort_sorted; [apply lt_asym_|apply lt_trans_]).
  assert (Hin : forall y, In y l -> In y (g_tiers g)) by (intros y; rewrite <- E1; apply Permutation_in, ssort_perm).
  assert (Htx : lt x t = false /\ lt u x = false).
  { rewrite El in S1. clear -S1 Hx. induction a as [|y a IH]; cbn in S1; inversion_clear S1 as [|? ? S2 F].
    - split.
      + rewrite Forall_forall in F. apply F. apply in_or_app. now left.
      + clear F. apply in_split in Hx as (b1 & b2 & ->). rewrite <- app_assoc in S2. cbn in S2.
        induction b1 as [|z b1 IH]; cbn in S2; inversion_clear S2 as [|? ? S3 F]; [|now apply IH].
        rewrite Forall_forall in F. apply F. apply in_or_app. right. now left.
    - now apply IH. }
  destruct Htx as [H1 H2].
  assert (Ek : dfi_of d u = dfi_of d t) by (unfold dfi_of; now rewrite Eid).
  unfold lt in H1, H2. rewrite Ek in H2. pose proof (key_lt_total _ _ H1 H2) as K.
  assert (In t (g_tiers g) /\ In x (g_tiers g)) as [Ht Hx'].
  { split; apply Hin; rewrite El; apply in_or_app; right; [now left|]. right. apply in_or_app. now left. }
  apply (key_id fuel g refattrs x t (dfi_of d x)); [now apply Hk|]. rewrite K. now apply Hk.
Qed.
