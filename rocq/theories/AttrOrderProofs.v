From Coq Require Import Permutation Sorted.
From Verif Require Import PyStr PyStrFacts PySort PySortFacts SpecScripts XmlStd AttrOrder SpecAttrOrder XmlText SpecXmlText.
From Verif Require Import SortScriptProofs XmlProofs.

(* ---------- places ---------- *)

Definition place_of (a : str) : nat :=
  if startswith (L "xmlns:") a then 0 else if str_eqb a (L "id") then 1 else if str_eqb a (L "type") then 2 else if str_eqb a (L "alignment") then 3
  else if str_eqb a (L "content") then 4 else if str_eqb a (L "segmentation") then 5 else 6.
Lemma sw_inv p : forall s, startswith p s = true -> exists r, s = p ++ r.
Proof.
  induction p as [|c p IH]; intros s H; [now exists s|]. destruct s as [|d s]; [easy|]. cbn in H. apply andb_prop in H as [E H].
  apply N.eqb_eq in E as ->. apply IH in H as (r & ->). now exists r.
Qed.
Lemma place_of_spec a : place a (place_of a).
Proof.
  unfold place_of. destruct (startswith (L "xmlns:") a) eqn:E0; [apply sw_inv in E0 as (r & ->); constructor|].
  destruct (str_eqb_spec a (L "id")) as [->|N1]; [constructor|]. destruct (str_eqb_spec a (L "type")) as [->|N2]; [constructor|].
  destruct (str_eqb_spec a (L "alignment")) as [->|N3]; [constructor|]. destruct (str_eqb_spec a (L "content")) as [->|N4]; [constructor|].
  destruct (str_eqb_spec a (L "segmentation")) as [->|N5]; [constructor|].
  constructor.
  - intros s ->. now rewrite startswith_refl in E0.
  - cbn [map In]. intros H. repeat destruct H as [H|H]; try (symmetry in H; contradiction). easy.
Qed.
Lemma place_fun a n : place a n -> n = place_of a.
Proof.
  unfold place_of. intros [s| | | | | |b H0 H]; try reflexivity.
  cbn [map In] in H. destruct (startswith (L "xmlns:") b) eqn:E0; [apply sw_inv in E0 as (r & ->); now elim (H0 r)|].
  repeat match goal with |- context [str_eqb b ?x] => destruct (str_eqb_spec b x) as [->|?]; [elim H; tauto|] end. reflexivity.
Qed.
Lemma qname_lt_place a b : qname_lt a b = (place_of a <? place_of b) || ((place_of a =? place_of b) && str_ltb a b).
Proof.
  unfold qname_lt, attr_key, place_of. cbn [fst snd].
  assert (Z : forall s, exists n, (startswith (L "xmlns:") s = Nat.eqb n 0 /\ str_eqb s (L "id") = Nat.eqb n 1 /\ str_eqb s (L "type") = Nat.eqb n 2
      /\ str_eqb s (L "alignment") = Nat.eqb n 3 /\ str_eqb s (L "content") = Nat.eqb n 4 /\ str_eqb s (L "segmentation") = Nat.eqb n 5) /\ n <= 6).
  { intros s. destruct (startswith (L "xmlns:") s) eqn:E.
    - apply sw_inv in E as (r & ->). exists 0. split; [now vm_compute|lia].
    - destruct (str_eqb_spec s (L "id")) as [->|N1]; [exists 1; split; [now vm_compute|lia]|].
      destruct (str_eqb_spec s (L "type")) as [->|N2]; [exists 2; split; [now vm_compute|lia]|].
      destruct (str_eqb_spec s (L "alignment")) as [->|N3]; [exists 3; split; [now vm_compute|lia]|].
      destruct (str_eqb_spec s (L "content")) as [->|N4]; [exists 4; split; [now vm_compute|lia]|].
      destruct (str_eqb_spec s (L "segmentation")) as [->|N5]; [exists 5; split; [now vm_compute|lia]|].
      exists 6. split; [easy|lia]. }
  destruct (Z a) as (m & (-> & -> & -> & -> & -> & ->) & Hm), (Z b) as (n & (-> & -> & -> & -> & -> & ->) & Hn).
  do 7 (destruct m as [|m]; [do 7 (destruct n as [|n]; [cbn; now rewrite ?orb_false_r|]); lia|]). lia.
Qed.
Lemma before_spec a b : attr_before a b <-> qname_lt a b = true.
Proof.
  rewrite qname_lt_place, orb_true_iff, andb_true_iff, Nat.ltb_lt, Nat.eqb_eq, str_ltb_spec. split.
  - intros (m & n & Hm & Hn & H). apply place_fun in Hm as ->. apply place_fun in Hn as ->. tauto.
  - intros H. exists (place_of a), (place_of b). split; [apply place_of_spec|]. split; [apply place_of_spec|easy].
Qed.

(* ---------- the order is total ---------- *)

Lemma lt_asym a b : qname_lt a b = true -> qname_lt b a = false.
Proof.
  rewrite !qname_lt_place. intros H. apply orb_true_iff in H as [H|H].
  - apply Nat.ltb_lt in H. apply orb_false_iff. split; [apply Nat.ltb_ge; lia|]. replace (place_of b =? place_of a) with false; [easy|]. symmetry. apply Nat.eqb_neq. lia.
  - apply andb_prop in H as [H K]. apply Nat.eqb_eq in H. rewrite H, Nat.ltb_irrefl, Nat.eqb_refl. cbn.
    destruct (str_ltb b a) eqn:E; [|easy]. pose proof (str_ltb_trans _ _ _ K E) as X. now rewrite str_ltb_irrefl in X.
Qed.
Lemma lt_total a b : qname_lt a b = true \/ a = b \/ qname_lt b a = true.
Proof.
  rewrite !qname_lt_place, !orb_true_iff, !andb_true_iff, !Nat.ltb_lt, !Nat.eqb_eq.
  destruct (Nat.lt_trichotomy (place_of a) (place_of b)) as [H|[H|H]]; auto. destruct (str_trichotomy a b) as [K|[K|K]]; auto.
Qed.
Lemma lt_trans a b c : qname_lt a b = true -> qname_lt b c = true -> qname_lt a c = true.
Proof.
  rewrite !qname_lt_place, !orb_true_iff, !andb_true_iff, !Nat.ltb_lt, !Nat.eqb_eq.
  intros [H|[H K]] [H'|[H' K']]; [left; lia|left; lia|left; lia|right; split; [lia|]]. eapply str_ltb_trans; eauto.
Qed.
Lemma le_trans a b c : qname_lt b a = false -> qname_lt c b = false -> qname_lt c a = false.
Proof.
  intros H K. destruct (qname_lt c a) eqn:E; [|easy].
  destruct (lt_total a b) as [X|[<-|X]]; [|now rewrite E in K|now rewrite X in H].
  pose proof (lt_trans _ _ _ E X). congruence.
Qed.

(* ---------- sorting ---------- *)

Lemma sorted_perm d : Permutation (sorted_attrs d) d.
Proof. apply ssort_perm. Qed.
Lemma sorted_order d : NoDup (map fst d) -> in_order (sorted_attrs d).
Proof.
  intros Hn.
  assert (Hs : StronglySorted (fun a b : str * str => qname_lt (fst b) (fst a) = false) (sorted_attrs d)).
  { apply ssort_sorted; [intros a b; apply lt_asym|]. intros a b c. apply le_trans. }
  assert (Hd : NoDup (map fst (sorted_attrs d))) by now rewrite sorted_perm.
  induction Hs as [|[k v] l Hs IH Hf]; [constructor|]. cbn in Hd. inversion Hd as [|? ? Hk Hd']; subst. constructor; [|auto].
  intros k' v' Hin. apply before_spec. rewrite Forall_forall in Hf. specialize (Hf _ Hin). cbn [fst] in Hf.
  destruct (lt_total k k') as [X|[->|X]]; [easy| |congruence]. elim Hk. now apply (in_map fst) in Hin.
Qed.
Lemma before_irrefl a : ~ attr_before a a.
Proof. intros H. apply before_spec in H. pose proof (lt_asym _ _ H). congruence. Qed.
Lemma order_unique d : forall d', in_order d -> in_order d' -> Permutation d d' -> d = d'.
Proof.
  induction d as [|[k v] d IH]; intros d' H H' P; [now apply Permutation_nil in P|].
  destruct d' as [|[k' v'] d']; [now apply Permutation_sym, Permutation_nil in P|].
  inversion H as [|? ? ? Hb Ho]; subst. inversion H' as [|? ? ? Hb' Ho']; subst.
  assert (E : (k, v) = (k', v')).
  { assert (A : In (k, v) ((k', v') :: d')) by (rewrite <- P; now left).
    assert (B : In (k', v') ((k, v) :: d)) by (rewrite P; now left).
    destruct A as [<-|A]; [easy|]. destruct B as [<-|B]; [easy|].
    specialize (Hb' _ _ A). specialize (Hb _ _ B). apply before_spec in Hb, Hb'. pose proof (lt_asym _ _ Hb). congruence. }
  injection E as <- <-. f_equal. apply IH; [easy|easy|]. eapply Permutation_cons_inv; eauto.
Qed.

Lemma attrs_sorted e : dicts e -> same_but_order e (sort_attrs e) /\ all_in_order (sort_attrs e).
Proof.
  induction e as [tag d text tail kids IH] using xelem_rec'. intros H. inversion H as [? ? ? ? ? Hn Hk]; subst. cbn [sort_attrs].
  rewrite Forall_forall in IH, Hk. split; constructor.
  - symmetry. apply sorted_perm.
  - clear H. induction kids as [|k kids IHk]; constructor; [apply IH; [now left|apply Hk; now left]|]. apply IHk; intros x Hx; [apply IH|apply Hk]; now right.
  - now apply sorted_order.
  - apply Forall_forall. intros x Hx. apply in_map_iff in Hx as (y & <- & Hy). now apply IH, Hk.
Qed.
(* the order of insertion does not matter *)
Lemma sort_same e : forall e', dicts e -> same_but_order e e' -> sort_attrs e = sort_attrs e'.
Proof.
  induction e as [tag d text tail kids IH] using xelem_rec'. intros e' H S. inversion S as [? ? d' ? ? ? kids' P F]; subst.
  inversion H as [? ? ? ? ? Hn Hk]; subst. cbn [sort_attrs]. f_equal.
  - apply order_unique; [now apply sorted_order|apply sorted_order; now rewrite <- P|]. now rewrite !sorted_perm.
  - rewrite Forall_forall in IH, Hk. clear S H. induction F as [|x y l l' Hxy F IHF]; cbn; [easy|]. f_equal.
    + apply IH; [now left|apply Hk; now left|easy].
    + apply IHF; intros; [apply IH|apply Hk]; try (now right); easy.
Qed.
Lemma sort_sorted e : all_in_order e -> dicts e -> sort_attrs e = e.
Proof.
  induction e as [tag d text tail kids IH] using xelem_rec'. intros O H. inversion H as [? ? ? ? ? Hn Hk]; subst.
  inversion O as [? ? ? ? ? Ho Hok]; subst. cbn [sort_attrs]. f_equal.
  - apply order_unique; [now apply sorted_order|easy|apply sorted_perm].
  - rewrite Forall_forall in IH, Hk, Hok. clear O H. induction kids as [|k kids IHk]; cbn; [easy|].
    f_equal; [apply IH; [now left|apply Hok; now left|apply Hk; now left]|]. apply IHk; intros; [apply IH|apply Hk|apply Hok]; try (now right); easy.
Qed.
