(* The order of tiers that sort_tiers gives is the only one that C20 allows, and
   sorting again changes nothing. *)
From Coq Require Import Permutation.
From Verif Require Import PyStr Model Value SpecValue Index IndexProofs SpecQuery SortTiers SpecSortTiers SortTiersProofs.

Section Before.
Context {A : Type}.
Implicit Types (l : list A) (x y z : A).
Lemma split_nodup l1 x l2 m1 m2 : NoDup (l1 ++ x :: l2) -> l1 ++ x :: l2 = m1 ++ x :: m2 -> l1 = m1 /\ l2 = m2.
Proof.
  revert m1. induction l1 as [|a l1 IH]; intros [|b m1] H E; cbn in *.
  - injection E as <-. easy.
  - injection E as <- ->. inversion H as [|? ? Hn _]; subst. exfalso. apply Hn, in_elt.
  - injection E as -> <-. inversion H as [|? ? Hn _]; subst. exfalso. apply Hn, in_elt.
  - injection E as <- E. inversion H; subst. destruct (IH m1) as [-> ->]; auto.
Qed.
Lemma before_in l x y : before l x y -> In x l /\ In y l.
Proof. intros (a & b & c & ->). split; [apply in_elt|]. apply in_app_iff. right. right. apply in_elt. Qed.
Lemma before_at l x y : before l x y -> exists p q, l = p ++ y :: q /\ In x p.
Proof. intros (a & b & c & ->). exists (a ++ x :: b), c. split; [now rewrite <- app_assoc|apply in_elt]. Qed.
Lemma at_before p y q x : In x p -> before (p ++ y :: q) x y.
Proof. intros H. apply in_split in H as (a & b & ->). exists a, b, q. now rewrite <- app_assoc. Qed.
Lemma before_total l x y : In x l -> In y l -> x = y \/ before l x y \/ before l y x.
Proof.
  intros Hx Hy. apply in_split in Hy as (p & q & ->). apply in_app_iff in Hx as [Hx|[->|Hx]]; auto.
  - right; left. now apply at_before.
  - right; right. apply in_split in Hx as (a & b & ->). now exists p, a, b.
Qed.
Lemma before_mid l x y z : NoDup l -> before l x y -> before l y z -> exists l1 l2 l3, l = l1 ++ x :: l2 ++ z :: l3 /\ In y l2.
Proof.
  intros Hn Hxy (a & b & c & E). destruct (before_at _ _ _ Hxy) as (p & q & E' & Hx).
  destruct (split_nodup a y (b ++ z :: c) p q) as [<- _]; [now rewrite <- E|congruence|].
  apply in_split in Hx as (a1 & a2 & ->). exists a1, (a2 ++ y :: b), c. split; [|apply in_elt].
  rewrite E. now rewrite <- !app_assoc.
Qed.
Lemma before_trans l x y z : NoDup l -> before l x y -> before l y z -> before l x z.
Proof. intros Hn H1 H2. destruct (before_mid l x y z Hn H1 H2) as (a & b & c & -> & _). now exists a, b, c. Qed.
Lemma before_irrefl l x : NoDup l -> ~ before l x x.
Proof.
  intros Hn (a & b & c & ->). apply NoDup_remove_2 in Hn. apply Hn, in_app_iff. right. apply in_elt.
Qed.
Lemma before_asym l x y : NoDup l -> before l x y -> before l y x -> False.
Proof. intros Hn H1 H2. exact (before_irrefl l x Hn (before_trans l x y x Hn H1 H2)). Qed.

(* a list without repetitions is determined by its members and their order *)
Lemma order_eq l : forall l', NoDup l -> Permutation l l' -> (forall x y, before l x y -> before l' x y) -> l = l'.
Proof.
  induction l as [|x l IH]; intros l' Hn Hp Hb; [now apply Permutation_nil in Hp|].
  assert (Hn' : NoDup l') by (eapply Permutation_NoDup; eauto).
  destruct l' as [|y l']; [symmetry in Hp; now apply Permutation_nil in Hp|].
  assert (y = x) as ->.
  { assert (Hy : In y (x :: l)) by (apply (Permutation_in y (Permutation_sym Hp)); now left). destruct Hy as [->|Hy]; [easy|].
    exfalso. assert (B : before (x :: l) x y) by (apply in_split in Hy as (a & b & ->); now exists [], a, b).
    apply Hb in B. destruct (before_at _ _ _ B) as ([|z p] & q & E & Hx); [easy|]. injection E as -> E.
    inversion Hn' as [|? ? H _]; subst. apply H, in_elt. }
  f_equal. inversion_clear Hn as [|? ? H1 H2]. inversion_clear Hn' as [|? ? H1' H2']. apply IH; [easy|now apply Permutation_cons_inv in Hp|].
  intros a b (p & q & r & ->). destruct (Hb a b) as (p' & q' & r' & E); [now exists (x :: p), q, r|].
  destruct p' as [|z p']; injection E as -> ->.
  - exfalso. apply H1, in_elt.
  - now exists p', q', r'.
Qed.
End Before.

Section Unique.
Context (g : igt) (refattrs : list str) (rank : tier -> nat).
Hypothesis Hids : NoDup (map tier_id (g_tiers g)).
Hypothesis Hres : prio_resolvable g refattrs.
Hypothesis Hac : prio_acyclic g refattrs rank.
Notation dep := (depends g refattrs).
Notation deps := (depends_plus g refattrs).
Notation block := (in_block g refattrs).
Notation tiers := (g_tiers g).

Lemma dep_in t rt : dep t rt -> In rt tiers.
Proof. now intros (i & _ & H & _). Qed.
Lemma dep_fun t a b : dep t a -> dep t b -> a = b.
Proof.
  intros Ha Hb. destruct (dep_first g refattrs t a Ha) as (i & j & E & Ia & Na). destruct (dep_first g refattrs t b Hb) as (i' & j' & E' & Ib & Nb).
  apply (same_id g Hids); auto. congruence.
Qed.
Lemma tier_dec x y : In x tiers -> In y tiers -> x = y \/ x <> y.
Proof.
  intros Hx Hy. destruct (okey_eqb (tier_id x) (tier_id y)) eqn:E.
  - left. apply (same_id g Hids); auto. now destruct (okey_spec (tier_id x) (tier_id y)).
  - right. intros ->. now destruct (okey_spec (tier_id y) (tier_id y)).
Qed.
Lemma deps_in t a : deps t a -> In a tiers.
Proof. induction 1 as [t rt H|t t' rt H _ IH]; [now apply dep_in in H|easy]. Qed.
Lemma deps_rank t a : In t tiers -> deps t a -> rank a < rank t.
Proof.
  intros Ht H. induction H as [t rt H|t t' rt H H' IH]; [now apply Hac|]. apply dep_in in H as Hi. specialize (IH Hi).
  pose proof (Hac t t' Ht H). lia.
Qed.
Lemma block_rank a t : In t tiers -> block a t -> rank a <= rank t.
Proof. intros Ht [->|H]; [lia|]. apply deps_rank in H; auto. lia. Qed.
Lemma block_up t p a : dep t p -> block a t -> t = a \/ block a p.
Proof.
  intros Hd [->|H]; [now left|right]. inversion H as [? H'|t' ? H' H'']; subst.
  - left. now apply (dep_fun t).
  - right. now rewrite (dep_fun t p t' Hd H').
Qed.
Lemma block_down t p a : dep t p -> block a p -> block a t.
Proof. intros Hd [->|H]; right; [now constructor|]. eapply dep_more; eauto. Qed.
Lemma root_block t a : root refattrs t -> block a t -> a = t.
Proof.
  intros Hr [->|H]; [easy|]. exfalso. assert (exists rt, dep t rt) as (rt & Hd) by (inversion H; eauto).
  destruct (dep_first g refattrs t rt Hd) as (i & j & E & _). rewrite (first_refattr_root refattrs t Hr) in E. discriminate.
Qed.
Lemma root_or t : In t tiers -> root refattrs t \/ exists p, dep t p.
Proof.
  intros Ht. destruct (first_refattr 0 refattrs t) as [[i j]|] eqn:E.
  - right. assert (Hp := first_refattr_some _ _ _ _ _ E). destruct (Hres t i Ht Hp) as (rt & Hrt & Hi). exists rt, i. auto.
  - left. intros ra Hra Ha. revert E Hra. clear Hres Hac. generalize 0. induction refattrs as [|r l IH]; cbn; [easy|]. intros n E [->|Hra].
    + unfold has_attr in Ha. now destruct (dget _ ra).
    + destruct (dget _ r); [easy|]. now apply (IH (S n)).
Qed.

(* two tiers: one is in the block of the other, or they are in blocks side by side *)
Definition siblings (a b : tier) : Prop := (root refattrs a /\ root refattrs b) \/ exists p, dep a p /\ dep b p.
Definition apart (x y : tier) : Prop :=
  exists a b, In a tiers /\ In b tiers /\ a <> b /\ siblings a b /\ block a x /\ block b y /\ ~ block a y /\ ~ block b x.
Lemma apart_sym x y : apart x y -> apart y x.
Proof.
  intros (a & b & Ha & Hb & Hn & Hs & H1 & H2 & H3 & H4). exists b, a. repeat (split; [easy || congruence|]). split; [|auto].
  destruct Hs as [[? ?]|(p & ? & ?)]; [left; easy|right; eauto].
Qed.
Lemma apart_up x y p : In y tiers -> dep y p -> apart x p -> block x y \/ block y x \/ apart x y.
Proof.
  intros Hy Hd (a & b & Ha & Hb & Hn & Hs & H1 & H2 & H3 & H4).
  assert (E : y = a \/ ~ block a y).
  { destruct (tier_dec y a Hy Ha) as [Ey|Ey].
    - now left.
    - right. intros H. apply (block_up y p a Hd) in H as [->|H]; [congruence|easy]. }
  destruct E as [->|E]; [now right; left|]. right; right. exists a, b. repeat (split; [easy|]). split; [|easy]. now apply (block_down y p).
Qed.
Lemma side_by_side x y : In x tiers -> In y tiers -> block x y \/ block y x \/ apart x y.
Proof.
  remember (rank x + rank y) as n eqn:En. revert x y En. induction n as [n IH] using lt_wf_ind. intros x y -> Hx Hy.
  destruct (tier_dec x y Hx Hy) as [->|Hne]; [left; now left|].
  destruct (root_or x Hx) as [Rx|(px & Dx)], (root_or y Hy) as [Ry|(py & Dy)].
  - right; right. exists x, y. repeat (split; [easy|]). split; [left; easy|]. split; [now left|]. split; [now left|].
    split; intros H; [apply (root_block y x Ry) in H|apply (root_block x y Rx) in H]; congruence.
  - pose proof (Hac y py Hy Dy). pose proof (dep_in y py Dy) as Hpy.
    destruct (IH (rank x + rank py) ltac:(lia) x py eq_refl Hx Hpy) as [H'|[H'|H']].
    + left. now apply (block_down y py).
    + apply (root_block x py) in H' as ->; auto. left. right. now constructor.
    + now apply (apart_up x y py).
  - pose proof (Hac x px Hx Dx). pose proof (dep_in x px Dx) as Hpx.
    destruct (IH (rank px + rank y) ltac:(lia) px y eq_refl Hpx Hy) as [H'|[H'|H']].
    + apply (root_block y px) in H' as ->; auto. right; left. right. now constructor.
    + right; left. now apply (block_down x px).
    + apply apart_sym in H'. destruct (apart_up y x px Hx Dx H') as [K|[K|K]]; auto. right; right. now apply apart_sym.
  - pose proof (Hac y py Hy Dy). pose proof (dep_in y py Dy) as Hpy. pose proof (Hac x px Hx Dx). pose proof (dep_in x px Dx) as Hpx.
    destruct (tier_dec px py Hpx Hpy) as [->|Hp].
    { right; right. exists x, y. repeat (split; [easy|]). split; [right; eauto|]. split; [now left|]. split; [now left|].
      split; intros K.
      - apply (block_up y py) in K as [->|K]; auto. apply block_rank in K; auto. lia.
      - apply (block_up x py) in K as [->|K]; auto. apply block_rank in K; auto. lia. }
    destruct (IH (rank px + rank y) ltac:(lia) px y eq_refl Hpx Hy) as [H'|[H'|H']].
    + apply (block_up y py) in H' as [->|H']; auto; [right; left; right; now constructor|].
      destruct (IH (rank x + rank py) ltac:(lia) x py eq_refl Hx Hpy) as [K|[K|K]].
      * left. now apply (block_down y py).
      * apply (block_up x px) in K as [->|K]; auto; [left; right; now constructor|].
        exfalso. destruct H' as [->|H']; [easy|]. destruct K as [->|K]; [easy|].
        apply deps_rank in H'; auto. apply deps_rank in K; auto. lia.
      * now apply (apart_up x y py).
    + right; left. now apply (block_down x px).
    + apply apart_sym in H'. destruct (apart_up y x px Hx Dx H') as [K|[K|K]]; auto. right; right. now apply apart_sym.
Qed.

Lemma first_via t i j n : first_refattr n refattrs t = Some (i, j) -> exists ra, refers_via refattrs t ra i /\ exists l1 l2, refattrs = l1 ++ ra :: l2 /\ ~ In ra l1 /\ j = n + length l1.
Proof.
  intros E. assert (P := first_refattr_some _ _ _ _ _ E). destruct P as (ra & Hf & Hv).
  destruct (first_refattr_via refattrs t ra i (conj Hf Hv) n) as (l1 & l2 & E1 & E2 & E3). exists ra. split; [easy|].
  exists l1, l2. rewrite E3 in E. injection E as <-. auto.
Qed.
Lemma attr_order ra ra' l1 l2 l1' l2' : refattrs = l1 ++ ra :: l2 -> ~ In ra l1 -> refattrs = l1' ++ ra' :: l2' -> ~ In ra' l1' ->
  ra = ra' \/ earlier refattrs ra ra' \/ earlier refattrs ra' ra.
Proof.
  intros E H E' H'. destruct (Nat.lt_trichotomy (length l1) (length l1')) as [Hl|[Hl|Hl]].
  - destruct (app_split_longer l1 ra l2 l1' ra' l2') as (m & Em); [congruence|easy|]. right; left. exists l1, l2. split; [easy|].
    intros K. apply H'. rewrite Em. apply in_app_iff in K as [K|[<-|[]]]; apply in_app_iff; [now left|right; now left].
  - left. rewrite E in E'. apply app_inj_length in E' as [_ E']; congruence.
  - destruct (app_split_longer l1' ra' l2' l1 ra l2) as (m & Em); [congruence|easy|]. right; right. exists l1', l2'. split; [easy|].
    intros K. apply H. rewrite Em. apply in_app_iff in K as [K|[<-|[]]]; apply in_app_iff; [now left|right; now left].
Qed.
Notation ordered := (in_tier_order g refattrs).
Lemma sibling_order a b : In a tiers -> In b tiers -> a <> b -> siblings a b ->
  (forall l, ordered l -> before l a b) \/ (forall l, ordered l -> before l b a).
Proof.
  intros Ha Hb Hn [[Ra Rb]|(p & Da & Db)].
  - destruct (before_total tiers a b Ha Hb) as [|[H|H]]; [easy|left|right]; intros l (_ & _ & _ & Ho & _); now apply Ho.
  - destruct (dep_first g refattrs a p Da) as (i & j & E & _ & Ep). destruct (dep_first g refattrs b p Db) as (i' & j' & E' & _ & Ep').
    assert (i' = i) by congruence. subst i'. apply first_via in E as (ra & Va & l1 & l2 & E1 & E2 & _). apply first_via in E' as (rb & Vb & l1' & l2' & E1' & E2' & _).
    destruct (attr_order ra rb l1 l2 l1' l2' E1 E2 E1' E2') as [<-|[H|H]].
    + destruct (before_total tiers a b Ha Hb) as [|[H|H]]; [easy|left|right]; intros l (_ & _ & _ & _ & Ho & _); eapply Ho; eauto.
    + left. intros l (_ & _ & _ & _ & _ & Ho). eapply Ho; eauto.
    + right. intros l (_ & _ & _ & _ & _ & Ho). eapply Ho; eauto.
Qed.
Lemma nodup_tiers : NoDup tiers.
Proof. now apply NoDup_map_inv in Hids. Qed.
Lemma ordered_nodup l : ordered l -> NoDup l.
Proof. intros (Hp & _). apply (Permutation_NoDup (Permutation_sym Hp)). exact nodup_tiers. Qed.
Lemma deps_before l t a : ordered l -> In t tiers -> deps t a -> before l a t.
Proof.
  intros Ho Ht H. pose proof (ordered_nodup l Ho) as Hn. destruct Ho as (_ & Hd & _). induction H as [t rt H|t t' rt H _ IH]; [now apply Hd|].
  apply (before_trans l rt t' t); auto. apply IH. now apply dep_in in H.
Qed.
Lemma block_before l a b x y : ordered l -> In a tiers -> In x tiers -> In y tiers -> before l a b -> block a x -> block b y -> ~ block a y -> before l x y.
Proof.
  intros Ho Ha Hx Hy Hab Bx By Na. pose proof (ordered_nodup l Ho) as Hn.
  assert (Hin : forall t, In t tiers -> In t l) by (intros t; apply Permutation_in; symmetry; apply Ho).
  destruct (before_total l x y (Hin x Hx) (Hin y Hy)) as [->|[H|H]]; [easy|easy|]. exfalso.
  assert (Hay : before l a y).
  { destruct By as [->|By]; [easy|]. apply (before_trans l a b y); auto. now apply deps_before. }
  destruct Bx as [->|Bx]; [exact (before_asym l a y Hn Hay H)|].
  destruct (before_mid l a y x Hn Hay H) as (l1 & l2 & l3 & E & Hm). apply Na.
  destruct Ho as (_ & _ & Hc & _). apply (Hc a Ha l1 a l2 x l3 y E); auto; [now left|now right].
Qed.
Theorem unique l l' : ordered l -> ordered l' -> l = l'.
Proof.
  intros H H'. pose proof (ordered_nodup l H) as Hn. pose proof (ordered_nodup l' H') as Hn'.
  apply order_eq; auto.
  { apply (Permutation_trans (l' := tiers)); [apply H|symmetry; apply H']. }
  intros x y Hb. destruct (before_in l x y Hb) as [Hx Hy].
  assert (Hin : forall t, In t l -> In t tiers) by (intros t; apply Permutation_in; apply H). apply Hin in Hx, Hy.
  destruct (side_by_side x y Hx Hy) as [[->|B]|[[->|B]|(a & b & Ha & Hbt & Hne & Hs & Bx & By & Nx & Ny)]].
  - now apply before_irrefl in Hb.
  - now apply deps_before.
  - now apply before_irrefl in Hb.
  - exfalso. apply (before_asym l x y); auto. now apply deps_before.
  - destruct (sibling_order a b Ha Hbt Hne Hs) as [Ho|Ho].
    + apply (block_before l' a b); auto.
    + exfalso. apply (before_asym l x y); auto. apply (block_before l b a); auto.
Qed.
End Unique.

(* ---------- sorting again ---------- *)

Definition retiered (g : igt) (l : list tier) : igt := {| g_attrs := g_attrs g; g_md := g_md g; g_tiers := l |}.
Section Again.
Context (g : igt) (refattrs : list str) (l : list tier).
Hypothesis Hp : Permutation l (g_tiers g).
Lemma in_again t : In t (g_tiers (retiered g l)) <-> In t (g_tiers g).
Proof. cbn. split; apply Permutation_in; [|symmetry]; exact Hp. Qed.
Lemma dep_again t rt : depends (retiered g l) refattrs t rt <-> depends g refattrs t rt.
Proof. split; intros (i & H1 & H2 & H3); exists i; apply in_again in H2; auto. Qed.
Lemma deps_again t rt : depends_plus (retiered g l) refattrs t rt <-> depends_plus g refattrs t rt.
Proof.
  split; (induction 1 as [t rt H|t t' rt H _ IH]; [constructor; now apply dep_again|]; apply dep_again in H; eapply dep_more; eauto).
Qed.
Lemma block_again a t : in_block (retiered g l) refattrs a t <-> in_block g refattrs a t.
Proof. unfold in_block. now rewrite deps_again. Qed.
Lemma ordered_again : in_tier_order g refattrs l -> in_tier_order (retiered g l) refattrs l.
Proof.
  intros (_ & H1 & H2 & H3 & H4 & H5). split; [easy|]. split; [|split; [|split; [|split]]].
  - intros t rt Ht Hd. apply in_again in Ht. apply dep_again in Hd. auto.
  - intros a Ha l1 x l2 y l3 z E Bx By Hz. apply in_again in Ha. rewrite block_again in *. eapply H2; eauto.
  - auto.
  - auto.
  - intros t t' ra ra' i Ht Ht' V V' He. apply in_again in Ht, Ht'. eapply H5; eauto.
Qed.
End Again.
Lemma sort_again_ g refattrs rank l : NoDup (map tier_id (g_tiers g)) -> prio_resolvable g refattrs -> prio_acyclic g refattrs rank ->
  in_tier_order g refattrs l -> exists n, forall m, n <= m -> sort_tiers m (retiered g l) refattrs = Some (Ok l).
Proof.
  intros H1 H2 H3 Ho. pose proof (proj1 Ho) as Hp.
  assert (H1' : NoDup (map tier_id (g_tiers (retiered g l)))).
  { cbn. apply (Permutation_NoDup (l := map tier_id (g_tiers g))); [|easy]. apply Permutation_map. now symmetry. }
  assert (H2' : prio_resolvable (retiered g l) refattrs).
  { intros t i Ht Hi. apply (in_again g l Hp) in Ht. destruct (H2 t i Ht Hi) as (rt & Hr & E). exists rt. split; [now apply (in_again g l Hp)|easy]. }
  assert (H3' : prio_acyclic (retiered g l) refattrs rank).
  { intros t rt Ht Hd. apply (in_again g l Hp) in Ht. apply (dep_again g refattrs l Hp) in Hd. auto. }
  destruct (sort_tiers_spec _ _ _ H1' H2' H3') as (n & l' & Hl & Ho'). exists n. intros m Hm. rewrite (Hl m Hm).
  do 2 f_equal. apply (unique _ _ rank H1' H2' H3'); auto. now apply ordered_again.
Qed.
Theorem sort_again g refattrs rank g' : NoDup (map tier_id (g_tiers g)) -> prio_resolvable g refattrs -> prio_acyclic g refattrs rank ->
  in_tier_order g refattrs (g_tiers g') -> exists n, forall m, n <= m -> sort_tiers m g' refattrs = Some (Ok (g_tiers g')).
Proof. intros H1 H2 H3 Ho. exact (sort_again_ g refattrs rank (g_tiers g') H1 H2 H3 Ho). Qed.

(* ---------- when it returns ---------- *)

Section Returns.
Context (g : igt) (refattrs : list str).
Hypothesis Hids : NoDup (map tier_id (g_tiers g)).
Let idx := tier_indices 1 (g_tiers g) [].
Let pr := prioritized refattrs (g_tiers g).
Lemma chain_prefix m : forall key tmp k, chain_key m idx pr key tmp = Some (Ok k) ->
  exists c, k = key ++ c /\ forall m' key', m <= m' -> chain_key m' idx pr key' tmp = Some (Ok (key' ++ c)).
Proof.
  induction m as [|m IH]; intros key tmp k E; [easy|]. cbn in E. destruct tmp as [[i j]|].
  - destruct (dget_ okey_eqb idx (Some i)) as [n|] eqn:En; [|easy]. apply IH in E as (c & -> & H). exists ((n, j) :: c).
    split; [now rewrite <- app_assoc|]. intros [|m'] key' Hm; [lia|]. cbn. rewrite En, H by lia. now rewrite <- app_assoc.
  - injection E as <-. exists []. split; [now rewrite app_nil_r|]. intros [|m'] key' Hm; [lia|]. cbn. now rewrite app_nil_r.
Qed.
Lemma keys_each m l : forall d d', tier_keys m idx pr l d = Some (Ok d') -> forall t, In t l -> exists k, tier_key m idx pr t = Some (Ok k).
Proof.
  induction l as [|x l IH]; intros d d' E t; [easy|]. cbn in E. destruct (tier_key m idx pr x) as [[k|]|] eqn:Ek; try easy.
  intros [<-|Ht]; eauto.
Qed.
Theorem returns m l : sort_tiers m g refattrs = Some (Ok l) -> prio_resolvable g refattrs /\ exists rank, prio_acyclic g refattrs rank.
Proof.
  unfold sort_tiers. fold idx pr. destruct (tier_keys m idx pr (g_tiers g) []) as [[d|]|] eqn:E; try easy. intros _.
  assert (H : forall t, In t (g_tiers g) -> exists c, forall m' key, m <= m' -> chain_key m' idx pr key (first_refattr 0 refattrs t) = Some (Ok (key ++ c))).
  { intros t Ht. destruct (keys_each _ _ _ _ E t Ht) as (k & Ek). unfold tier_key in Ek. unfold idx in Ek at 1. rewrite (idx_num g t Ht) in Ek. fold idx in Ek.
    destruct (chain_key m idx pr _ _) as [[k'|]|] eqn:Ec; try easy. unfold pr in Ec at 2. rewrite (pr_get g refattrs Hids t Ht) in Ec.
    apply chain_prefix in Ec as (c & _ & Hc). eauto. }
  assert (Hs : forall t i j, In t (g_tiers g) -> first_refattr 0 refattrs t = Some (i, j) -> exists rt, In rt (g_tiers g) /\ tier_id rt = Some i).
  { intros t i j Ht Ef. destruct (H t Ht) as (c & Hc). specialize (Hc (S m) [] ltac:(lia)). rewrite Ef in Hc. cbn in Hc.
    destruct (dget_ okey_eqb idx (Some i)) as [n|] eqn:En; [|easy]. apply tier_indices_some in En as [(p & rt & Hp & Hi & _)|En]; [|easy].
    exists rt. split; [now apply nth_error_In in Hp|easy]. }
  split.
  - intros t i Ht Hp. destruct (first_refattr_prio _ _ _ Hp 0) as (j & Ej). eauto.
  - exists (fun t => match chain_key m idx pr [] (first_refattr 0 refattrs t) with Some (Ok k) => length k | _ => 0 end).
    intros t rt Ht Hd. destruct (dep_first g refattrs t rt Hd) as (i & j & Ef & Hrt & Hi).
    destruct (H t Ht) as (c & Hc), (H rt Hrt) as (c' & Hc'). rewrite (Hc m [] (le_n _)), (Hc' m [] (le_n _)). cbn.
    pose proof (Hc (S m) [] ltac:(lia)) as K. rewrite Ef in K. cbn in K. rewrite <- Hi in K. unfold idx in K at 1. rewrite (idx_num g rt Hrt) in K. fold idx in K.
    unfold pr in K at 2. rewrite (pr_get g refattrs Hids rt Hrt) in K. rewrite (Hc' m _ (le_n _)) in K. injection K as <-. cbn. lia.
Qed.
Theorem returns_iff : (exists m l, sort_tiers m g refattrs = Some (Ok l)) <-> prio_resolvable g refattrs /\ exists rank, prio_acyclic g refattrs rank.
Proof.
  split.
  - intros (m & l & E). exact (returns m l E).
  - intros [Hr (rank & Ha)]. destruct (sort_tiers_spec g refattrs rank Hids Hr Ha) as (n & l & Hl & _). exists n, l. now apply Hl.
Qed.
End Returns.
