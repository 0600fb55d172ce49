(* The column table of the LaTeX exporter: whole tiers and stacks of tiers. *)
From Coq Require Import Lia.
From Verif Require Import PyStr PyStrFacts Ref Model Value Latex SpecLatex LatexTableProofs LatexAlignProofs.

Lemma list_str_eqb_spec a b : Bool.reflect (a = b) (list_str_eqb a b).
Proof.
  unfold list_str_eqb. revert b. induction a as [|x a IH]; intros [|y b]; cbn; try (constructor; congruence).
  destruct (str_eqb_spec x y) as [->|N]; cbn; [|constructor; congruence].
  destruct (IH b) as [->|N]; constructor; congruence.
Qed.

Section Stack.
Context {U : Unicode} {A : Type} (idof : A -> option str) (expr : A -> option str).
Notation col := (list (list A)).

Definition key (x : A) : list str := match expr x with Some e => ids e | None => [] end.
Definition entry (x : A) : list str * A := (key x, x).
Definition groups (l : list A) : list agendum := groupby (map entry l).

Lemma agenda_groups l : (forall x, In x l -> expr x <> None) -> get_agenda expr l = Ok (groups l).
Proof.
  intros H. unfold get_agenda, groups. assert (E : mapM (agenda_entry expr) l = Ok (map entry l)).
  { induction l as [|x l IH]; cbn; [reflexivity|]. rewrite IH by (intros; apply H; right; assumption).
    unfold agenda_entry, entry, key. destruct (expr x) eqn:Ex; [reflexivity|]. exfalso. apply (H x); [left; reflexivity|exact Ex]. }
  rewrite E. reflexivity.
Qed.
Lemma groups_cons x l : groups (x :: l) =
  match groups l with
  | (k', xs) :: gs => if list_str_eqb (key x) k' then (key x, x :: xs) :: gs else (key x, [x]) :: (k', xs) :: gs
  | [] => [(key x, [x])]
  end.
Proof. reflexivity. Qed.
Lemma groups_head x l : exists xs gs, groups (x :: l) = (key x, xs) :: gs.
Proof. rewrite groups_cons. destruct (groups l) as [|[k xs] gs]; [eauto|]. destruct (list_str_eqb (key x) k); eauto. Qed.
Lemma groups_app l1 l2 : (forall l x y r, l1 = l ++ [x] -> l2 = y :: r -> key x <> key y) -> groups (l1 ++ l2) = groups l1 ++ groups l2.
Proof.
  induction l1 as [|x l1 IH]; intros H; [reflexivity|]. cbn [app].
  rewrite !groups_cons, IH by (intros l z y r E1 E2; apply (H (x :: l) z y r); [cbn; f_equal; exact E1|exact E2]).
  destruct l1 as [|y l1].
  - cbn. destruct l2 as [|z l2]; [reflexivity|]. destruct (groups_head z l2) as (xs & gs & ->).
    destruct (list_str_eqb_spec (key x) (key z)) as [E|_]; [|reflexivity]. exfalso. apply (H [] x z l2); auto.
  - destruct (groups_head y l1) as (xs & gs & ->). cbn. destruct (list_str_eqb (key x) (key y)); reflexivity.
Qed.
Lemma groups_same x l : (forall y, In y l -> key y = key x) -> groups (x :: l) = [(key x, x :: l)].
Proof.
  revert x. induction l as [|y l IH]; intros x H; [reflexivity|].
  rewrite groups_cons, IH.
  - rewrite (H y) by (left; reflexivity). destruct (list_str_eqb_spec (key x) (key x)); [reflexivity|congruence].
  - intros z Hz. rewrite (H z), (H y); [reflexivity|left; reflexivity|right; exact Hz].
Qed.
Lemma groups_items l : List.concat (map snd (groups l)) = l.
Proof.
  induction l as [|x l IH]; [reflexivity|]. rewrite groups_cons. destruct (groups l) as [|[k xs] gs]; cbn in *; [subst l; reflexivity|].
  destruct (list_str_eqb (key x) k); cbn; rewrite <- IH; reflexivity.
Qed.

Lemma covers_key above x p q : covers idof expr above x p q ->
  exists i is a b, key x = i :: is /\ nth_error above p = Some a /\ idof a = Some i
    /\ nth_error above q = Some b /\ idof b = Some (last is i).
Proof.
  intros (e & i & is & a & b & H1 & H2 & H3). exists i, is, a, b. split; [unfold key; rewrite H1; exact H2|exact H3].
Qed.
Lemma unaligned_key x : unaligned expr x -> key x = [].
Proof. intros (e & H1 & H2). unfold key. rewrite H1. exact H2. Qed.
Lemma unaligned_covers above x p q : unaligned expr x -> ~ covers idof expr above x p q.
Proof. intros H C. destruct (covers_key _ _ _ _ C) as (i & is & _ & _ & E & _). rewrite (unaligned_key _ H) in E. discriminate. Qed.
Lemma nth_unique above p q a b : NoDup (map idof above) -> nth_error above p = Some a -> nth_error above q = Some b ->
  idof a = idof b -> p = q.
Proof.
  intros N Ha Hb E. rewrite NoDup_nth_error in N. apply N.
  - rewrite map_length. apply nth_error_Some. congruence.
  - rewrite !nth_error_map, Ha, Hb. cbn. rewrite E. reflexivity.
Qed.
Lemma key_covers_unique above x y p q p' q' : NoDup (map idof above) -> key x = key y ->
  covers idof expr above x p q -> covers idof expr above y p' q' -> p = p' /\ q = q'.
Proof.
  intros N E C1 C2. destruct (covers_key _ _ _ _ C1) as (i & is & a & b & K1 & H1 & H2 & H3 & H4).
  destruct (covers_key _ _ _ _ C2) as (i' & is' & a' & b' & K1' & H1' & H2' & H3' & H4').
  rewrite K1, K1' in E. inversion E; subst i' is'. split; eapply nth_unique; eauto; congruence.
Qed.

(* an agenda whose groups cover spans that begin ever later *)
Inductive chain (above : list A) : nat -> list agendum -> Prop :=
| chain_nil p0 : chain above p0 []
| chain_cons p0 p q k xs gs : p0 <= p -> p <= q -> xs <> [] ->
    (forall x, In x xs -> key x = k /\ covers idof expr above x p q) ->
    chain above p gs -> chain above p0 ((k, xs) :: gs).

Lemma chain_groups above mid : NoDup (map idof above) ->
  (forall x, In x mid -> exists p q, covers idof expr above x p q /\ p <= q) ->
  (forall l x y r p q p' q', mid = l ++ x :: y :: r -> covers idof expr above x p q -> covers idof expr above y p' q' -> p <= p') ->
  forall p0, (forall x r p q, mid = x :: r -> covers idof expr above x p q -> p0 <= p) -> chain above p0 (groups mid).
Proof.
  intros N. induction mid as [|x mid IH]; intros HC HO p0 H0; [constructor|].
  destruct (HC x) as (p & q & C & L); [left; reflexivity|].
  assert (CH : chain above p (groups mid)).
  { apply IH.
    - intros; apply HC; right; assumption.
    - intros l a b r. intros. eapply (HO (x :: l)); [cbn; f_equal; eassumption| |]; eassumption.
    - intros y r p' q' -> C'. eapply (HO []); [reflexivity| |]; eassumption. }
  rewrite groups_cons. destruct (groups mid) as [|[k' xs] gs].
  - apply (chain_cons above p0 p q); auto.
    + eapply H0; eauto.
    + discriminate.
    + intros y [<-|[]]. auto.
  - inversion CH as [|? p' q' ? ? ? L1 L2 NX K CH']; subst.
    destruct (list_str_eqb_spec (key x) k') as [E|_].
    + destruct xs as [|z xs]; [congruence|]. destruct (K z) as [Kz Cz]; [left; reflexivity|].
      destruct (key_covers_unique above x z p q p' q') as [-> ->]; try assumption; [congruence|].
      apply (chain_cons above p0 p' q'); auto.
      * eapply H0; eauto.
      * discriminate.
      * intros y [<-|Hy]; [auto|]. destruct (K y Hy) as [Ky Cy]. split; [congruence|exact Cy].
    + apply (chain_cons above p0 p q); auto.
      * eapply H0; eauto.
      * discriminate.
      * intros y [<-|[]]. auto.
Qed.

Section Tier.
Variables (w d' : nat) (R : nat -> list A) (T0 : list col).
Let d := S d'.
(* the columns of a finished row *)
Definition finished (items : list A) (tr : list col) : Prop :=
  Forall (good w (S d)) tr /\ (exists c0 tr', tr = c0 :: tr' /\ length c0 = S d)
  /\ (forall k, k < d -> whole_row k tr = R k) /\ whole_row d tr = items /\ below T0 tr
  /\ (forall x p q, In x items -> covers idof expr (R d') x p q ->
        exists c, In c tr /\ In x (row d c) /\ forall r y, p <= r <= q -> nth_error (R d') r = Some y -> In y (row d' c)).

Lemma finish_none placed st P S : inv idof expr w d' R T0 placed st P S ->
  exists tr, add_rows (s_next st) (length (s_tr st) - s_next st) (s_tr st) = Ok tr /\ finished placed tr.
Proof.
  intros [I1 I2 I3 I4 I5 I6 I7 I8 I9 I10]. exists (P ++ map touched S).
  rewrite I1, I2, app_length. replace (length P + length S - length P) with (length S) by lia.
  pose proof (add_rows_app S P []) as E. rewrite !app_nil_r in E. split; [exact E|].
  assert (EW : forall k, whole_row k (P ++ map touched S) = whole_row k (P ++ S))
    by (intros k; rewrite !whole_row_app, whole_row_touched; reflexivity).
  assert (B : below (P ++ S) (P ++ map touched S)) by (apply below_app; [apply below_refl|apply below_touched]).
  repeat apply conj.
  - apply Forall_app. split; [exact I3|apply Forall_touched; exact I4].
  - destruct P as [|c P]; cbn in *; [|eauto]. destruct S as [|c S]; [contradiction|]. cbn. eexists _, _. split; [reflexivity|].
    unfold touched. rewrite app_length. cbn. unfold d. lia.
  - intros k Hk. rewrite EW. apply I5. exact Hk.
  - rewrite EW. exact I6.
  - eapply below_trans; eassumption.
  - intros x p q Hx C. destruct (I10 x p q Hx C) as (c & Hc & H1 & H2). destruct (B c Hc) as (c' & Hc' & Inc).
    exists c'. split; [exact Hc'|]. split; [apply Inc; exact H1|]. intros r y Hr Hy. apply Inc. eapply H2; eassumption.
Qed.
Lemma finish_post placed st P S post : w = 1 -> inv idof expr w d' R T0 placed st P S -> Forall (unaligned expr) post ->
  exists tr, add_rows (s_next st) (length (s_tr st ++ [delayed_col d post]) - s_next st) (s_tr st ++ [delayed_col d post]) = Ok tr
    /\ finished (placed ++ post) tr.
Proof.
  intros W [I1 I2 I3 I4 I5 I6 I7 I8 I9 I10] HU. set (D := delayed_col d post).
  exists (P ++ map touched (S ++ [D])).
  rewrite I1, I2.
  pose proof (add_rows_app (S ++ [D]) P []) as E. rewrite !app_nil_r in E. rewrite <- app_assoc, (app_length P).
  replace (length P + length (S ++ [D]) - length P) with (length (S ++ [D])) by lia. split; [exact E|].
  assert (EW : forall k, whole_row k (P ++ map touched (S ++ [D])) = whole_row k (P ++ S) ++ row k D).
  { intros k. rewrite whole_row_app, whole_row_touched, !whole_row_app, whole_row_cons, <- app_assoc.
    change (whole_row k []) with (@nil A). rewrite app_nil_r. reflexivity. }
  assert (B : below (P ++ S) (P ++ map touched (S ++ [D]))).
  { apply below_app; [apply below_refl|]. rewrite map_app. eapply below_trans; [apply below_touched|].
    intros c Hc. exists c. rewrite in_app_iff. auto. }
  repeat apply conj.
  - apply Forall_app. split; [exact I3|]. rewrite map_app. apply Forall_app. split; [apply Forall_touched; exact I4|].
    constructor; [|constructor]. subst D. split.
    + unfold touched. rewrite app_length, length_delayed. cbn. lia.
    + intros k Hk. rewrite row_touched, row_delayed. destruct (Nat.eqb_spec k d); [lia|reflexivity].
  - destruct P as [|c P]; cbn in *; [|eauto]. destruct S as [|c S]; [contradiction|]. cbn. eexists _, _. split; [reflexivity|].
    unfold touched. rewrite app_length. cbn. unfold d. lia.
  - intros k Hk. rewrite EW, (I5 k Hk). subst D. rewrite row_delayed. destruct (Nat.eqb_spec k d); [lia|apply app_nil_r].
  - rewrite EW. unfold d at 1. rewrite I6. subst D. rewrite row_delayed, Nat.eqb_refl. reflexivity.
  - eapply below_trans; eassumption.
  - intros x p q Hx C. apply in_app_iff in Hx as [Hx|Hx].
    + destruct (I10 x p q Hx C) as (c & Hc & H1 & H2). destruct (B c Hc) as (c' & Hc' & Inc).
      exists c'. split; [exact Hc'|]. split; [apply Inc; exact H1|]. intros r y Hr Hy. apply Inc. eapply H2; eassumption.
    + exfalso. rewrite Forall_forall in HU. eapply unaligned_covers; [apply HU; exact Hx|exact C].
Qed.
Hypothesis Hw : w <= 1.
Hypothesis HR : forall k a, k < d -> In a (R k) -> idof a <> None.
Hypothesis HN : NoDup (map idof (R d')).
Notation inv' := (inv idof expr w d' R T0).

Lemma step_chain placed st P S pre p0 k xs gs :
  inv' placed st P S ->
  (s_delay st = [] /\ pre = [] \/ s_delay st = [([], pre)] /\ placed = []) ->
  (P = [] \/ s_next st = Datatypes.S (col_at (s_tr st) d' p0)) ->
  (forall a, In a placed -> idof a <> None) -> (forall a, In a pre -> idof a <> None) ->
  (forall x, In x pre -> unaligned expr x) -> chain (R d') p0 ((k, xs) :: gs) ->
  exists p st' P' S', step idof d st (k, xs) = Ok st' /\ inv' (placed ++ pre ++ xs) st' P' S'
    /\ s_delay st' = [] /\ s_next st' = Datatypes.S (col_at (s_tr st') d' p) /\ chain (R d') p gs.
Proof.
  intros I HD HP HI HIp HU C. inversion C as [|? p q ? ? ? L1 L2 NX K C']; subst.
  destruct xs as [|x xs]; [congruence|]. destruct (K x) as [Kx Cx]; [left; reflexivity|].
  destruct (covers_key _ _ _ _ Cx) as (i & is & a & b & E & Ha & Ea & Hb & Eb).
  rewrite <- Kx, E in *. clear k Kx.
  destruct (step_aligned idof expr w d' R T0 Hw HR HN placed st P S pre p q a b i is (x :: xs)) as (st' & P' & S' & Q1 & Q2 & Q3 & Q4); auto.
  - destruct HP as [HP|HP]; [left; exact HP|right; exists p0; auto].
  - intros y p' q' Hy Cy. destruct (K y Hy) as [Ky Cy'].
    apply (key_covers_unique (R d') y y); auto.
  - intros y p' q' Hy. apply unaligned_covers. apply HU. exact Hy.
  - exists p, st', P', S'. repeat (split; [assumption|]). assumption.
Qed.

Lemma steps_chain gs : forall p0 placed st P S,
  inv' placed st P S -> s_delay st = [] ->
  (P = [] \/ s_next st = Datatypes.S (col_at (s_tr st) d' p0)) ->
  (forall a, In a placed -> idof a <> None) -> (forall a, In a (List.concat (map snd gs)) -> idof a <> None) ->
  chain (R d') p0 gs ->
  exists st' P' S', steps idof d st gs = Ok st' /\ inv' (placed ++ List.concat (map snd gs)) st' P' S' /\ s_delay st' = [].
Proof.
  induction gs as [|[k xs] gs IH]; intros p0 placed st P S I HD HP HI HG C.
  - exists st, P, S. cbn. rewrite app_nil_r. auto.
  - destruct (step_chain placed st P S [] p0 k xs gs) as (p & st1 & P1 & S1 & Q1 & Q2 & Q3 & Q4 & Q5); auto; try (intros a []; fail).
    + cbn [app] in Q2. destruct (IH p (placed ++ xs) st1 P1 S1) as (st' & P' & S' & Z1 & Z2 & Z3); auto.
      * intros a Ha. apply in_app_iff in Ha as [Ha|Ha]; [auto|]. apply HG. cbn. rewrite in_app_iff. auto.
      * intros a Ha. apply HG. cbn. rewrite in_app_iff. auto.
      * exists st', P', S'. cbn [steps]. rewrite Q1. cbn [bind]. rewrite Z1. cbn. rewrite app_assoc. auto.
Qed.

Lemma steps_app gs : forall st hs, steps idof d st (gs ++ hs) = do st' <- steps idof d st gs; steps idof d st' hs.
Proof.
  induction gs as [|g gs IH]; intros st hs; cbn; [reflexivity|]. destruct (step idof d st g); cbn; [apply IH|reflexivity].
Qed.

End Tier.

(* one tier *)
Lemma align_tier_ok w d' R tr items : w <= 1 ->
  (forall k a, k < S d' -> In a (R k) -> idof a <> None) -> NoDup (map idof (R d')) ->
  Forall (good w (S d')) tr -> (exists c0 tr', tr = c0 :: tr' /\ length c0 = S d') ->
  (forall k, k < S d' -> whole_row k tr = R k) ->
  (forall x, In x items -> idof x <> None) -> ordered idof expr (R d') items -> (w = 1 \/ ends_aligned expr items) ->
  exists tr', align_tier idof expr tr items = Ok tr' /\ finished w d' R tr items tr'.
Proof.
  intros Hw HR HN HG (c0 & tr0 & Etr & L0) HK HI (pre & mid & post & -> & HU1 & HU2 & HC & HO) HE.
  set (items := pre ++ mid ++ post).
  assert (EA : align_tier idof expr tr items =
    do agenda <- get_agenda expr items;
    do m <- build_idxmap idof tr (S d' - 1);
    do st <- steps idof (S d') {| s_tr := tr; s_next := 0; s_delay := []; s_map := m |} agenda;
    let '(tr', _) := add_delayed (s_tr st) (s_delay st) (length (s_tr st)) (S d') in
    add_rows (s_next st) (length tr' - s_next st) tr') by (rewrite Etr; unfold align_tier; rewrite L0; reflexivity).
  rewrite EA. clear EA. subst items.
  rewrite agenda_groups.
  2:{ intros x Hx. rewrite !in_app_iff in Hx. rewrite Forall_forall in HU1, HU2. destruct Hx as [Hx|[Hx|Hx]].
      - destruct (HU1 x Hx) as (e & E & _). congruence.
      - destruct (HC x Hx) as (p & q & (e & i & is & a & b & E & _) & _). congruence.
      - destruct (HU2 x Hx) as (e & E & _). congruence. }
  cbn [bind].
  assert (Em : build_idxmap idof tr (S d' - 1) = Ok (pairs idof 0 tr d')).
  { unfold build_idxmap. replace (S d' - 1) with d' by lia. apply build_pairs. eapply Forall_impl; [|exact HG]. intros c [H _]. lia. }
  rewrite Em. cbn [bind].
  set (st0 := {| s_tr := tr; s_next := 0; s_delay := []; s_map := pairs idof 0 tr d' |}).
  assert (HD : whole_row (S d') tr = []) by (eapply good_row; [exact HG|lia]).
  assert (I0 : inv idof expr w d' R tr [] st0 [] tr).
  { constructor; cbn; try reflexivity; auto.

    - unfold first_ok. rewrite Etr. exact L0.
    - apply below_refl.
    - intros x p q []. }
  assert (Kmid : forall x, In x mid -> key x <> []).
  { intros x Hx. destruct (HC x Hx) as (p & q & C & _). destruct (covers_key _ _ _ _ C) as (i & is & _ & _ & E & _). congruence. }
  assert (Kpre : forall x, In x pre -> key x = []) by (intros x Hx; rewrite Forall_forall in HU1; apply unaligned_key; auto).
  assert (Kpost : forall x, In x post -> key x = []) by (intros x Hx; rewrite Forall_forall in HU2; apply unaligned_key; auto).
  assert (CH : chain (R d') 0 (groups mid)) by (apply chain_groups; auto; intros; lia).
  assert (Gone : forall l, (forall x, In x l -> key x = []) -> l <> [] -> groups l = [([], l)]).
  { intros [|x l] H N; [congruence|]. rewrite groups_same; [rewrite H by (left; reflexivity); reflexivity|].
    intros y Hy. rewrite !H; [reflexivity|left; reflexivity|right; exact Hy]. }
  assert (Hids : forall x, In x pre \/ In x mid \/ In x post -> idof x <> None) by (intros x Hx; apply HI; rewrite !in_app_iff; exact Hx).
  destruct mid as [|m0 mid].
  - (* nothing is aligned *)
    cbn [app] in HE |- *. remember (pre ++ post) as un eqn:Eun.
    assert (Hun : Forall (unaligned expr) un) by (rewrite Eun; apply Forall_app; auto).
    assert (Kun : forall x, In x un -> key x = []) by (intros x Hx; rewrite Forall_forall in Hun; apply unaligned_key; auto).
    destruct un as [|u un].
    + cbn [groups map groupby steps bind]. cbn [s_delay st0 add_delayed].
      destruct (finish_none w d' R tr [] st0 [] tr I0) as (tr' & E & F). cbn in E |- *. exists tr'. split; [exact E|exact F].
    + assert (W1 : w = 1).
      { destruct HE as [HE|HE]; [exact HE|]. exfalso.
        destruct (exists_last (l := u :: un)) as (l & x & El); [discriminate|]. apply (HE l x El).
        rewrite Forall_forall in Hun. apply Hun. rewrite El. rewrite in_app_iff. right. left. reflexivity. }
      rewrite Gone by (auto; discriminate). cbn [steps].
      rewrite (step_delay idof expr w d' R tr Hw HR [] st0 [] tr (u :: un) I0) by (intros a []). cbn [bind].
      cbn [s_delay st0 app s_tr s_next s_map]. cbn [add_delayed].
      pose proof (insert_app tr [] (delayed_col (S d') (u :: un)) _ eq_refl) as EI. rewrite app_nil_r in EI.
      destruct (finish_post w d' R tr [] st0 [] tr (u :: un) W1 I0 Hun) as (tr' & E & F). cbn [s_tr s_next st0] in E. unfold Latex.col in E. rewrite <- EI in E.
      exists tr'. split; [exact E|exact F].
  - assert (Gall : groups (pre ++ (m0 :: mid) ++ post) = groups pre ++ groups (m0 :: mid) ++ groups post).
    { rewrite groups_app.
      - f_equal. apply groups_app. intros l x y r El -> E.
        rewrite (Kpost y) in E by (left; reflexivity). apply (Kmid x); [|exact E]. rewrite El, in_app_iff. right. left. reflexivity.
      - intros l x y r -> E2 E. inversion E2; subst. rewrite (Kpre x) in E by (rewrite in_app_iff; right; left; reflexivity).
        apply (Kmid y); [left; reflexivity|congruence]. }
    rewrite Gall, !steps_app.
    assert (HM : exists st1 P1 S1, (do st' <- steps idof (S d') st0 (groups pre); steps idof (S d') st' (groups (m0 :: mid))) = Ok st1
      /\ inv idof expr w d' R tr (pre ++ m0 :: mid) st1 P1 S1 /\ s_delay st1 = []).
    { destruct pre as [|x pre].
      - cbn [groups map groupby steps bind app].
        destruct (steps_chain w d' R tr Hw HR HN (groups (m0 :: mid)) 0 [] st0 [] tr I0) as (st1 & P1 & S1 & Q1 & Q2 & Q3); auto; try (intros a []; fail).
        + intros a. rewrite groups_items. intros Ha. apply Hids. auto.
        + exists st1, P1, S1. rewrite groups_items in Q2. auto.
      - rewrite Gone by (auto; discriminate). cbn [steps].
        rewrite (step_delay idof expr w d' R tr Hw HR [] st0 [] tr (x :: pre) I0) by (intros a []). cbn [bind].
        cbn [s_delay st0 app s_tr s_next s_map].
        set (st1 := {| s_tr := tr; s_next := 0; s_delay := [([], x :: pre)]; s_map := pairs idof 0 tr d' |}).
        assert (I1 : inv idof expr w d' R tr [] st1 [] tr) by (destruct I0; constructor; assumption).
        destruct (groups_head m0 mid) as (xs & gs & Eg). rewrite Eg in CH |- *.
        assert (Ei : xs ++ List.concat (map snd gs) = m0 :: mid) by (rewrite <- (groups_items (m0 :: mid)), Eg; reflexivity).
        destruct (step_chain w d' R tr Hw HR HN [] st1 [] tr (x :: pre) 0 (key m0) xs gs I1) as (p & st2 & P2 & S2 & Q1 & Q2 & Q3 & Q4 & Q5); auto; try (intros a []; fail).
        + intros a Ha. rewrite Forall_forall in HU1. auto.
        + cbn [steps]. rewrite Q1. cbn [bind].
          destruct (steps_chain w d' R tr Hw HR HN gs p _ st2 P2 S2 Q2) as (st3 & P3 & S3 & Z1 & Z2 & Z3); auto.
          * intros a Ha. cbn [app] in Ha. change (x :: pre ++ xs) with ((x :: pre) ++ xs) in Ha. apply in_app_iff in Ha as [Ha|Ha]; [auto|].
            apply Hids. right. left. rewrite <- Ei, in_app_iff. auto.
          * intros a Ha. apply Hids. right. left. rewrite <- Ei, in_app_iff. auto.
          * exists st3, P3, S3. split; [exact Z1|]. split; [|exact Z3].
            cbn [app] in Z2. rewrite <- Ei. rewrite <- app_assoc in Z2. exact Z2. }
    destruct HM as (st1 & P1 & S1 & Q1 & Q2 & Q3).
    destruct (steps idof (S d') st0 (groups pre)) as [sp|]; [|discriminate]. cbn [bind] in Q1 |- *. rewrite steps_app, Q1. cbn [bind].
    destruct post as [|z post].
    + cbn [groups map groupby steps bind]. rewrite Q3. cbn [add_delayed].
      destruct (finish_none w d' R tr _ st1 P1 S1 Q2) as (tr' & E & F). exists tr'. rewrite app_nil_r. split; [exact E|exact F].
    + assert (W1 : w = 1).
      { destruct HE as [HE|HE]; [exact HE|]. exfalso.
        destruct (exists_last (l := z :: post)) as (l & x & El); [discriminate|].
        apply (HE (pre ++ (m0 :: mid) ++ l) x); [rewrite El, <- !app_assoc; reflexivity|].
        rewrite Forall_forall in HU2. apply HU2. rewrite El, in_app_iff. right. left. reflexivity. }
      rewrite Gone by (auto; discriminate). cbn [steps].
      rewrite (step_delay idof expr w d' R tr Hw HR _ st1 P1 S1 (z :: post) Q2).
      2:{ intros a Ha. apply in_app_iff in Ha as [Ha|Ha]; apply Hids; auto. }
      cbn [bind]. rewrite Q3. cbn [s_delay app s_tr s_next s_map]. cbn [add_delayed].
      pose proof (insert_app (s_tr st1) [] (delayed_col (S d') (z :: post)) _ eq_refl) as EI. rewrite app_nil_r in EI.
      destruct (finish_post w d' R tr _ st1 P1 S1 (z :: post) W1 Q2 HU2) as (tr' & E & F). unfold Latex.col in E, EI. rewrite <- EI in E.
      exists tr'. split; [exact E|]. rewrite <- app_assoc in F. exact F.
Qed.

(* ---------- stacks of tiers ---------- *)

(* x, in row k + 1, shares a column with all it covers *)
Definition shares (tiers : list (list A)) (tr : list col) : Prop :=
  forall k above items x p q, nth_error tiers k = Some above -> nth_error tiers (S k) = Some items ->
    In x items -> covers idof expr above x p q ->
    exists c, In c tr /\ In x (row (S k) c) /\ forall r y, p <= r <= q -> nth_error above r = Some y -> In y (row k c).
Definition table (w : nat) (tiers : list (list A)) (tr : list col) : Prop :=
  Forall (good w (length tiers)) tr /\ (exists c0 tr', tr = c0 :: tr' /\ length c0 = length tiers)
  /\ (forall k t, nth_error tiers k = Some t -> whole_row k tr = t) /\ shares tiers tr.

Lemma shares_below tiers tr tr' : below tr tr' -> shares tiers tr -> shares tiers tr'.
Proof.
  intros B H k above items x p q E1 E2 Hx C. destruct (H k above items x p q E1 E2 Hx C) as (c & Hc & H1 & H2).
  destruct (B c Hc) as (c' & Hc' & Inc). exists c'. split; [exact Hc'|]. split; [apply Inc; exact H1|].
  intros r y Hr Hy. apply Inc. eapply H2; eassumption.
Qed.

Lemma align_tiers_ok w : w <= 1 -> forall tiers done above tr,
  (forall t, In t (done ++ [above]) -> identified idof t) -> table w (done ++ [above]) tr ->
  ordered_stack idof expr above tiers -> (w = 1 \/ Forall (ends_aligned expr) tiers) ->
  exists cols, align_tiers idof expr tr tiers = Ok cols /\ table w ((done ++ [above]) ++ tiers) cols.
Proof.
  intros Hw tiers. induction tiers as [|t tiers IH]; intros done above tr HI (T1 & T2 & T3 & T4) HO HE.
  - exists tr. rewrite app_nil_r. split; [reflexivity|]. repeat split; assumption.
  - destruct HO as (Ht & HO & HS). set (all := done ++ [above]) in *.
    assert (Ln : length all = S (length done)) by (unfold all; rewrite app_length; cbn; lia).
    set (R := fun k => nth k all []).
    assert (RA : R (length done) = above) by (unfold R, all; rewrite app_nth2, Nat.sub_diag by lia; reflexivity).
    assert (RE : forall k, k < S (length done) -> nth_error all k = Some (R k)) by (intros k Hk; apply nth_error_nth'; lia).
    destruct (align_tier_ok w (length done) R tr t) as (tr' & E & F1 & F2 & F3 & F4 & F5 & F6).
    + exact Hw.
    + intros k a Hk Ha. apply (HI (R k)); [eapply nth_error_In; apply RE; exact Hk|exact Ha].
    + rewrite RA. apply HI. unfold all. rewrite in_app_iff. right. left. reflexivity.
    + rewrite <- Ln. exact T1.
    + rewrite <- Ln. exact T2.
    + intros k Hk. apply T3. apply RE. exact Hk.
    + apply Ht.
    + rewrite RA. exact HO.
    + destruct HE as [HE|HE]; [left; exact HE|right; inversion HE; assumption].
    + rewrite RA in F6. cbn [align_tiers]. rewrite E. cbn [bind].
      assert (NE : forall k u, nth_error (all ++ [t]) k = Some u -> k < S (length done) /\ nth_error all k = Some u \/ k = S (length done) /\ u = t).
      { intros k u Hk. destruct (Nat.lt_ge_cases k (length all)) as [H|H].
        - rewrite nth_error_app1 in Hk by exact H. left. split; [lia|exact Hk].
        - rewrite nth_error_app2 in Hk by exact H. destruct (k - length all) as [|m] eqn:Em; [|destruct m; discriminate].
          cbn in Hk. right. split; [lia|congruence]. }
      destruct (IH all t tr') as (cols & Ec & Tc).
      * intros u Hu. apply in_app_iff in Hu as [Hu|[<-|[]]]; [apply HI; exact Hu|exact Ht].
      * assert (Lt : length (all ++ [t]) = S (S (length done))) by (rewrite app_length; cbn; lia).
        unfold table. rewrite Lt. split; [exact F1|]. split; [exact F2|]. split.
        -- intros k u Hk. destruct (NE k u Hk) as [[H1 H2]|[-> ->]]; [|exact F4].
           rewrite F3 by exact H1. rewrite RE in H2 by exact H1. congruence.
        -- intros k ab it x p q E1 E2 Hx C. destruct (NE (S k) it E2) as [[H1 H2]|[H1 ->]].
           ++ destruct (NE k ab E1) as [[H3 H4]|[H3 _]]; [|lia].
              apply (shares_below _ _ _ F5 T4 k ab it x p q H4 H2 Hx C).
           ++ destruct (NE k ab E1) as [[H3 H4]|[H3 _]]; [|lia]. inversion H1; subst k.
              rewrite RE, RA in H4 by exact H3. inversion H4; subst ab. apply (F6 x p q Hx C).
      * exact HS.
      * destruct HE as [HE|HE]; [left; exact HE|right; inversion HE; assumption].
      * exists cols. split; [exact Ec|]. rewrite <- app_assoc in Tc. exact Tc.
Qed.

Lemma table_start w first : first <> [] -> table w [first] (map (fun x => [[x]]) first).
Proof.
  intros H. repeat split.
  - apply Forall_map, Forall_forall. intros x _. split; [cbn; lia|]. intros [|[|k]] Hk; [cbn in Hk; lia|reflexivity|reflexivity].
  - destruct first as [|x first]; [congruence|]. cbn. eauto.
  - intros [|k] t E; [|destruct k; discriminate]. inversion E; subst t. clear.
    induction first as [|x l IH]; [reflexivity|]. cbn. f_equal. exact IH.
  - intros k ab it x p q _ E. destruct k; discriminate.
Qed.
Lemma group_ok w first tiers : w <= 1 -> first <> [] -> identified idof first -> ordered_stack idof expr first tiers ->
  (w = 1 \/ Forall (ends_aligned expr) tiers) ->
  exists cols, group_alignments idof expr (first :: tiers) = Ok cols /\ table w (first :: tiers) cols.
Proof.
  intros Hw H1 H2 H3 H4. apply (align_tiers_ok w Hw tiers [] first); auto.
  - intros t [<-|[]]. exact H2.
  - apply table_start. exact H1.
Qed.

(* C39 *)
Theorem group_table first tiers : first <> [] -> identified idof first -> ordered_stack idof expr first tiers ->
  exists cols, group_alignments idof expr (first :: tiers) = Ok cols
    /\ (forall k t, nth_error (first :: tiers) k = Some t -> whole_row k cols = t)
    /\ (forall c, In c cols -> S (length tiers) <= length c <= S (S (length tiers))
          /\ forall k, S (length tiers) <= k -> row k c = [])
    /\ (exists c0 cols', cols = c0 :: cols' /\ length c0 = S (length tiers)).
Proof.
  intros H1 H2 H3. destruct (group_ok 1 first tiers (le_n 1) H1 H2 H3 (or_introl eq_refl)) as (cols & E & T1 & T2 & T3 & _).
  exists cols. split; [exact E|]. split; [exact T3|]. split; [|exact T2].
  intros c Hc. rewrite Forall_forall in T1. destruct (T1 c Hc) as [B1 B2]. cbn [length] in *. split; [lia|exact B2].
Qed.
Theorem group_depth first tiers cols : first <> [] -> identified idof first -> ordered_stack idof expr first tiers ->
  Forall (ends_aligned expr) tiers -> group_alignments idof expr (first :: tiers) = Ok cols ->
  forall c, In c cols -> length c = S (length tiers).
Proof.
  intros H1 H2 H3 H4 E c Hc. destruct (group_ok 0 first tiers (le_S _ _ (le_n 0)) H1 H2 H3 (or_intror H4)) as (cols' & E' & T1 & _).
  rewrite E in E'. inversion E'; subst cols'. rewrite Forall_forall in T1. destruct (T1 c Hc) as [B1 B2]. cbn [length] in *. lia.
Qed.
Theorem group_shares first tiers cols : first <> [] -> identified idof first -> ordered_stack idof expr first tiers ->
  group_alignments idof expr (first :: tiers) = Ok cols ->
  forall k above items x p q, nth_error (first :: tiers) k = Some above -> nth_error (first :: tiers) (S k) = Some items ->
    In x items -> covers idof expr above x p q ->
    exists c, In c cols /\ In x (row (S k) c) /\ forall r y, p <= r <= q -> nth_error above r = Some y -> In y (row k c).
Proof.
  intros H1 H2 H3 E. destruct (group_ok 1 first tiers (le_n 1) H1 H2 H3 (or_introl eq_refl)) as (cols' & E' & _ & _ & _ & T4).
  rewrite E in E'. inversion E'; subst cols'. exact T4.
Qed.
End Stack.
