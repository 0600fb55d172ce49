(* The column table of the LaTeX exporter: the loop over the agenda. *)
From Coq Require Import Lia.
From Verif Require Import PyStr PyStrFacts Ref Model Value Latex SpecLatex LatexTableProofs.

Section Align.
Context {U : Unicode} {A : Type} (idof : A -> option str) (expr : A -> option str).
Notation col := (list (list A)).
Local Arguments row : simpl never.
Local Arguments delayed_col : simpl never.
Local Arguments extended : simpl never.
Local Arguments zip_chain : simpl never.

Lemma rows_same (a b : list col) k : map (row k) a = map (row k) b -> whole_row k a = whole_row k b.
Proof. intros H. unfold whole_row. rewrite !flat_map_concat_map, H. reflexivity. Qed.

(* the first column has no row too many *)
Definition first_ok (d : nat) (P S : list col) : Prop :=
  match P with c :: _ => length c = Datatypes.S d | [] => match S with c :: _ => length c = d | [] => False end end.

Lemma touch_phase w d (P S X : list col) c Z :
  P ++ S = X ++ c :: Z -> length P <= Datatypes.S (length X) ->
  Forall (good w (Datatypes.S d)) P -> Forall (good w d) S -> first_ok d P S ->
  exists X' c', add_rows (length P) (Datatypes.S (length X) - length P) (P ++ S) = Ok (X' ++ c' :: Z)
  /\ length X' = length X /\ Forall (good w (Datatypes.S d)) X' /\ good w (Datatypes.S d) c' /\ Forall (good w d) Z
  /\ (forall k, map (row k) X' = map (row k) X) /\ (forall k, row k c' = row k c)
  /\ below (X ++ [c]) (X' ++ [c'])
  /\ match X' with c0 :: _ => length c0 = Datatypes.S d | [] => length c' = Datatypes.S d end.
Proof.
  intros E L HP HS F. destruct (Nat.le_gt_cases (length P) (length X)) as [H|H].
  - destruct (app_prefix _ _ _ _ E H) as (e & -> & ->).
    exists (P ++ map touched e), (touched c).
    assert (length (e ++ [c]) = Datatypes.S (length (P ++ e)) - length P) as <- by (rewrite !app_length; cbn [length]; lia).
    replace (P ++ e ++ c :: Z) with (P ++ (e ++ [c]) ++ Z) by (rewrite <- app_assoc; reflexivity).
    rewrite add_rows_app, map_app, <- !app_assoc. cbn [map app].
    apply Forall_app in HS as [HS1 HS2]. inversion HS2 as [|? ? HS3 HS4]; subst.
    split; [reflexivity|]. split; [rewrite !app_length, map_length; reflexivity|].
    split; [apply Forall_app; split; [exact HP|apply Forall_touched; exact HS1]|].
    split; [apply good_touched; exact HS3|]. split; [exact HS4|].
    split; [intros k; rewrite !map_app, map_map; f_equal; apply map_ext; intros; apply row_touched|].
    split; [intros k; apply row_touched|].
    split; [apply below_app; [apply below_refl|]; change (map touched e ++ [touched c]) with (map touched e ++ map touched [c]);
            rewrite <- map_app; apply below_touched|].
    destruct P as [|c0 P]; cbn in *; [|exact F]. unfold touched. destruct e as [|c0 e]; cbn in *; rewrite app_length; cbn; lia.
  - assert (length P = Datatypes.S (length X)) as HL by lia.
    replace (X ++ c :: Z) with ((X ++ [c]) ++ Z) in E by (rewrite <- app_assoc; reflexivity).
    destruct (app_prefix P S (X ++ [c]) Z E) as (e & E1 & E2); [rewrite app_length; cbn; lia|].
    assert (e = []) as ->.
    { apply (f_equal (@length _)) in E1. rewrite !app_length in E1. cbn in E1. destruct e; [reflexivity|cbn in E1; lia]. }
    rewrite app_nil_r in E1. cbn in E2. subst P S.
    exists X, c. rewrite HL, Nat.sub_diag. cbn [add_rows]. rewrite <- app_assoc. cbn [app].
    apply Forall_app in HP as [HP1 HP2]. inversion HP2; subst.
    repeat (split; [first [reflexivity|assumption|apply below_refl]|]).
    destruct X; cbn in *; exact F.
Qed.

Record inv (w d' : nat) (R : nat -> list A) (T0 : list col) (placed : list A) (st : state) (P S : list col) : Prop := {
  i_tr : s_tr st = P ++ S;
  i_next : s_next st = length P;
  i_P : Forall (good w (Datatypes.S (Datatypes.S d'))) P;
  i_S : Forall (good w (Datatypes.S d')) S;
  i_rows : forall k, k < Datatypes.S d' -> whole_row k (P ++ S) = R k;
  i_row : whole_row (Datatypes.S d') (P ++ S) = placed;
  i_first : first_ok (Datatypes.S d') P S;
  i_map : s_map st = pairs idof 0 (P ++ S) d';
  i_below : below T0 (P ++ S);
  i_share : forall x p q, In x placed -> covers idof expr (R d') x p q ->
    exists c, In c (P ++ S) /\ In x (row (Datatypes.S d') c)
      /\ forall r y, p <= r <= q -> nth_error (R d') r = Some y -> In y (row d' c) }.

Section Step.
Variables (w d' : nat) (R : nat -> list A) (T0 : list col).
Let d := Datatypes.S d'.
Hypothesis Hw : w <= 1.
Hypothesis HR : forall k a, k < d -> In a (R k) -> idof a <> None.
Hypothesis HN : NoDup (map idof (R d')).

(* in a table with these rows, everything can be displayed and looked up *)
Definition rows_are (placed : list A) (P S : list col) : Prop :=
  Forall (good w (Datatypes.S d)) P /\ Forall (good w d) S
  /\ (forall k, k < d -> whole_row k (P ++ S) = R k) /\ whole_row d (P ++ S) = placed.
Lemma good_nonnil n (c : col) : good w (Datatypes.S n) c -> c <> [].
Proof. intros [H _] ->. cbn in H. lia. Qed.
Lemma rows_display placed P S : (forall a, In a placed -> idof a <> None) -> rows_are placed P S -> display idof (P ++ S) = Ok tt.
Proof.
  intros HI (HP & HS & HK & HD). apply display_ok.
  - intros c H. apply in_app_iff in H as [H|H]; [rewrite Forall_forall in HP; apply (good_nonnil d), HP, H|
      rewrite Forall_forall in HS; apply (good_nonnil d'), HS, H].
  - intros c k a Hc Ha. assert (In a (whole_row k (P ++ S))) as I by (apply in_flat_map; eauto).
    destruct (Nat.lt_trichotomy k d) as [H|[->|H]].
    + rewrite HK in I by exact H. eapply HR; eassumption.
    + rewrite HD in I. apply HI. exact I.
    + exfalso. rewrite whole_row_app, (good_row _ _ _ _ HP), (good_row _ _ _ _ HS) in I by lia. exact I.
Qed.
Lemma rows_map placed P S : rows_are placed P S -> build_idxmap idof (P ++ S) (d - 1) = Ok (pairs idof 0 (P ++ S) d').
Proof.
  intros (HP & HS & _). unfold build_idxmap. subst d. replace (Datatypes.S d' - 1) with d' by lia. apply build_pairs.
  apply Forall_app. split; [eapply Forall_impl; [|exact HP]|eapply Forall_impl; [|exact HS]]; intros c [H _]; lia.
Qed.

(* an agendum without ids is delayed *)
Lemma step_delay placed st P S xs : inv w d' R T0 placed st P S -> (forall a, In a placed -> idof a <> None) ->
  step idof d st ([], xs) = Ok {| s_tr := s_tr st; s_next := s_next st; s_delay := s_delay st ++ [([], xs)]; s_map := s_map st |}.
Proof.
  intros I HI. unfold step. rewrite (i_tr _ _ _ _ _ _ _ _ I), (rows_display placed); [reflexivity|exact HI|].
  destruct I. repeat split; assumption.
Qed.

Lemma last_cons {B} (i : B) is : last (i :: is) i = last is i.
Proof. destruct is; reflexivity. Qed.

(* an agendum with ids: its items are placed at the columns it covers *)
Lemma step_aligned placed st P S pre p q a b i is xs :
  inv w d' R T0 placed st P S ->
  (s_delay st = [] /\ pre = [] \/ s_delay st = [([], pre)] /\ placed = []) ->
  (P = [] \/ exists p0, s_next st = Datatypes.S (col_at (s_tr st) d' p0) /\ p0 <= p) ->
  (forall a, In a placed -> idof a <> None) -> (forall a, In a pre -> idof a <> None) ->
  nth_error (R d') p = Some a -> idof a = Some i ->
  nth_error (R d') q = Some b -> idof b = Some (last is i) -> p <= q ->
  (forall x p' q', In x xs -> covers idof expr (R d') x p' q' -> p' = p /\ q' = q) ->
  (forall x p' q', In x pre -> ~ covers idof expr (R d') x p' q') ->
  exists st' P' S', step idof d st (i :: is, xs) = Ok st'
    /\ inv w d' R T0 (placed ++ pre ++ xs) st' P' S'
    /\ s_delay st' = [] /\ s_next st' = Datatypes.S (col_at (s_tr st') d' p).
Proof.
  intros I HD HP0 HI HIpre Ha Ea Hb Eb Lpq HX Hpre.
  destruct I as [I1 I2 I3 I4 I5 I6 I7 I8 I9 I10].
  assert (HW : whole_row d' (P ++ S) = R d') by (apply I5; lia).
  assert (Rw : rows_are placed P S) by (repeat split; assumption).
  set (j := col_at (P ++ S) d' p). set (e := col_at (P ++ S) d' q).
  assert (Gi : idx_get (s_map st) i = Ok j) by (rewrite I8; apply (idx_get_col idof _ _ p a); rewrite ?HW; assumption).
  assert (Ge : idx_get (s_map st) (last (i :: is) i) = Ok e) by (rewrite last_cons, I8; apply (idx_get_col idof _ _ q b); rewrite ?HW; assumption).
  assert (Hje : j <= e) by (apply col_at_mono; exact Lpq).
  destruct (col_at_split (P ++ S) d' p a) as (X & c & Z & EX & LX & Ia); [rewrite HW; exact Ha|]. fold j in LX.
  destruct (col_at_split (P ++ S) d' q b) as (X2 & c2 & Y & EY & LY & Ib); [rewrite HW; exact Hb|]. fold e in LY.
  (* Z = M ++ Y, M the columns to merge with c *)
  assert (HM : exists M, Z = M ++ Y /\ length M = e - j /\ X2 ++ [c2] = X ++ c :: M).
  { assert (Q : (X ++ [c]) ++ Z = (X2 ++ [c2]) ++ Y) by (rewrite <- !app_assoc; cbn; congruence).
    destruct (app_prefix _ _ _ _ Q) as (M & E1 & E2); [rewrite !app_length; cbn; lia|].
    exists M. split; [exact E2|]. split.
    - apply (f_equal (@length _)) in E1. rewrite !app_length in E1. cbn in E1. lia.
    - rewrite E1, <- app_assoc. reflexivity. }
  destruct HM as (M & -> & LM & EM).
  assert (HPj : length P <= Datatypes.S (length X)).
  { destruct HP0 as [->|(p0 & E0 & L0)]; [cbn; lia|]. rewrite I2, I1 in E0. rewrite E0, LX. apply le_n_S. apply col_at_mono. exact L0. }
  destruct (touch_phase w d P S X c (M ++ Y) EX HPj I3 I4 I7) as (X' & c' & T1 & T2 & T3 & T4 & T5 & T6 & T7 & T8 & T9).
  apply Forall_app in T5 as [HMg HYg].
  assert (RX : forall k, whole_row k X' = whole_row k X) by (intros k; apply rows_same, T6).
  (* the row being filled *)
  assert (HPl : whole_row d X' ++ row d c' = placed).
  { rewrite RX, T7, <- I6, EX, !whole_row_app, whole_row_cons, whole_row_app, (good_row _ _ _ _ HMg), (good_row _ _ _ _ HYg) by lia.
    rewrite !app_nil_r. reflexivity. }
  (* the delayed column *)
  set (D := match s_delay st with [] => [] | _ => [delayed_col d pre] end).
  assert (HDel : add_delayed (X' ++ c' :: M ++ Y) (s_delay st) j d = (X' ++ D ++ c' :: M ++ Y, length D)).
  { subst D. destruct HD as [[-> _]|[-> _]]; cbn [add_delayed]; [reflexivity|]. rewrite (insert_app X') by lia. reflexivity. }
  assert (HDg : Forall (good w (Datatypes.S d)) D).
  { subst D. destruct (s_delay st); [constructor|]. constructor; [apply good_delayed|constructor]. }
  assert (HDr : forall k, k < d -> whole_row k D = []).
  { intros k Hk. subst D. destruct (s_delay st); [reflexivity|]. cbn. rewrite row_delayed.
    destruct (Nat.eqb_spec k d); [lia|reflexivity]. }
  assert (HDd : whole_row d X' ++ whole_row d D ++ row d c' = placed ++ pre).
  { subst D. destruct HD as [[-> ->]|[-> Ep]].
    - cbn. rewrite app_nil_r. exact HPl.
    - rewrite Ep in *. apply app_eq_nil in HPl as [-> ->]. cbn. rewrite row_delayed, Nat.eqb_refl, !app_nil_r. reflexivity. }
  assert (HIpp : forall a, In a (placed ++ pre) -> idof a <> None)
    by (intros z Hz; apply in_app_iff in Hz as [Hz|Hz]; auto).
  set (P2 := X' ++ D ++ [c']).
  assert (E2 : X' ++ D ++ c' :: M ++ Y = P2 ++ M ++ Y) by (subst P2; rewrite <- !app_assoc; reflexivity).
  assert (Rw2 : rows_are (placed ++ pre) P2 (M ++ Y)).
  { split; [subst P2; repeat (apply Forall_app; split); auto|]. split; [apply Forall_app; auto|]. split.
    - intros k Hk. subst P2. rewrite !whole_row_app, whole_row_cons, RX, T7, (HDr k Hk), <- (I5 k Hk), EX, !whole_row_app, whole_row_cons, whole_row_app.
      cbn. rewrite app_nil_r, <- !app_assoc. reflexivity.
    - subst P2. rewrite !whole_row_app, whole_row_cons, (good_row _ _ _ _ HMg), (good_row _ _ _ _ HYg) by lia.
      cbn. rewrite !app_nil_r. exact HDd. }
  (* the merged column *)
  set (c3 := match M with [] => c' | _ => zip_chain (c' :: M) end).
  assert (G3 : good w (Datatypes.S d) c3).
  { subst c3. destruct M; [exact T4|]. apply good_zip; assumption. }
  assert (R3 : forall k, row k c3 = row k c' ++ whole_row k M).
  { intros k. subst c3. destruct M; [cbn; rewrite app_nil_r; reflexivity|]. rewrite row_zip. reflexivity. }
  set (P3 := X' ++ D ++ [c3]).
  assert (Rw3 : rows_are (placed ++ pre) P3 Y).
  { destruct Rw2 as (_ & _ & Q1 & Q2).
    split; [subst P3; repeat (apply Forall_app; split); auto|]. split; [exact HYg|]. split.
    - intros k Hk. rewrite <- (Q1 k Hk). subst P2 P3. rewrite !whole_row_app, !whole_row_cons, R3. cbn. rewrite !app_nil_r, <- !app_assoc. reflexivity.
    - rewrite <- Q2. subst P2 P3. rewrite !whole_row_app, !whole_row_cons, R3. cbn. rewrite !app_nil_r, <- !app_assoc. reflexivity. }
  assert (L3 : d < length c3) by (destruct G3; lia).
  set (c4 := extended d xs c3). set (P4 := X' ++ D ++ [c4]).
  (* the program does just that *)
  assert (Run : step idof d st (i :: is, xs)
    = Ok {| s_tr := P4 ++ Y; s_next := length P4; s_delay := []; s_map := pairs idof 0 (P4 ++ Y) d' |}).
  { assert (MP : forall u v, map (row d') u = map (row d') v -> pairs idof 0 u d' = pairs idof 0 v d').
    { intros u v. generalize 0. revert v. induction u as [|u0 u IHu]; intros [|v0 v] n E; try discriminate; [reflexivity|].
      cbn in E |- *. inversion E as [[E0 E0']]. rewrite (IHu v (Datatypes.S n) E0'), E0. reflexivity. }
    unfold step. rewrite I1, (rows_display placed P S HI Rw). cbn [bind].
    rewrite Gi. cbn [bind]. rewrite Ge. cbn [bind]. rewrite I2, <- LX, T1. cbn [bind]. rewrite LX, HDel.
    set (next1 := Nat.max (length P) (Datatypes.S j)). assert (N1 : next1 = Datatypes.S (length X')) by (subst next1; rewrite T2, LX; lia).
    assert (Em2 : match s_delay st with [] => Ok (s_map st) | _ :: _ => build_idxmap idof (X' ++ D ++ c' :: M ++ Y) (d - 1) end
      = Ok (pairs idof 0 (P2 ++ M ++ Y) d')).
    { destruct (s_delay st) eqn:Ed.
      - rewrite I8. f_equal. apply MP. rewrite EX. subst P2 D. cbn. rewrite !map_app. cbn. rewrite T6.
        rewrite <- app_assoc. cbn. rewrite T7, map_app. reflexivity.
      - rewrite E2. apply (rows_map (placed ++ pre)). exact Rw2. }
    rewrite Em2. cbn [bind].
    assert (Em3 : (if j + length D =? e + length D then Ok (X' ++ D ++ c' :: M ++ Y, pairs idof 0 (P2 ++ M ++ Y) d')
         else do m3 <- build_idxmap idof (merge_columns (X' ++ D ++ c' :: M ++ Y) (j + length D) (Datatypes.S (e + length D))) (d - 1);
              do _ <- display idof (merge_columns (X' ++ D ++ c' :: M ++ Y) (j + length D) (Datatypes.S (e + length D)));
              Ok (merge_columns (X' ++ D ++ c' :: M ++ Y) (j + length D) (Datatypes.S (e + length D)), m3))
       = Ok (P3 ++ Y, pairs idof 0 (P3 ++ Y) d')).
    { destruct (Nat.eqb_spec (j + length D) (e + length D)) as [Eje|Nje].
      - assert (M = []) as EM0 by (destruct M; [reflexivity|cbn in LM; lia]).
        assert (P3 ++ Y = P2 ++ M ++ Y) as -> by (subst P3 P2 c3; rewrite EM0; reflexivity). rewrite E2. reflexivity.
      - assert (EM3 : merge_columns (X' ++ D ++ c' :: M ++ Y) (j + length D) (Datatypes.S (e + length D)) = P3 ++ Y).
        { replace (X' ++ D ++ c' :: M ++ Y) with ((X' ++ D) ++ (c' :: M) ++ Y) by (rewrite <- !app_assoc; reflexivity).
          rewrite merge_app; [|rewrite app_length; lia|rewrite app_length; cbn; lia].
          subst P3 c3. destruct M; [cbn in LM; lia|]. rewrite <- !app_assoc. reflexivity. }
        rewrite EM3. rewrite (rows_map (placed ++ pre) P3 Y Rw3). cbn [bind].
        rewrite (rows_display (placed ++ pre) P3 Y HIpp Rw3). reflexivity. }
    cbv zeta. match goal with |- bind ?r _ = _ => assert (Er : r = Ok (P3 ++ Y, pairs idof 0 (P3 ++ Y) d')) by exact Em3; rewrite Er end. cbn [bind].
    assert (EC : extend_cell (P3 ++ Y) (next1 + length D - 1) d xs = Ok (P4 ++ Y)).
    { unfold extend_cell. replace (next1 + length D - 1) with (length (X' ++ D)) by (rewrite app_length; lia).
      replace (P3 ++ Y) with ((X' ++ D) ++ c3 :: Y) by (subst P3; rewrite <- !app_assoc; reflexivity).
      rewrite (update_app _ (X' ++ D) c3 c4); [|apply update_extended; exact L3].
      subst P4. rewrite <- !app_assoc. reflexivity. }
    rewrite EC. cbn [bind]. f_equal. 
    assert (LN : next1 + length D = length P4) by (subst P4; rewrite !app_length; cbn; lia). rewrite LN. f_equal.
    apply MP. subst P3 P4 c4. rewrite !map_app. cbn [map]. rewrite row_extended by exact L3.
    destruct (Nat.eqb_spec d' d) as [E|_]; [unfold d in E; lia|]. reflexivity. }
  assert (Rd4 : forall k, k <> d -> row k c4 = row k c3).
  { intros k Hk. subst c4. rewrite row_extended by exact L3. destruct (Nat.eqb_spec k d); [contradiction|reflexivity]. }
  assert (Rd : row d c4 = row d c3 ++ xs) by (subst c4; rewrite row_extended, Nat.eqb_refl by exact L3; reflexivity).
  assert (B23 : below (P ++ S) (P4 ++ Y)).
  { rewrite EX. replace (X ++ c :: M ++ Y) with ((X ++ [c]) ++ M ++ Y) by (rewrite <- app_assoc; reflexivity).
    eapply below_trans; [apply below_app; [exact T8|apply below_refl]|].
    assert (B3 : below (X' ++ [c'] ++ M) (X' ++ [c3])).
    { apply below_app; [apply below_refl|]. intros z Hz. exists c3. split; [left; reflexivity|]. intros k x Hx. rewrite R3, in_app_iff.
      destruct Hz as [<-|Hz]; [left; exact Hx|right]. apply in_flat_map. eauto. }
    rewrite <- app_assoc, (app_assoc [c'] M Y), (app_assoc X' _ Y). subst P4. apply below_app; [|apply below_refl].
    eapply below_trans; [exact B3|]. apply below_app; [apply below_refl|]. apply below_more. apply below_extended. exact L3. }
  exists {| s_tr := P4 ++ Y; s_next := length P4; s_delay := []; s_map := pairs idof 0 (P4 ++ Y) d' |}, P4, Y.
  split; [exact Run|]. split.
  - destruct Rw3 as (Q1 & Q2 & Q3 & Q4). constructor; cbn [s_tr s_next s_delay s_map]; try reflexivity.
    + subst P4. apply Forall_app; split; [exact T3|]. apply Forall_app; split; [exact HDg|]. constructor; [|constructor].
      apply good_extended. exact G3.
    + exact HYg.
    + intros k Hk. rewrite <- (Q3 k Hk). subst P4 P3. rewrite !whole_row_app, !whole_row_cons, Rd4 by (unfold d; lia). reflexivity.
    + change (Datatypes.S d') with d. rewrite app_assoc, <- Q4. subst P4 P3. rewrite !whole_row_app, !whole_row_cons, Rd.
      rewrite (good_row _ _ _ _ HYg) by lia. cbn. rewrite !app_nil_r, <- !app_assoc. reflexivity.
    + subst P4. unfold first_ok. destruct X' as [|x0 X']; cbn; [|exact T9].
      subst D. destruct (s_delay st); cbn; [|apply length_delayed].
      subst c4. rewrite length_extended by exact L3. subst c3. destruct M as [|m M]; [exact T9|].
      rewrite length_zip. cbn [map]. rewrite list_max_cons. pose proof (list_max_bound _ _ _ HMg) as B.
      cbn [map] in B. lia.
    + eapply below_trans; eassumption.
    + intros x p' q' Hx Hc. rewrite !in_app_iff in Hx. destruct Hx as [Hx|[Hx|Hx]].
      * destruct (I10 x p' q' Hx Hc) as (z & Hz & Iz & Sz). destruct (B23 z Hz) as (z' & Hz' & Inc). exists z'.
        split; [exact Hz'|]. split; [apply Inc; exact Iz|]. intros r y Hr Hy. apply Inc. eapply Sz; eassumption.
      * exfalso. eapply Hpre; eassumption.
      * destruct (HX x p' q' Hx Hc) as [-> ->]. exists c4. split; [subst P4; rewrite !in_app_iff; cbn; auto|].
        split; [change (Datatypes.S d') with d; rewrite Rd, in_app_iff; auto|].
        intros r y Hr Hy. rewrite Rd4 by (unfold d; lia). rewrite R3, T7.
        (* y lies in a column between c and c2 *)
        destruct (col_at_split (P ++ S) d' r y) as (X5 & c5 & Y5 & E5 & L5 & I5'); [rewrite HW; exact Hy|].
        assert (B5 : j <= length X5 <= e) by (rewrite L5; split; apply col_at_mono; lia).
        assert (I6' : In c5 (c :: M)).
        { rewrite EX in E5. destruct (app_prefix X _ X5 _ E5) as (F & -> & E6); [lia|].
          replace (F ++ c5 :: Y5) with ((F ++ [c5]) ++ Y5) in E6 by (rewrite <- app_assoc; reflexivity).
          destruct (app_prefix (F ++ [c5]) Y5 (c :: M) Y) as (F' & -> & _).
          - symmetry. exact E6.
          - rewrite app_length in *. cbn [length] in *. lia.
          - rewrite !in_app_iff. left. right. left. reflexivity. }
        rewrite in_app_iff. destruct I6' as [->|I6']; [left; exact I5'|right]. apply in_flat_map. eauto.
  - split; [reflexivity|]. cbn [s_next s_tr].
    assert (HW4 : whole_row d' (P4 ++ Y) = R d').
    { destruct Rw3 as (_ & _ & Q3 & _). rewrite <- (Q3 d') by (unfold d; lia). subst P4 P3.
      rewrite !whole_row_app, !whole_row_cons, Rd4 by (unfold d; lia). reflexivity. }
    rewrite (col_at_unique (P4 ++ Y) d' (X' ++ D) c4 Y p a).
    + subst P4. rewrite !app_length. cbn. lia.
    + rewrite HW4. apply (NoDup_map_inv idof). exact HN.
    + rewrite HW4. exact Ha.
    + subst P4. rewrite <- !app_assoc. reflexivity.
    + rewrite Rd4 by (unfold d; lia). rewrite R3, T7, in_app_iff. left. exact Ia.
Qed.
End Step.
End Align.
