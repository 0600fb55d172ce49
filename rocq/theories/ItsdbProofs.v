(* Proofs about the [incr tsdb()] exporter. *)
From Verif Require Import PyStr PyStrFacts Model Value SpecValue Itsdb SpecItsdb.
From Coq Require Import Lia.

Section Rows.
Context {V : Type} (ev : str -> igt -> res V).

Lemma rev_given cells e : last_expression cells e -> exists k r, rev (given cells) = (k, Text e) :: r.
Proof.
  intros (a & k & ->). unfold given. rewrite map_app. cbn [map fst snd]. rewrite rev_app_distr. cbn [rev app]. eauto.
Qed.
Lemma prepared c cells e : cf_cells c = Some (given cells) -> last_expression cells e ->
  prepare_config c = {| cf_start := Some (or_else (cf_start c) 0%Z); cf_skip := Some (or_else (cf_skip c) 10%Z);
                        cf_cells := Some (map (fun kv => (fst kv, Closure (Text e))) cells) |}.
Proof.
  intros Hc He. unfold prepare_config. rewrite Hc. cbn [or_else]. destruct (rev_given cells e He) as (k & r & ->).
  f_equal. f_equal. unfold given. now rewrite map_map.
Qed.

Lemma cells_of_spec e g cells : forall row r,
  cells_of ev (map (fun kv : str * str => (fst kv, Closure (Text e))) cells) g row = Ok r ->
  (forall k, In k (map fst cells) -> exists v, ev e g = Ok v /\ dget r k = Some (Value v))
  /\ (forall k, ~ In k (map fst cells) -> dget r k = dget row k).
Proof.
  induction cells as [|[k0 e0] cells IH]; intros row r E; cbn [map fst cells_of call] in *.
  - assert (row = r) as <- by congruence. now split.
  - destruct (ev e g) as [v|] eqn:Ev; [|discriminate]. cbn [bind] in E. apply IH in E as [H1 H2]. split.
    + intros k Hk. exists v. split; [easy|]. destruct (in_dec (list_eq_dec N.eq_dec) k (map fst cells)) as [Hin|Hn].
      * destruct (H1 k Hin) as (v' & Hv & Hd). congruence.
      * rewrite H2 by easy. destruct Hk as [->|Hk]; [|easy]. unfold dget, dset. rewrite (dget_dset str_eqb str_eqb_spec).
        now destruct (str_eqb_spec k k).
    + intros k Hk. rewrite H2 by (intros H; apply Hk; now right). unfold dget, dset. rewrite (dget_dset str_eqb str_eqb_spec).
      destruct (str_eqb_spec k k0) as [->|]; [|easy]. exfalso. apply Hk. now left.
Qed.
Lemma cells_of_total e g v cells : ev e g = Ok v -> forall row,
  exists r, cells_of ev (map (fun kv : str * str => (fst kv, Closure (Text e))) cells) g row = Ok r.
Proof.
  intros Ev. induction cells as [|[k0 e0] cells IH]; intros row; cbn [map fst cells_of call]; [eauto|]. rewrite Ev. cbn [bind]. apply IH.
Qed.

Lemma from_nth c gs : forall i rows, export_from ev i gs c = Ok rows ->
  length rows = length gs
  /\ forall n g, nth_error gs n = Some g -> exists row, nth_error rows n = Some row
       /\ export_igt ev g (or_else (cf_start c) 0 + Z.of_nat (i + n) * or_else (cf_skip c) 0)%Z c = Ok row.
Proof.
  induction gs as [|g gs IH]; intros i rows E; cbn [export_from] in E.
  - assert (rows = []) as -> by congruence. split; [easy|]. intros [|n] g; discriminate.
  - destruct (export_igt ev g _ c) as [x|] eqn:Ex; [|discriminate]. cbn [bind] in E.
    destruct (export_from ev (S i) gs c) as [l|] eqn:El; [|discriminate]. cbn [bind] in E. assert (rows = x :: l) as -> by congruence.
    apply IH in El as [Hl Hn]. split; [cbn [length]; now rewrite Hl|]. intros [|n] g' Hg.
    + cbn [nth_error] in *. exists x. split; [easy|]. rewrite Nat.add_0_r. congruence.
    + cbn [nth_error] in *. destruct (Hn n g' Hg) as (row & H1 & H2). exists row. split; [easy|]. now rewrite <- Nat.add_succ_comm.
Qed.
Lemma from_total c gs : (forall g z, In g gs -> exists r, export_igt ev g z c = Ok r) -> forall i, exists rows, export_from ev i gs c = Ok rows.
Proof.
  induction gs as [|g gs IH]; intros H i; cbn [export_from]; [eauto|].
  destruct (H g (or_else (cf_start c) 0 + Z.of_nat i * or_else (cf_skip c) 0)%Z (or_introl eq_refl)) as (x & ->). cbn [bind].
  destruct (IH (fun g' z Hg => H g' z (or_intror Hg)) (S i)) as (l & ->). cbn [bind]. eauto.
Qed.

Lemma export_rows c gs c' rows : xigt_export ev true gs c = Ok (c', Some rows) ->
  c' = prepare_config c /\ export_corpus ev gs (prepare_config c) = Ok rows.
Proof.
  unfold xigt_export. destruct (export_corpus ev gs (prepare_config c)) as [l|]; cbn [bind]; [|discriminate].
  intros E. split; congruence.
Qed.
Lemma keys_prepared c cells : cf_cells c = Some (given cells) -> exists e,
  cf_cells (prepare_config c) = Some (map (fun kv => (fst kv, Closure (Text e))) cells)
  /\ (cells <> [] -> last_expression cells e).
Proof.
  intros Hc. destruct cells as [|p cells _] using rev_ind.
  - exists []. unfold prepare_config. rewrite Hc. split; [reflexivity|easy].
  - destruct p as [k e]. exists e. assert (He : last_expression (cells ++ [(k, e)]) e) by (now exists cells, k).
    rewrite (prepared c _ e Hc He). split; [reflexivity|easy].
Qed.

(* rows are numbered *)
Theorem rows_numbered c cells gs c' rows : cf_cells c = Some (given cells) -> ~ In (L "i-id") (map fst cells) ->
  xigt_export ev true gs c = Ok (c', Some rows) ->
  length rows = length gs
  /\ forall n row, nth_error rows n = Some row ->
       dget row (L "i-id") = Some (Number (or_else (cf_start c) 0 + Z.of_nat n * or_else (cf_skip c) 10)%Z)
       /\ forall k, dget row k <> None <-> k = L "i-id" \/ In k (map fst cells).
Proof.
  intros Hc Hk E. apply export_rows in E as [_ E]. apply from_nth in E as [Hl Hn]. split; [easy|]. intros n row Hr.
  destruct (nth_error gs n) as [g|] eqn:Hg.
  2:{ apply nth_error_None in Hg. assert (n < length rows) by (apply nth_error_Some; congruence). lia. }
  destruct (Hn n g Hg) as (row' & Hr' & Er). assert (row' = row) as -> by congruence. cbn [Nat.add] in Er.
  destruct (keys_prepared c cells Hc) as (e & Hp & _). unfold export_igt in Er. rewrite Hp in Er. cbn [or_else] in Er.
  apply cells_of_spec in Er as [H1 H2]. split.
  - rewrite H2 by easy. unfold prepare_config. cbn [cf_start cf_skip or_else dget dget_]. unfold dget, dget_. cbn. reflexivity.
  - intros k. destruct (in_dec (list_eq_dec N.eq_dec) k (map fst cells)) as [Hin|Hni].
    + split; [now right|]. intros _. destruct (H1 k Hin) as (v & _ & ->). easy.
    + rewrite H2 by easy. unfold dget, dget_. fold (str_eqb k (L "i-id")). destruct (str_eqb_spec k (L "i-id")) as [->|Hne].
      * split; [now left|easy].
      * split; [easy|]. intros [->|H]; easy.
Qed.

(* every cell is the value of the last expression *)
Theorem cells_last c cells e gs c' rows : cf_cells c = Some (given cells) -> last_expression cells e ->
  xigt_export ev true gs c = Ok (c', Some rows) ->
  forall n g row k, nth_error gs n = Some g -> nth_error rows n = Some row -> In k (map fst cells) ->
    exists v, ev e g = Ok v /\ dget row k = Some (Value v).
Proof.
  intros Hc He E n g row k Hg Hr Hk. apply export_rows in E as [_ E]. apply from_nth in E as [Hl Hn].
  destruct (Hn n g Hg) as (row' & Hr' & Er). assert (row' = row) as -> by congruence.
  unfold export_igt in Er. rewrite (prepared c cells e Hc He) in Er. cbn [cf_cells or_else] in Er.
  apply cells_of_spec in Er as [H1 _]. now apply H1.
Qed.
(* so each has its own if they are all the same *)
Theorem cells_same c cells gs c' rows : cf_cells c = Some (given cells) ->
  (forall k e k' e', In (k, e) cells -> In (k', e') cells -> e = e') ->
  xigt_export ev true gs c = Ok (c', Some rows) ->
  forall n g row k e, nth_error gs n = Some g -> nth_error rows n = Some row -> expression_of cells k e ->
    exists v, ev e g = Ok v /\ dget row k = Some (Value v).
Proof.
  intros Hc Hs E n g row k e Hg Hr (a & b & Ec & _).
  destruct cells as [|p cells _] using rev_ind; [now destruct a|]. destruct p as [k1 e1].
  assert (e = e1) as ->. { apply (Hs k e k1 e1); [rewrite Ec; apply in_elt|apply in_elt]. }
  apply (cells_last c (cells ++ [(k1, e1)]) e1 gs c' rows Hc) with (n := n); auto.
  - now exists cells, k1.
  - rewrite Ec, map_app. apply in_elt.
Qed.
(* it succeeds exactly if the last expression does *)
Theorem export_total c cells e gs : cf_cells c = Some (given cells) -> last_expression cells e ->
  (exists c' rows, xigt_export ev true gs c = Ok (c', Some rows)) <-> forall g, In g gs -> exists v, ev e g = Ok v.
Proof.
  intros Hc He. split.
  - intros (c' & rows & E) g Hg. apply In_nth_error in Hg as [n Hg]. pose proof (cells_last c cells e gs c' rows Hc He E) as H.
    apply export_rows in E as [_ E]. apply from_nth in E as [Hl Hn]. destruct (Hn n g Hg) as (row & Hr & _).
    destruct He as (a & k & ->). destruct (H n g row k Hg Hr) as (v & Hv & _); [rewrite map_app; apply in_elt|eauto].
  - intros H. unfold xigt_export. destruct (from_total (prepare_config c) gs) with (i := 0) as (rows & Er).
    + intros g z Hg. destruct (H g Hg) as (v & Hv). unfold export_igt. rewrite (prepared c cells e Hc He). cbn [cf_cells or_else].
      now apply cells_of_total with (v := v).
    + unfold export_corpus. rewrite Er. cbn [bind]. eauto.
Qed.
(* a configuration that was used cannot be used again *)
Lemma default_input_eq : default_input = default_expression.
Proof. vm_compute. reflexivity. Qed.
Theorem default_cell c gs c' rows : cf_cells c = None -> xigt_export ev true gs c = Ok (c', Some rows) ->
  forall n g row, nth_error gs n = Some g -> nth_error rows n = Some row ->
    exists v, ev default_expression g = Ok v
      /\ row = [(L "i-id", Number (or_else (cf_start c) 0 + Z.of_nat n * or_else (cf_skip c) 10)%Z); (L "i-input", Value v)].
Proof.
  intros Hc E n g row Hg Hr. apply export_rows in E as [_ E]. unfold export_corpus in E. apply from_nth in E as [_ E].
  destruct (E n g Hg) as (row' & Hr' & Ex). rewrite Hr in Hr'. injection Hr' as <-. unfold export_igt, prepare_config in Ex. rewrite Hc in Ex.
  cbn [or_else cf_cells cf_start cf_skip default_cells rev app map fst cells_of call Nat.add] in Ex. rewrite default_input_eq in Ex.
  destruct (ev default_expression g) as [v|]; [|easy]. cbn [bind] in Ex. exists v. split; [easy|]. injection Ex as <-. reflexivity.
Qed.

Theorem export_again c cells gs : cf_cells c = Some (given cells) -> cells <> [] -> gs <> [] ->
  xigt_export ev true gs (prepare_config c) = Err TypeError.
Proof.
  intros Hc Hn Hg. destruct (keys_prepared c cells Hc) as (e & Hp & _). unfold xigt_export.
  destruct gs as [|g gs]; [easy|]. unfold export_corpus. cbn [export_from]. unfold export_igt at 1.
  assert (exists m, cf_cells (prepare_config (prepare_config c)) = Some (map (fun kv => (fst kv, Closure (Closure m))) cells)) as (m & ->).
  { unfold prepare_config at 1. rewrite Hp. cbn [or_else cf_cells]. rewrite <- map_rev.
    destruct (rev cells) as [|p r] eqn:Er; [exfalso; apply Hn; apply (f_equal (@rev _)) in Er; now rewrite rev_involutive in Er|].
    cbn [map]. exists (Text e). rewrite map_map. reflexivity. }
  cbn [or_else]. destruct cells as [|[k x] cells]; [easy|]. reflexivity.
Qed.
End Rows.

(* ---------- the default cell ---------- *)

Section Default.
Context {U : Unicode}.

Lemma first_tier_some ty g t : first_tier ty g = Some t <-> first_of_type g ty t.
Proof.
  unfold first_tier, first_of_type. induction (g_tiers g) as [|x l IH]; cbn [find].
  - split; [discriminate|]. intros (a & b & E & _). now destruct a.
  - assert (Hx : (match a_type (t_attrs x) with Some y => str_eqb y ty | None => false end) = true <-> a_type (t_attrs x) = Some ty).
    { destruct (a_type (t_attrs x)) as [y|]; [|easy]. destruct (str_eqb_spec y ty) as [->|Hn]; [easy|]. split; [easy|congruence]. }
    destruct (match a_type (t_attrs x) with Some y => str_eqb y ty | None => false end).
    + split.
      * intros E. assert (x = t) as <- by congruence. exists [], l. repeat split; [now apply Hx|easy].
      * intros (a & b & E & Ht & Ha). destruct a as [|y a]; cbn [app] in E; [congruence|].
        assert (x = y) as <- by congruence. exfalso. apply (Ha x (or_introl eq_refl)). now apply Hx.
    + assert (Hn : a_type (t_attrs x) <> Some ty) by (intros H; apply Hx in H; discriminate). rewrite IH. split.
      * intros (a & b & E & Ht & Ha). exists (x :: a), b. rewrite E. repeat split; [easy|]. intros t' [<-|H]; auto.
      * intros (a & b & E & Ht & Ha). destruct a as [|y a]; cbn [app] in E; [congruence|].
        exists a, b. split; [congruence|]. split; [easy|]. intros t' H. apply Ha. now right.
Qed.
Lemma first_tier_none ty g : first_tier ty g = None <-> none_of_type g ty.
Proof.
  unfold none_of_type. split.
  - intros E t Ht Hy. unfold first_tier in E. apply (find_none _ _ E) in Ht. rewrite Hy in Ht. now destruct (str_eqb_spec ty ty).
  - intros H. destruct (first_tier ty g) as [t|] eqn:E; [|easy]. apply first_tier_some in E as (a & b & E & Hy & _).
    exfalso. apply (H t); [rewrite E; apply in_elt|easy].
Qed.

(* with a phrase: the item itself, whatever its text *)
Theorem default_phrase fuel g t i l : first_of_type g (L "phrases") t -> t_items t = i :: l -> default_value fuel g = Ok (Phrase i).
Proof. intros Ht Hi. apply first_tier_some in Ht. unfold default_value. now rewrite Ht, Hi. Qed.
Theorem default_no_phrase fuel g t : first_of_type g (L "phrases") t -> t_items t = [] -> default_value fuel g = Err IndexError.
Proof. intros Ht Hi. apply first_tier_some in Ht. unfold default_value. now rewrite Ht, Hi. Qed.

Lemma words_mapM g t l : forall ws, Forall2 (fun i w => evaluates g t i (Ok (Some w))) l ws ->
  exists n, forall m, n <= m -> mapM (word_text m g t) l = Ok ws.
Proof.
  induction l as [|i l IH]; intros ws H; inversion H as [|i' w l' ws' H1 H2]; subst.
  - exists 0. reflexivity.
  - destruct H1 as (_ & n1 & H1). destruct (IH ws' H2) as (n2 & H3). exists (max n1 n2). intros m Hm. cbn [mapM]. unfold word_text at 1.
    change value_refattrs with [L "content"; L "segmentation"]. rewrite H1 by lia. cbn [bind]. rewrite H3 by lia. reflexivity.
Qed.
(* without: the words of the first words tier, one space between *)
Theorem default_words g t ws : none_of_type g (L "phrases") -> first_of_type g (L "words") t ->
  Forall2 (fun i w => evaluates g t i (Ok (Some w))) (t_items t) ws ->
  exists n, forall m, n <= m -> default_value m g = Ok (Joined (join (L " ") ws)).
Proof.
  intros Hp Ht H. apply first_tier_none in Hp. apply first_tier_some in Ht. destruct (words_mapM g t (t_items t) ws H) as (n & Hn).
  exists n. intros m Hm. unfold default_value. rewrite Hp, Ht, Hn by easy. reflexivity.
Qed.
Theorem default_neither fuel g : none_of_type g (L "phrases") -> none_of_type g (L "words") -> default_value fuel g = Ok (Joined []).
Proof. intros H1 H2. apply first_tier_none in H1, H2. unfold default_value. now rewrite H1, H2. Qed.
End Default.
