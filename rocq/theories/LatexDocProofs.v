From Verif Require Import PyStr PyStrFacts Ref Model Value Latex SpecLatex SpecLatexDoc.

Section D.
Context {U : Unicode} (lower : str -> str) (isub tsub : str -> str -> res str) (fuel : nat) (types : list str).
Notation block := (export_igt lower isub tsub fuel types).
Notation corpus := (export_corpus lower isub tsub fuel types).
Notation file := (export_file lower isub tsub fuel types).

Lemma unlines_app a b : unlines (a ++ b) = unlines a ++ unlines b.
Proof. apply flat_map_app. Qed.
Lemma corpus_spec gs : forall t e, corpus gs = (t, e) ->
  match e with
  | None => exists bs, Forall2 (fun g b => block g = Ok b) gs bs /\ t = unlines (spaced bs ++ closing)
  | Some e => exists gs1 g gs2 bs, gs = gs1 ++ g :: gs2 /\ Forall2 (fun g b => block g = Ok b) gs1 bs /\ block g = Err e /\ t = unlines (spaced bs)
  end.
Proof.
  induction gs as [|g gs IH]; intros t e H; cbn [export_corpus] in H.
  - injection H as <- <-. exists []. split; [constructor|reflexivity].
  - destruct (block g) as [s|x] eqn:E.
    + destruct (corpus gs) as [r e'] eqn:Ec. injection H as <- <-. specialize (IH _ _ eq_refl). destruct e' as [e'|].
      * destruct IH as (gs1 & g' & gs2 & bs & -> & F & Hg & ->). exists (g :: gs1), g', gs2, (s :: bs). split; [reflexivity|].
        split; [now constructor|]. split; [exact Hg|]. cbn. unfold newline. now rewrite <- !app_assoc.
      * destruct IH as (bs & F & ->). exists (s :: bs). split; [now constructor|]. cbn. unfold newline. now rewrite <- !app_assoc.
    + injection H as <- <-. exists [], g, gs, []. split; [reflexivity|]. split; [constructor|]. split; [exact E|reflexivity].
Qed.
Lemma blocks_fun gs a b : Forall2 (fun g b => block g = Ok b) gs a -> Forall2 (fun g b => block g = Ok b) gs b -> a = b.
Proof. intros H. revert b. induction H; intros b' K; inversion K; subst; [reflexivity|]. f_equal; [congruence|auto]. Qed.
Lemma header_eq : header ++ newline = unlines opening.
Proof. reflexivity. Qed.

Theorem document gs text : file gs = (text, None) <->
  exists bs, Forall2 (fun g b => block g = Ok b) gs bs /\ text = unlines (opening ++ spaced bs ++ closing).
Proof.
  unfold export_file. destruct (corpus gs) as [r e] eqn:E. rewrite app_assoc, header_eq. assert (Q := corpus_spec _ _ _ E). split.
  - intros [= <- ->]. destruct Q as (bs & F & ->). exists bs. split; [exact F|]. now rewrite !unlines_app.
  - intros (bs & F & ->). destruct e as [e|].
    + exfalso. destruct Q as (gs1 & g & gs2 & bs' & -> & _ & Hg & _). apply Forall2_app_inv_l in F as (l1 & l2 & _ & F2 & _).
      inversion F2; subst. congruence.
    + destruct Q as (bs' & F' & ->). rewrite (blocks_fun _ _ _ F F'). now rewrite !unlines_app.
Qed.
Theorem stops gs text e : file gs = (text, Some e) <->
  exists gs1 g gs2 bs, gs = gs1 ++ g :: gs2 /\ Forall2 (fun g b => block g = Ok b) gs1 bs /\ block g = Err e
    /\ text = unlines (opening ++ spaced bs).
Proof.
  unfold export_file. destruct (corpus gs) as [r e'] eqn:E. rewrite app_assoc, header_eq. assert (Q := corpus_spec _ _ _ E). split.
  - intros [= <- ->]. destruct Q as (gs1 & g & gs2 & bs & -> & F & Hg & ->). exists gs1, g, gs2, bs. rewrite unlines_app. auto.
  - intros (gs1 & g & gs2 & bs & -> & F & Hg & ->). clear Q.
    assert (G : forall bs, Forall2 (fun g b => block g = Ok b) gs1 bs -> corpus (gs1 ++ g :: gs2) = (unlines (spaced bs), Some e)).
    { clear - Hg. induction gs1 as [|g1 gs1 IH]; intros bs F; inversion F; subst; cbn [app export_corpus].
      - now rewrite Hg.
      - match goal with H : block g1 = Ok _ |- _ => rewrite H end. erewrite IH by eassumption. cbn. unfold newline. now rewrite <- !app_assoc. }
    rewrite (G bs F) in E. injection E as <- <-. now rewrite unlines_app.
Qed.

Lemma chosen_iff t : chosen lower types t = true <-> of_type lower types t.
Proof.
  unfold chosen, of_type. destruct (a_type (t_attrs t)) as [ty|]; [|split; [discriminate|intros (ty & [=] & _)]].
  rewrite existsb_exists. split.
  - intros (x & Hx & E). apply str_eqb_eq in E as <-. eauto.
  - intros (ty' & [= <-] & H). exists (lower ty). split; [exact H|]. now apply str_eqb_eq.
Qed.
Lemma two_filter l : two_of (of_type lower types) l <-> (length (filter (chosen lower types) l) <? 2) = false.
Proof.
  rewrite Nat.ltb_ge. split.
  - intros (a & x & b & y & c & -> & Hx & Hy). apply chosen_iff in Hx, Hy. rewrite filter_app. cbn. rewrite Hx, filter_app. cbn. rewrite Hy.
    rewrite app_length. cbn. rewrite app_length. cbn. lia.
  - destruct (filter (chosen lower types) l) as [|x [|y r]] eqn:E; cbn; try lia. intros _.
    assert (G : forall l z r, filter (chosen lower types) l = z :: r -> exists a b, l = a ++ z :: b /\ chosen lower types z = true /\ filter (chosen lower types) b = r).
    { clear. induction l as [|w l IH]; intros z r H; [discriminate|]. cbn in H. destruct (chosen lower types w) eqn:Ew.
      - injection H as <- <-. exists [], l. auto.
      - destruct (IH _ _ H) as (a & b & -> & K). exists (w :: a), b. auto. }
    destruct (G _ _ _ E) as (a & b & -> & Hx & E2). destruct (G _ _ _ E2) as (a2 & b2 & -> & Hy & _).
    exists a, x, a2, y, b2. split; [reflexivity|]. now split; apply chosen_iff.
Qed.
Theorem comment_if g : ~ two_of (of_type lower types) (g_tiers g) -> block g = Ok (comment (igt_id g)).
Proof.
  intros H. unfold export_igt. destruct (length (filter (chosen lower types) (g_tiers g)) <? 2) eqn:E; [reflexivity|].
  apply two_filter in E. contradiction.
Qed.
Theorem no_tier_id g t : two_of (of_type lower types) (g_tiers g) -> In t (g_tiers g) -> of_type lower types t -> tier_id t = None ->
  block g = Err TypeError.
Proof.
  intros H Ht Hc Hi. apply two_filter in H. unfold export_igt. rewrite H.
  destruct (forallb _ _) eqn:E; [|reflexivity]. rewrite forallb_forall in E. specialize (E t).
  rewrite Hi in E. discriminate E. apply filter_In. split; [exact Ht|]. now apply chosen_iff.
Qed.
Theorem first_empty g t : two_of (of_type lower types) (g_tiers g) -> first_of (of_type lower types) (g_tiers g) t -> t_items t = [] ->
  (forall t, In t (g_tiers g) -> of_type lower types t -> tier_id t <> None) -> block g = Err IndexError.
Proof.
  intros H (a & b & Eg & Ht & Ha) Hi Hid. apply two_filter in H. unfold export_igt. rewrite H.
  assert (E : forallb (fun t => match tier_id t with Some _ => true | None => false end) (filter (chosen lower types) (g_tiers g)) = true).
  { apply forallb_forall. intros x Hx. apply filter_In in Hx as [Hx Hc]. apply chosen_iff in Hc. specialize (Hid x Hx Hc). now destruct (tier_id x). }
  rewrite E. assert (Ef : filter (chosen lower types) (g_tiers g) = t :: filter (chosen lower types) b).
  { rewrite Eg, filter_app. apply chosen_iff in Ht. cbn. rewrite Ht. replace (filter (chosen lower types) a) with (@nil tier); [reflexivity|].
    symmetry. clear - Ha. induction a as [|x a IH]; [reflexivity|]. cbn. destruct (chosen lower types x) eqn:E.
    - apply chosen_iff in E. destruct (Ha x (or_introl eq_refl) E).
    - apply IH. intros y Hy. apply Ha. now right. }
  rewrite Ef in H |- *. destruct (filter (chosen lower types) b) as [|t2 ts]; [discriminate|].
  unfold group_tiers, group_alignments, tier_titems. cbn [map]. rewrite Hi. reflexivity.
Qed.
End D.

Theorem comment_safe i : (forall s, i = Some s -> ~ In 10%N s) -> all_comment (comment i).
Proof.
  intros H a b E Ha. set (x := match i with Some i => i | None => L "None" end).
  assert (Hx : ~ In 10%N x) by (unfold x; destruct i; [now apply H|vm_compute; intuition discriminate]).
  assert (G : forall l a' b, ~ In 10%N l -> forall r, l ++ r = (a' ++ [10%N]) ++ b -> exists a2, a' = l ++ a2 /\ r = (a2 ++ [10%N]) ++ b).
  { clear. induction l as [|c l IH]; intros a' b Hl r E; [now exists a'|]. destruct a' as [|d a']; cbn in E; injection E as -> E.
    - destruct Hl. now left.
    - destruct (IH a' b (fun Q => Hl (or_intror Q)) r E) as (a2 & -> & K). now exists a2. }
  destruct Ha as [->|(a' & ->)]; [cbn in E; rewrite <- E; eexists; reflexivity|].
  unfold comment in E. fold x in E.
  destruct (G (L "%") a' b ltac:(vm_compute; intuition discriminate) _ E) as (a2 & -> & E2).
  cbn [app] in E2. destruct a2 as [|c a2]; [cbn in E2; injection E2 as E2; rewrite <- E2; eexists; reflexivity|].
  cbn [app] in E2. injection E2 as _ E2.
  destruct (G (L "% cannot export IGT ") a2 b ltac:(vm_compute; intuition discriminate) _ E2) as (a3 & -> & E3).
  destruct (G x a3 b Hx _ E3) as (a4 & -> & E4). destruct a4 as [|c' a4]; cbn [app] in E4.
  - injection E4 as E4. rewrite <- E4. eexists. reflexivity.
  - injection E4 as _ E4. change (L "%") with [37%N] in E4. destruct a4 as [|? [|? ?]]; discriminate E4.
Qed.
