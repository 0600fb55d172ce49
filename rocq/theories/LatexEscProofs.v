(* LaTeX escaping: proofs for C38. *)
From Verif Require Import PyStr PyStrFacts Model Latex SpecLatex.

Lemma replace_app c r a b : replace_char c r (a ++ b) = replace_char c r a ++ replace_char c r b.
Proof. unfold replace_char. apply flat_map_app. Qed.
Lemma fold_replace_app l : forall a b,
  fold_left (fun s cr => replace_char (fst cr) (snd cr) s) l (a ++ b)
  = fold_left (fun s cr => replace_char (fst cr) (snd cr) s) l a
    ++ fold_left (fun s cr => replace_char (fst cr) (snd cr) s) l b.
Proof. induction l as [|x l IH]; intros a b; cbn; [reflexivity|]. rewrite replace_app. apply IH. Qed.
Lemma escape_app a b : escape (a ++ b) = escape a ++ escape b.
Proof. apply fold_replace_app. Qed.
Lemma escape_nil : escape [] = [].
Proof. reflexivity. Qed.
Lemma escape_cons c s : escape (c :: s) = escape [c] ++ escape s.
Proof. apply (escape_app [c] s). Qed.

Definition specials : list char := [92; 38; 37; 36; 35; 95; 123; 125; 126; 94]%N.
Lemma fold_replace_other c : forall l, ~ In c (map fst l) ->
  fold_left (fun s cr => replace_char (fst cr) (snd cr) s) l [c] = [c].
Proof.
  induction l as [|[k r] l IH]; intros H; cbn; [reflexivity|].
  destruct (N.eqb_spec c k) as [->|_]; [exfalso; apply H; left; reflexivity|].
  apply IH. intros H'. apply H. right. exact H'.
Qed.
Lemma escape_other c : ~ In c specials -> escape [c] = [c].
Proof. intros H. apply fold_replace_other. exact H. Qed.
Lemma escape_symbol c : In c (L "&%$#_{}") -> escape [c] = [Ch "\"; c].
Proof. intros H. cbn in H. repeat (destruct H as [<-|H]; [reflexivity|]). destruct H. Qed.

Lemma specials_dec c : In c specials \/ ~ In c specials.
Proof. destruct (in_dec N.eq_dec c specials); auto. Qed.
Lemma escape1 c : escapes c (escape [c]).
Proof.
  destruct (specials_dec c) as [H|H].
  - cbn in H. repeat (destruct H as [<-|H]; [first [exact esc_backslash|exact esc_tilde|exact esc_caret|
      match goal with |- escapes ?c _ => change (escapes c [Ch "\"; c]); apply esc_symbol; vm_compute; auto 12 end]|]). destruct H.
  - rewrite (escape_other c H). apply esc_other. intros H'. apply H. revert H'. vm_compute. tauto.
Qed.
Lemma escapes_fun c w : escapes c w -> w = escape [c].
Proof.
  intros H. destruct H; try reflexivity.
  - symmetry. apply escape_symbol. assumption.
  - symmetry. apply escape_other. intros H'. apply H. revert H'. vm_compute. tauto.
Qed.

(* C38: escape writes each character as specified *)
Theorem escape_charwise s ws : Forall2 escapes s ws -> escape s = concat ws.
Proof.
  induction 1 as [|c w s ws H _ IH]; [reflexivity|].
  rewrite escape_cons, IH. cbn [concat]. rewrite (escapes_fun _ _ H). reflexivity.
Qed.
Theorem escape_total s : exists ws, Forall2 escapes s ws.
Proof.
  exists (map (fun c => escape [c]) s). induction s as [|c s IH]; cbn; constructor; [apply escape1|exact IH].
Qed.

(* the codewords are a prefix code *)
Lemma escapes_prefix c w c' w' r r' : escapes c w -> escapes c' w' -> w ++ r = w' ++ r' -> c = c' /\ r = r'.
Proof.
  intros H H' E.
  assert (B : forall x, ~ In x (L "\~^&%$#_{}") -> x <> 92%N) by (intros x N -> ; apply N; vm_compute; auto 12).
  assert (B' : forall x, In x (L "&%$#_{}") -> x <> 116%N)
    by (intros x N ->; revert N; vm_compute; intuition discriminate).
  destruct H, H'; cbn in E; inversion E; subst; try (split; reflexivity);
    try (exfalso; eapply B; [eassumption|reflexivity]);
    try (exfalso; eapply B'; [eassumption|reflexivity]).
Qed.
Theorem escape_injective : forall s t, escape s = escape t -> s = t.
Proof.
  induction s as [|c s IH]; intros [|d t] E.
  - reflexivity.
  - exfalso. rewrite escape_cons in E. destruct (escape1 d); discriminate E.
  - exfalso. rewrite escape_cons in E. destruct (escape1 c); discriminate E.
  - rewrite (escape_cons c), (escape_cons d) in E.
    destruct (escapes_prefix _ _ _ _ _ _ (escape1 c) (escape1 d) E) as [-> E']. f_equal. apply IH. exact E'.
Qed.

(* ---------- how TeX reads it ---------- *)

Section Tex.
Variable letter : char -> bool.
Hypothesis HL : tex_letters letter.

Lemma letter_ascii c : is_letter c = true -> letter c = true.
Proof. apply HL. Qed.
Lemma letter_backslash : letter 92%N = false.
Proof. apply HL. right; right; reflexivity. Qed.
Lemma letter_special c : tex_special c = true -> letter c = false.
Proof. intros H. apply HL. right; left; exact H. Qed.
Lemma letter_blank c : tex_blank c = true -> letter c = false.
Proof. intros H. apply HL. left; exact H. Qed.

Lemma take_while_app w r : forallb letter w = true -> take_while letter (w ++ r) = w ++ take_while letter r.
Proof. induction w as [|c w IH]; cbn; [reflexivity|]. intros H. apply andb_prop in H as [-> H]. rewrite IH by exact H. reflexivity. Qed.
Lemma drop_while_app w r : forallb letter w = true -> drop_while letter (w ++ r) = drop_while letter r.
Proof. induction w as [|c w IH]; cbn; [reflexivity|]. intros H. apply andb_prop in H as [-> H]. apply IH. exact H. Qed.

Definition word_of (c : char) (w : str) : Prop :=
  c = 92%N /\ w = L "textbackslash" \/ c = 126%N /\ w = L "textasciitilde" \/ c = 94%N /\ w = L "textasciicircum".
Lemma word_letters c w : word_of c w -> forallb letter w = true.
Proof.
  assert (F : forall w, forallb is_letter w = true -> forallb letter w = true).
  { intros u. induction u as [|x u IH]; cbn; [reflexivity|]. intros H. apply andb_prop in H as [H1 H2].
    rewrite (letter_ascii _ H1), (IH H2). reflexivity. }
  intros [[_ ->]|[[_ ->]|[_ ->]]]; apply F; reflexivity.
Qed.
Lemma word_control c w : word_of c w -> control_word w = Some [c].
Proof. intros [[-> ->]|[[-> ->]|[-> ->]]]; reflexivity. Qed.
Lemma word_nonnil c w : word_of c w -> w <> [].
Proof. intros [[_ ->]|[[_ ->]|[_ ->]]]; discriminate. Qed.
Lemma word_in c w : word_of c w -> In c (L "\~^").
Proof. intros [[-> _]|[[-> _]|[-> _]]]; vm_compute; auto. Qed.

(* a control word with a letter more is none of the three *)
Lemma word_longer c w y r : word_of c w -> control_word (w ++ y :: r) = None.
Proof.
  intros [[_ ->]|[[_ ->]|[_ ->]]]; unfold control_word;
    repeat match goal with |- context [str_eqb ?a ?b] => destruct (str_eqb_spec a b) as [E|_]; [cbn in E; discriminate E|] end; reflexivity.
Qed.

(* the three ways a character is written *)
Lemma escape_cases c :
  (exists w, word_of c w /\ escape [c] = 92%N :: w)
  \/ (In c (L "&%$#_{}") /\ escape [c] = [92%N; c])
  \/ (c <> 92%N /\ tex_special c = false /\ escape [c] = [c]).
Proof.
  pose proof (escape1 c) as H. remember (escape [c]) as w eqn:E. destruct H.
  - left. exists (L "textbackslash"). split; [left; split; reflexivity|reflexivity].
  - left. exists (L "textasciitilde"). split; [right; left; split; reflexivity|reflexivity].
  - left. exists (L "textasciicircum"). split; [right; right; split; reflexivity|reflexivity].
  - right; left. split; [assumption|reflexivity].
  - right; right. assert (N : ~ In c specials) by (intros H'; apply H; revert H'; vm_compute; tauto).
    repeat split.
    + intros ->. apply N. vm_compute. auto 12.
    + unfold tex_special, char_in. destruct (existsb (N.eqb c) (L "~^&%$#_{}")) eqn:X; [|reflexivity].
      apply existsb_exists in X as (d & Hd & Ed). apply N.eqb_eq in Ed. subst d. exfalso. apply N. revert Hd. vm_compute. tauto.
Qed.

Lemma symbol_special c : In c (L "&%$#_{}") -> tex_special c = true /\ control_symbol c = Some [c].
Proof. intros H. cbn in H. repeat (destruct H as [<-|H]; [split; reflexivity|]). destruct H. Qed.

Lemma escape_head y b : exists d r, escape (y :: b) = d :: r /\ (d = y \/ d = 92%N).
Proof.
  rewrite escape_cons. destruct (escape_cases y) as [(w & _ & ->)|[[_ ->]|(_ & _ & ->)]]; cbn; eexists _, _; eauto.
Qed.
Lemma escape_plain_head y b : letter y = true \/ tex_blank y = true -> escape (y :: b) = y :: escape b.
Proof.
  intros H. rewrite escape_cons. destruct (escape_cases y) as [(w & W & _)|[[S _]|(_ & _ & ->)]].
  - exfalso. pose proof letter_backslash. destruct W as [[-> _]|[[-> _]|[-> _]]]; destruct H as [H|H]; try discriminate H;
      try congruence; rewrite letter_special in H by reflexivity; discriminate.
  - exfalso. destruct (symbol_special _ S) as [S1 _]. destruct H as [H|H]; [rewrite (letter_special _ S1) in H; discriminate|].
    cbn in S. repeat (destruct S as [<-|S]; [discriminate H|]). destruct S.
  - reflexivity.
Qed.

(* after a character that does not run on, nothing is swallowed *)
Lemma no_swallow s : (forall y b, s = y :: b -> letter y = false /\ tex_blank y = false) ->
  take_while letter (escape s) = [] /\ drop_while tex_blank (drop_while letter (escape s)) = escape s.
Proof.
  intros H. destruct s as [|y b]; [split; reflexivity|]. destruct (H y b eq_refl) as [H1 H2].
  destruct (escape_head y b) as (d & r & E & D). rewrite E.
  assert (letter d = false) as D1 by (destruct D as [->| ->]; [exact H1|apply letter_backslash]).
  assert (tex_blank d = false) as D2 by (destruct D as [->| ->]; [exact H2|reflexivity]).
  cbn [take_while drop_while]. rewrite D1. cbn [drop_while]. rewrite D2. split; reflexivity.
Qed.

Lemma runs_on_tail c s : runs_on letter s -> runs_on letter (c :: s).
Proof. intros (a & x & y & b & -> & H). exists (c :: a), x, y, b. split; [reflexivity|exact H]. Qed.

Lemma blank_head u t : typesets letter u t -> (forall d r, u = d :: r -> tex_blank d = false) ->
  forall y b, t = y :: b -> tex_blank y = false.
Proof.
  intros H HU y b E. destruct H as [|s t p H1 H2 H3 H4|c s t p H1 H2 H3|c s t H1 H2 H3].
  - discriminate.
  - unfold control_word in H3.
    destruct (str_eqb (take_while letter s) (L "textbackslash")); [injection H3 as <-; injection E as <- _; reflexivity|].
    destruct (str_eqb (take_while letter s) (L "textasciitilde")); [injection H3 as <-; injection E as <- _; reflexivity|].
    destruct (str_eqb (take_while letter s) (L "textasciicircum")); [injection H3 as <-; injection E as <- _; reflexivity|discriminate H3].
  - unfold control_symbol in H2. destruct (char_in c (L "&%$#_{}")) eqn:X; [|discriminate]. injection H2 as <-. injection E as <- _.
    apply existsb_exists in X as (d & Hd & Ed). apply N.eqb_eq in Ed. subst d.
    cbn in Hd. repeat (destruct Hd as [<-|Hd]; [reflexivity|]). destruct Hd.
  - injection E as -> ->. eapply HU. reflexivity.
Qed.
Lemma drop_head p s d r : drop_while p s = d :: r -> p d = false.
Proof. induction s as [|c s IH]; cbn; [discriminate|]. destruct (p c) eqn:E; [exact IH|]. intros H. inversion H; subst. exact E. Qed.

Theorem typesets_iff s : typesets letter (escape s) s <-> ~ runs_on letter s.
Proof.
  induction s as [|c s IH].
  - split; [|intros _; rewrite escape_nil; apply ts_nil].
    intros _ (a & x & y & b & E & _). destruct a; discriminate.
  - assert (D : (exists w, word_of c w) /\ (exists y b, s = y :: b /\ (letter y = true \/ tex_blank y = true)) \/
       (forall w, word_of c w -> forall y b, s = y :: b -> letter y = false /\ tex_blank y = false)).
    { destruct (escape_cases c) as [(w & W & _)|[[S _]|(N1 & N2 & _)]].
      - destruct s as [|y b]; [right; discriminate|].
        destruct (letter y) eqn:E1; [left; split; [eauto|]; exists y, b; auto|].
        destruct (tex_blank y) eqn:E2; [left; split; [eauto|]; exists y, b; auto|].
        right. intros _ _ y' b' E. inversion E; subst. auto.
      - right. intros w W. exfalso. destruct W as [[-> _]|[[-> _]|[-> _]]]; revert S; vm_compute; intuition discriminate.
      - right. intros w W. exfalso. destruct W as [[-> _]|[[-> _]|[-> _]]]; [congruence|discriminate|discriminate]. }
    destruct D as [[[w W] (y & b & -> & HY)]|D].
    + (* c runs on into y *)
      assert (R : runs_on letter (c :: y :: b)).
      { exists [], c, y, b. split; [reflexivity|]. split; [eapply word_in; exact W|exact HY]. }
      split; [|intros N; contradiction (N R)]. intros T. exfalso.
      assert (E : escape (c :: y :: b) = 92%N :: w ++ y :: escape b).
      { rewrite escape_cons, (escape_plain_head y b HY).
        destruct (escape_cases c) as [(w' & W' & ->)|[[S _]|(N1 & N2 & _)]].
        - assert (w = w') as ->; [|reflexivity].
          destruct W as [[-> ->]|[[-> ->]|[-> ->]]], W' as [[E ->]|[[E ->]|[E ->]]]; try discriminate E; reflexivity.
        - exfalso. destruct W as [[-> _]|[[-> _]|[-> _]]]; revert S; vm_compute; intuition discriminate.
        - exfalso. destruct W as [[-> _]|[[-> _]|[-> _]]]; [congruence|discriminate|discriminate]. }
      rewrite E in T. inversion T as [|s t p H1 H2 H3 H4 E1 E2|d s t p H1 H2 H3 E1 E2|d s t H1 H2 H3]; subst.
      * rewrite take_while_app in H3 by (eapply word_letters; exact W).
        rewrite drop_while_app in H4 by (eapply word_letters; exact W).
        destruct HY as [HY|HY].
        -- cbn in H3. rewrite HY in H3. rewrite (word_longer _ _ _ _ W) in H3. discriminate.
        -- assert (X : letter y = false) by (apply letter_blank; exact HY).
           cbn in H3, H4. rewrite X in H3, H4. rewrite app_nil_r, (word_control _ _ W) in H3. inversion H3; subst p.
           cbn in E2. injection E2 as ->. 
           assert (tex_blank y = false); [|congruence]. eapply (blank_head _ _ H4); [|reflexivity].
           intros d r. apply drop_head.
      * pose proof (word_letters _ _ W) as WL. pose proof (word_nonnil _ _ W) as WN. destruct w as [|x w]; [congruence|].
        cbn in E1. inversion E1; subst d. cbn in WL. rewrite H1 in WL. discriminate.
      * exfalso; apply H1; reflexivity.
    + assert (R : runs_on letter (c :: s) <-> runs_on letter s).
      { split; [|apply runs_on_tail]. intros (a & x & y & b & E & HX & HY). destruct a as [|a0 a]; cbn in E; inversion E; subst.
        - exfalso. destruct (escape_cases x) as [(w & W & _)|[[S _]|(N1 & N2 & _)]].
          + destruct (D w W y b eq_refl). destruct HY; congruence.
          + destruct (symbol_special _ S) as [_ S2]. vm_compute in HX. destruct HX as [<-|[<-|[<-|[]]]]; discriminate S2.
          + vm_compute in HX. destruct HX as [<-|[<-|[<-|[]]]]; [congruence|discriminate|discriminate].
        - exists a, x, y, b. auto. }
      assert (T : typesets letter (escape (c :: s)) (c :: s) <-> typesets letter (escape s) s).
      { rewrite escape_cons. destruct (escape_cases c) as [(w & W & ->)|[[S ->]|(N1 & N2 & ->)]].
        - destruct (no_swallow s (D w W)) as [TW DW]. pose proof (word_letters _ _ W) as WL. pose proof (word_nonnil _ _ W) as WN.
          cbn [app]. split; intros T.
          + inversion T as [|u t p H1 H2 H3 H4 E1 E2|d u t p H1 H2 H3 E1 E2|d u t H1 H2 H3]; subst.
            * rewrite drop_while_app, DW in H4 by exact WL. rewrite take_while_app, TW, app_nil_r in H3 by exact WL.
              rewrite (word_control _ _ W) in H3. inversion H3; subst p. cbn in E2. injection E2 as ->. exact H4.
            * destruct w as [|x w]; [congruence|]. cbn in E1. inversion E1; subst d. cbn in WL. rewrite H1 in WL. discriminate.
            * exfalso; apply H1; reflexivity.
          + apply (ts_word letter (w ++ escape s) s [c]).
            * destruct w as [|x w]; [congruence|]. cbn in *. destruct (letter x); [reflexivity|discriminate].
            * destruct w; [congruence|discriminate].
            * rewrite take_while_app, TW, app_nil_r by exact WL. apply (word_control _ _ W).
            * rewrite drop_while_app, DW by exact WL. exact T.
        - destruct (symbol_special _ S) as [S1 S2]. cbn [app]. split; intros T.
          + inversion T as [|u t p H1 H2 H3 H4 E1 E2|d u t p H1 H2 H3 E1 E2|d u t H1 H2 H3]; subst.
            * cbn in H1. rewrite (letter_special _ S1) in H1. discriminate.
            * rewrite S2 in H2. inversion H2; subst p. cbn in E2. injection E2 as ->. exact H3.
            * exfalso; apply H1; reflexivity.
          + apply (ts_symbol letter c (escape s) s [c]); [apply letter_special; exact S1|exact S2|exact T].
        - cbn [app]. split; intros T.
          + inversion T as [|u t p H1 H2 H3 H4 E1 E2|d u t p H1 H2 H3 E1 E2|d u t H1 H2 H3]; subst; try (exfalso; apply N1; reflexivity).
            exact H3.
          + apply ts_char; assumption. }
      rewrite T, R. exact IH.
Qed.
End Tex.
