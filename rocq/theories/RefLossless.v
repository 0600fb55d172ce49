(* selections() with delimiters loses nothing, on every string without a line
   break; and the shape of ids. *)
From Verif Require Import PyStr PyStrFacts Regex RegexFacts Ref SpecRef RefMatch RefProofs RefLaws.

Section P.
Context {U : Unicode}.

Definition nonl (s : str) := ~ In 10%N s.

Lemma matches_alt a b s s' : matches (RAlt a b) s s' -> matches a s s' \/ matches b s s'.
Proof. inversion 1; auto. Qed.
Lemma matches_seq a b s s' : matches (RSeq a b) s s' -> exists s1, matches a s s1 /\ matches b s1 s'.
Proof. inversion 1; eauto. Qed.
Lemma matches_eps s s' : matches REps s s' -> s' = s.
Proof. now inversion 1. Qed.
Lemma matches_eol s s' : matches REol s s' -> s' = s /\ at_eol (m_rest s) = true.
Proof. now inversion 1. Qed.
Lemma matches_bol s s' : matches RBol s s' -> s' = s /\ m_pos s = 0.
Proof. now inversion 1. Qed.
Lemma matches_chr p s s' : matches (RChr p) s s' ->
  exists c, p c = true /\ m_rest s = c :: m_rest s' /\ m_caps s' = m_caps s.
Proof. inversion 1; subst. exists c. auto. Qed.

Lemma eol_nonl s : nonl s -> at_eol s = true -> s = [].
Proof.
  intros Hn. destruct s as [|c [|? ?]]; cbn; try easy. rewrite N.eqb_eq. intros ->. exfalso. apply Hn. now left.
Qed.

Lemma nonl_app u v : nonl (u ++ v) -> nonl u /\ nonl v.
Proof. unfold nonl. rewrite in_app_iff. tauto. Qed.

Lemma robust_decomp pos s s' : nonl s -> s <> [] ->
  matches robust_ref_re (st pos s []) s' ->
  exists u1 u2 u3 (o : option str),
    s = u1 ++ u2 ++ u3 ++ m_rest s'
    /\ m_caps s' = match o with Some r => [(3, r)] | None => [] end ++ [(2, u2); (1, u1)]
    /\ u3 = match o with Some r => L "[" ++ r ++ L "]" | None => [] end
    /\ o <> Some []
    /\ (u2 = [] -> o = None /\ m_rest s' = [])
    /\ u1 ++ u2 <> []
    /\ m_pos s' + length (m_rest s') = pos + length s.
Proof.
  intros Hnl Hne H.
  assert (HP : m_pos s' + length (m_rest s') = pos + length s).
  { apply matches_consume in H as (u & E & P). cbn in *. rewrite P, E, app_length. lia. }
  unfold robust_ref_re in H.
  apply matches_seq in H as (s1 & H1 & H). apply matches_seq in H as (s2 & H2 & H3).
  assert (H2' := H2).
  apply matches_group in H1 as (u1 & E1 & P1 & C1); [|reflexivity].
  apply matches_group in H2 as (u2 & E2 & P2 & C2); [|reflexivity].
  cbn [st m_rest m_pos m_caps] in E1, P1, C1.
  assert (Hn1 : nonl (m_rest s1)) by (rewrite E1 in Hnl; now apply nonl_app in Hnl).
  assert (Hn2 : nonl (m_rest s2)) by (rewrite E2 in Hn1; now apply nonl_app in Hn1).
  assert (Hu2 : u2 = [] -> m_rest s2 = []).
  { intros ->. inversion H2' as [| | | | | | | | |? ? ? sx Hx]; subst. cbn in *.
    apply matches_alt in Hx as [Hx|Hx].
    - apply matches_eol in Hx as [-> Hx]. apply eol_nonl; [easy|exact Hx].
    - exfalso. apply matches_seq in Hx as (sy & Hy & Hz).
      apply matches_chr in Hy as (c & _ & Ey & _).
      apply matches_consume in Hz as (w & Ew & _). cbn in Ew.
      rewrite Ew in Ey. rewrite E2 in Ey. apply (f_equal (@length N)) in Ey.
      cbn in Ey. rewrite app_length in Ey. lia. }
  assert (Hu12 : u1 ++ u2 <> []).
  { intros E. apply app_eq_nil in E as [-> ->]. specialize (Hu2 eq_refl). cbn in *.
    rewrite E2, Hu2 in E1. now subst s. }
  apply matches_alt in H3 as [H3|H3].
  - apply matches_alt in H3 as [H3|H3].
    + apply matches_eol in H3 as [-> _]. exists u1, u2, [], None.
      rewrite C2, C1, E1, E2. cbn. repeat split; auto; try easy. now rewrite <- E2, <- E1.
    + apply matches_seq in H3 as (s3 & Ha & H3). apply matches_seq in H3 as (s4 & H4 & H5).
      apply matches_chr in Ha as (c & Ec & E3 & C3). apply N.eqb_eq in Ec. subst c.
      assert (Hb := H4). apply matches_group in H4 as (r & E4 & P4 & C4); [|reflexivity].
      apply matches_chr in H5 as (c & Ec & E5 & C5). apply N.eqb_eq in Ec. subst c.
      exists u1, u2, (L "[" ++ r ++ L "]"), (Some r).
      split; [|split; [|split; [|split; [|split; [|split]]]]].
      * rewrite E1, E2, E3, E4, E5. rewrite <- !app_assoc. reflexivity.
      * rewrite C5, C4, C3, C2, C1. reflexivity.
      * reflexivity.
      * intros [= ->].
        inversion Hb as [| | | | | | | | |? ? ? sx Hx]; subst. cbn in *.
        apply matches_seq in Hx as (sy & Hy & Hz). clear -Hy Hz E4.
        apply matches_consume in Hz as (w & Ew & _).
        apply matches_seq in Hy as (s1 & H1 & H2). apply matches_seq in H2 as (s2 & H2 & H3).
        apply matches_seq in H3 as (s3' & H3 & H4).
        apply matches_consume in H1 as (w1 & E1 & _). apply matches_consume in H2 as (w2 & E2 & _).
        apply matches_chr in H3 as (c & _ & E3 & _). apply matches_consume in H4 as (w4 & E5 & _).
        rewrite E1, E2, E3, E5, Ew in E4. apply (f_equal (@length N)) in E4.
        cbn in E4. rewrite !app_length in E4. cbn in E4. rewrite !app_length in E4. lia.
      * intros Hu. specialize (Hu2 Hu). rewrite Hu2 in E3. discriminate.
      * exact Hu12.
      * exact HP.
  - apply matches_eps in H3 as ->. exists u1, u2, [], None.
    rewrite C2, C1, E1, E2. cbn. repeat split; auto; try easy. now rewrite <- E2, <- E1.
Qed.

Lemma robust_exists pos s : nonl s -> s <> [] ->
  exists m, match_at false robust_ref_re pos s = Some m.
Proof.
  intros Hnl Hne. unfold match_at. change {| m_pos := pos; m_rest := s; m_caps := [] |} with (st pos s []).
  destruct (rmatch robust_ref_re (st pos s []) _) as [m|] eqn:E; [eauto|exfalso].
  revert E. apply (rmatch_complete _ _ (st (pos + length s) [] [(2, []); (1, s)])); [|easy].
  assert (Hstar : forall pos t caps, nonl t -> matches (RStar false (RChr not_nl)) (st pos t caps) (st (pos + length t) [] caps)).
  { intros p t caps. revert p. induction t as [|c t IH]; intros p Ht.
    - cbn. rewrite Nat.add_0_r. apply MSt0.
    - eapply MSt1; [eapply (MC _ _ c t); [reflexivity|]| |].
      + unfold not_nl. apply negb_true_iff, N.eqb_neq. intros ->. apply Ht. now left.
      + cbn. lia.
      + cbn. rewrite <- Nat.add_succ_comm. apply IH. intros H. apply Ht. now right. }
  destruct s as [|c t]; [easy|].
  eapply MS.
  - apply (MG 1 _ _ (st (pos + length (c :: t)) [] [])). apply MA2. eapply MS.
    + eapply (MC _ _ c t); [reflexivity|]. unfold not_nl. apply negb_true_iff, N.eqb_neq. intros ->. apply Hnl. now left.
    + cbn. rewrite <- Nat.add_succ_comm. apply Hstar. intros H. apply Hnl. now right.
  - cbn [st m_pos m_rest m_caps]. replace (pos + length (c :: t) - pos) with (length (c :: t)) by lia.
    rewrite firstn_all. eapply MS.
    + apply (MG 2 _ _ (st (pos + length (c :: t)) [] [(1, c :: t)])). apply MA1. now apply MEol.
    + cbn [st m_pos m_rest m_caps]. rewrite Nat.sub_diag. apply MA2. apply ME.
Qed.

Lemma robust_end pos : match_at false robust_ref_re (S pos) [] = None.
Proof. reflexivity. Qed.

Lemma robust_lossless : forall n pos s, length s <= n -> nonl s -> s <> [] ->
  List.concat (flat_map (selection_tokens true)
     (map (fun m => (capd 1 m, capd 2 m, capd 3 m)) (finditer_at false robust_ref_re pos s))) = s.
Proof.
  induction n as [|n IH]; intros pos s Hlen Hnl Hne; [destruct s; [easy|cbn in Hlen; lia]|].
  destruct (robust_exists pos s Hnl Hne) as (m & Hm).
  rewrite (finditer_some _ _ _ _ m) by (now apply search_here).
  unfold match_at in Hm. apply rmatch_sound in Hm as (s' & H & Hk).
  cbn [andb] in Hk. injection Hk as <-.
  apply robust_decomp in H as (u1 & u2 & u3 & o & E & C & E3 & Ho & Hu2 & Hu12 & HP); [|easy|easy].
  cbn [r_start r_end r_rest map flat_map]. rewrite concat_app.
  assert (Hl : length u1 + length u2 <> 0).
  { intros Hz. apply Hu12. destruct u1, u2; cbn in Hz; try lia. easy. }
  assert (Hpos : m_pos s' <> pos).
  { rewrite E, !app_length in HP. lia. }
  rewrite (proj2 (Nat.eqb_neq _ _) Hpos).
  assert (Htok : List.concat (selection_tokens true (u1, u2, match o with Some r => r | None => [] end)) = u1 ++ u2 ++ u3).
  { unfold selection_tokens. destruct (str_eqb_spec u2 []) as [->|Hn2].
    - destruct (Hu2 eq_refl) as [-> _]. subst u3. destruct u1; cbn; now rewrite ?app_nil_r.
    - destruct o as [r|].
      + assert (str_eqb r [] = false) as -> by (apply str_eqb_neq; congruence).
        rewrite E3. destruct u1; cbn; now rewrite ?app_nil_r.
      + rewrite E3. destruct u1; cbn; now rewrite ?app_nil_r. }
  assert (Hcaps : (capd 1 {| r_start := pos; r_end := m_pos s'; r_rest := m_rest s'; r_caps := m_caps s' |},
             capd 2 {| r_start := pos; r_end := m_pos s'; r_rest := m_rest s'; r_caps := m_caps s' |},
             capd 3 {| r_start := pos; r_end := m_pos s'; r_rest := m_rest s'; r_caps := m_caps s' |})
            = (u1, u2, match o with Some r => r | None => [] end)).
  { unfold capd, cap. cbn [r_caps]. rewrite C. destruct o; reflexivity. }
  rewrite Hcaps, Htok.
  destruct (m_rest s') as [|c t] eqn:Er.
  - rewrite finditer_none; [cbn; rewrite E, !app_nil_r; reflexivity|].
    apply search_nil. destruct (m_pos s'); [|apply robust_end]. cbn in HP. destruct s; [easy|cbn in HP; lia].
  - rewrite IH.
    + rewrite <- !app_assoc; now symmetry.
    + rewrite E, !app_length in Hlen. lia.
    + rewrite E in Hnl. apply nonl_app in Hnl as [_ Hnl]. apply nonl_app in Hnl as [_ Hnl].
      now apply nonl_app in Hnl.
    + easy.
Qed.

Theorem selections_lossless s : ~ In 10%N s -> List.concat (selections s true) = s.
Proof.
  intros Hnl. destruct s as [|c t]; [reflexivity|].
  unfold selections, findall3. rewrite finditer_0.
  apply (robust_lossless (length (c :: t))); [lia|exact Hnl|easy].
Qed.

(* ---------- ids and integers ---------- *)

Lemma letter_facts c : ascii_letter c -> is_space c = false /\ digit_val c = None /\ c <> 45%N /\ c <> 43%N.
Proof.
  intros H. apply ascii_letter_b in H.
  split; [apply is_word_space, is_letter_word, H|].
  split; [apply is_letter_digit in H; unfold is_digit, digit_val in *; now destruct (cclass c)|].
  split; intros ->; discriminate.
Qed.

Theorem letter_not_int c t : ascii_letter c -> py_int (c :: t) = None.
Proof.
  intros H. destruct (letter_facts c H) as (Hs & Hd & H1 & H2). unfold py_int, strip.
  cbn [lstrip]. rewrite Hs.
  assert (Hr : exists t', rstrip (c :: t) = c :: t').
  { unfold rstrip. cbn [rev].
    assert (G : forall u, exists v, lstrip (u ++ [c]) = v ++ [c]).
    { induction u as [|x u (v & IH)]; cbn; [rewrite Hs; now exists []|].
      destruct (is_space x); [eauto|]. now exists (x :: u). }
    destruct (G (rev t)) as (v & ->). rewrite rev_app_distr. cbn. eauto. }
  destruct Hr as (t' & ->).
  apply N.eqb_neq in H1, H2. rewrite H1, H2. cbn [int_digits]. rewrite Hd. unfold digit_val in Hd. destruct (N.eqb c 95); reflexivity.
Qed.

Theorem accepted_not_int s : id_accepted s = true -> py_int s = None.
Proof.
  intros H. apply id_accepted_spec in H as (c & t & -> & Hc). now apply letter_not_int.
Qed.

(* ---------- ids on any string ---------- *)

Lemma not_letter c : ~ ascii_letter c <-> is_letter c = false.
Proof. rewrite <- not_true_iff_false. rewrite ascii_letter_b. tauto. Qed.

Lemma idchar_b c : id_char c <-> idchar c = true.
Proof. unfold id_char, idchar. rewrite !orb_true_iff, !N.eqb_eq. tauto. Qed.

Lemma tokens_pieces s l : id_tokens s l <-> id_pieces s l.
Proof.
  split; induction 1 as [s H|g i r l Hg Hi Hr H IH].
  - constructor. eapply Forall_impl; [|exact H]. intros; now apply not_letter.
  - constructor; auto.
    + eapply Forall_impl; [|exact Hg]. intros; now apply not_letter.
    + destruct r; [easy|]. cbn in Hr. rewrite idchar_b. congruence.
  - constructor. eapply Forall_impl; [|exact H]. intros; now apply not_letter.
  - constructor; auto.
    + eapply Forall_impl; [|exact Hg]. intros; now apply not_letter.
    + destruct r; [easy|]. cbn. rewrite idchar_b in Hr. now apply not_true_iff_false.
Qed.

Theorem ids_pieces s l : ids s = l <-> id_pieces s l.
Proof.
  rewrite <- tokens_pieces. split.
  - intros <-. apply ids_tokens.
  - intros H. eapply id_tokens_unique; [apply ids_tokens|exact H].
Qed.

(* ---------- structure errors ---------- *)

Lemma sel_text_missing env s : env (sl_id s) = None -> sel_text env s = Err XigtStructureError.
Proof. unfold sel_text. now intros ->. Qed.

Lemma span_text_ok v sp : py_int (sp_start sp) <> None -> py_int (sp_end sp) <> None ->
  exists t, span_text v sp = Ok t.
Proof.
  intros H1 H2. unfold span_text, bound.
  destruct (py_int (sp_start sp)); [|easy]. destruct (py_int (sp_end sp)); [|easy]. cbn. eauto.
Qed.

Lemma sel_text_ok env s v : env (sl_id s) = Some (Ok v) ->
  Forall (fun sp => py_int (sp_start sp) <> None /\ py_int (sp_end sp) <> None) (sl_spans s) ->
  exists t, sel_text env s = Ok t.
Proof.
  intros Hg Hb. unfold sel_text. rewrite Hg. cbn.
  set (val := match v with Some t => t | None => [] end).
  assert (Hm : exists ts, mapM (span_text val) (sl_spans s) = Ok ts).
  { induction Hb as [|sp l [H1 H2] Hb IH]; [cbn; eauto|]. destruct IH as (ts & IH).
    destruct (span_text_ok val sp H1 H2) as (t & Ht). cbn. rewrite Ht, IH. cbn. eauto. }
  destruct Hm as (ts & Hm). destruct (sl_spans s); [cbn; eauto|]. cbn [mapM] in Hm. rewrite Hm. cbn. eauto.
Qed.

Lemma expr_text_total env e : bounds_ok e -> (forall i, In i (expr_ids e) -> forall r, env i = Some r -> is_ok r = true) ->
  (forall i, In i (expr_ids e) -> env i <> None) -> exists t, expr_text env e = Ok t.
Proof.
  intros Hb Hok Hex. unfold expr_text.
  assert (Hm : exists ts, mapM (sel_text env) e = Ok ts).
  { induction Hb as [|s e H Hb IH]; [cbn; eauto|].
    destruct IH as (ts & IH).
    - intros i Hi. apply Hok. now right.
    - intros i Hi. apply Hex. now right.
    - assert (Hex' := Hex (sl_id s) (or_introl eq_refl)). assert (Hok' := Hok (sl_id s) (or_introl eq_refl)).
      destruct (env (sl_id s)) as [[v|x]|] eqn:Eg; [|now specialize (Hok' _ eq_refl)|easy].
      destruct (sel_text_ok env s v Eg H) as (t & Ht). cbn. rewrite Ht, IH. cbn. eauto. }
  destruct Hm as (ts & ->). cbn. eauto.
Qed.

Lemma expr_text_error env e : bounds_ok e -> (forall i, In i (expr_ids e) -> forall r, env i = Some r -> is_ok r = true) ->
  (exists i, In i (expr_ids e) /\ env i = None) -> expr_text env e = Err XigtStructureError.
Proof.
  intros Hb Hok Hex. unfold expr_text.
  assert (Hm : mapM (sel_text env) e = Err XigtStructureError).
  { induction Hb as [|s e H Hb IH]; [destruct Hex as (? & [] & _)|].
    cbn. assert (Hok' := Hok (sl_id s) (or_introl eq_refl)).
    destruct (env (sl_id s)) as [[v|x]|] eqn:Eg.
    - destruct (sel_text_ok env s v Eg H) as (t & ->). cbn. rewrite IH; [easy| |].
      + intros i Hi. apply Hok. now right.
      + destruct Hex as (i & [<-|Hi] & Hn); [congruence|]. eauto.
    - now specialize (Hok' _ eq_refl).
    - now rewrite sel_text_missing. }
  now rewrite Hm.
Qed.

Theorem resolve_missing env e : wf_loose e -> bounds_ok e ->
  (forall i, In i (expr_ids e) -> forall r, env i = Some r -> is_ok r = true) ->
  (resolve env (show e) = Err XigtStructureError <-> exists i, In i (expr_ids e) /\ env i = None)
  /\ ((exists t, resolve env (show e) = Ok t) <-> forall i, In i (expr_ids e) -> env i <> None).
Proof.
  intros Hw Hb Hok. rewrite (resolve_show false) by exact Hw.
  assert (Hdec : (exists i, In i (expr_ids e) /\ env i = None) \/ (forall i, In i (expr_ids e) -> env i <> None)).
  { generalize (expr_ids e). induction l as [|i l IH]; [right; intros ? []|].
    destruct (env i) eqn:E; [|left; exists i; split; [now left|easy]].
    destruct IH as [(j & Hj & Ej)|IH]; [left; exists j; split; [now right|easy]|].
    right. intros j [<-|Hj]; [congruence|auto]. }
  split; split.
  - intros E. destruct Hdec as [|Hd]; [easy|].
    destruct (expr_text_total env e Hb Hok Hd) as (t & Ht). congruence.
  - now apply expr_text_error.
  - intros (t & E). destruct Hdec as [Hd|]; [|easy]. rewrite (expr_text_error env e Hb Hok Hd) in E. discriminate.
  - intros Hd. now apply expr_text_total.
Qed.

(* ---------- packaged forms ---------- *)

Lemma shape_accepted v : id_shape v -> id_accepted v = true.
Proof. intros (c & t & -> & Hc & _). apply id_accepted_spec. eauto. Qed.

Lemma expand_normal_form e : wf e -> expand (show e) = show (expand_expr e) /\ expanded (expand_expr e).
Proof. intros H. split; [now apply expand_show|apply expand_expr_one]. Qed.

Lemma compress_normal_form e : wf e ->
  compress (show e) = show (compress_expr e) /\ compressed (compress_expr e).
Proof. intros H. split; [now apply compress_show|apply compress_compressed]. Qed.

Lemma resolve_loose env e : wf_loose e -> resolve env (show e) = expr_text env e.
Proof. apply resolve_show. Qed.

Definition wide : expr :=
  [ {| sl_delim := []; sl_id := L "a1";
       sl_spans := [ {| sp_delim := []; sp_start := L "1"; sp_end := L "2" |} ] |};
    {| sl_delim := L "  "; sl_id := L "a1";
       sl_spans := [ {| sp_delim := []; sp_start := L "3"; sp_end := L "4" |} ] |} ].

Lemma digit_num c : is_digit c = true -> num_shape [c].
Proof. intros H. exists [], [c]. repeat split; auto; discriminate. Qed.

Lemma expand_compress_refuted : exists e : expr, wf e /\ expand (compress (show e)) <> expand (show e).
Proof.
  exists wide. split; [|vm_compute; discriminate].
  assert (Hi : id_shape (L "a1")).
  { exists 97%N, [49%N]. split; [reflexivity|]. split; [unfold ascii_letter; lia|].
    repeat (constructor; [|solve [repeat constructor]]). right; right; reflexivity. }
  unfold wf, wide. cbn. repeat split; auto; try (apply digit_num; reflexivity); try discriminate.
  all: repeat constructor; try discriminate; vm_compute; intuition discriminate.
Qed.

End P.
