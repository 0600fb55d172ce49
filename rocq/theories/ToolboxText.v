(* Proofs about _respace_decode: what it matches, the columns it keeps, and the
   UTF-8 decoder. *)
From Verif Require Import PyStr PyStrFacts Regex RegexFacts Toolbox SpecToolbox.

Lemma blank_b b : byte_space b = true <-> blank b.
Proof.
  unfold byte_space, blank, in_range. rewrite orb_true_iff, andb_true_iff, !N.leb_le, N.eqb_eq. tauto.
Qed.
Lemma other_b b : byte_other b = true <-> ~ blank b.
Proof. unfold byte_other. rewrite negb_true_iff, <- blank_b. destruct (byte_space b); intuition congruence. Qed.

(* ---------- one match ---------- *)

Definition after_tok (s : list N) : list N := dropw byte_space (dropw byte_other (dropw byte_space s)).
Definition chunk (s : list N) : list N :=
  takew byte_space s ++ takew byte_other (dropw byte_space s) ++ takew byte_space (dropw byte_other (dropw byte_space s)).
Lemma chunk_after s : chunk s ++ after_tok s = s.
Proof. unfold chunk, after_tok. rewrite <- !app_assoc. now rewrite !takew_dropw. Qed.

Lemma token_match adv pos s : match_at adv (RGroup 0 token_re) pos s =
  match dropw byte_space s with
  | [] => None
  | _ => Some {| r_start := pos; r_end := pos + length (chunk s); r_rest := after_tok s; r_caps := [(0, chunk s)] |}
  end.
Proof.
  unfold match_at. change {| m_pos := pos; m_rest := s; m_caps := [] |} with (st pos s []).
  rewrite rmatch_group. unfold token_re. rewrite rm_seq, rmatch_star_chr.
  rewrite star_g_det.
  2:{ intros p c t Hc. unfold RPlus. rewrite !rm_seq, rm_chr. unfold byte_other. now rewrite Hc. }
  destruct (dropw byte_space s) as [|c r] eqn:E; [reflexivity|].
  assert (Hc : byte_other c = true) by (unfold byte_other; now rewrite (dropw_head _ _ _ _ E)).
  unfold RPlus. rewrite !rm_seq, rm_chr, Hc, rmatch_star_chr. apply star_g_some. rewrite rmatch_star_chr. apply star_g_some.
  cbn [m_pos m_rest m_caps st].
  assert (Et : takew byte_other (c :: r) = c :: takew byte_other r) by (cbn; now rewrite Hc).
  assert (Ed : dropw byte_other (c :: r) = dropw byte_other r) by (cbn; now rewrite Hc).
  assert (El : S (pos + length (takew byte_space s)) + length (takew byte_other r) + length (takew byte_space (dropw byte_other r))
               = pos + length (chunk s)).
  { unfold chunk. rewrite E, Et, Ed, !app_length. cbn. lia. }
  rewrite El.
  assert (Hn : length (chunk s) <> 0) by (unfold chunk; rewrite E, Et, !app_length; cbn; lia).
  replace (pos + length (chunk s) =? pos) with false by (symmetry; apply Nat.eqb_neq; lia). rewrite andb_false_r.
  replace (pos + length (chunk s) - pos) with (length (chunk s)) by lia.
  assert (Ec : firstn (length (chunk s)) s = chunk s).
  { rewrite <- (chunk_after s) at 2. apply firstn_app_len. }
  rewrite Ec. unfold after_tok. rewrite E, Ed. reflexivity.
Qed.

Lemma search_blank pos s : dropw byte_space s = [] -> search_from false (RGroup 0 token_re) pos s = None.
Proof.
  revert pos; induction s as [|c s IH]; intros pos E.
  - cbn [search_from]. now rewrite token_match.
  - rewrite search_skip; [|rewrite token_match; now rewrite E]. apply IH. cbn in E. destruct (byte_space c); [easy|discriminate].
Qed.

Definition iters (pos : nat) (s : list N) := finditer_at false (RGroup 0 token_re) pos s.
Lemma iters_blank pos s : dropw byte_space s = [] -> iters pos s = [].
Proof. intros E. apply finditer_none. now apply search_blank. Qed.
Lemma iters_tok pos s : dropw byte_space s <> [] ->
  iters pos s = {| r_start := pos; r_end := pos + length (chunk s); r_rest := after_tok s; r_caps := [(0, chunk s)] |}
                :: iters (pos + length (chunk s)) (after_tok s).
Proof.
  intros E. unfold iters.
  rewrite (finditer_some false _ pos s {| r_start := pos; r_end := pos + length (chunk s); r_rest := after_tok s; r_caps := [(0, chunk s)] |}).
  2:{ apply search_here. rewrite token_match. now destruct (dropw byte_space s). }
  cbn [r_end r_start r_rest]. do 2 f_equal. apply Nat.eqb_neq.
  unfold chunk. destruct (dropw byte_space s) as [|c r] eqn:E'; [easy|].
  cbn [takew]. unfold byte_other at 1. rewrite (dropw_head _ _ _ _ E'). cbn [negb]. rewrite !app_length. cbn. lia.
Qed.

(* ---------- the text of a line ---------- *)

Section Text.
Context (decode : list N -> res str).

Definition texts (pos : nat) (s : list N) : res (list str) :=
  mapM (fun m => do t <- decode (capd 0 m); Ok (ljust t (r_end m - r_start m))) (iters pos s).

(* how a string that begins with a token goes on *)
Lemma tokens_split s c r : s = c :: r -> byte_space c = false ->
  exists t w s', s = t ++ w ++ s' /\ token t /\ blanks w /\ (w <> [] \/ s' = []) /\ length s' < length s
    /\ (forall c' r', s' = c' :: r' -> byte_space c' = false)
    /\ chunk s = t ++ w /\ after_tok s = s'.
Proof.
  intros -> Hc. set (s := c :: r).
  assert (Ed : dropw byte_space s = s) by (unfold s; cbn; now rewrite Hc).
  assert (Et : takew byte_space s = []) by (unfold s; cbn; now rewrite Hc).
  exists (takew byte_other s), (takew byte_space (dropw byte_other s)), (after_tok s).
  assert (Ech : chunk s = takew byte_other s ++ takew byte_space (dropw byte_other s)) by (unfold chunk; now rewrite Et, Ed).
  assert (Hne : takew byte_other s <> []) by (unfold s; cbn; unfold byte_other; now rewrite Hc).
  split; [rewrite app_assoc, <- Ech; symmetry; apply chunk_after|].
  split. { split; [exact Hne|]. eapply Forall_impl; [|apply takew_forall]. intros b. apply other_b. }
  split. { eapply Forall_impl; [|apply takew_forall]. intros b. apply blank_b. }
  split.
  { unfold after_tok. rewrite Ed. destruct (dropw byte_other s) as [|b x] eqn:E; [now right|]. left.
    apply dropw_head in E. unfold byte_other in E. apply negb_false_iff in E. cbn. now rewrite E. }
  split. { rewrite <- (chunk_after s) at 2. rewrite app_length, Ech, app_length.
           destruct (takew byte_other s); [easy|]. cbn. lia. }
  split. { intros c' r' E. unfold after_tok in E. now apply dropw_head in E. }
  now split.
Qed.

Lemma sane_chunk (Hs : sane decode) w0 t w : blanks w0 -> token t -> blanks w ->
  forall d, decode t = Ok d ->
  (do x <- decode (w0 ++ t ++ w); Ok (ljust x (length (w0 ++ t ++ w)))) = Ok (w0 ++ d ++ w ++ repeat 32%N (length t - length d)).
Proof.
  intros H0 Ht Hw d E. destruct Hs as [Ha Hl]. rewrite Ha, E by easy. cbn [bind]. f_equal. unfold ljust.
  rewrite !app_length, <- !app_assoc. do 4 f_equal. lia.
Qed.
Lemma sane_fail (Hs : sane decode) w0 t w : blanks w0 -> token t -> blanks w ->
  forall e, decode t = Err e -> decode (w0 ++ t ++ w) = Err e.
Proof. intros H0 Ht Hw e E. destruct Hs as [Ha _]. now rewrite Ha, E by easy. Qed.

(* every token decodes *)
Definition all_decode (s : list N) : Prop :=
  forall a t c, s = a ++ t ++ c -> token t -> bounded a c -> exists d, decode t = Ok d.

Lemma texts_blank pos s : dropw byte_space s = [] -> texts pos s = Ok [].
Proof. intros E. unfold texts. now rewrite iters_blank. Qed.

Lemma texts_tok pos s : dropw byte_space s <> [] ->
  texts pos s = do x <- (do t <- decode (chunk s); Ok (ljust t (length (chunk s))));
                do l <- texts (pos + length (chunk s)) (after_tok s); Ok (x :: l).
Proof.
  intros E. unfold texts at 1. rewrite (iters_tok _ _ E). cbn [mapM r_end r_start].
  now replace (pos + length (chunk s) - pos) with (length (chunk s)) by lia.
Qed.

(* the tokens of a string that begins with one *)
Lemma texts_laid (Hs : sane decode) n : forall pos s, length s <= n -> (forall c r, s = c :: r -> byte_space c = false) ->
  (exists l, texts pos s = Ok l /\ laid_out decode s (List.concat l))
  \/ (exists e, texts pos s = Err e /\ exists a t c, s = a ++ t ++ c /\ token t /\ bounded a c /\ decode t = Err e).
Proof.
  induction n as [|n IH]; intros pos s Hn Hh; (destruct s as [|c r]; [left; exists []; split; [now apply texts_blank|constructor]|]).
  - cbn in Hn. lia.
  - destruct (tokens_split _ c r eq_refl (Hh c r eq_refl)) as (t & w & s' & E & Ht & Hw & Hws & Hl & Hh' & Hc & Ha).
    assert (Hd : dropw byte_space (c :: r) <> []) by (cbn; now rewrite (Hh c r eq_refl)).
    rewrite (texts_tok _ _ Hd), Hc, Ha.
    destruct (decode t) as [d|e] eqn:Ed.
    + pose proof (sane_chunk Hs [] t w (Forall_nil _) Ht Hw d Ed) as Ec. cbn [app] in Ec. rewrite Ec. cbn [bind].
      destruct (IH (pos + length (t ++ w)) s') as [(l & El & Hlo)|(e & Ee & a & t' & c' & Es & Ht' & Hb & Ed')]; [cbn in *; lia|easy| |].
      * left. rewrite El. cbn [bind]. eexists; split; [reflexivity|]. rewrite E. cbn [List.concat]. rewrite <- !app_assoc. now constructor.
      * right. rewrite Ee. exists e. split; [easy|]. exists (t ++ w ++ a), t', c'. split; [rewrite E, Es; now rewrite <- !app_assoc|]. split; [easy|].
        split; [|easy]. destruct Hb as [Hb Hb']. split; [|easy]. right. destruct Hb as [->|(a' & b & -> & Hb)].
        -- rewrite app_nil_r. destruct Hws as [Hws| ->]; [|destruct t'; [now destruct Ht'|discriminate]].
           destruct (exists_last Hws) as (w' & b & ->). exists (t ++ w'), b. split; [now rewrite <- app_assoc|].
           apply Forall_app in Hw as [_ Hw]. now inversion Hw.
        -- exists (t ++ w ++ a'), b. split; [now rewrite <- !app_assoc|easy].
    + right. pose proof (sane_fail Hs [] t w (Forall_nil _) Ht Hw e Ed) as Ec. cbn [app] in Ec. rewrite Ec. cbn [bind].
      exists e. split; [easy|]. exists [], t, (w ++ s'). split; [easy|]. split; [easy|]. split; [|easy]. split; [now left|].
      destruct w as [|b w]; [left; destruct Hws as [Hws| ->]; [easy|reflexivity]|]. right. exists b, (w ++ s'). split; [easy|]. now inversion Hw.
Qed.

Lemma dropw_blanks w s : blanks w -> dropw byte_space (w ++ s) = dropw byte_space s.
Proof. induction 1 as [|b w Hb _ IH]; [easy|]. apply blank_b in Hb. cbn. now rewrite Hb. Qed.
Lemma takew_blanks w s : blanks w -> takew byte_space (w ++ s) = w ++ takew byte_space s.
Proof. induction 1 as [|b w Hb _ IH]; [easy|]. apply blank_b in Hb. cbn. now rewrite Hb, IH. Qed.

Lemma texts_line (Hs : sane decode) pos w0 s c r : blanks w0 -> s = c :: r -> ~ blank c ->
  (exists l x, texts pos (w0 ++ s) = Ok l /\ List.concat l = w0 ++ x /\ laid_out decode s x)
  \/ (exists e, texts pos (w0 ++ s) = Err e /\ exists a t c, s = a ++ t ++ c /\ token t /\ bounded a c /\ decode t = Err e).
Proof.
  intros Hw0 Es Hc. assert (Hc' : byte_space c = false) by (destruct (byte_space c) eqn:E; [now apply blank_b in E|easy]).
  assert (Hh : forall c r, s = c :: r -> byte_space c = false) by (intros ? ? E; congruence).
  destruct (tokens_split s c r Es Hc') as (t & w & s' & E & Ht & Hw & Hws & Hl & Hh' & Hch & Ha).
  assert (Hd : dropw byte_space s <> []) by (rewrite Es; cbn; now rewrite Hc').
  assert (Hd2 : dropw byte_space (w0 ++ s) <> []) by now rewrite dropw_blanks.
  assert (Hch2 : chunk (w0 ++ s) = w0 ++ t ++ w).
  { rewrite <- Hch. unfold chunk. rewrite takew_blanks, dropw_blanks by easy. now rewrite <- app_assoc. }
  assert (Ha2 : after_tok (w0 ++ s) = s') by (unfold after_tok in *; now rewrite dropw_blanks).
  rewrite (texts_tok _ _ Hd2), Hch2, Ha2.
  set (q := pos + length (w0 ++ t ++ w)).
  assert (E2 := texts_laid Hs (length s) (pos + length w0) s (le_n _) Hh).
  rewrite (texts_tok _ _ Hd), Hch, Ha in E2. replace (pos + length w0 + length (t ++ w)) with q in E2 by (unfold q; rewrite app_length; lia).
  destruct (decode t) as [d|e] eqn:Ed.
  - rewrite (sane_chunk Hs w0 t w Hw0 Ht Hw d Ed).
    pose proof (sane_chunk Hs [] t w (Forall_nil _) Ht Hw d Ed) as Ec. cbn [app] in Ec. rewrite Ec in E2. cbn [bind] in *.
    destruct (texts q s') as [l'|e]; cbn [bind] in *.
    + left. destruct E2 as [(l & El & Hlo)|(e & Ee & _)]; [|discriminate]. injection El as <-.
      eexists _, _. split; [reflexivity|]. split; [|exact Hlo]. cbn [List.concat]. now rewrite <- !app_assoc.
    + right. destruct E2 as [(l & El & Hlo)|(e' & Ee & H)]; [discriminate|]. injection Ee as <-. eauto.
  - rewrite (sane_fail Hs w0 t w Hw0 Ht Hw e Ed).
    pose proof (sane_fail Hs [] t w (Forall_nil _) Ht Hw e Ed) as Ec. cbn [app] in Ec. rewrite Ec in E2. cbn [bind] in *.
    right. destruct E2 as [(l & El & Hlo)|(e' & Ee & H)]; [discriminate|]. injection Ee as <-. eauto.
Qed.

(* ---------- trailing newlines ---------- *)

Lemma rstrip_spec s n : no_newline s -> rstrip_nl (s ++ repeat 10%N n) = s.
Proof.
  intros H. unfold rstrip_nl. rewrite rev_app_distr.
  assert (E : rev (repeat 10%N n) = repeat 10%N n).
  { induction n as [|n IH]; [easy|]. cbn. rewrite IH, <- repeat_cons. reflexivity. }
  rewrite E. clear E. induction n as [|n IH]; [|exact IH]. cbn [repeat app].
  destruct (rev s) as [|b x] eqn:E; [apply (f_equal (@rev N)) in E; now rewrite rev_involutive in E|].
  assert (Es : s = rev x ++ [b]) by (rewrite <- (rev_involutive s), E; reflexivity). cbn [lstrip_nl].
  destruct (N.eqb_spec b 10); [now apply H in Es|]. now rewrite <- E, rev_involutive.
Qed.

Lemma respace_line line : respace_decode decode line = do l <- texts 0 (rstrip_nl line); Ok (List.concat l).
Proof. reflexivity. Qed.

Theorem respace_laid (Hs : sane decode) n w s c x : blanks w -> s = c :: x -> ~ blank c -> no_newline s ->
  forall r, respace_decode decode ((w ++ s) ++ repeat 10%N n) = Ok r -> exists r', r = w ++ r' /\ laid_out decode s r'.
Proof.
  intros Hw Es Hc Hn r. rewrite respace_line, rstrip_spec.
  2:{ intros a b E. destruct (exists_last (l := s)) as (s' & b' & E'); [now rewrite Es|]. rewrite E', app_assoc in E.
      apply app_inj_tail in E as [_ <-]. now apply (Hn _ _ E'). }
  destruct (texts_line Hs 0 w s c x Hw Es Hc) as [(l & y & -> & E & Hlo)|(e & -> & _)]; [|discriminate].
  cbn [bind]. intros H. exists y. split; [congruence|easy].
Qed.
Theorem respace_fails (Hs : sane decode) n w s c x : blanks w -> s = c :: x -> ~ blank c -> no_newline s ->
  forall e, respace_decode decode ((w ++ s) ++ repeat 10%N n) = Err e ->
  exists a t b, s = a ++ t ++ b /\ token t /\ bounded a b /\ decode t = Err e.
Proof.
  intros Hw Es Hc Hn e. rewrite respace_line, rstrip_spec.
  2:{ intros a b E. destruct (exists_last (l := s)) as (s' & b' & E'); [now rewrite Es|]. rewrite E', app_assoc in E.
      apply app_inj_tail in E as [_ <-]. now apply (Hn _ _ E'). }
  destruct (texts_line Hs 0 w s c x Hw Es Hc) as [(l & y & -> & E & Hlo)|(e' & -> & H)]; [discriminate|]. intros [= ->]. exact H.
Qed.
Theorem respace_blank line : blanks line -> respace_decode decode line = Ok [].
Proof.
  intros H. rewrite respace_line, texts_blank; [easy|].
  assert (Hr : blanks (rstrip_nl line)).
  { unfold rstrip_nl, blanks in *. apply Forall_rev. apply Forall_rev in H. revert H. generalize (rev line). intros l.
    induction 1 as [|b l Hb Hl IH]; [constructor|]. cbn. destruct (N.eqb b 10); [exact IH|now constructor]. }
  rewrite <- (app_nil_r (rstrip_nl line)). now rewrite dropw_blanks.
Qed.

(* ---------- columns ---------- *)

Lemma laid_length (Hs : sane decode) s r : laid_out decode s r -> length r = length s.
Proof.
  induction 1 as [|t w s d r Ht Hw Hws Ed _ IH]; [easy|]. destruct Hs as [_ Hl]. specialize (Hl t d Ht Ed).
  rewrite !app_length, repeat_length, IH. lia.
Qed.

Lemma token_head t c : token t -> exists b t', t ++ c = b :: t' /\ ~ blank b.
Proof. intros [Hn Hf]. destruct t as [|b t]; [easy|]. exists b, (t ++ c). split; [easy|]. now inversion Hf. Qed.
(* a prefix that ends in white space covers the white space in front *)
Lemma skip_blanks w s a t c : blanks w -> token t -> bounded a c -> a ++ t ++ c = w ++ s -> exists a', a = w ++ a' /\ a' ++ t ++ c = s.
Proof.
  intros Hw Ht Hb E. apply app_eq_app in E as (u & [[-> E]|[-> E]]).
  - exists u. split; [easy|]. now rewrite E.
  - destruct u as [|b u]; [exists []; rewrite !app_nil_r; cbn in *; split; [easy|now rewrite E]|].
    destruct (token_head t c Ht) as (b' & t' & E' & Hb'). rewrite E' in E. injection E as -> _.
    apply Forall_app in Hw as [_ Hw]. inversion Hw. easy.
Qed.
Lemma bounded_skip w a c : bounded (w ++ a) c -> bounded a c.
Proof.
  intros [Ha Hc]. split; [|easy]. destruct a as [|b0 a0] using rev_ind; [now left|]. right. exists a0, b0. split; [easy|].
  destruct Ha as [E|(a' & b & E & Hb)]; [destruct w; [destruct a0|]; discriminate|].
  rewrite app_assoc in E. apply app_inj_tail in E as [_ ->]. exact Hb.
Qed.
Lemma same_token t t' c c' : token t -> token t' -> (c = [] \/ exists b x, c = b :: x /\ blank b) ->
  (c' = [] \/ exists b x, c' = b :: x /\ blank b) -> t ++ c = t' ++ c' -> t = t' /\ c = c'.
Proof.
  intros [_ Ht] [_ Ht'] Hc Hc' E. apply app_eq_app in E as (u & [[-> ->]|[-> ->]]).
  - destruct u as [|b u]; [now rewrite app_nil_r|]. apply Forall_app in Ht as [_ Ht]. inversion Ht; subst.
    destruct Hc' as [E|(b' & x & E & Hb)]; [discriminate|]. now injection E as -> _.
  - destruct u as [|b u]; [now rewrite app_nil_r|]. apply Forall_app in Ht' as [_ Ht']. inversion Ht'; subst.
    destruct Hc as [E|(b' & x & E & Hb)]; [discriminate|]. now injection E as -> _.
Qed.

Lemma laid_columns (Hs : sane decode) s r : laid_out decode s r -> forall a t c, s = a ++ t ++ c -> token t -> bounded a c ->
  exists x d y, r = x ++ d ++ y /\ decode t = Ok d /\ length x = length a.
Proof.
  induction 1 as [|t0 w s d0 r Ht0 Hw Hws Ed Hlo IH]; intros a t c E Ht Hb.
  - destruct t; [now destruct Ht|]. now destruct a.
  - destruct a as [|a0 a1].
    + cbn in E. assert (Hc0 : w ++ s = [] \/ exists b x, w ++ s = b :: x /\ blank b).
      { destruct w as [|b w]; [left; destruct Hws as [Hws| ->]; [easy|reflexivity]|]. right. exists b, (w ++ s). split; [easy|]. now inversion Hw. }
      destruct (same_token t t0 c (w ++ s) Ht Ht0 (proj2 Hb) Hc0 (eq_sym E)) as [-> ->].
      exists [], d0. eexists. split; [reflexivity|]. now split.
    + assert (Ha : exists a2, a0 :: a1 = t0 ++ a2 /\ a2 ++ t ++ c = w ++ s).
      { symmetry in E. apply app_eq_app in E as (u & [[E E']|[E E']]).
        - exists u. split; [exact E|]. now rewrite E'.
        - destruct Hb as [[Hb|(a' & b & Eb & Hb)] _]; [discriminate|]. destruct Ht0 as [_ Ht0]. rewrite E, Eb in Ht0.
          apply Forall_app in Ht0 as [Ht0 _]. apply Forall_app in Ht0 as [_ Ht0]. inversion Ht0. easy. }
      destruct Ha as (a2 & Ea & Ea2). rewrite Ea in *. apply bounded_skip in Hb as Hb2.
      destruct (skip_blanks w s a2 t c Hw Ht Hb2 Ea2) as (a3 & -> & E3). apply bounded_skip in Hb2.
      destruct (IH a3 t c (eq_sym E3) Ht Hb2) as (x & d & y & -> & Ed' & Hx).
      exists (d0 ++ w ++ repeat 32%N (length t0 - length d0) ++ x), d, y. split; [now rewrite <- !app_assoc|]. split; [easy|].
      destruct Hs as [_ Hl]. specialize (Hl t0 d0 Ht0 Ed). rewrite !app_length, repeat_length, Hx. lia.
Qed.
End Text.

(* a line that is not blank has a first token *)
Lemma first_token body : ~ blanks body -> exists w s c x, body = w ++ s /\ blanks w /\ s = c :: x /\ ~ blank c.
Proof.
  intros H. exists (takew byte_space body), (dropw byte_space body).
  assert (Hw : blanks (takew byte_space body)) by (eapply Forall_impl; [|apply takew_forall]; intros b; apply blank_b).
  destruct (dropw byte_space body) as [|c x] eqn:E.
  - exfalso. apply H. rewrite <- (takew_dropw byte_space body), E, app_nil_r. exact Hw.
  - exists c, x. split; [rewrite <- E; symmetry; apply takew_dropw|]. split; [exact Hw|]. split; [easy|].
    intros Hc. apply blank_b in Hc. apply dropw_head in E. congruence.
Qed.
Lemma no_newline_tail w s c x : s = c :: x -> no_newline (w ++ s) -> no_newline s.
Proof. intros -> H a b E. apply (H (w ++ a) b). now rewrite E, app_assoc. Qed.

Theorem respace_columns decode body n r : sane decode -> ~ blanks body -> no_newline body ->
  respace_decode decode (body ++ repeat 10%N n) = Ok r ->
  length r = length body
  /\ forall a t c, body = a ++ t ++ c -> token t -> bounded a c ->
       exists x d y, r = x ++ d ++ y /\ decode t = Ok d /\ length x = length a.
Proof.
  intros Hs Hb Hn E. destruct (first_token body Hb) as (w & s & c & x & Eb & Hw & Es & Hc).
  rewrite Eb in *. clear Eb.
  destruct (respace_laid decode Hs n w s c x Hw Es Hc (no_newline_tail w s c x Es Hn) r E) as (r' & -> & Hlo).
  split; [now rewrite !app_length, (laid_length decode Hs s r' Hlo)|].
  intros a t b E' Ht Hbd. destruct (skip_blanks w s a t b Hw Ht Hbd (eq_sym E')) as (a' & -> & Ea).
  apply bounded_skip in Hbd. destruct (laid_columns decode Hs s r' Hlo a' t b (eq_sym Ea) Ht Hbd) as (y & d & z & -> & Ed & Hy).
  exists (w ++ y), d, z. split; [now rewrite <- app_assoc|]. split; [easy|]. now rewrite !app_length, Hy.
Qed.
Theorem respace_total decode body n : sane decode -> no_newline body ->
  (exists r, respace_decode decode (body ++ repeat 10%N n) = Ok r) <->
  (forall a t c, body = a ++ t ++ c -> token t -> bounded a c -> exists d, decode t = Ok d).
Proof.
  intros Hs Hn. destruct (Forall_dec blank (fun b => match Bool.bool_dec (byte_space b) true with
      left e => left (proj1 (blank_b b) e) | right e => right (fun h => e (proj2 (blank_b b) h)) end) body) as [Hb|Hb].
  - split.
    + intros _ a t c E [Ht Hf]. exfalso. rewrite E in Hb. apply Forall_app in Hb as [_ Hb]. apply Forall_app in Hb as [Hb _].
      destruct t; [easy|]. inversion Hb; inversion Hf; easy.
    + intros _. exists []. rewrite respace_line, rstrip_spec by easy. rewrite texts_blank; [easy|].
      rewrite <- (app_nil_r body). now rewrite dropw_blanks.
  - split.
    + intros (r & E) a t c E' Ht Hbd. destruct (respace_columns decode body n r Hs Hb Hn E) as [_ H].
      destruct (H a t c E' Ht Hbd) as (x & d & y & _ & Ed & _). eauto.
    + intros H. destruct (respace_decode decode (body ++ repeat 10%N n)) as [r|e] eqn:E; [eauto|]. exfalso.
      destruct (first_token body Hb) as (w & s & c & x & Eb & Hw & Es & Hc). rewrite Eb in *. clear Eb.
      destruct (respace_fails decode Hs n w s c x Hw Es Hc (no_newline_tail w s c x Es Hn) e E) as (a & t & b & E' & Ht & Hbd & Ed).
      destruct (H (w ++ a) t b) as (d & Ed'); [rewrite E'; now rewrite <- app_assoc|easy| |congruence].
      destruct Hbd as [[->|(a' & b' & -> & Hb')] Hc2]; split; try easy.
      * destruct w as [|b0 w0] using rev_ind; [now left|]. right. exists w0, b0. rewrite app_nil_r. split; [easy|].
        apply Forall_app in Hw as [_ Hw]. now inversion Hw.
      * right. exists (w ++ a'), b'. split; [now rewrite <- app_assoc|easy].
Qed.

(* ---------- UTF-8 ---------- *)

Lemma utf8_ascii w : Forall (fun b => b < 128)%N w -> utf8 w = Ok w.
Proof. induction 1 as [|b w Hb _ IH]; [easy|]. cbn [utf8]. apply N.ltb_lt in Hb. rewrite Hb, IH. reflexivity. Qed.

Lemma low_range lo hi b : (b < 128)%N -> (128 <= lo)%N -> in_range lo hi b = false.
Proof. intros H1 H2. unfold in_range. apply andb_false_iff. left. apply N.leb_gt. lia. Qed.

(* decoding is a homomorphism at a character boundary *)
Definition ascii_start (w : list N) : Prop := match w with b :: _ => (b < 128)%N | [] => True end.
Lemma push_app c r (k : str -> str -> str) r' : (forall d d', k (c :: d) d' = c :: k d d') ->
  bind (push c r) (fun d => bind r' (fun d' => Ok (k d d'))) = push c (bind r (fun d => bind r' (fun d' => Ok (k d d')))).
Proof. intros H. destruct r as [d|], r' as [d'|]; cbn; [now rewrite H|easy|easy|easy]. Qed.
Lemma utf8_app w (Hw : ascii_start w) n : forall s, length s <= n ->
  utf8 (s ++ w) = bind (utf8 s) (fun d => bind (utf8 w) (fun d' => Ok (d ++ d'))).
Proof.
  assert (Hp : forall c r, bind (push c r) (fun d => bind (utf8 w) (fun d' => Ok (d ++ d')))
               = push c (bind r (fun d => bind (utf8 w) (fun d' => Ok (d ++ d'))))) by (intros; now apply push_app).
  induction n as [|n IH]; intros s Hn; (destruct s as [|b s]; [cbn; now destruct (utf8 w)|]); cbn in Hn; [lia|].
  cbn [app]. destruct (b <? 128)%N eqn:Eb.
  { cbn [utf8]. rewrite Eb, IH by lia. symmetry. apply Hp. }
  destruct s as [|b1 s].
  { cbn [utf8 app]. rewrite Eb. cbn [bind]. destruct w as [|w1 w]; [easy|]. cbn in Hw.
    unfold cont. rewrite (low_range 128 191 w1) by (auto; lia). destruct (in_range 194 223 b); [easy|].
    destruct w as [|w2 w]; [easy|]. rewrite (low_range 160 191 w1), (low_range 128 159 w1) by (auto; lia).
    assert (E0 : forall x y : bool, (if x then false else if y then false else false) = false) by now intros [] [].
    rewrite E0. cbn [andb]. destruct (in_range 224 239 b); [easy|]. destruct w as [|w3 w]; [easy|].
    rewrite (low_range 144 191 w1), (low_range 128 143 w1) by (auto; lia). rewrite E0, andb_false_r. easy. }
  destruct s as [|b2 s].
  { cbn [utf8 app]. rewrite Eb. destruct (in_range 194 223 b) eqn:E2.
    - destruct (cont b1); [|easy]. rewrite Hp. f_equal. cbn. now destruct (utf8 w).
    - cbn [bind]. destruct w as [|w1 w]; [easy|]. cbn in Hw.
      unfold cont at 2. rewrite (low_range 128 191 w1) by (auto; lia). rewrite andb_false_r. destruct (in_range 224 239 b); [easy|].
      destruct w as [|w2 w]; [easy|]. unfold cont at 2. rewrite (low_range 128 191 w1) by (auto; lia). rewrite andb_false_r. easy. }
  cbn [app]. remember (utf8 w) as uw eqn:Ew. cbn [utf8]. rewrite Eb. destruct (in_range 194 223 b) eqn:E2.
  { destruct (cont b1); [|easy]. rewrite Hp. f_equal. apply (IH (b2 :: s)). cbn in *. lia. }
  destruct (in_range 224 239 b) eqn:E3.
  { destruct (_ && cont b2)%bool; [|easy]. rewrite Hp. f_equal. apply IH. cbn in *. lia. }
  destruct s as [|b3 s]; cbn [app].
  { destruct w as [|w1 w]; [easy|]. cbn in Hw.
    unfold cont at 3. rewrite (low_range 128 191 w1) by (auto; lia). rewrite andb_false_r. easy. }
  destruct (_ && cont b3)%bool; [|easy]. rewrite Hp. f_equal. apply IH. cbn in *. lia.
Qed.
Lemma utf8_lead w s : Forall (fun b => b < 128)%N w -> utf8 (w ++ s) = bind (utf8 s) (fun d => Ok (w ++ d)).
Proof.
  induction 1 as [|b w Hb _ IH]; [cbn; now destruct (utf8 s)|]. cbn [app utf8]. apply N.ltb_lt in Hb. rewrite Hb, IH. now destruct (utf8 s).
Qed.

Lemma push_ok c r d : push c r = Ok d -> exists d', r = Ok d' /\ d = c :: d'.
Proof. destruct r as [d'|]; [|discriminate]. intros [= <-]. eauto. Qed.
Lemma utf8_length n : forall s d, length s <= n -> utf8 s = Ok d -> length d <= length s.
Proof.
  induction n as [|n IH]; intros s d Hn E; (destruct s as [|b s]; [injection E as <-; easy|]); cbn in Hn; [lia|].
  cbn [utf8] in E. destruct (b <? 128)%N.
  { apply push_ok in E as (d' & E & ->). apply IH in E; cbn; lia. }
  destruct s as [|b1 s]; [discriminate|]. destruct (in_range 194 223 b).
  { destruct (cont b1); [|discriminate]. apply push_ok in E as (d' & E & ->). apply IH in E; cbn in *; lia. }
  destruct s as [|b2 s]; [discriminate|]. destruct (in_range 224 239 b).
  { destruct (_ && cont b2)%bool; [|discriminate]. apply push_ok in E as (d' & E & ->). apply IH in E; cbn in *; lia. }
  destruct s as [|b3 s]; [discriminate|].
  destruct (_ && cont b3)%bool; [|discriminate]. apply push_ok in E as (d' & E & ->). apply IH in E; cbn in *; lia.
Qed.

Lemma blank_ascii w : blanks w -> Forall (fun b => b < 128)%N w.
Proof. intros H. eapply Forall_impl; [|exact H]. intros b [?| ->]; lia. Qed.
Lemma blanks_start w : blanks w -> ascii_start w.
Proof. intros H. apply blank_ascii in H. destruct H; easy. Qed.
Theorem utf8_sane : sane utf8.
Proof.
  split.
  - intros w t w' Hw _ Hw'. rewrite utf8_lead by now apply blank_ascii.
    rewrite (utf8_app w' (blanks_start _ Hw') (length t)) by easy. rewrite (utf8_ascii w') by now apply blank_ascii.
    now destruct (utf8 t).
  - intros t d _ E. now apply (utf8_length (length t)) in E.
Qed.

Lemma in_range_iff lo hi b : in_range lo hi b = true <-> (lo <= b <= hi)%N.
Proof. unfold in_range. now rewrite andb_true_iff, !N.leb_le. Qed.
Lemma in_range_not lo hi b : in_range lo hi b = false <-> ~ (lo <= b <= hi)%N.
Proof. rewrite <- in_range_iff. destruct (in_range lo hi b); intuition congruence. Qed.

Ltac Zify.zify_post_hook ::= Z.to_euclidean_division_equations.
Lemma utf8_one c s : scalar c -> utf8 (utf8_char c ++ s) = push c (utf8 s).
Proof.
  intros Hc. unfold utf8_char. destruct (N.ltb_spec c 128) as [H1|H1].
  { cbn [app utf8]. apply N.ltb_lt in H1. now rewrite H1. }
  destruct (N.ltb_spec c 2048) as [H2|H2].
  { cbn [app utf8]. replace (192 + c / 64 <? 128)%N with false by (symmetry; apply N.ltb_ge; lia).
    replace (in_range 194 223 (192 + c / 64)) with true by (symmetry; apply in_range_iff; lia).
    unfold cont. replace (in_range 128 191 (128 + c mod 64)) with true by (symmetry; apply in_range_iff; lia).
    f_equal. lia. }
  destruct (N.ltb_spec c 65536) as [H3|H3].
  { cbn [app utf8]. replace (224 + c / 4096 <? 128)%N with false by (symmetry; apply N.ltb_ge; lia).
    replace (in_range 194 223 (224 + c / 4096)) with false by (symmetry; apply in_range_not; lia).
    replace (in_range 224 239 (224 + c / 4096)) with true by (symmetry; apply in_range_iff; lia).
    unfold cont. replace (in_range 128 191 (128 + c mod 64)) with true by (symmetry; apply in_range_iff; lia).
    rewrite andb_true_r.
    replace (if (224 + c / 4096 =? 224)%N then in_range 160 191 (128 + c / 64 mod 64)
             else if (224 + c / 4096 =? 237)%N then in_range 128 159 (128 + c / 64 mod 64) else in_range 128 191 (128 + c / 64 mod 64))
      with true.
    - f_equal. lia.
    - symmetry. destruct (N.eqb_spec (224 + c / 4096) 224); [apply in_range_iff; lia|].
      destruct (N.eqb_spec (224 + c / 4096) 237); apply in_range_iff; unfold scalar in Hc; lia. }
  { assert (Hm : (c < 1114112)%N) by (unfold scalar in Hc; lia).
    cbn [app utf8]. replace (240 + c / 262144 <? 128)%N with false by (symmetry; apply N.ltb_ge; lia).
    replace (in_range 194 223 (240 + c / 262144)) with false by (symmetry; apply in_range_not; lia).
    replace (in_range 224 239 (240 + c / 262144)) with false by (symmetry; apply in_range_not; lia).
    replace (in_range 240 244 (240 + c / 262144)) with true by (symmetry; apply in_range_iff; lia).
    unfold cont. replace (in_range 128 191 (128 + c mod 64)) with true by (symmetry; apply in_range_iff; lia).
    replace (in_range 128 191 (128 + c / 64 mod 64)) with true by (symmetry; apply in_range_iff; lia).
    rewrite !andb_true_r. cbn [andb].
    replace (if (240 + c / 262144 =? 240)%N then in_range 144 191 (128 + c / 4096 mod 64)
             else if (240 + c / 262144 =? 244)%N then in_range 128 143 (128 + c / 4096 mod 64) else in_range 128 191 (128 + c / 4096 mod 64))
      with true.
    - f_equal. lia.
    - symmetry. destruct (N.eqb_spec (240 + c / 262144) 240); [apply in_range_iff; lia|].
      destruct (N.eqb_spec (240 + c / 262144) 244); apply in_range_iff; lia. }
Qed.
Theorem utf8_decodes s : Forall scalar s -> utf8 (utf8_encode s) = Ok s.
Proof. induction 1 as [|c s Hc _ IH]; [easy|]. cbn [utf8_encode flat_map]. rewrite utf8_one by easy. fold (utf8_encode s). now rewrite IH. Qed.

(* the tokens of text that is UTF-8 are UTF-8 *)
Theorem utf8_tokens s d a t c : utf8 s = Ok d -> s = a ++ t ++ c -> bounded a c -> exists x, utf8 t = Ok x.
Proof.
  intros E -> [Ha Hc].
  assert (E2 : exists y, utf8 (t ++ c) = Ok y).
  { destruct Ha as [->|(a' & b & -> & Hb)]; [cbn in E; eauto|]. rewrite <- app_assoc in E. cbn [app] in E.
    assert (Hb' : (b < 128)%N) by (destruct Hb as [?| ->]; lia).
    rewrite (utf8_app (b :: t ++ c) Hb' (length a')) in E by easy.
    destruct (utf8 a'); [|discriminate]. cbn [bind utf8] in E. apply N.ltb_lt in Hb'. rewrite Hb' in E.
    destruct (utf8 (t ++ c)) as [y|]; [eauto|discriminate]. }
  destruct E2 as (y & E2).
  assert (Hs : ascii_start c) by (destruct Hc as [->|(b & c' & -> & [?| ->])]; cbn; try easy; lia).
  rewrite (utf8_app c Hs (length t)) in E2 by easy. destruct (utf8 t) as [x|]; [eauto|discriminate].
Qed.
Theorem respace_text s n : Forall scalar s -> no_newline (utf8_encode s) ->
  exists r, respace_decode utf8 (utf8_encode s ++ repeat 10%N n) = Ok r.
Proof.
  intros Hs Hn. apply (respace_total utf8 _ n utf8_sane Hn). intros a t c E _ Hb. exact (utf8_tokens _ _ a t c (utf8_decodes s Hs) E Hb).
Qed.

(* Latin-1: every byte is its character *)
Theorem latin1_sane : sane (fun s => Ok s).
Proof. split; [easy|]. intros t d _ [= <-]. easy. Qed.
