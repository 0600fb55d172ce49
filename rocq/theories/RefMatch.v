(* What the patterns of xigt/ref.py match, as deterministic scanners. *)
From Verif Require Import PyStr PyStrFacts Regex RegexFacts Ref.

Section M.
Context {U : Unicode}.

Lemma is_letter_word c : is_letter c = true -> is_word c = true.
Proof.
  unfold is_letter, is_word, cclass, ascii_class, in_range. intros H.
  assert (Hc : (65 <= c <= 90 \/ 97 <= c <= 122)%N).
  { apply orb_true_iff in H as [H|H]; apply andb_true_iff in H as [H1 H2];
    apply N.leb_le in H1, H2; lia. }
  replace (N.ltb c 128) with true by (symmetry; apply N.ltb_lt; lia).
  rewrite H. cbn.
  destruct ((48 <=? c)%N && (c <=? 57)%N); reflexivity.
Qed.

Lemma is_letter_idchar c : is_letter c = true -> idchar c = true.
Proof. unfold idchar. intros H%is_letter_word. rewrite H. now rewrite !orb_true_r. Qed.

Lemma is_digit_word c : is_digit c = true -> is_word c = true.
Proof. unfold is_digit, is_word. now destruct (cclass c). Qed.

Lemma is_word_space c : is_word c = true -> is_space c = false.
Proof. unfold is_space, is_word. now destruct (cclass c). Qed.

Lemma is_letter_digit c : is_letter c = true -> is_digit c = false.
Proof.
  unfold is_letter, is_digit, cclass, ascii_class, in_range. intros H.
  assert (Hc : (65 <= c <= 90 \/ 97 <= c <= 122)%N).
  { apply orb_true_iff in H as [H|H]; apply andb_true_iff in H as [H1 H2];
    apply N.leb_le in H1, H2; lia. }
  replace (N.ltb c 128) with true by (symmetry; apply N.ltb_lt; lia).
  rewrite H. cbn.
  replace ((48 <=? c)%N && (c <=? 57)%N) with false; [reflexivity|].
  symmetry. apply andb_false_iff. destruct Hc; [right|right]; apply N.leb_gt; lia.
Qed.

(* concrete ASCII characters never depend on the Unicode table *)
Lemma digit_ascii c : N.ltb c 128 = true -> is_digit c = in_range 48 57 c.
Proof.
  unfold is_digit, cclass, ascii_class. intros ->.
  destruct (in_range 48 57 c); [reflexivity|].
  destruct (_ || _); [reflexivity|]. now destruct (_ || _).
Qed.

(* ---------- id_re ---------- *)

Definition id_at (s : str) : option (str * str) :=
  match s with
  | c :: t => if is_letter c then Some (c :: takew idchar t, dropw idchar t) else None
  | [] => None
  end.

(* with a continuation that succeeds after the longest id *)
Lemma rmatch_id_some {A} pos s caps (k : mst -> option A) i r x :
  id_at s = Some (i, r) -> k (st (pos + length i) r caps) = Some x ->
  rmatch id_re (st pos s caps) k = Some x.
Proof.
  destruct s as [|c t]; cbn -[rmatch]; [easy|].
  destruct (is_letter c) eqn:E; [|easy]. intros [= <- <-] Hk.
  cbn [id_re rmatch]. cbn [st m_rest m_pos m_caps]. rewrite E.
  change {| m_pos := S pos; m_rest := t; m_caps := caps |} with (st (S pos) t caps).
  change ((fix loop (n : nat) (s : mst) {struct n} : option A := _) _ _)
    with (rmatch (RStar true (RChr idchar)) (st (S pos) t caps) k).
  rewrite rmatch_star_chr. apply star_g_some.
  replace (S pos + length (takew idchar t)) with (pos + length (c :: takew idchar t)) by (cbn; lia).
  exact Hk.
Qed.

Lemma rmatch_id_none {A} pos s caps (k : mst -> option A) :
  id_at s = None -> rmatch id_re (st pos s caps) k = None.
Proof.
  destruct s as [|c t]; cbn; [easy|]. destruct (is_letter c); easy.
Qed.

Definition mk pos n rest caps : rmatched :=
  {| r_start := pos; r_end := pos + n; r_rest := rest; r_caps := caps |}.

Lemma id_at_app s i r : id_at s = Some (i, r) -> s = i ++ r /\ i <> [].
Proof.
  destruct s as [|c t]; cbn; [easy|]. destruct (is_letter c); [|easy].
  intros [= <- <-]. cbn. now rewrite takew_dropw.
Qed.

Lemma match_id0 pos s :
  match_at false (RGroup 0 id_re) pos s =
  match id_at s with
  | Some (i, r) => Some (mk pos (length i) r [(0, i)])
  | None => None
  end.
Proof.
  unfold match_at. change {| m_pos := pos; m_rest := s; m_caps := [] |} with (st pos s []).
  rewrite rmatch_group.
  destruct (id_at s) as [[i r]|] eqn:E.
  - destruct (id_at_app _ _ _ E) as [Hs _].
    eapply rmatch_id_some; [exact E|]. cbn.
    replace (pos + length i - pos) with (length i) by lia.
    rewrite Hs, firstn_app_len. reflexivity.
  - now apply rmatch_id_none.
Qed.

Lemma id_match pos s :
  match_at false id_re pos s =
  match id_at s with Some (i, r) => Some (mk pos (length i) r []) | None => None end.
Proof.
  unfold match_at. change {| m_pos := pos; m_rest := s; m_caps := [] |} with (st pos s []).
  destruct (id_at s) as [[i r]|] eqn:E.
  - eapply rmatch_id_some; [exact E|]. reflexivity.
  - now apply rmatch_id_none.
Qed.

(* ---------- numbers ---------- *)

Definition num_at (s : str) : option (str * str) :=
  let '(sg, t) := match s with
                  | c :: t => if N.eqb c (Ch "-") then ([c], t) else ([], s)
                  | [] => ([], [])
                  end in
  match takew numchar t with
  | [] => None
  | u => Some (sg ++ u, dropw numchar t)
  end.

Lemma num_at_app s i r : num_at s = Some (i, r) -> s = i ++ r /\ i <> [].
Proof.
  unfold num_at. destruct s as [|c t]; [easy|].
  destruct (N.eqb c (Ch "-")) eqn:E.
  - destruct (takew numchar t) as [|a u] eqn:Et; [easy|]. intros [= <- <-]. split; [|easy].
    cbn [app]. f_equal. change (t = (a :: u) ++ dropw numchar t). rewrite <- Et.
    symmetry; apply takew_dropw.
  - destruct (takew numchar (c :: t)) as [|a u] eqn:Et; [easy|]. intros [= <- <-]. split; [|easy].
    cbn [app]. change (c :: t = (a :: u) ++ dropw numchar (c :: t)). rewrite <- Et.
    symmetry; apply takew_dropw.
Qed.

Lemma numchar_minus : numchar (Ch "-") = false.
Proof. unfold numchar. rewrite digit_ascii by reflexivity. reflexivity. Qed.

Lemma rmatch_plus_num {A} pos s caps (k : mst -> option A) :
  rmatch (RPlus true (RChr numchar)) (st pos s caps) k =
  match s with
  | c :: t => if numchar c then star_g numchar (S pos) t caps k else None
  | [] => None
  end.
Proof.
  unfold RPlus. cbn [rmatch]. destruct s as [|c t]; cbn [st m_rest m_pos m_caps]; [easy|].
  destruct (numchar c); [|easy]. apply (rmatch_star_chr numchar (S pos) t caps k).
Qed.

Lemma rmatch_num_some {A} pos s caps (k : mst -> option A) i r x :
  num_at s = Some (i, r) -> k (st (pos + length i) r caps) = Some x ->
  rmatch num_re (st pos s caps) k = Some x.
Proof.
  unfold num_at, num_re, ROpt, RLit. intros H Hk.
  cbn [rmatch]. destruct s as [|c t]; [easy|]. cbn [st m_rest m_pos m_caps].
  rewrite (N.eqb_sym (Ch "-") c).
  destruct (N.eqb c (Ch "-")) eqn:E.
  - change {| m_pos := S pos; m_rest := t; m_caps := caps |} with (st (S pos) t caps).
    rewrite rmatch_plus_num. destruct t as [|d t]; [easy|]. cbn in H.
    destruct (numchar d); [|easy]. injection H as <- <-.
    rewrite (star_g_some _ _ _ _ _ x); [easy|].
    match goal with |- k (st ?n _ _) = _ => match type of Hk with k (st ?m _ _) = _ => replace n with m by (cbn; lia); exact Hk end end.
  - change {| m_pos := pos; m_rest := c :: t; m_caps := caps |} with (st pos (c :: t) caps).
    rewrite rmatch_plus_num. cbn in H. destruct (numchar c); [|easy]. injection H as <- <-.
    apply star_g_some.
    match goal with |- k (st ?n _ _) = _ => match type of Hk with k (st ?m _ _) = _ => replace n with m by (cbn; lia); exact Hk end end.
Qed.

Lemma rmatch_num_none {A} pos s caps (k : mst -> option A) :
  num_at s = None -> rmatch num_re (st pos s caps) k = None.
Proof.
  unfold num_at, num_re, ROpt, RLit. intros H.
  cbn [rmatch]. destruct s as [|c t]; [easy|]. cbn [st m_rest m_pos m_caps].
  rewrite (N.eqb_sym (Ch "-") c).
  destruct (N.eqb_spec c (Ch "-")) as [->|Ne].
  - change {| m_pos := S pos; m_rest := t; m_caps := caps |} with (st (S pos) t caps).
    change {| m_pos := pos; m_rest := Ch "-" :: t; m_caps := caps |} with (st pos (Ch "-" :: t) caps).
    rewrite !rmatch_plus_num, numchar_minus. destruct t as [|d t]; [easy|]. cbn in H.
    destruct (numchar d); easy.
  - change {| m_pos := pos; m_rest := c :: t; m_caps := caps |} with (st pos (c :: t) caps).
    rewrite rmatch_plus_num. cbn in H. destruct (numchar c); easy.
Qed.

(* with a continuation that needs a ':' next, only the longest number matters *)
Lemma rmatch_num_det {A} pos s caps (k : mst -> option A) :
  (forall pos c t, numchar c = true -> k (st pos (c :: t) caps) = None) ->
  rmatch num_re (st pos s caps) k =
  match num_at s with Some (i, r) => k (st (pos + length i) r caps) | None => None end.
Proof.
  intros Hk. destruct (num_at s) as [[i r]|] eqn:H; [|now apply rmatch_num_none].
  unfold num_at, num_re, ROpt, RLit in *.
  cbn [rmatch]. destruct s as [|c t]; [easy|]. cbn [st m_rest m_pos m_caps].
  rewrite (N.eqb_sym (Ch "-") c).
  destruct (N.eqb_spec c (Ch "-")) as [->|Ne].
  - change {| m_pos := S pos; m_rest := t; m_caps := caps |} with (st (S pos) t caps).
    change {| m_pos := pos; m_rest := Ch "-" :: t; m_caps := caps |} with (st pos (Ch "-" :: t) caps).
    rewrite !rmatch_plus_num, numchar_minus. destruct t as [|d t]; [easy|]. cbn in H.
    destruct (numchar d); [|easy]. injection H as <- <-.
    rewrite star_g_det by auto. cbn.
    replace (pos + S (S (length (takew numchar t)))) with (S (S (pos + length (takew numchar t)))) by lia.
    now destruct (k _).
  - change {| m_pos := pos; m_rest := c :: t; m_caps := caps |} with (st pos (c :: t) caps).
    rewrite rmatch_plus_num. cbn in H. destruct (numchar c); [|easy]. injection H as <- <-.
    rewrite star_g_det by auto. cbn. f_equal. f_equal. lia.
Qed.

(* ---------- span_re ---------- *)

(* start:end, longest numbers *)
Definition pair_at (s : str) : option (str * str * str) :=
  match num_at s with
  | Some (a, c :: t) =>
    if N.eqb c (Ch ":") then
      match num_at t with Some (b, r) => Some (a, b, r) | None => None end
    else None
  | _ => None
  end.

Definition span_at (s : str) : option (str * str * str * str) :=
  match s with
  | [] => None
  | c :: t =>
    if span_delim c then option_map (fun '(a, b, r) => ([c], a, b, r)) (pair_at t)
    else option_map (fun '(a, b, r) => ([], a, b, r)) (pair_at s)
  end.

Lemma numchar_colon c : numchar c = true -> N.eqb (Ch ":") c = false.
Proof.
  intros H. destruct (N.eqb_spec (Ch ":") c) as [<-|]; [|easy].
  unfold numchar in H. rewrite digit_ascii in H by reflexivity. discriminate.
Qed.

Lemma span_delim_num c t : span_delim c = true -> num_at (c :: t) = None.
Proof.
  unfold span_delim, num_at. intros H.
  apply negb_true_iff in H. apply orb_false_iff in H as [H Hd].
  apply orb_false_iff in H as [H Hc]. apply orb_false_iff in H as [Hm Hp].
  rewrite Hm. cbn. unfold numchar. now rewrite Hp, Hd.
Qed.

Lemma firstn_app_len' {A} (n : nat) (u v : list A) : n = length u -> firstn n (u ++ v) = u.
Proof. intros ->. apply firstn_app_len. Qed.

Definition k_span (pos0 : nat) : mst -> option rmatched :=
  fun s' => Some {| r_start := pos0; r_end := m_pos s'; r_rest := m_rest s'; r_caps := m_caps s' |}.

Lemma rmatch_pair pos0 pos s caps :
  rmatch (RSeq (RGroup 2 num_re) (RSeq (RLit ":") (RGroup 3 num_re))) (st pos s caps) (k_span pos0) =
  match pair_at s with
  | Some (a, b, r) => Some {| r_start := pos0; r_end := pos + length a + 1 + length b; r_rest := r;
                              r_caps := (3, b) :: (2, a) :: caps |}
  | None => None
  end.
Proof.
  cbn [rmatch].
  change (fun s' => rmatch (RLit ":") _ _) with
    (fun s' : mst => (fun s'' : mst => rmatch (RLit ":") s'' (fun s'0 : mst => rmatch (RGroup 3 num_re) s'0 (k_span pos0)))
       (st (m_pos s') (m_rest s') ((2, firstn (m_pos s' - m_pos (st pos s caps)) (m_rest (st pos s caps))) :: m_caps s'))).
  rewrite rmatch_num_det.
  2:{ intros p c t Hc. cbn. now rewrite numchar_colon. }
  unfold pair_at. destruct (num_at s) as [[a r]|] eqn:Ea; [|easy].
  destruct (num_at_app _ _ _ Ea) as [Hs _].
  cbn [st m_pos m_rest m_caps RLit rmatch].
  replace (pos + length a - pos) with (length a) by lia. rewrite Hs, firstn_app_len.
  destruct r as [|c t]; [easy|]. rewrite (N.eqb_sym (Ch ":") c). destruct (N.eqb c (Ch ":")); [|easy].
  destruct (num_at t) as [[b r]|] eqn:Eb.
  - destruct (num_at_app _ _ _ Eb) as [Ht _].
    eapply (rmatch_num_some (S (pos + length a)) t _ _ b r); [exact Eb|].
    unfold k_span. cbn [st m_pos m_rest m_caps].
    rewrite firstn_app_len' with (u := b) (v := r) || rewrite Ht, (firstn_app_len' _ b r) by lia.
    f_equal. f_equal. lia.
  - apply (rmatch_num_none (S (pos + length a)) t); auto.
Qed.

Lemma match_span pos s :
  match_at false span_re pos s =
  match span_at s with
  | Some (d, a, b, r) =>
    Some (mk pos (length d + length a + 1 + length b) r
            ((3, b) :: (2, a) :: match d with [] => [] | _ => [(1, d)] end))
  | None => None
  end.
Proof.
  unfold match_at. change {| m_pos := pos; m_rest := s; m_caps := [] |} with (st pos s []).
  cbn [andb]. change (fun s' => Some _) with (k_span pos).
  unfold span_re. rewrite rm_seq, rm_opt, rm_group, rm_chr.
  destruct s as [|c t].
  - rewrite rmatch_pair. reflexivity.
  - cbn [st m_rest m_pos m_caps]. rewrite !rmatch_pair. unfold span_at.
    destruct (span_delim c) eqn:E.
    + replace (firstn (S pos - pos) (c :: t)) with [c] by (replace (S pos - pos) with 1 by lia; reflexivity).
      destruct (pair_at t) as [[[a b] r]|]; cbn [option_map].
      * f_equal. unfold mk. f_equal. cbn; lia.
      * unfold pair_at. rewrite span_delim_num by easy. reflexivity.
    + destruct (pair_at (c :: t)) as [[[a b] r]|]; cbn [option_map]; [|easy].
      f_equal. unfold mk. f_equal. cbn; lia.
Qed.

(* ---------- selection_re ---------- *)

(* [anything but ']'] *)
Definition range_at (s : str) : option (str * str) :=
  match s with
  | c :: t =>
    if N.eqb c (Ch "[") then
      match dropw not_rbr t with
      | _ :: r => Some (takew not_rbr t, r)
      | [] => None
      end
    else None
  | [] => None
  end.

Definition idrange_at (s : str) : option (str * option str * str) :=
  match id_at s with
  | Some (i, r) =>
    match range_at r with
    | Some (u, r') => Some (i, Some u, r')
    | None => Some (i, None, r)
    end
  | None => None
  end.

Definition sel_at (pos : nat) (s : str) : option (str * str * option str * str) :=
  match (if Nat.eqb pos 0 then idrange_at s else None) with
  | Some (i, u, r) => Some ([], i, u, r)
  | None =>
    match s with
    | c :: t => if sel_delim c then option_map (fun '(i, u, r) => ([c], i, u, r)) (idrange_at t) else None
    | [] => None
    end
  end.

Definition range_len (u : option str) : nat := match u with Some u => length u + 2 | None => 0 end.
Definition range_cap (u : option str) : list (nat * str) := match u with Some u => [(3, u)] | None => [] end.

Lemma rmatch_range pos0 pos s caps :
  rmatch (ROpt (RSeq (RLit "[") (RSeq (RGroup 3 (RStar true (RChr not_rbr))) (RLit "]"))))
         (st pos s caps) (k_span pos0) =
  match range_at s with
  | Some (u, r) => Some {| r_start := pos0; r_end := pos + length u + 2; r_rest := r; r_caps := (3, u) :: caps |}
  | None => Some {| r_start := pos0; r_end := pos; r_rest := s; r_caps := caps |}
  end.
Proof.
  rewrite rm_opt, rm_seq, rm_lit.
  destruct s as [|c t]; [easy|]. cbn [range_at].
  destruct (N.eqb c (Ch "[")); [|easy].
  rewrite rm_seq, rm_group.
  rewrite rmatch_star_chr, star_g_det.
  2:{ intros p d r Hd. cbn [st m_rest m_pos m_caps]. rewrite rm_lit. unfold not_rbr in Hd.
      destruct (N.eqb d (Ch "]")); easy. }
  cbn [st m_rest m_pos m_caps]. rewrite rm_lit.
  destruct (dropw not_rbr t) as [|d r] eqn:E; [easy|].
  assert (Hd := dropw_head _ _ _ _ E). unfold not_rbr in Hd. apply negb_false_iff in Hd.
  rewrite Hd. unfold k_span. cbn [st m_rest m_pos m_caps].
  f_equal. f_equal; [lia|]. f_equal. f_equal.
  rewrite <- (takew_dropw not_rbr t) at 2. apply firstn_app_len'. lia.
Qed.

Lemma rmatch_idrange pos0 pos s caps :
  rmatch (RSeq (RGroup 2 id_re)
        (ROpt (RSeq (RLit "[") (RSeq (RGroup 3 (RStar true (RChr not_rbr))) (RLit "]")))))
     (st pos s caps) (k_span pos0) =
  match idrange_at s with
  | Some (i, u, r) => Some {| r_start := pos0; r_end := pos + length i + range_len u; r_rest := r;
                              r_caps := range_cap u ++ (2, i) :: caps |}
  | None => None
  end.
Proof.
  rewrite rm_seq, rm_group. unfold idrange_at.
  destruct (id_at s) as [[i r]|] eqn:E; [|now apply rmatch_id_none].
  destruct (id_at_app _ _ _ E) as [Hs _].
  destruct (range_at r) as [[u r']|] eqn:Er.
  - eapply rmatch_id_some; [exact E|]. cbn [st m_pos m_rest m_caps]. rewrite rmatch_range, Er.
    rewrite Hs, (firstn_app_len' _ i r) by lia. cbn. f_equal. f_equal. lia.
  - eapply rmatch_id_some; [exact E|]. cbn [st m_pos m_rest m_caps]. rewrite rmatch_range, Er.
    rewrite Hs, (firstn_app_len' _ i r) by lia. cbn. f_equal. f_equal. lia.
Qed.

Lemma match_sel pos s :
  match_at false selection_re pos s =
  match sel_at pos s with
  | Some (d, i, u, r) =>
    Some (mk pos (length d + length i + range_len u) r (range_cap u ++ [(2, i); (1, d)]))
  | None => None
  end.
Proof.
  unfold match_at. change {| m_pos := pos; m_rest := s; m_caps := [] |} with (st pos s []).
  cbn [andb]. change (fun s' => Some _) with (k_span pos).
  unfold selection_re. rewrite rm_seq, rm_group, rm_alt, rm_bol, rm_chr.
  cbn [st m_rest m_pos m_caps]. rewrite rmatch_idrange.
  unfold sel_at.
  destruct (Nat.eqb_spec pos 0) as [->|Hp].
  - destruct (idrange_at s) as [[[i u] r]|].
    + cbn. f_equal.
    + destruct s as [|c t]; [easy|]. destruct (sel_delim c); [|easy].
      rewrite rmatch_idrange. destruct (idrange_at t) as [[[i u] r]|]; cbn; [|easy].
      f_equal.
  - destruct s as [|c t]; [easy|]. destruct (sel_delim c); [|easy].
    rewrite rmatch_idrange. destruct (idrange_at t) as [[[i u] r]|]; cbn -[Nat.sub]; [|easy].
    replace (S pos - pos) with 1 by lia. cbn.
    f_equal. unfold mk. f_equal. lia.
Qed.
End M.
