(* Proofs about the deprecated functions of xigt/ref.py (RefOld.v) against SpecRefOld.v. *)
From Verif Require Import PyStr PyStrFacts Regex RegexFacts Ref SpecRef RefMatch RefProofs RefLaws Model Value RefOld SpecRefOld.
From Verif Require Attr AttrProofs.

Section P.
Context {U : Unicode}.

(* ---------- plain expressions are well-formed ---------- *)

Lemma int_num a : int_shape a -> num_shape a.
Proof. intros (sg & t & E & Hs & Ht & Hf). exists sg, t. repeat split; auto. eapply Forall_impl; [|exact Hf]. auto. Qed.

Lemma dc_plus : delim_char (Ch "+").
Proof. unfold delim_char. split; [reflexivity|]. split; [vm_compute; intuition discriminate|discriminate]. Qed.
Lemma dc_comma : delim_char (Ch ",").
Proof. unfold delim_char. split; [reflexivity|]. split; [vm_compute; intuition discriminate|discriminate]. Qed.

Lemma plain_delim_wf d : plain_delim false d -> d <> [] /\ Forall delim_char d /\ length d = 1.
Proof. intros [->| ->]; (split; [discriminate|]; split; [|reflexivity]; constructor; [|constructor]); [exact dc_plus|exact dc_comma]. Qed.

Lemma plain_spans_wf first l : plain_spans first l -> wf_spans true first l.
Proof.
  revert first; induction l as [|s l IH]; intros first; cbn; [easy|]. intros (Hd & Ha & Hb & Hl). split; [|auto].
  split; [|split; now apply int_num]. destruct first; [exact Hd|]. apply plain_delim_wf in Hd as (H1 & H2 & H3). auto.
Qed.
Lemma plain_sels_wf first e : plain_sels first e -> wf_sels true first e.
Proof.
  revert first; induction e as [|s e IH]; intros first; cbn; [easy|]. intros (Hd & Hi & Hl & He). split; [|auto].
  split; [|split; [easy|now apply plain_spans_wf]]. destruct first; [exact Hd|]. apply plain_delim_wf in Hd as (H1 & H2 & H3). auto.
Qed.

(* ---------- integers ---------- *)

Lemma digits_some t : Forall (fun c => is_digit c = true) t -> forall acc b, (t <> [] \/ b = false) -> exists n, int_digits acc b t = Some n.
Proof.
  induction 1 as [|c t Hc Ht IH]; intros acc b Hb; cbn.
  - destruct Hb as [?| ->]; [easy|eauto].
  - unfold is_digit in Hc. unfold digit_val. destruct (cclass c) as [v| | |]; try easy. apply IH. auto.
Qed.
Lemma digit_not_space c : is_digit c = true -> is_space c = false.
Proof. intros H. now apply is_word_space, is_digit_word. Qed.

Lemma int_strip a : int_shape a -> strip a = a.
Proof.
  intros (sg & t & -> & Hs & Ht & Hf). apply strip_id.
  - destruct Hs as [->| ->]; [|reflexivity]. destruct t; [easy|]. cbn. inversion Hf; subst. now apply digit_not_space.
  - intros _. rewrite last_app_ne by easy. destruct (@exists_last _ _ Ht) as (t' & x & ->). rewrite last_last.
    apply Forall_app in Hf as [_ Hf]. inversion Hf; subst. now apply digit_not_space.
Qed.
Lemma int_some a : int_shape a -> exists z, py_int a = Some z.
Proof.
  intros H. unfold py_int. rewrite int_strip by easy. destruct H as (sg & t & -> & Hs & Ht & Hf).
  destruct Hs as [->| ->].
  - cbn [app]. destruct t as [|c t]; [easy|]. destruct (digits_some _ Hf 0%N true) as (n & E); [now left|]. rewrite E.
    destruct (N.eqb_spec c 45) as [->|]; [|destruct (N.eqb_spec c 43) as [->|]; [|eexists; reflexivity]].
    + inversion Hf as [|? ? Hc]; subst. discriminate Hc.
    + inversion Hf as [|? ? Hc]; subst. discriminate Hc.
  - change (L "-" ++ t) with (45%N :: t). cbv iota. rewrite N.eqb_refl.
    destruct (digits_some _ Hf 0%N true) as (n & ->); [now left|]. eexists; reflexivity.
Qed.

(* ---------- algnexpr_re ---------- *)

Lemma tok_sel pos i l r : id_shape i -> wf_spans true true l -> follow r ->
  exists caps, match_at false algnexpr_re pos (i ++ show_tail l ++ r) = Some (mk pos (length (i ++ show_tail l)) r caps)
    /\ cap3 (mk pos (length (i ++ show_tail l)) r caps) = (i ++ show_tail l, i, show_tail l).
Proof.
  intros Hi Hl Hr.
  exists ((1, i ++ show_tail l) :: match l with [] => [(2, i)] | _ => [(3, show_tail l); (2, i)] end).
  split; [|now destruct l].
  unfold match_at. change {| m_pos := pos; m_rest := ?x; m_caps := [] |} with (st pos x []).
  unfold algnexpr_re. rewrite rm_group, rm_alt, rm_seq, rm_group. cbn [andb].
  erewrite (rmatch_id_some _ _ _ _ i (show_tail l ++ r)); [reflexivity|apply id_at_shape; auto using tail_not_id|].
  cbn [st m_pos m_rest m_caps]. rewrite rm_opt, rm_group.
  rewrite (firstn_app_len' _ i) by lia.
  destruct l as [|sp l].
  - cbn [show_tail app]. rewrite rm_seq, rm_lit.
    replace (match r with [] => None | d :: t => _ end) with (@None rmatched).
    2:{ destruct r as [|c r]; [easy|]. cbn in Hr. now rewrite (dc_neq _ Hr (Ch "[")) by (vm_compute; tauto). }
    cbn [rmatch st m_pos m_rest m_caps]. unfold mk. rewrite app_nil_r. rewrite (firstn_app_len' _ i r) by lia. reflexivity.
  - rewrite show_tail_cons. rewrite rm_seq, rm_lit, N.eqb_refl, rm_seq, rmatch_star_chr.
    assert (Hrb := range_rbr _ _ _ Hl).
    erewrite star_g_some; [reflexivity|]. rewrite takew_app_all, dropw_app_all by easy.
    rewrite rm_lit, N.eqb_refl. cbn [st m_pos m_rest m_caps].
    unfold mk. rewrite <- show_tail_cons.
    assert (Hlen : length (show_tail (sp :: l)) = length (show_range (sp :: l)) + 2).
    { assert (E := show_tail_cons sp l []). rewrite app_nil_r in E. rewrite E. cbn [length]. rewrite app_length. cbn. lia. }
    rewrite (firstn_app_len' _ (show_tail (sp :: l)) r) by lia.
    rewrite app_assoc, (firstn_app_len' _ (i ++ show_tail (sp :: l)) r) by (rewrite app_length; lia).
    f_equal. f_equal. rewrite app_length. lia.
Qed.

Lemma tok_sep pos d r : d = Ch "+" \/ d = Ch "," ->
  match_at false algnexpr_re pos (d :: r) = Some (mk pos 1 r [(1, [d])]).
Proof.
  intros H. unfold match_at. change {| m_pos := pos; m_rest := ?x; m_caps := [] |} with (st pos x []).
  unfold algnexpr_re. rewrite rm_group, rm_alt, rm_seq, rm_group.
  rewrite rmatch_id_none by (destruct H as [->| ->]; reflexivity).
  rewrite rm_alt, !rm_lit. cbn [andb]. unfold mk.
  replace (pos + 1) with (S pos) by lia.
  destruct H as [->| ->]; cbn [N.eqb Pos.eqb]; cbn -[Nat.sub]; replace (S pos - pos) with 1 by lia; reflexivity.
Qed.

Definition tokens (s : sel) : list (str * str * str) :=
  match sl_delim s with [] => [] | d => [(d, [], [])] end ++ [(sl_id s ++ show_tail (sl_spans s), sl_id s, show_tail (sl_spans s))].

Lemma find_tokens first e pos : plain_sels first e -> map cap3 (finditer_at false algnexpr_re pos (show e)) = flat_map tokens e.
Proof.
  revert first pos; induction e as [|s e IH]; intros first pos He.
  - cbn [show flat_map]. rewrite finditer_none; [reflexivity|]. apply search_nil. reflexivity.
  - cbn in He. destruct He as (Hd & Hi & Hl & He).
    assert (Hr : follow (show e)) by (apply (show_follow true); now apply plain_sels_wf).
    assert (Hsel : forall pos, map cap3 (finditer_at false algnexpr_re pos (sl_id s ++ show_tail (sl_spans s) ++ show e))
              = (sl_id s ++ show_tail (sl_spans s), sl_id s, show_tail (sl_spans s)) :: flat_map tokens e).
    { intros p. destruct (tok_sel p (sl_id s) (sl_spans s) (show e)) as (caps & E & Ec); auto using plain_spans_wf.
      rewrite (finditer_some _ _ _ _ _ (search_here _ _ _ _ _ E)). cbn [map]. rewrite Ec. f_equal.
      cbn [mk r_end r_start r_rest]. replace (_ =? p) with false; [now apply (IH false)|].
      symmetry. apply Nat.eqb_neq. rewrite app_length. destruct Hi as (? & ? & -> & _). cbn. lia. }
    cbn [show flat_map]. fold (show e). rewrite show_sel_eq, <- !app_assoc. unfold tokens at 1.
    destruct first.
    + cbn in Hd. rewrite Hd. cbn [app]. apply Hsel.
    + assert (exists d, sl_delim s = [d] /\ (d = Ch "+" \/ d = Ch ",")) as (d & E & Hd').
      { destruct Hd as [->| ->]; eexists; (split; [reflexivity|]); auto. }
      rewrite E. cbn [app].
      rewrite (finditer_some _ _ _ _ _ (search_here _ _ _ _ _ (tok_sep pos d _ Hd'))).
      cbn [map mk r_end r_start r_rest]. f_equal. replace (_ =? pos) with false by (symmetry; apply Nat.eqb_neq; lia).
      apply Hsel.
Qed.

Lemma findall_tokens first e : plain_sels first e -> findall3 algnexpr_re (show e) = flat_map tokens e.
Proof. intros H. unfold findall3. rewrite finditer_0. now apply (find_tokens first). Qed.

(* ---------- sel_re ---------- *)

Lemma rmatch_int_some {A} pos a r caps (k : mst -> option A) x : int_shape a -> hd_not is_digit r ->
  k (st (pos + length a) r caps) = Some x -> rmatch int_re (st pos (a ++ r) caps) k = Some x.
Proof.
  intros (sg & t & -> & Hs & Ht & Hf) Hr Hk. unfold int_re. rewrite rm_seq, rm_opt, rm_lit.
  destruct t as [|c t]; [easy|]. inversion Hf as [|? ? Hc Hf']; subst.
  assert (Hplus : forall p, k (st (p + S (length t)) r caps) = Some x ->
            rmatch (RPlus true (RChr is_digit)) (st p ((c :: t) ++ r) caps) k = Some x).
  { intros p H. unfold RPlus. cbn [app]. rewrite rm_seq, rm_chr, Hc, rmatch_star_chr. apply star_g_some.
    rewrite takew_app_all, dropw_app_all by easy. rewrite <- H. f_equal. f_equal. lia. }
  destruct Hs as [->| ->].
  - cbn [app]. destruct (N.eqb_spec c (Ch "-")) as [->|]; [discriminate Hc|]. apply Hplus. exact Hk.
  - change ((L "-" ++ c :: t) ++ r) with (Ch "-" :: (c :: t) ++ r). cbv iota. rewrite N.eqb_refl. rewrite Hplus; [reflexivity|]. rewrite <- Hk. f_equal. f_equal. rewrite app_length. change (length (L "-")) with 1. cbn [length]. lia.
Qed.

Lemma dc_hd_digit r : follow r -> hd_not is_digit r.
Proof. destruct r; cbn; [easy|]. apply dc_digit. Qed.

Lemma rmatch_int_none {A} pos c r caps (k : mst -> option A) : c <> Ch "-" -> is_digit c = false ->
  rmatch int_re (st pos (c :: r) caps) k = None.
Proof.
  intros Hc Hd. unfold int_re, RPlus. rewrite rm_seq, rm_opt, rm_lit.
  apply N.eqb_neq in Hc. rewrite Hc. cbn [rmatch]. cbn [st m_rest]. now rewrite Hd.
Qed.

Definition pair_str (s : span) : str := sp_start s ++ L ":" ++ sp_end s.

Lemma sel_pair pos s r : int_shape (sp_start s) -> int_shape (sp_end s) -> hd_not is_digit r ->
  match_at false sel_re pos (pair_str s ++ r) = Some (mk pos (length (pair_str s)) r [(1, pair_str s)]).
Proof.
  intros Ha Hb Hr. unfold match_at. change {| m_pos := pos; m_rest := ?x; m_caps := [] |} with (st pos x []).
  unfold sel_re. rewrite rm_group, rm_alt, rm_seq. cbn [andb]. unfold pair_str. rewrite <- !app_assoc.
  erewrite (rmatch_int_some pos (sp_start s)); [reflexivity|easy|reflexivity|].
  rewrite rm_seq, rm_lit. change (L ":" ++ sp_end s ++ r) with (Ch ":" :: sp_end s ++ r). cbv iota. rewrite N.eqb_refl.
  apply rmatch_int_some; [easy|easy|]. cbn [st m_pos m_rest m_caps]. unfold mk.
  assert (Hlen : length (sp_start s ++ L ":" ++ sp_end s) = length (sp_start s) + S (length (sp_end s))).
  { rewrite !app_length. reflexivity. }
  rewrite Hlen. change (Ch ":" :: sp_end s ++ r) with (L ":" ++ sp_end s ++ r). rewrite 2!app_assoc.
  rewrite (firstn_app_len' _ ((sp_start s ++ L ":") ++ sp_end s) r) by (rewrite <- app_assoc, Hlen; lia).
  rewrite <- app_assoc. f_equal. f_equal. lia.
Qed.

Lemma sel_sep pos d r : d = Ch "+" \/ d = Ch "," -> match_at false sel_re pos (d :: r) = Some (mk pos 1 r [(1, [d])]).
Proof.
  intros H. unfold match_at. change {| m_pos := pos; m_rest := ?x; m_caps := [] |} with (st pos x []).
  unfold sel_re. rewrite rm_group, rm_alt, rm_seq.
  rewrite rmatch_int_none by (destruct H as [->| ->]; (discriminate || reflexivity)).
  rewrite rm_alt, !rm_lit. cbn [andb]. unfold mk.
  replace (pos + 1) with (S pos) by lia.
  destruct H as [->| ->]; cbn [N.eqb Pos.eqb]; cbn -[Nat.sub]; replace (S pos - pos) with 1 by lia; reflexivity.
Qed.

Definition span_tokens (s : span) : list str := match sp_delim s with [] => [] | d => [d] end ++ [pair_str s].

Lemma find_spans first l pos : plain_spans first l ->
  map (capd 1) (finditer_at false sel_re pos (show_range l ++ L "]")) = flat_map span_tokens l.
Proof.
  revert first pos; induction l as [|s l IH]; intros first pos Hl.
  - cbn [show_range flat_map app]. rewrite finditer_none; [reflexivity|]. reflexivity.
  - cbn in Hl. destruct Hl as (Hd & Ha & Hb & Hl).
    assert (Hr : hd_not is_digit (show_range l ++ L "]")).
    { destruct l as [|s' l]; [reflexivity|]. destruct Hl as ([E|E] & _); unfold show_range, show_span; cbn [flat_map]; rewrite E; reflexivity. }
    assert (Hsel : forall pos, map (capd 1) (finditer_at false sel_re pos (pair_str s ++ show_range l ++ L "]"))
              = pair_str s :: flat_map span_tokens l).
    { intros p. rewrite (finditer_some _ _ _ _ _ (search_here _ _ _ _ _ (sel_pair p s _ Ha Hb Hr))). cbn [map]. f_equal.
      cbn [mk r_end r_start r_rest]. replace (_ =? p) with false; [now apply (IH false)|].
      symmetry. apply Nat.eqb_neq. unfold pair_str. rewrite !app_length. change (length (L ":")) with 1. lia. }
    cbn [show_range flat_map]. fold (show_range l). unfold show_span. unfold span_tokens at 1.
    rewrite <- app_assoc. fold (pair_str s).
    replace ((sp_delim s ++ sp_start s ++ L ":" ++ sp_end s) ++ show_range l ++ L "]")
      with (sp_delim s ++ pair_str s ++ show_range l ++ L "]") by (unfold pair_str; now rewrite <- !app_assoc).
    destruct first.
    + cbn in Hd. rewrite Hd. cbn [app]. apply Hsel.
    + assert (exists d, sp_delim s = [d] /\ (d = Ch "+" \/ d = Ch ",")) as (d & E & Hd').
      { destruct Hd as [->| ->]; eexists; (split; [reflexivity|]); auto. }
      rewrite E. cbn [app].
      rewrite (finditer_some _ _ _ _ _ (search_here _ _ _ _ _ (sel_sep pos d _ Hd'))).
      cbn [map mk r_end r_start r_rest]. f_equal. replace (_ =? pos) with false by (symmetry; apply Nat.eqb_neq; lia).
      apply Hsel.
Qed.

Lemma findall_range l : l <> [] -> plain_spans true l -> findall1 sel_re (show_tail l) = flat_map span_tokens l.
Proof.
  intros Hne Hl. destruct l as [|s l]; [easy|]. unfold findall1. rewrite finditer_0. rewrite <- (find_spans true (s :: l) 1) by easy.
  assert (E := show_tail_cons s l []). rewrite app_nil_r in E. rewrite E. unfold finditer_at.
  set (x := show_range (s :: l) ++ [Ch "]"]).
  change (L "]") with [Ch "]"]. fold x.
  assert (Es : search_from false sel_re 0 (Ch "[" :: x) = search_from false sel_re 1 x) by (apply search_skip; reflexivity).
  fold (finditer_at false sel_re 0 (Ch "[" :: x)). fold (finditer_at false sel_re 1 x).
  destruct (search_from false sel_re 1 x) as [m|] eqn:Em.
  - rewrite (finditer_some _ _ _ _ _ Es), (finditer_some _ _ _ _ _ Em). reflexivity.
  - rewrite (finditer_none _ _ _ _ Es), (finditer_none _ _ _ _ Em). reflexivity.
Qed.

(* ---------- results ---------- *)

Lemma int_no_colon a : int_shape a -> ~ In (Ch ":") a.
Proof.
  intros (sg & t & -> & Hs & _ & Hf) H. apply in_app_iff in H as [H|H].
  - destruct Hs as [->| ->]; [easy|]. destruct H as [H|[]]. discriminate.
  - rewrite Forall_forall in Hf. specialize (Hf _ H). discriminate Hf.
Qed.
Lemma two_ints_pair s : int_shape (sp_start s) -> int_shape (sp_end s) ->
  exists a b, bound (sp_start s) = Ok a /\ bound (sp_end s) = Ok b /\ two_ints (pair_str s) = Ok (a, b).
Proof.
  intros Ha Hb. destruct (int_some _ Ha) as (a & Ea), (int_some _ Hb) as (b & Eb). exists a, b.
  unfold bound, two_ints. rewrite Ea, Eb. repeat split. unfold pair_str. change (L ":" ++ sp_end s) with (Ch ":" :: sp_end s).
  rewrite AttrProofs.split1_app by now apply int_no_colon. now rewrite Ea, Eb.
Qed.

Lemma mapM_flat {A B C} (f : B -> res C) (g : A -> list B) l : forall (h : A -> res (list C)),
  (forall a, In a l -> mapM f (g a) = h a) -> mapM f (flat_map g l) = (do x <- mapM h l; Ok (List.concat x)).
Proof.
  intros h. induction l as [|a l IH]; intros H; cbn; [easy|]. rewrite mapM_app, H by now left.
  destruct (h a) as [x|]; cbn; [|easy]. rewrite IH by (intros; apply H; now right).
  destruct (mapM h l); easy.
Qed.

Ltac delims H := destruct H as [->|[->| ->]]; try change (L "+") with [Ch "+"]; try change (L ",") with [Ch ","].
Ltac seps := change (Ch "+" =? Ch "+")%N with true; change (Ch "," =? Ch "+")%N with false; change (Ch "," =? Ch ",")%N with true.

Definition as_old (p : piece) : old_span := match p with PText s => OStr s | PSpan i a b => OTuple i a b end.

Lemma plain_spans_in first l s : plain_spans first l -> In s l ->
  (sp_delim s = [] \/ sp_delim s = L "+" \/ sp_delim s = L ",") /\ int_shape (sp_start s) /\ int_shape (sp_end s).
Proof.
  revert first; induction l as [|s' l IH]; intros first; cbn; [easy|]. intros (Hd & Ha & Hb & Hl) [->|H]; [|eauto].
  split; [|easy]. destruct first; cbn in Hd; auto.
Qed.
Lemma plain_sels_in first e s : plain_sels first e -> In s e ->
  (sl_delim s = [] \/ sl_delim s = L "+" \/ sl_delim s = L ",") /\ id_shape (sl_id s) /\ plain_spans true (sl_spans s).
Proof.
  revert first; induction e as [|s' e IH]; intros first; cbn; [easy|]. intros (Hd & Hi & Hl & He) [->|H]; [|eauto].
  split; [|easy]. destruct first; cbn in Hd; auto.
Qed.
Lemma id_ne i : id_shape i -> str_eqb i [] = false.
Proof. intros (c & t & -> & _). reflexivity. Qed.
Lemma id_no_sep i r : id_shape i -> str_eqb (i ++ r) (L "+") = false /\ str_eqb (i ++ r) (L ",") = false.
Proof.
  intros (c & t & -> & Hc & _). unfold ascii_letter in Hc.
  split; [destruct (str_eqb_spec ((c :: t) ++ r) (L "+")) as [E|]|destruct (str_eqb_spec ((c :: t) ++ r) (L ",")) as [E|]];
    try easy; injection E as -> _; vm_compute in Hc; intuition.
Qed.
Lemma colon_in_pair s : char_in (Ch ":") (pair_str s) = true.
Proof. unfold char_in, pair_str. rewrite existsb_app. apply orb_true_iff. right. reflexivity. Qed.
Lemma mapM_ext {A B} (f g : A -> res B) l : (forall a, In a l -> f a = g a) -> mapM f l = mapM g l.
Proof. induction l as [|a l IH]; intros H; cbn; [easy|]. rewrite H by now left. now rewrite IH by (intros; apply H; now right). Qed.
Lemma mapM_post {A B C} (f : A -> res B) (g : B -> C) l :
  mapM (fun a => do x <- f a; Ok (g x)) l = (do y <- mapM f l; Ok (map g y)).
Proof. induction l as [|a l IH]; cbn; [easy|]. destruct (f a); cbn; [|easy]. rewrite IH. destruct (mapM f l); easy. Qed.

Theorem old_spans e : plain e ->
  get_alignment_expression_spans (Some (show e)) = (do l <- expr_pieces e; Ok (map as_old l)).
Proof.
  intros He. unfold get_alignment_expression_spans, expr_pieces. rewrite (findall_tokens true) by easy.
  assert (H : forall s, In s e -> (do x <- mapM match_spans (tokens s); Ok (List.concat x)) = (do x <- sel_pieces s; Ok (map as_old x))).
  { intros s Hs. destruct (plain_sels_in _ _ _ He Hs) as (Hd & Hi & Hl). unfold tokens. rewrite mapM_app.
    assert (Es : mapM match_spans (match sl_delim s with [] => [] | d => [(d, [], [])] end)
                 = Ok (match sl_delim s with [] => [] | d => [[OStr d]] end)) by (destruct Hd as [->|[->| ->]]; reflexivity).
    rewrite Es. cbn [bind mapM]. unfold match_spans at 1. rewrite id_ne by easy.
    unfold sel_pieces. destruct (sl_spans s) as [|sp l] eqn:El.
    - cbn. delims Hd; reflexivity.
    - assert (Hne : str_eqb (show_tail (sp :: l)) [] = false) by reflexivity. rewrite Hne.
      rewrite findall_range by easy. 
      assert (E : mapM (sel_spans (sl_id s)) (flat_map span_tokens (sp :: l))
                  = (do x <- mapM (span_piece (sl_id s)) (sp :: l); Ok (map as_old (List.concat x)))).
      { rewrite (mapM_flat _ _ _ (fun a => do x <- span_piece (sl_id s) a; Ok (map as_old x))).
        - rewrite mapM_post. destruct (mapM (span_piece (sl_id s)) (sp :: l)); cbn; [|easy]. now rewrite concat_map.
        - intros a Ha. destruct (plain_spans_in _ _ _ Hl Ha) as (Hda & H1 & H2).
          destruct (two_ints_pair a H1 H2) as (z1 & z2 & E1 & E2 & E3). unfold span_tokens, span_piece. rewrite E1, E2, mapM_app.
          cbn [bind mapM]. unfold sel_spans at 2. rewrite colon_in_pair. cbn [negb]. rewrite E3. cbn.
          delims Hda; reflexivity. }
      rewrite E. cbn [bind]. destruct (mapM (span_piece (sl_id s)) (sp :: l)) as [x|]; cbn; [|easy].
      delims Hd; cbn; now rewrite app_nil_r. }
  revert H. clear He. induction e as [|s e IH]; intros H; [reflexivity|].
  cbn [flat_map mapM]. rewrite mapM_app. specialize (IH (fun s' Hs' => H s' (or_intror Hs'))).
  specialize (H s (or_introl eq_refl)).
  destruct (mapM match_spans (tokens s)) as [x|]; cbn in *.
  - destruct (sel_pieces s) as [y|]; cbn in *; [|easy]. injection H as H.
    destruct (mapM match_spans (flat_map tokens e)) as [x'|]; cbn in *; destruct (mapM sel_pieces e) as [y'|]; cbn in *; try congruence.
    injection IH as IH. now rewrite concat_app, H, IH, map_app.
  - destruct (sel_pieces s); cbn in *; congruence.
Qed.

(* ---------- resolving ---------- *)

Lemma join_somes l : join_parts (map Some l) = Ok (List.concat l).
Proof.
  unfold join_parts.
  assert (E : mapM (fun o => match o with Some s => Ok s | None => Err TypeError end) (map Some l) = Ok l).
  { induction l as [|s l IH]; cbn; [easy|]. now rewrite IH. }
  now rewrite E.
Qed.
(* every part is a string, or evaluating it fails *)
Lemma parts_text {A} (f : A -> res (option str)) (g : A -> res str) l :
  (forall a, In a l -> f a = (do t <- g a; Ok (Some t))) ->
  (do ps <- mapM f l; join_parts ps) = (do ts <- mapM g l; Ok (List.concat ts)).
Proof.
  intros H. rewrite (mapM_ext _ _ _ H), mapM_post. destruct (mapM g l); cbn; [|easy]. apply join_somes.
Qed.
Lemma texts_flat {A B} (f : B -> res str) (g : A -> list B) (h : A -> res str) l :
  (forall a, In a l -> (do x <- mapM f (g a); Ok (List.concat x)) = h a) ->
  (do x <- mapM f (flat_map g l); Ok (List.concat x)) = (do y <- mapM h l; Ok (List.concat y)).
Proof.
  induction l as [|a l IH]; intros H; [reflexivity|]. cbn [flat_map mapM]. rewrite mapM_app.
  specialize (IH (fun a' Ha' => H a' (or_intror Ha'))). specialize (H a (or_introl eq_refl)).
  destruct (mapM f (g a)) as [x|]; cbn in *; rewrite <- H; cbn; [|easy].
  destruct (mapM f (flat_map g l)) as [x'|], (mapM h l) as [y|]; cbn in *; try congruence.
  injection IH as IH. now rewrite concat_app, IH.
Qed.

Definition sep_text (plus comma d : str) : str := if str_eqb d (L "+") then plus else comma.

Section Get.
Variable get : item_getter.

(* the text of a span token *)
Definition span_token_text (v : res (option str)) (m : str) : res str :=
  if str_eqb m (L "+") then Ok [] else if str_eqb m (L ",") then Ok (L " ")
  else do p <- two_ints m; do v <- v; Ok (py_slice (Some (fst p)) (Some (snd p)) (match v with Some s => s | None => [] end)).

Lemma pair_no_sep s : str_eqb (pair_str s) (L "+") = false /\ str_eqb (pair_str s) (L ",") = false.
Proof.
  assert (H := colon_in_pair s).
  split; [destruct (str_eqb_spec (pair_str s) (L "+")) as [E|]|destruct (str_eqb_spec (pair_str s) (L ",")) as [E|]]; try easy; rewrite E in H; discriminate.
Qed.

Lemma resolve_alignment_sel s v : id_shape (sl_id s) -> plain_spans true (sl_spans s) -> get (sl_id s) = Some v -> v <> Ok None ->
  resolve_alignment get (sl_id s) (show_tail (sl_spans s)) [] (L " ")
  = (do t <- sel_text get {| sl_delim := []; sl_id := sl_id s; sl_spans := sl_spans s |}; Ok (Some t)).
Proof.
  intros Hi Hl Hg Hv. unfold resolve_alignment, sel_text. cbn [sl_id sl_spans sl_delim]. rewrite Hg.
  change (joiner []) with (@nil N). cbn [app].
  destruct (sl_spans s) as [|sp l].
  - cbn. destruct v as [[t|]|]; cbn; congruence.
  - replace (str_eqb (show_tail (sp :: l)) []) with false by reflexivity. rewrite findall_range by easy.
    transitivity (do s <- (do ps <- mapM (sel_part v [] (L " ")) (flat_map span_tokens (sp :: l)); join_parts ps); Ok (Some s)).
    { now rewrite bind_assoc. }
    assert (Hp : forall m, In m (flat_map span_tokens (sp :: l)) -> sel_part v [] (L " ") m = (do t <- span_token_text v m; Ok (Some t))).
    { intros m _. unfold sel_part, span_token_text. destruct (str_eqb m (L "+")); [easy|]. destruct (str_eqb m (L ",")); [easy|].
      destruct (two_ints m); cbn; [|easy]. destruct v as [[t|]|]; cbn; congruence. }
    assert (E := parts_text _ _ _ Hp). rewrite E. clear E Hp.
    destruct v as [v|x]; cbn [bind].
    + set (t := match v with Some t => t | None => [] end).
      erewrite texts_flat with (h := span_text t).
      * destruct (mapM (span_text t) (sp :: l)); reflexivity.
      * intros a Ha. destruct (plain_spans_in _ _ _ Hl Ha) as (Hda & H1 & H2).
        destruct (two_ints_pair a H1 H2) as (z1 & z2 & E1 & E2 & E3). unfold span_tokens, span_text. rewrite E1, E2, mapM_app.
        cbn [bind mapM]. unfold span_token_text at 2. destruct (pair_no_sep a) as [-> ->]. rewrite E3. cbn [bind fst snd].
        fold t. rewrite py_slice_chars. delims Hda; cbn; [|change (span_token_text (Ok v) [Ch "+"]) with (@Ok str [])|change (span_token_text (Ok v) [Ch ","]) with (Ok (L " "))]; cbn; rewrite ?app_nil_r; reflexivity.
    + (* the first token is a span, so the value's error comes out *)
      destruct Hl as (Hd & H1 & H2 & _). cbn in Hd. destruct (two_ints_pair sp H1 H2) as (z1 & z2 & E1 & E2 & E3).
      cbn [flat_map]. unfold span_tokens at 1. rewrite Hd. cbn [app mapM]. unfold span_token_text at 1.
      destruct (pair_no_sep sp) as [-> ->]. rewrite E3. reflexivity.
Qed.

Lemma old_text plus comma e : plain e -> (forall s, In s e -> has_value get (sl_id s)) ->
  resolve_alignment_expression get (show e) plus comma = text_with get plus comma e.
Proof.
  intros He Hv. unfold resolve_alignment_expression, text_with. rewrite (findall_tokens true) by easy.
  rewrite (parts_text _ (fun m => let '(all, i, r) := m in
      if str_eqb all (L "+") then Ok plus else if str_eqb all (L ",") then Ok comma
      else do o <- resolve_alignment get i r [] (L " "); Ok (match o with Some t => t | None => [] end))).
  - apply texts_flat. intros s Hs. destruct (plain_sels_in _ _ _ He Hs) as (Hd & Hi & Hl). destruct (Hv s Hs) as (v & Hg & Hn).
    unfold tokens. rewrite mapM_app. cbn [mapM bind]. destruct (id_no_sep (sl_id s) (show_tail (sl_spans s)) Hi) as [-> ->].
    rewrite (resolve_alignment_sel s v) by easy. rewrite bind_assoc. cbn [bind].
    destruct (sel_text get _) as [t|]; cbn.
    + unfold sep. delims Hd; cbn; seps; cbn; now rewrite app_nil_r.
    + delims Hd; reflexivity.
  - intros m Hm. apply in_flat_map in Hm as (s & Hs & Hm). destruct (plain_sels_in _ _ _ He Hs) as (Hd & Hi & Hl). destruct (Hv s Hs) as (v & Hg & Hn).
    unfold tokens in Hm. apply in_app_iff in Hm as [Hm|[<-|[]]].
    + unfold expr_part. destruct Hd as [E|[E|E]]; rewrite E in Hm; [easy| |]; destruct Hm as [<-|[]]; reflexivity.
    + unfold expr_part. destruct (id_no_sep (sl_id s) (show_tail (sl_spans s)) Hi) as [-> ->].
      rewrite (resolve_alignment_sel s v) by easy. destruct (sel_text get _); reflexivity.
Qed.

Lemma text_with_default e : plain e -> text_with get [] (L " ") e = expr_text get e.
Proof.
  intros He. unfold text_with, expr_text. f_equal. apply mapM_ext. intros s Hs.
  destruct (plain_sels_in _ _ _ He Hs) as (Hd & _). unfold sel_text. cbn [sl_id sl_spans sl_delim].
  destruct (get (sl_id s)) as [[v|]|]; cbn [bind]; try easy.
  destruct (match sl_spans s with [] => _ | _ => _ end); cbn; [|easy].
  delims Hd; reflexivity.
Qed.

Theorem old_agrees e : plain e -> (forall s, In s e -> has_value get (sl_id s)) ->
  resolve_alignment_expression get (show e) [] (L " ") = resolve get (show e).
Proof.
  intros He Hv. rewrite old_text by easy. rewrite text_with_default by easy. symmetry. apply (resolve_show true). now apply plain_sels_wf.
Qed.

(* a missing item *)
Theorem old_missing e s l r plus comma : plain e -> e = l ++ s :: r -> (forall s', In s' l -> exists t, get (sl_id s') = Some (Ok (Some t))) ->
  get (sl_id s) = None ->
  resolve_alignment_expression get (show e) plus comma = Err NameError /\ resolve get (show e) = Err XigtStructureError.
Proof.
  intros He -> Hl Hs. split.
  - unfold resolve_alignment_expression. rewrite (findall_tokens true) by easy.
    assert (E : mapM (expr_part get plus comma) (flat_map tokens (l ++ s :: r)) = Err NameError); [|now rewrite E].
    rewrite flat_map_app, mapM_app.
    assert (exists x, mapM (expr_part get plus comma) (flat_map tokens l) = Ok x) as (x & ->).
    { rewrite (mapM_flat _ _ _ (fun s => mapM (expr_part get plus comma) (tokens s))) by easy.
      assert (exists y, mapM (fun s => mapM (expr_part get plus comma) (tokens s)) l = Ok y) as (y & ->); [|cbn; eauto].
      assert (Hin : forall s', In s' l -> In s' (l ++ s :: r)) by (intros; apply in_app_iff; now left).
      revert Hl Hin. generalize (l ++ s :: r) He. clear. intros e He Hl Hin.
      induction l as [|s' l IH]; [eexists; reflexivity|].
      destruct IH as (y & Ey); [intros; apply Hl; now right|intros; apply Hin; now right|].
      cbn [mapM]. rewrite Ey. destruct (plain_sels_in _ _ _ He (Hin s' (or_introl eq_refl))) as (Hd & Hi & Hl').
      destruct (Hl s' (or_introl eq_refl)) as (t & Hg). unfold tokens. rewrite mapM_app. cbn [mapM]. unfold expr_part at 2.
      destruct (id_no_sep (sl_id s') (show_tail (sl_spans s')) Hi) as [-> ->].
      rewrite (resolve_alignment_sel s' (Ok (Some t))) by easy.
      assert (exists u, sel_text get {| sl_delim := []; sl_id := sl_id s'; sl_spans := sl_spans s' |} = Ok u) as (u & ->).
      { unfold sel_text. cbn [sl_id sl_spans]. rewrite Hg. cbn [bind].
        assert (exists b, match sl_spans s' with [] => Ok t | p => do ts <- mapM (span_text t) p; Ok (List.concat ts) end = Ok b) as (b & ->); [|cbn; eauto].
        destruct (sl_spans s') as [|sp q]; [eauto|].
        assert (exists ts, mapM (span_text t) (sp :: q) = Ok ts) as (ts & ->); [|cbn; eauto].
        revert Hl'. generalize true. generalize (sp :: q). clear. intros q. induction q as [|a q IH]; intros f Hq; [eexists; reflexivity|].
        cbn in Hq. destruct Hq as (_ & H1 & H2 & Hq). destruct (IH _ Hq) as (ts & E). cbn [mapM]. rewrite E.
        destruct (two_ints_pair a H1 H2) as (z1 & z2 & E1 & E2 & _). unfold span_text. rewrite E1, E2. cbn. eauto. }
      cbn [bind]. delims Hd; cbn; [eauto|unfold expr_part; eexists; reflexivity|unfold expr_part; eexists; reflexivity]. }
    cbn [bind flat_map]. rewrite mapM_app.
    destruct (plain_sels_in _ _ s He) as (Hd & Hi & Hl'); [apply in_app_iff; right; now left|].
    unfold tokens at 1. rewrite mapM_app. cbn [mapM]. unfold expr_part at 2.
    destruct (id_no_sep (sl_id s) (show_tail (sl_spans s)) Hi) as [-> ->]. unfold resolve_alignment. rewrite Hs.
    delims Hd; reflexivity.
  - rewrite (resolve_show true) by now apply plain_sels_wf. unfold expr_text.
    assert (E : mapM (sel_text get) (l ++ s :: r) = Err XigtStructureError); [|now rewrite E].
    rewrite mapM_app.
    assert (exists x, mapM (sel_text get) l = Ok x) as (x & ->); [|cbn [bind mapM]; unfold sel_text; now rewrite Hs].
    assert (Hin : forall s', In s' l -> In s' (l ++ s :: r)) by (intros; apply in_app_iff; now left).
    revert Hl Hin. generalize (l ++ s :: r) He. clear. intros e He Hl Hin.
    induction l as [|s' l IH]; [eexists; reflexivity|].
    destruct IH as (y & Ey); [intros; apply Hl; now right|intros; apply Hin; now right|].
    cbn [mapM]. rewrite Ey. destruct (plain_sels_in _ _ _ He (Hin s' (or_introl eq_refl))) as (Hd & Hi & Hl').
    destruct (Hl s' (or_introl eq_refl)) as (t & Hg). unfold sel_text. rewrite Hg. cbn [bind].
    assert (exists b, match sl_spans s' with [] => Ok t | p => do ts <- mapM (span_text t) p; Ok (List.concat ts) end = Ok b) as (b & ->); [|cbn; eauto].
    destruct (sl_spans s') as [|sp q]; [eauto|].
    assert (exists ts, mapM (span_text t) (sp :: q) = Ok ts) as (ts & ->); [|cbn; eauto].
    revert Hl'. generalize true. generalize (sp :: q). clear. intros q. induction q as [|a q IH]; intros f Hq; [eexists; reflexivity|].
    cbn in Hq. destruct Hq as (_ & H1 & H2 & Hq). destruct (IH _ Hq) as (ts & E). cbn [mapM]. rewrite E.
    destruct (two_ints_pair a H1 H2) as (z1 & z2 & E1 & E2 & _). unfold span_text. rewrite E1, E2. cbn. eauto.
Qed.
End Get.

(* ---------- the aligned tier ---------- *)

Lemma aligned_tier a ps g ra k t : ~ In (Ch ":") ra -> dget (a_dict a) ra = Some k ->
  find_id tier_id (g_tiers g) k = Some t -> get_aligned_tier (a :: ps) (Some g) ra = Ok (Some t).
Proof.
  intros Hc Hk Ht. unfold get_aligned_tier. cbn [Attr.get_attribute]. unfold Attr.rewrite_key.
  change Attr.COLON with (Ch ":"). rewrite (AttrProofs.split1_none _ _ Hc). replace (if startswith _ _ then _ else _) with (@Ok str ra) by now destruct (startswith _ _).
  cbn [bind]. rewrite Hk. cbn [bind]. unfold container_get. now rewrite Ht.
Qed.
Lemma no_aligned_tier a ps g ra : ~ In (Ch ":") ra -> dget (a_dict a) ra = None -> get_aligned_tier (a :: ps) g ra = Err NameError.
Proof.
  intros Hc Hk. unfold get_aligned_tier. cbn [Attr.get_attribute]. unfold Attr.rewrite_key.
  change Attr.COLON with (Ch ":"). rewrite (AttrProofs.split1_none _ _ Hc). replace (if startswith _ _ then _ else _) with (@Ok str ra) by now destruct (startswith _ _).
  cbn [bind]. rewrite Hk. now destruct ps.
Qed.
End P.
