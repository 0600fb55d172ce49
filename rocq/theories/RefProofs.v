(* Proofs about xigt/ref.py (Ref.v) against SpecRef.v. *)
From Verif Require Import PyStr PyStrFacts Regex RegexFacts Ref SpecRef RefMatch.

Section P.
Context {U : Unicode}.

(* ---------- shapes as booleans ---------- *)

Lemma ascii_letter_b c : ascii_letter c <-> is_letter c = true.
Proof.
  unfold ascii_letter, is_letter, in_range.
  rewrite orb_true_iff, !andb_true_iff, !N.leb_le. tauto.
Qed.

Lemma id_char_b c : id_char c <-> idchar c = true.
Proof.
  unfold id_char, idchar. rewrite !orb_true_iff, !N.eqb_eq. tauto.
Qed.

Lemma id_shape_b i : id_shape i <->
  exists c t, i = c :: t /\ is_letter c = true /\ Forall (fun c => idchar c = true) t.
Proof.
  unfold id_shape. split; intros (c & t & H1 & H2 & H3); exists c, t; (split; [auto|split]).
  - now apply ascii_letter_b.
  - eapply Forall_impl; [|exact H3]. intros; now apply id_char_b.
  - now apply ascii_letter_b.
  - eapply Forall_impl; [|exact H3]. intros a Ha; now apply id_char_b.
Qed.

Definition hd_not (p : N -> bool) (s : str) : Prop :=
  match s with c :: _ => p c = false | [] => True end.

Lemma id_at_shape i r : id_shape i -> hd_not idchar r -> id_at (i ++ r) = Some (i, r).
Proof.
  intros (c & t & -> & Hc & Ht)%id_shape_b Hr. cbn. rewrite Hc.
  now rewrite takew_app_all, dropw_app_all.
Qed.

Lemma id_at_shape_inv s i r : id_at s = Some (i, r) ->
  s = i ++ r /\ id_shape i /\ hd_not idchar r.
Proof.
  destruct s as [|c t]; cbn; [easy|]. destruct (is_letter c) eqn:E; [|easy].
  intros [= <- <-]. cbn. rewrite takew_dropw. split; [easy|]. split.
  - apply id_shape_b. exists c, (takew idchar t). split; [easy|]. split; [easy|]. apply takew_forall.
  - destruct (dropw idchar t) eqn:Ed; cbn; [easy|]. eapply dropw_head; eauto.
Qed.

Lemma num_at_shape a r : num_shape a -> hd_not numchar r -> num_at (a ++ r) = Some (a, r).
Proof.
  intros (sg & t & -> & Hsg & Ht & Hf) Hr.
  assert (Hf' : Forall (fun c => numchar c = true) t).
  { eapply Forall_impl; [|exact Hf]. intros c Hc. unfold numchar.
    rewrite orb_true_iff, N.eqb_eq. exact Hc. }
  destruct t as [|c t]; [easy|]. inversion Hf' as [|? ? Hc Hf'']; subst.
  assert (Ecm : N.eqb c (Ch "-") = false).
  { destruct (N.eqb_spec c (Ch "-")) as [->|]; [|easy]. now rewrite numchar_minus in Hc. }
  unfold num_at. destruct Hsg as [->| ->]; [|change (L "-") with [Ch "-"]]; cbn -[numchar takew dropw].
  - rewrite Ecm. change (c :: t ++ r) with ((c :: t) ++ r).
    rewrite takew_app_all, dropw_app_all by auto. reflexivity.
  - rewrite N.eqb_refl. cbn -[numchar takew dropw].
    change (c :: t ++ r) with ((c :: t) ++ r).
    rewrite takew_app_all, dropw_app_all by auto. reflexivity.
Qed.

Ltac inl := solve [vm_compute; tauto].

Section DelimChar.
Variable c : N.
Hypothesis H : delim_char c.
Lemma dc_neq x : In x (L "-.:[]") -> N.eqb c x = false.
Proof. destruct H as (_ & H2 & _). intros Hx. apply N.eqb_neq. intros ->. auto. Qed.
Lemma dc_letter : is_letter c = false.
Proof.
  destruct (is_letter c) eqn:E; [|easy]. apply is_letter_word in E.
  destruct H as (H1 & _). congruence.
Qed.
Lemma dc_digit : is_digit c = false.
Proof.
  destruct (is_digit c) eqn:E; [|easy]. apply is_digit_word in E.
  destruct H as (H1 & _). congruence.
Qed.
Lemma dc_idchar : idchar c = false.
Proof.
  unfold idchar. rewrite !dc_neq by inl. destruct H as (H1 & _). now rewrite H1.
Qed.
Lemma dc_numchar : numchar c = false.
Proof. unfold numchar. rewrite dc_neq by inl. now rewrite dc_digit. Qed.
Lemma dc_span : span_delim c = true.
Proof. unfold span_delim. rewrite !dc_neq by inl. now rewrite dc_digit. Qed.
Lemma dc_sel : sel_delim c = true.
Proof. unfold sel_delim. rewrite !dc_neq by inl. now rewrite dc_letter. Qed.
Lemma dc_nl : not_nl c = true.
Proof. unfold not_nl. destruct H as (_ & _ & H3). apply N.eqb_neq in H3. now rewrite H3. Qed.
Lemma dc_rbr : not_rbr c = true.
Proof. unfold not_rbr. now rewrite dc_neq by inl. Qed.
Lemma dc_num s : num_at (c :: s) = None.
Proof. apply span_delim_num, dc_span. Qed.
End DelimChar.

(* ---------- ids ---------- *)

(* the maximal id-shaped pieces of a string, in order *)
Inductive id_tokens : str -> list str -> Prop :=
| it_nil s : Forall (fun c => is_letter c = false) s -> id_tokens s []
| it_cons g i r l : Forall (fun c => is_letter c = false) g -> id_shape i -> hd_not idchar r ->
    id_tokens r l -> id_tokens (g ++ i ++ r) (i :: l).

Lemma find_id pos s :
  match search_from false (RGroup 0 id_re) pos s with
  | None => Forall (fun c => is_letter c = false) s
  | Some m => exists g i, s = g ++ i ++ r_rest m /\ Forall (fun c => is_letter c = false) g
       /\ id_shape i /\ hd_not idchar (r_rest m) /\ r_caps m = [(0, i)] /\ r_end m =? r_start m = false
  end.
Proof.
  revert pos; induction s as [|c s IH]; intros pos.
  - cbn. constructor.
  - destruct (match_at false (RGroup 0 id_re) pos (c :: s)) as [m|] eqn:E.
    + rewrite (search_here _ _ _ _ _ E). rewrite match_id0 in E.
      destruct (id_at (c :: s)) as [[i r]|] eqn:Ei; [|easy].
      injection E as <-. cbn [mk r_rest r_caps r_end r_start].
      apply id_at_shape_inv in Ei as (-> & Hi & Hr).
      exists [], i. cbn. repeat split; auto.
      apply Nat.eqb_neq. destruct Hi as (? & ? & -> & _). cbn. lia.
    + rewrite (search_skip _ _ _ _ E). specialize (IH (S pos)).
      rewrite match_id0 in E.
      assert (Hc : is_letter c = false) by (cbn in E; now destruct (is_letter c)).
      destruct (search_from false (RGroup 0 id_re) (S pos) s) as [m|].
      * destruct IH as (g & i & -> & Hg & H). exists (c :: g), i. cbn. split; [easy|]. split; auto.
      * constructor; auto.
Qed.

Lemma ids_tokens_at n pos s : length s <= n ->
  id_tokens s (map (capd 0) (finditer_at false (RGroup 0 id_re) pos s)).
Proof.
  revert pos s; induction n as [|n IH]; intros pos s Hn.
  - destruct s; [|cbn in Hn; lia]. cbn. constructor. constructor.
  - assert (H := find_id pos s).
    destruct (search_from false (RGroup 0 id_re) pos s) as [m|] eqn:E.
    + rewrite (finditer_some _ _ _ _ _ E).
      destruct H as (g & i & Es & Hg & Hi & Hr & Hcap & Hne). rewrite Hne. cbn [map].
      unfold capd at 1, cap. rewrite Hcap. cbn [dget_ Nat.eqb].
      rewrite Es at 1. constructor; auto. apply IH.
      destruct Hi as (? & ? & -> & _). rewrite Es, !app_length in Hn. cbn in Hn. lia.
    + rewrite (finditer_none _ _ _ _ E). constructor; auto.
Qed.

Lemma id_tokens_shape s l : id_tokens s l -> Forall id_shape l.
Proof. induction 1; constructor; auto. Qed.

Lemma filter_id_shape l : Forall id_shape l -> filter (fun i => negb (str_eqb i [])) l = l.
Proof.
  induction 1 as [|i l (c & t & -> & _) Hl IH]; cbn; [easy|]. now rewrite IH.
Qed.

Theorem ids_tokens s : id_tokens s (ids s).
Proof.
  unfold ids, findall0. rewrite finditer_0.
  assert (H := ids_tokens_at (length s) 0 s (le_n _)).
  rewrite filter_id_shape; [exact H|]. eapply id_tokens_shape; eauto.
Qed.

Lemma letter_split (g i r g' i' r' : str) :
  Forall (fun c => is_letter c = false) g -> Forall (fun c => is_letter c = false) g' ->
  id_shape i -> id_shape i' -> hd_not idchar r -> hd_not idchar r' ->
  g ++ i ++ r = g' ++ i' ++ r' -> g = g' /\ i = i' /\ r = r'.
Proof.
  intros Hg Hg' Hi Hi' Hr Hr' E.
  assert (g = g' /\ i ++ r = i' ++ r') as [-> E'].
  { revert g' Hg' E. induction Hg as [|c g Hc Hg IH]; intros g' Hg' E.
    - destruct g' as [|c' g']; [auto|]. exfalso.
      destruct Hi as (c & t & -> & Hc & _). cbn in E. injection E as -> _.
      apply ascii_letter_b in Hc. inversion Hg'; congruence.
    - destruct g' as [|c' g'].
      + exfalso. destruct Hi' as (c' & t & -> & Hc' & _). cbn in E. injection E as -> _.
        apply ascii_letter_b in Hc'. congruence.
      + cbn in E. injection E as -> E. inversion Hg'; subst. destruct (IH g') as [-> ?]; auto. }
  split; [easy|].
  assert (H1 := id_at_shape i r Hi Hr). assert (H2 := id_at_shape i' r' Hi' Hr').
  rewrite E' in H1. rewrite H1 in H2. injection H2 as -> ->. auto.
Qed.

Theorem id_tokens_unique s l l' : id_tokens s l -> id_tokens s l' -> l = l'.
Proof.
  intros H; revert l'. induction H as [s Hs|g i r l Hg Hi Hr H IH]; intros l' H'.
  - inversion H' as [|g i r l Hg Hi]; subst; [easy|]. exfalso.
    destruct Hi as (c & t & -> & Hc & _). apply ascii_letter_b in Hc.
    apply Forall_app in Hs as [_ Hs]. inversion Hs; congruence.
  - inversion H' as [s Hs|g' i' r' l'' Hg' Hi' Hr' H'' E]; subst.
    + exfalso. destruct Hi as (c & t & -> & Hc & _). apply ascii_letter_b in Hc.
      apply Forall_app in Hs as [_ Hs]. inversion Hs; congruence.
    + destruct (letter_split g' i' r' g i r) as (-> & -> & ->); auto.
      f_equal. auto.
Qed.

(* ---------- ids of accepted id strings ---------- *)

Lemma id_accepted_spec v : id_accepted v = true <-> exists c t, v = c :: t /\ ascii_letter c.
Proof.
  unfold id_accepted, re_match. rewrite id_match.
  destruct v as [|c t]; cbn.
  - split; [easy|]. now intros (? & ? & ? & _).
  - destruct (is_letter c) eqn:E; split; try easy.
    + intros _. exists c, t. split; [easy|]. now apply ascii_letter_b.
    + intros (? & ? & [= <- <-] & H). apply ascii_letter_b in H. congruence.
Qed.

(* ---------- spans of a rendered range ---------- *)

Definition num_head_not_delim a : num_shape a -> exists c t, a = c :: t /\ span_delim c = false.
Proof.
  intros (sg & t & -> & Hsg & Ht & Hf). destruct Hsg as [->| ->]; cbn.
  - destruct t as [|c t]; [easy|]. exists c, t. split; [easy|]. inversion Hf as [|? ? Hc]; subst.
    unfold span_delim. apply negb_false_iff. rewrite !orb_true_iff, !N.eqb_eq. tauto.
  - exists 45%N, t. split; [easy|]. reflexivity.
Qed.

Lemma colon_not_num : numchar (Ch ":") = false.
Proof. unfold numchar. rewrite digit_ascii by reflexivity. reflexivity. Qed.
Lemma rbr_not_num : numchar (Ch "]") = false.
Proof. unfold numchar. rewrite digit_ascii by reflexivity. reflexivity. Qed.

Lemma pair_at_shape a b r : num_shape a -> num_shape b -> hd_not numchar r ->
  pair_at (a ++ L ":" ++ b ++ r) = Some (a, b, r).
Proof.
  intros Ha Hb Hr. unfold pair_at.
  rewrite num_at_shape; [|easy|exact colon_not_num].
  change (L ":" ++ b ++ r) with (Ch ":" :: b ++ r). cbv iota.
  rewrite N.eqb_refl. now rewrite num_at_shape.
Qed.

Lemma show_spans_hd tight l r : wf_spans tight false l -> hd_not numchar r -> hd_not numchar (show_range l ++ r).
Proof.
  destruct l as [|s l]; cbn; [easy|]. intros [((Hne & Hd & _) & _) _] _.
  unfold show_span. destruct (sp_delim s) as [|c d]; [easy|]. cbn. inversion Hd; subst.
  now apply dc_numchar.
Qed.

(* the delimiter seen by span_re and selection_re: the last character *)
Definition last_str (d : str) : str := match d with [] => [] | _ => [last d 0%N] end.

Lemma span_at_shape d a b r : num_shape a -> num_shape b -> hd_not numchar r ->
  (d = [] \/ exists c, d = [c] /\ delim_char c) ->
  span_at (d ++ a ++ L ":" ++ b ++ r) = Some (d, a, b, r).
Proof.
  intros Ha Hb Hr Hd.
  assert (Hp := pair_at_shape _ _ _ Ha Hb Hr).
  destruct Hd as [->|(c & -> & Hc)].
  - destruct (num_head_not_delim _ Ha) as (c & t & E & Hc).
    rewrite E in *. cbn -[pair_at L]. rewrite Hc. cbn [app] in Hp. rewrite Hp. reflexivity.
  - cbn -[pair_at L]. rewrite dc_span by easy. now rewrite Hp.
Qed.

Definition cap3 (m : rmatched) : str * str * str := (capd 1 m, capd 2 m, capd 3 m).

Lemma search_span_skip d pos s :
  Forall delim_char d -> d <> [] ->
  exists pos',
  search_from false span_re pos (d ++ s) = search_from false span_re pos' (last d 0%N :: s).
Proof.
  intros Hf Hne. revert pos. induction Hf as [|c d Hc Hf IH]; [easy|]. intros pos.
  destruct d as [|c' d].
  - exists pos. auto.
  - destruct (IH ltac:(easy) (S pos)) as (pos' & E).
    exists pos'.
    change (last (c :: c' :: d) 0%N) with (last (c' :: d) 0%N). rewrite <- E. cbn [app]. apply search_skip.
    rewrite match_span. unfold span_at. rewrite dc_span by easy.
    unfold pair_at. inversion Hf; subst. rewrite dc_num by easy. reflexivity.
Qed.

Lemma last_delim d : d <> [] -> Forall delim_char d -> delim_char (last d 0%N).
Proof.
  intros Hdn Hdf. destruct (@exists_last _ _ Hdn) as (d' & c & ->). rewrite last_last.
  apply Forall_app in Hdf as [_ Hdf]. now inversion Hdf.
Qed.

Lemma findall_spans tight first l pos : wf_spans tight first l ->
  map cap3 (finditer_at false span_re pos (show_range l)) =
  map (fun s => (last_str (sp_delim s), sp_start s, sp_end s)) l.
Proof.
  revert first pos; induction l as [|s l IH]; intros first pos Hwf.
  - reflexivity.
  - cbn in Hwf. destruct Hwf as [(Hd & Ha & Hb) Hl].
    assert (Hh : hd_not numchar (show_range l)).
    { rewrite <- (app_nil_r (show_range l)). now apply (show_spans_hd tight). }
    cbn [show_range flat_map]. fold (show_range l). unfold show_span. rewrite <- !app_assoc.
    assert (exists pos', search_from false span_re pos (sp_delim s ++ sp_start s ++ L ":" ++ sp_end s ++ show_range l)
            = Some (mk pos' (length (last_str (sp_delim s)) + length (sp_start s) + 1 + length (sp_end s)) (show_range l)
                ((3, sp_end s) :: (2, sp_start s) :: match last_str (sp_delim s) with [] => [] | _ => [(1, last_str (sp_delim s))] end)))
      as (pos' & E).
    { destruct first.
      - rewrite Hd. exists pos. apply search_here. rewrite match_span.
        rewrite (span_at_shape [] (sp_start s) (sp_end s)); auto.
      - destruct Hd as (Hdn & Hdf & _).
        destruct (search_span_skip (sp_delim s) pos (sp_start s ++ L ":" ++ sp_end s ++ show_range l) Hdf Hdn) as (pos' & ->).
        exists pos'. apply search_here. rewrite match_span.
        change (last (sp_delim s) 0%N :: ?x) with ([last (sp_delim s) 0%N] ++ x).
        rewrite span_at_shape; auto.
        + destruct (sp_delim s) eqn:E; [easy|]. cbn [last_str]. reflexivity.
        + right. exists (last (sp_delim s) 0%N). split; [easy|]. now apply last_delim. }
    rewrite (finditer_some _ _ _ _ _ E).
    cbn [mk r_end r_start r_rest]. cbn [map]. f_equal.
    + unfold cap3, capd, cap. cbn. destruct (last_str (sp_delim s)); reflexivity.
    + replace (_ =? pos') with false by (symmetry; apply Nat.eqb_neq; lia).
      apply (IH false); auto.
Qed.

Lemma findall3_spans tight l : wf_spans tight true l ->
  findall3 span_re (show_range l) = map (fun s => (last_str (sp_delim s), sp_start s, sp_end s)) l.
Proof. intros H. unfold findall3. rewrite finditer_0. now apply (findall_spans tight true l 0). Qed.

(* ---------- selection_re on rendered expressions ---------- *)

(* what may follow a selection: nothing, or a delimiter character *)
Definition follow (s : str) : Prop := match s with [] => True | c :: _ => delim_char c end.

Lemma show_follow tight e : wf_sels tight false e -> follow (show e).
Proof.
  destruct e as [|s e]; cbn; [easy|]. intros [((Hd & Hf) & _) _].
  destruct (sl_delim s) as [|c d]; [easy|]. cbn. now inversion Hf.
Qed.

Lemma lbr_not_id : idchar (Ch "[") = false.
Proof. unfold idchar, is_word, cclass. reflexivity. Qed.

Lemma follow_not_id r : follow r -> hd_not idchar r.
Proof. destruct r; cbn; [easy|]. apply dc_idchar. Qed.
Lemma follow_not_num r : follow r -> hd_not numchar r.
Proof. destruct r; cbn; [easy|]. apply dc_numchar. Qed.

(* text after the id of a selection *)
Definition show_tail (l : list span) : str := match l with [] => [] | _ => L "[" ++ show_range l ++ L "]" end.

Lemma show_sel_eq s : show_sel s = sl_id s ++ show_tail (sl_spans s).
Proof. unfold show_sel, show_tail. now destruct (sl_spans s). Qed.

Lemma tail_not_id l r : follow r -> hd_not idchar (show_tail l ++ r).
Proof. destruct l; cbn; [apply follow_not_id|]. intros _. exact lbr_not_id. Qed.

Lemma num_rbr a : num_shape a -> Forall (fun c => not_rbr c = true) a.
Proof.
  intros (sg & t & -> & Hsg & Ht & Hf). apply Forall_app; split.
  - destruct Hsg as [->| ->]; repeat constructor.
  - eapply Forall_impl; [|exact Hf]. intros c Hc. unfold not_rbr. apply negb_true_iff, N.eqb_neq.
    intros ->. destruct Hc as [Hc|Hc]; [easy|]. rewrite digit_ascii in Hc by reflexivity. discriminate.
Qed.

Lemma range_rbr tight first l : wf_spans tight first l -> Forall (fun c => not_rbr c = true) (show_range l).
Proof.
  revert first; induction l as [|s l IH]; intros first; cbn; [constructor|].
  intros [(Hd & Ha & Hb) Hl]. apply Forall_app; split; [|eauto].
  unfold show_span. apply Forall_app; split; [|apply Forall_app; split; [|apply Forall_app; split]].
  - destruct first; [rewrite Hd; constructor|]. destruct Hd as (_ & Hd & _).
    eapply Forall_impl; [|exact Hd]. intros; now apply dc_rbr.
  - now apply num_rbr.
  - repeat constructor.
  - now apply num_rbr.
Qed.

Definition opt_range (l : list span) : option str := match l with [] => None | _ => Some (show_range l) end.

Lemma idrange_shape tight i l r : id_shape i -> wf_spans tight true l -> follow r ->
  idrange_at (i ++ show_tail l ++ r) = Some (i, opt_range l, r).
Proof.
  intros Hi Hl Hr. unfold idrange_at.
  rewrite id_at_shape by (auto using tail_not_id).
  destruct l as [|s l].
  - cbn. destruct r as [|c r]; cbn; [easy|]. now rewrite dc_neq by (inl || easy).
  - assert (E : show_tail (s :: l) ++ r = Ch "[" :: show_range (s :: l) ++ Ch "]" :: r).
    { unfold show_tail. rewrite <- !app_assoc. reflexivity. }
    rewrite E. unfold range_at. rewrite N.eqb_refl.
    rewrite takew_app_all, dropw_app_all; try easy; eapply range_rbr; eauto.
Qed.

Lemma search_sel_skip d pos s : pos <> 0 ->
  Forall delim_char d -> d <> [] ->
  (exists c t, s = c :: t) ->
  exists pos', pos' <> 0 /\
  search_from false selection_re pos (d ++ s) = search_from false selection_re pos' (last d 0%N :: s).
Proof.
  intros Hpos Hf Hne (c0 & t0 & Hs). revert pos Hpos. induction Hf as [|c d Hc Hf IH]; [easy|]. intros pos Hpos.
  destruct d as [|c' d].
  - exists pos. split; auto.
  - destruct (IH ltac:(easy) (S pos)) as (pos' & Hp & E); [lia|].
    exists pos'. split; [easy|].
    change (last (c :: c' :: d) 0%N) with (last (c' :: d) 0%N). rewrite <- E. cbn [app]. apply search_skip.
    rewrite match_sel. unfold sel_at. apply Nat.eqb_neq in Hpos. rewrite Hpos.
    rewrite dc_sel by easy. unfold idrange_at. cbn.
    inversion Hf; subst. now rewrite dc_letter.
Qed.

Lemma findall_sels tight e pos : wf_sels tight false e -> pos <> 0 ->
  map cap3 (finditer_at false selection_re pos (show e)) =
  map (fun s => (last_str (sl_delim s), sl_id s, show_range (sl_spans s))) e.
Proof.
  revert pos; induction e as [|s e IH]; intros pos Hwf Hpos.
  { cbn [show flat_map map]. rewrite finditer_none; [reflexivity|]. apply search_nil.
    rewrite match_sel. unfold sel_at, idrange_at, id_at. now destruct (pos =? 0). }
  cbn in Hwf. destruct Hwf as [((Hdn & Hdf) & Hi & Hl) He].
  cbn [show flat_map]. fold (show e). rewrite show_sel_eq, <- !app_assoc.
  destruct (search_sel_skip (sl_delim s) pos (sl_id s ++ show_tail (sl_spans s) ++ show e) Hpos Hdf Hdn) as (pos' & Hp' & E).
  { destruct Hi as (c & t & -> & _). cbn. eauto. }
  assert (Hlast := last_delim _ Hdn Hdf).
  assert (Hm := match_sel pos' (last (sl_delim s) 0%N :: sl_id s ++ show_tail (sl_spans s) ++ show e)).
  unfold sel_at in Hm. replace (pos' =? 0) with false in Hm by (symmetry; now apply Nat.eqb_neq).
  rewrite dc_sel, (idrange_shape tight) in Hm by eauto using show_follow. cbn [option_map] in Hm.
  rewrite (search_here _ _ _ _ _ Hm) in E.
  rewrite (finditer_some _ _ _ _ _ E). cbn [map mk r_end r_start r_rest]. f_equal.
  - unfold cap3, capd, cap. cbn. destruct (sl_spans s); cbn; destruct (sl_delim s); easy.
  - replace (_ =? pos') with false by (symmetry; apply Nat.eqb_neq; cbn; lia).
    apply IH; auto. cbn. lia.
Qed.

Lemma findall3_sels tight e : wf_sels tight true e ->
  findall3 selection_re (show e) =
  map (fun s => (last_str (sl_delim s), sl_id s, show_range (sl_spans s))) e.
Proof.
  intros Hwf. unfold findall3. rewrite finditer_0.
  destruct e as [|s e]; [reflexivity|].
  destruct Hwf as [(Hd & Hi & Hl) He]. cbn [show flat_map]. fold (show e).
  rewrite Hd, show_sel_eq, <- !app_assoc. cbn [app].
  assert (Hm := match_sel 0 (sl_id s ++ show_tail (sl_spans s) ++ show e)).
  unfold sel_at in Hm. cbn [Nat.eqb] in Hm.
  rewrite (idrange_shape tight) in Hm by eauto using show_follow.
  rewrite (finditer_some _ _ _ _ _ (search_here _ _ _ _ _ Hm)).
  assert (Hlen : 0 < length (sl_id s)) by (destruct Hi as (? & ? & -> & _); cbn; lia).
  cbn [map mk r_end r_start r_rest]. rewrite Hd. f_equal.
  - unfold capd, cap. cbn. destruct (sl_spans s); cbn; easy.
  - replace (_ =? 0) with false by (symmetry; apply Nat.eqb_neq; cbn; lia).
    apply (findall_sels tight e); auto. cbn. lia.
Qed.

(* ---------- robust_ref_re on rendered expressions ---------- *)

Definition iter_re : re :=
  RSeq (ROpt (RChr span_delim)) (RSeq num_re (RSeq (RLit ":") num_re)).

Lemma rm_iter_some {A} first s r pos caps (k : mst -> option A) x :
  wf_span true first s -> hd_not numchar r ->
  k (st (pos + length (show_span s)) r caps) = Some x ->
  rmatch iter_re (st pos (show_span s ++ r) caps) k = Some x.
Proof.
  intros (Hd & Ha & Hb) Hr Hk.
  assert (Hpair : forall pos', pos' + length (sp_start s) + 1 + length (sp_end s) = pos + length (show_span s) ->
            rmatch (RSeq num_re (RSeq (RLit ":") num_re))
              (st pos' (sp_start s ++ L ":" ++ sp_end s ++ r) caps) k = Some x).
  { intros pos' Hp. rewrite rm_seq. eapply rmatch_num_some.
    - apply num_at_shape; [easy|]. exact colon_not_num.
    - rewrite rm_seq, rm_lit. cbn [L app map list_ascii_of_string].
      change (L ":" ++ sp_end s ++ r) with (Ch ":" :: sp_end s ++ r). cbv iota.
      rewrite N.eqb_refl. eapply rmatch_num_some; [apply num_at_shape; eauto|].
      rewrite <- Hk. f_equal. f_equal. lia. }
  unfold iter_re. rewrite rm_seq, rm_opt, rm_chr. unfold show_span. rewrite <- !app_assoc.
  destruct first.
  - rewrite Hd. cbn [app]. destruct (num_head_not_delim _ Ha) as (c & t & E & Hc).
    assert (Hpair' := Hpair pos). rewrite E in *. cbn [app] in *. rewrite Hc.
    apply Hpair'. unfold show_span. rewrite Hd, E, !app_length. change (length (L ":")) with 1. cbn. lia.
  - destruct Hd as (_ & Hdf & Hlen). specialize (Hlen eq_refl).
    destruct (sp_delim s) as [|c [|? ?]] eqn:E; try easy. inversion Hdf as [|? ? Hc]; subst. cbn [app]. rewrite dc_span by easy.
    rewrite Hpair; [easy|]. unfold show_span. rewrite E, !app_length. change (length (L ":")) with 1. cbn. lia.
Qed.

Lemma rm_iter_rbr {A} r pos caps (k : mst -> option A) : follow r ->
  rmatch iter_re (st pos (Ch "]" :: r) caps) k = None.
Proof.
  intros Hr. unfold iter_re. rewrite rm_seq, rm_opt, rm_chr.
  assert (span_delim (Ch "]") = true) as ->.
  { unfold span_delim. rewrite digit_ascii by reflexivity. reflexivity. }
  rewrite rm_seq, rmatch_num_none.
  - rewrite rm_seq. apply rmatch_num_none. apply span_delim_num.
    unfold span_delim. rewrite digit_ascii by reflexivity. reflexivity.
  - destruct r as [|c r]; cbn -[num_at]; [reflexivity|]. now apply dc_num.
Qed.

Lemma rm_iters {A} l r pos caps (k : mst -> option A) x :
  wf_spans true false l -> follow r ->
  k (st (pos + length (show_range l)) (Ch "]" :: r) caps) = Some x ->
  rmatch (RStar true iter_re) (st pos (show_range l ++ Ch "]" :: r) caps) k = Some x.
Proof.
  revert pos; induction l as [|s l IH]; intros pos Hl Hr Hk; rewrite rm_star_greedy.
  - cbn [show_range flat_map app]. rewrite rm_iter_rbr by easy.
    cbn in Hk. now rewrite Nat.add_0_r in Hk.
  - cbn in Hl. destruct Hl as [Hs Hl]. cbn [show_range flat_map]. fold (show_range l).
    rewrite <- app_assoc. erewrite rm_iter_some; [reflexivity|exact Hs| |].
    + apply (show_spans_hd true); [easy|]. exact rbr_not_num.
    + cbn [st m_rest]. destruct (Nat.ltb_spec (length (show_range l ++ Ch "]" :: r))
                   (length (show_span s ++ show_range l ++ Ch "]" :: r))) as [_|Hle].
      * apply IH; auto. cbn [show_range flat_map] in Hk. rewrite app_length in Hk. fold (show_range l) in Hk. rewrite Nat.add_assoc in Hk. exact Hk.
      * exfalso. rewrite app_length in Hle. unfold show_span in Hle.
        rewrite !app_length in Hle. change (length (L ":")) with 1 in Hle. lia.
Qed.

Lemma show_tail_cons sp l r :
  show_tail (sp :: l) ++ r = Ch "[" :: show_range (sp :: l) ++ Ch "]" :: r.
Proof. unfold show_tail. rewrite <- !app_assoc. reflexivity. Qed.

Lemma rm_robust_range {A} sp l r pos caps (k : mst -> option A) x :
  wf_spans true true (sp :: l) -> follow r ->
  k (st (pos + length (show_range (sp :: l)) + 2) r ((3, show_range (sp :: l)) :: caps)) = Some x ->
  rmatch (ROpt (RAlt REol (RSeq (RLit "[") (RSeq (RGroup 3 range_body) (RLit "]")))))
    (st pos (show_tail (sp :: l) ++ r) caps) k = Some x.
Proof.
  intros [Hs Hl] Hr Hk. rewrite show_tail_cons.
  rewrite rm_opt, rm_alt, rm_eol.
  assert (Heol : at_eol (Ch "[" :: show_range (sp :: l) ++ Ch "]" :: r) = false).
  { cbn [at_eol]. now destruct (show_range (sp :: l)). }
  rewrite Heol. clear Heol.
  rewrite rm_seq, rm_lit, N.eqb_refl, rm_seq, rm_group.
  unfold range_body, RPlus. rewrite rm_seq. fold iter_re.
  cbn [show_range flat_map] in *. fold (show_range l) in *. rewrite <- app_assoc.
  erewrite (rm_iter_some true sp (show_range l ++ Ch "]" :: r)); [reflexivity|easy| |].
  - apply (show_spans_hd true); [easy|exact rbr_not_num].
  - apply rm_iters; [easy|easy|]. cbn [st m_pos m_rest m_caps].
    rewrite rm_lit, N.eqb_refl. rewrite <- Hk. f_equal. rewrite app_length. f_equal; [lia|].
    f_equal. f_equal. rewrite app_assoc. apply firstn_app_len'. rewrite app_length. lia.
Qed.

(* the end of a selection for robust_ref_re *)
Lemma rm_robust_tail {A} l r pos caps (k : mst -> option A) x :
  wf_spans true true l -> follow r ->
  k (st (pos + range_len (opt_range l)) r (range_cap (opt_range l) ++ caps)) = Some x ->
  rmatch (ROpt (RAlt REol (RSeq (RLit "[") (RSeq (RGroup 3 range_body) (RLit "]")))))
    (st pos (show_tail l ++ r) caps) k = Some x.
Proof.
  intros Hl Hr Hk. destruct l as [|sp l].
  - cbn in Hk. rewrite Nat.add_0_r in Hk. cbn [show_tail app].
    rewrite rm_opt, rm_alt, rm_eol.
    destruct (at_eol r); [now rewrite Hk|].
    rewrite rm_seq, rm_lit. destruct r as [|c r]; [easy|].
    rewrite (dc_neq c Hr) by inl. exact Hk.
  - apply rm_robust_range; auto. rewrite <- Hk. cbn [opt_range range_len range_cap app].
    f_equal. f_equal. lia.
Qed.

Lemma letter_not_eol c t : is_letter c = true -> at_eol (c :: t) = false.
Proof.
  intros Hc. cbn. destruct t; [|easy]. apply N.eqb_neq. intros ->. discriminate.
Qed.

Lemma rm_robust_sel {A} i l r pos caps (k : mst -> option A) x :
  id_shape i -> wf_spans true true l -> follow r ->
  k (st (pos + length i + range_len (opt_range l)) r (range_cap (opt_range l) ++ (2, i) :: caps)) = Some x ->
  rmatch (RSeq (RGroup 2 (RAlt REol id_re))
        (ROpt (RAlt REol (RSeq (RLit "[") (RSeq (RGroup 3 range_body) (RLit "]"))))))
    (st pos (i ++ show_tail l ++ r) caps) k = Some x.
Proof.
  intros Hi Hl Hr Hk. rewrite rm_seq, rm_group, rm_alt, rm_eol.
  assert (Heol : at_eol (i ++ show_tail l ++ r) = false).
  { destruct Hi as (c & t & -> & Hc & _). cbn [app]. apply letter_not_eol. now apply ascii_letter_b. }
  rewrite Heol. eapply rmatch_id_some.
  - apply id_at_shape; [easy|]. now apply tail_not_id.
  - cbn [st m_pos m_rest m_caps]. rewrite firstn_app_len' by lia.
    now apply rm_robust_tail.
Qed.

(* nothing to stop at: not the end, not a letter *)
Lemma rm_robust_nostop {A} s pos caps (k : mst -> option A) :
  at_eol s = false -> id_at s = None ->
  rmatch (RSeq (RGroup 2 (RAlt REol id_re))
        (ROpt (RAlt REol (RSeq (RLit "[") (RSeq (RGroup 3 range_body) (RLit "]"))))))
    (st pos s caps) k = None.
Proof.
  intros H1 H2. rewrite rm_seq, rm_group, rm_alt, rm_eol, H1. now apply rmatch_id_none.
Qed.

Lemma star_l_skip {A} d s pos caps (k : mst -> option A) :
  Forall delim_char d ->
  (forall d1 d2, d = d1 ++ d2 -> d2 <> [] -> k (st (pos + length d1) (d2 ++ s) caps) = None) ->
  k (st (pos + length d) s caps) <> None ->
  star_l not_nl pos (d ++ s) caps k = k (st (pos + length d) s caps).
Proof.
  intros Hf. revert pos; induction Hf as [|c d Hc Hf IH]; intros pos Hk Hn.
  - cbn [app]. cbn in *. rewrite Nat.add_0_r in *. destruct s; cbn; destruct (k _); easy.
  - cbn [app star_l]. assert (H0 := Hk [] (c :: d) eq_refl ltac:(easy)).
    cbn in H0. rewrite Nat.add_0_r in H0. rewrite H0. rewrite dc_nl by easy.
    rewrite IH.
    + f_equal. f_equal. cbn. lia.
    + intros d1 d2 E Hd2. specialize (Hk (c :: d1) d2). cbn in Hk.
      rewrite E in Hk. specialize (Hk eq_refl Hd2). rewrite <- Hk. f_equal. f_equal. lia.
    + cbn in Hn. replace (S pos + length d) with (pos + S (length d)) by lia. exact Hn.
Qed.

Definition robust_result pos d i l r : rmatched :=
  mk pos (length d + length i + range_len (opt_range l)) r (range_cap (opt_range l) ++ [(2, i); (1, d)]).

Lemma match_robust_sel pos d i l r :
  Forall delim_char d -> id_shape i -> wf_spans true true l -> follow r ->
  (d = [] /\ pos = 0 \/ d <> [] /\ (pos <> 0)) ->
  match_at false robust_ref_re pos (d ++ i ++ show_tail l ++ r) = Some (robust_result pos d i l r).
Proof.
  intros Hd Hi Hl Hr Hpos. unfold match_at.
  change {| m_pos := pos; m_rest := ?s; m_caps := [] |} with (st pos s []).
  cbn [andb]. change (fun s' => Some _) with (k_span pos).
  unfold robust_ref_re. rewrite rm_seq, rm_group, rm_alt, rm_bol.
  destruct Hpos as [[-> ->]|[Hne Hp]].
  - cbn [Nat.eqb app st m_pos m_rest m_caps].
    erewrite rm_robust_sel; [reflexivity|auto|auto|auto|]. reflexivity.
  - replace (pos =? 0) with false by (symmetry; now apply Nat.eqb_neq).
    destruct d as [|c d]; [easy|]. unfold RPlus. rewrite rm_seq, rm_chr.
    cbn [app]. inversion Hd as [|? ? Hc Hd']; subst. rewrite dc_nl by easy.
    rewrite rmatch_star_lazy.
    set (k := fun s' : mst => _).
    assert (Hk : k (st (S pos + length d) (i ++ show_tail l ++ r) []) = Some (robust_result pos (c :: d) i l r)).
    { unfold k. cbn [st m_pos m_rest m_caps].
      eapply rm_robust_sel; auto. unfold k_span, robust_result, mk. cbn [st m_pos m_rest m_caps].
      f_equal. f_equal; [cbn; lia|]. f_equal. f_equal. f_equal. f_equal.
      change (c :: d ++ i ++ show_tail l ++ r) with ((c :: d) ++ i ++ show_tail l ++ r).
      apply firstn_app_len'. cbn [length]. lia. }
    rewrite star_l_skip; auto.
    + intros d1 d2 -> Hd2. unfold k. apply rm_robust_nostop.
      * apply Forall_app in Hd' as [_ Hd']. destruct d2 as [|c2 d2]; [easy|]. inversion Hd' as [|? ? (_ & _ & Hn)]; subst.
        cbn. destruct (d2 ++ i ++ _); [now apply N.eqb_neq|easy].
      * apply Forall_app in Hd' as [_ Hd']. destruct d2 as [|c2 d2]; [easy|]. inversion Hd'; subst.
        cbn. now rewrite dc_letter.
    + rewrite Hk. easy.
Qed.

Lemma robust_caps pos d i l r : cap3 (robust_result pos d i l r) = (d, i, show_range l).
Proof. unfold cap3, capd, cap, robust_result. cbn. destruct l; reflexivity. Qed.

Lemma robust_end_none pos : pos <> 0 -> search_from false robust_ref_re pos [] = None.
Proof.
  intros Hp. apply search_nil. unfold match_at.
  change {| m_pos := pos; m_rest := ?s; m_caps := [] |} with (st pos s []).
  unfold robust_ref_re. rewrite rm_seq, rm_group, rm_alt, rm_bol.
  replace (pos =? 0) with false by (symmetry; now apply Nat.eqb_neq). reflexivity.
Qed.

Lemma findall_robust e pos : wf_sels true false e -> pos <> 0 ->
  map cap3 (finditer_at false robust_ref_re pos (show e)) =
  map (fun s => (sl_delim s, sl_id s, show_range (sl_spans s))) e.
Proof.
  revert pos; induction e as [|s e IH]; intros pos Hwf Hpos.
  - cbn [show flat_map map]. rewrite finditer_none by now apply robust_end_none. reflexivity.
  - cbn in Hwf. destruct Hwf as [((Hdn & Hdf) & Hi & Hl) He].
    cbn [show flat_map]. fold (show e). rewrite show_sel_eq, <- !app_assoc.
    assert (Hm := match_robust_sel pos (sl_delim s) (sl_id s) (sl_spans s) (show e)
                    Hdf Hi Hl (show_follow true _ He) (or_intror (conj Hdn Hpos))).
    rewrite (finditer_some _ _ _ _ _ (search_here _ _ _ _ _ Hm)). cbn [map]. f_equal.
    + apply robust_caps.
    + cbn [robust_result mk r_end r_start r_rest].
      assert (0 < length (sl_delim s)) by (destruct (sl_delim s); [easy|cbn; lia]).
      replace (_ =? pos) with false by (symmetry; apply Nat.eqb_neq; lia).
      apply IH; auto. lia.
Qed.

Theorem findall3_robust e : wf e -> e <> [] ->
  findall3 robust_ref_re (show e) =
  map (fun s => (sl_delim s, sl_id s, show_range (sl_spans s))) e.
Proof.
  intros Hwf Hne. unfold findall3. rewrite finditer_0.
  destruct e as [|s e]; [easy|].
  destruct Hwf as [(Hd & Hi & Hl) He]. cbn [show flat_map]. fold (show e).
  rewrite show_sel_eq, <- !app_assoc.
  assert (Hm := match_robust_sel 0 (sl_delim s) (sl_id s) (sl_spans s) (show e)).
  rewrite Hd in *. specialize (Hm ltac:(constructor) Hi Hl (show_follow true _ He) (or_introl (conj eq_refl eq_refl))).
  rewrite (finditer_some _ _ _ _ _ (search_here _ _ _ _ _ Hm)). cbn [map]. f_equal.
  - rewrite Hd. apply (robust_caps 0).
  - cbn [robust_result mk r_end r_start r_rest].
    assert (Hlen : 0 < length (sl_id s)) by (destruct Hi as (? & ? & -> & _); cbn; lia).
    replace (_ =? 0) with false by (symmetry; apply Nat.eqb_neq; cbn; lia).
    apply (findall_robust e); auto. cbn. lia.
Qed.

Lemma findall3_robust_nil : findall3 robust_ref_re [] = [([], [], [])].
Proof. reflexivity. Qed.
End P.
