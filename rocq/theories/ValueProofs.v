From Verif Require Import PyStr PyStrFacts Regex RegexFacts Ref SpecRef RefMatch RefProofs RefLaws RefLossless Model Value SpecValue.
From Verif Require Import DecFacts.
From Verif Require Container SpecContainer.

Section VP.
Context {U : Unicode}.

(* ---------- lookup ---------- *)

Lemma find_id_some {A} (idof : A -> option str) l k x : find_id idof l k = Some x -> In x l /\ idof x = Some k.
Proof.
  intros H. apply find_some in H as [H E]. split; [easy|].
  destruct (opt_eqb_spec str_eqb str_eqb_spec (idof x) (Some k)); [easy|discriminate].
Qed.
Lemma find_id_none {A} (idof : A -> option str) l k : find_id idof l k = None <-> no_member idof l k.
Proof.
  split.
  - intros H y Hy E. apply (find_none _ _ H) in Hy. rewrite E in Hy. cbn in Hy. now rewrite str_eqb_refl in Hy.
  - intros H. destruct (find_id idof l k) as [x|] eqn:E; [|easy]. apply find_id_some in E as [Hx E].
    exfalso. exact (H x Hx E).
Qed.
Lemma find_id_member {A} (idof : A -> option str) l k x : the_member idof l k x -> find_id idof l k = Some x.
Proof.
  intros (Hx & Ex & Hu). destruct (find_id idof l k) as [y|] eqn:E.
  - apply find_id_some in E as [Hy Ey]. f_equal. auto.
  - apply find_id_none in E. exfalso. exact (E x Hx Ex).
Qed.
Lemma get_member {A} (idof : A -> option str) l k x : the_member idof l k x -> container_get idof l k = Some x.
Proof. intros H. unfold container_get. now rewrite (find_id_member _ _ _ _ H). Qed.
Lemma get_no_member {A} (idof : A -> option str) l k : no_member idof l k -> py_int k = None -> container_get idof l k = None.
Proof. intros H E. unfold container_get. apply find_id_none in H. now rewrite H, E. Qed.
Lemma id_shape_int i : id_shape i -> py_int i = None.
Proof. intros (c & t & -> & Hc & _). now apply letter_not_int. Qed.

(* the container model answers the same *)
Lemma container_get_agrees {B} (s : Container.state (B := B)) k i :
  SpecContainer.lookup_exact s k -> id_accepted i = true ->
  Container.get (Container.conts s k) (Container.KStr i)
  = Ok (option_map inl (container_get (SpecContainer.the_id s) (SpecContainer.members s k) i)).
Proof.
  intros H Hi. destruct (H i Hi) as [H1 H2]. unfold container_get.
  destruct (find_id _ _ i) as [a|] eqn:E.
  - apply find_id_some in E. apply H1 in E. unfold Container.get. now rewrite E.
  - apply find_id_none in E. apply H2 in E. unfold Container.get. rewrite E.
    now rewrite (accepted_not_int _ Hi).
Qed.

(* ---------- which ids resolve looks up ---------- *)

Definition named (e : str) : list str := map (fun m => snd (fst m)) (findall3 selection_re (strip e)).

Lemma named_show x : wf_loose x -> named (show x) = expr_ids x.
Proof.
  intros H. unfold named. rewrite (strip_show false), (findall3_sels false) by easy.
  unfold expr_ids. rewrite map_map. reflexivity.
Qed.

Definition infix (i e : str) : Prop := exists u v, e = u ++ i ++ v.
Lemma infix_trans i e f : infix i e -> infix e f -> infix i f.
Proof. intros (u & v & ->) (u' & v' & ->). exists (u' ++ u), (v ++ v'). now rewrite <- !app_assoc. Qed.
Lemma lstrip_suffix s : exists u, s = u ++ lstrip s.
Proof.
  induction s as [|c s [u IH]]; [now exists []|]. cbn. destruct (is_space c); [|now exists []].
  exists (c :: u). cbn. now rewrite <- IH.
Qed.
Lemma strip_infix s : infix (strip s) s.
Proof.
  destruct (lstrip_suffix s) as [u Hu]. unfold strip, rstrip.
  destruct (lstrip_suffix (rev (lstrip s))) as [v Hv].
  exists u, (rev v). rewrite Hu at 1. f_equal.
  rewrite <- (rev_involutive (lstrip s)) at 1. rewrite Hv at 1. now rewrite rev_app_distr.
Qed.

Lemma search_match adv r pos s m : search_from adv r pos s = Some m ->
  exists g s' pos' adv', s = g ++ s' /\ match_at adv' r pos' s' = Some m.
Proof.
  revert adv pos; induction s as [|c s IH]; intros adv pos; cbn.
  - destruct (match_at adv r pos []) eqn:E; [|easy]. intros [= ->]. exists [], [], pos, adv. auto.
  - destruct (match_at adv r pos (c :: s)) eqn:E.
    + intros [= ->]. exists [], (c :: s), pos, adv. auto.
    + intros H. apply IH in H as (g & s' & pos' & adv' & -> & H). exists (c :: g), s', pos', adv'. auto.
Qed.

Lemma match_adv adv r pos s m : match_at adv r pos s = Some m -> exists s',
  matches r {| m_pos := pos; m_rest := s; m_caps := [] |} s' /\ r_caps m = m_caps s'.
Proof.
  unfold match_at. intros H. apply rmatch_sound in H as (s' & Hs & H). exists s'. split; [easy|].
  destruct (adv && _); [easy|]. now injection H as <-.
Qed.

Lemma id_at_infix s i r : id_at s = Some (i, r) -> infix i s.
Proof. intros H. apply id_at_app in H as [-> _]. now exists [], r. Qed.
Lemma idrange_infix s i u r : idrange_at s = Some (i, u, r) -> infix i s.
Proof.
  unfold idrange_at. destruct (id_at s) as [[i' r']|] eqn:E; [|easy].
  intros H. assert (i' = i) by (destruct (range_at r') as [[? ?]|]; congruence). subst. now apply id_at_infix in E.
Qed.
Lemma sel_at_infix pos s d i u r : sel_at pos s = Some (d, i, u, r) -> infix i s.
Proof.
  unfold sel_at. destruct (if pos =? 0 then idrange_at s else None) as [[[i' u'] r']|] eqn:E.
  - intros [= <- <- <- <-]. destruct (pos =? 0); [|easy]. now apply idrange_infix in E.
  - destruct s as [|c t]; [easy|]. destruct (sel_delim c); [|easy].
    destruct (idrange_at t) as [[[i' u'] r']|] eqn:E'; [|easy]. cbn. intros [= <- <- <- <-].
    apply idrange_infix in E' as (a & b & ->). now exists (c :: a), b.
Qed.

Lemma rest_suffix adv r pos s m : search_from adv r pos s = Some m -> exists g, s = g ++ r_rest m.
Proof. intros H. apply search_from_rest in H as (g & u & E & _). exists (g ++ u). rewrite E at 1. now rewrite <- app_assoc. Qed.

(* a match found with adv = true is also a match with adv = false *)
Lemma match_at_false adv r pos s m : match_at adv r pos s = Some m -> adv = false \/ match_at adv r pos s = Some m.
Proof. destruct adv; auto. Qed.

(* every match of selection_re consumes input, so the scan never asks for a non-empty match *)
Lemma sel_adv pos s : match_at true selection_re pos s = match_at false selection_re pos s.
Proof.
  unfold match_at. apply rmatch_ext. intros s' Hs. cbn [andb].
  destruct (Nat.eqb_spec (m_pos s') pos) as [E|E]; [|easy]. exfalso.
  inversion Hs as [| | | |? ? ? s1 ? H1 H2| | | | |]; subst.
  inversion H2 as [| | | |? ? ? s2 ? H3 H4| | | | |]; subst.
  assert (P1 := matches_consume _ _ _ H1). assert (P4 := matches_consume _ _ _ H4).
  destruct P1 as (? & _ & P1), P4 as (? & _ & P4). cbn in P1.
  inversion H3 as [| | | | | | | | |? ? ? s3 H5]; subst.
  inversion H5 as [| | | |? ? ? s4 ? H6 H7| | | | |]; subst.
  assert (P7 := matches_consume _ _ _ H7). destruct P7 as (? & _ & P7).
  assert (P6 : m_pos s4 = S (m_pos s1)) by (inversion H6; reflexivity).
  cbn in *. lia.
Qed.

Lemma named_infix_at n : forall adv pos s i, length s <= n ->
  In i (map (fun m => capd 2 m) (finditer_at adv selection_re pos s)) -> infix i s.
Proof.
  induction n as [n IH] using lt_wf_ind. intros adv pos s i Hn.
  destruct (search_from adv selection_re pos s) as [m|] eqn:E.
  2:{ rewrite finditer_none by easy. intros []. }
  rewrite (finditer_some _ _ _ _ _ E). cbn [map]. intros [H|H].
  - subst i. apply search_match in E as (g & s' & pos' & adv' & -> & E).
    assert (E' : match_at false selection_re pos' s' = Some m) by (destruct adv'; [now rewrite <- sel_adv|easy]).
    rewrite match_sel in E'. destruct (sel_at pos' s') as [[[[d i] u] r]|] eqn:Es; [|easy].
    injection E' as <-. assert (Hi : infix i s') by (eapply sel_at_infix; eauto).
    assert (Ei : capd 2 (mk pos' (length d + length i + range_len u) r (range_cap u ++ [(2, i); (1, d)])) = i)
      by (destruct u; reflexivity).
    rewrite Ei. destruct Hi as (a & b & ->). exists (g ++ a), b. now rewrite <- app_assoc.
  - assert (Hlt : length (r_rest m) < length s).
    { assert (E0 := E). apply search_from_rest in E as (g & u & Es & H1 & H2 & _). 
      assert (u <> []).
      { intros ->. apply search_match in E0 as (g' & s' & pos' & adv' & _ & E0).
        assert (E1 : match_at true selection_re pos' s' = Some m) by (destruct adv'; [easy|now rewrite sel_adv]).
        unfold match_at in E1. apply rmatch_sound in E1 as (s2 & _ & E1). cbn in E1.
        destruct (Nat.eqb_spec (m_pos s2) pos'); [easy|]. injection E1 as <-. cbn in *. lia. }
      rewrite Es. rewrite !app_length. destruct u; [easy|]. cbn. lia. }
    apply (IH (length (r_rest m))) in H; [|lia|lia].
    destruct (rest_suffix _ _ _ _ _ E) as [g Hg]. destruct H as (a & b & H).
    exists (g ++ a), b. rewrite Hg at 1. rewrite H. now rewrite <- app_assoc.
Qed.

Lemma named_infix e i : In i (named e) -> infix i e.
Proof.
  unfold named, findall3. rewrite map_map, finditer_0. cbn [fst snd]. intros H.
  apply (named_infix_at _ _ _ _ _ (le_n _)) in H. eapply infix_trans; [exact H|apply strip_infix].
Qed.

Lemma named_refers e i : In i (named e) -> refers_to e i.
Proof.
  intros H. split; [now apply named_infix in H|]. intros x Hx ->. now rewrite named_show in H.
Qed.

(* ---------- resolve and its environment ---------- *)

Lemma mapM_ext_in {A B} (f g : A -> res B) l : (forall x, In x l -> f x = g x) -> mapM f l = mapM g l.
Proof.
  induction l as [|x l IH]; intros H; cbn; [easy|]. rewrite (H x) by now left. rewrite IH; [easy|]. intros; apply H; now right.
Qed.
Lemma resolve_ext get get' e : (forall i, In i (named e) -> get i = get' i) -> resolve get e = resolve get' e.
Proof.
  intros H. unfold resolve. f_equal. apply mapM_ext_in. intros [[d i] u] Hx. unfold resolve_selection.
  rewrite H; [easy|]. unfold named. apply in_map_iff. now exists (d, i, u).
Qed.

Lemma mapM_refine {A B} (f f' : A -> res B) l :
  (forall x, In x l -> f x <> Err RecursionError -> f' x = f x) ->
  mapM f l <> Err RecursionError -> mapM f' l = mapM f l.
Proof.
  induction l as [|x l IH]; intros H; cbn; [easy|]. intros Hn.
  assert (Hx : f x <> Err RecursionError) by (intros E; rewrite E in Hn; now apply Hn).
  rewrite (H x) by (auto; now left). destruct (f x) as [b|e]; cbn in *; [|easy].
  rewrite IH; auto. intros E; rewrite E in Hn; now apply Hn.
Qed.
Lemma resolve_refine get get' e :
  (forall i, get i = get' i \/ get i = Some (Err RecursionError)) ->
  resolve get e <> Err RecursionError -> resolve get' e = resolve get e.
Proof.
  intros H. unfold resolve. intros Hn.
  rewrite (mapM_refine (resolve_selection get) (resolve_selection get')); [easy| |].
  - intros [[d i] u] _ Hx. unfold resolve_selection in *. destruct (H i) as [->|E]; [easy|].
    rewrite E in Hx. cbn in Hx. now destruct Hx.
  - intros E. rewrite E in Hn. now apply Hn.
Qed.
Lemma mapM_no {A B} (f : A -> res B) l x : (forall a, In a l -> f a <> Err x) -> mapM f l <> Err x.
Proof.
  induction l as [|a l IH]; intros H; cbn; [easy|].
  assert (Ha : f a <> Err x) by (apply H; now left).
  destruct (f a) as [b|e]; cbn; [|congruence].
  assert (Hl : mapM f l <> Err x) by (apply IH; intros; apply H; now right).
  destruct (mapM f l); cbn; congruence.
Qed.
Lemma slice_arg_no_rec s : slice_arg s <> Err RecursionError.
Proof. unfold slice_arg. destruct s; [easy|]. now destruct (py_int _). Qed.
Lemma resolve_no_rec get e : (forall i, In i (named e) -> get i <> Some (Err RecursionError)) ->
  resolve get e <> Err RecursionError.
Proof.
  intros H. unfold resolve.
  assert (Hm : mapM (resolve_selection get) (findall3 selection_re (strip e)) <> Err RecursionError).
  { apply mapM_no. intros [[d i] u] Hx. unfold resolve_selection.
    assert (Hi : get i <> Some (Err RecursionError)) by (apply H, in_map_iff; now exists (d, i, u)).
    destruct (get i) as [[v|x]|]; cbn [bind]; [|congruence|easy].
    destruct u as [|c u]; [easy|].
    assert (Hs : mapM (resolve_span match v with Some s => s | None => [] end) (findall3 span_re (c :: u)) <> Err RecursionError).
    { apply mapM_no. intros [[d' a] b] _. unfold resolve_span.
      assert (Ha := slice_arg_no_rec a). assert (Hb := slice_arg_no_rec b).
      destruct (slice_arg a); cbn; [|congruence]. destruct (slice_arg b); cbn; congruence. }
    revert Hs. destruct (mapM _ (findall3 span_re (c :: u))); cbn [bind]; congruence. }
  revert Hm. destruct (mapM _ (findall3 selection_re _)); cbn [bind]; congruence.
Qed.
(* the first selection decides if it overflows *)
Lemma resolve_first get e d i u l : findall3 selection_re (strip e) = (d, i, u) :: l ->
  get i = Some (Err RecursionError) -> resolve get e = Err RecursionError.
Proof. intros E H. unfold resolve. rewrite E. cbn. now rewrite H. Qed.

(* ---------- fuel ---------- *)

Lemma resolve_ref_refine rec rec' g t it ra :
  (forall rt i, rec rt i <> Err RecursionError -> rec' rt i = rec rt i) ->
  resolve_ref rec g t it ra <> Err RecursionError ->
  resolve_ref rec' g t it ra = resolve_ref rec g t it ra.
Proof.
  intros H. unfold resolve_ref. destruct (dget (a_dict (it_attrs it)) ra) as [e|]; [|easy].
  destruct t as [t|]; [|easy]. destruct (dget _ ra) as [rid|]; [|easy]. destruct g as [g|]; [|easy].
  destruct (container_get _ _ rid) as [rt|]; [|easy]. intros Hn. apply resolve_refine; [|easy].
  intros i. destruct (container_get _ _ i) as [it'|]; [|now left]. cbn.
  assert (D : rec rt it' = Err RecursionError \/ rec rt it' <> Err RecursionError)
    by (destruct (rec rt it') as [?|[]]; (now left) || (right; congruence)).
  destruct D as [D|D]; [right; now rewrite D|left; now rewrite (H _ _ D)].
Qed.

Lemma value_mono n : forall m g t it ras, n <= m ->
  value n g t it ras <> Err RecursionError -> value m g t it ras = value n g t it ras.
Proof.
  induction n as [|n IH]; intros m g t it ras Hm Hn; [cbn in Hn; now destruct Hn|].
  destruct m as [|m]; [lia|]. cbn in *. destruct (it_text it); [easy|].
  destruct (find _ ras) as [ra|]; [|easy].
  erewrite resolve_ref_refine; [reflexivity| |].
  - cbn. intros rt i Hi. apply IH; [lia|easy].
  - intros E. rewrite E in Hn. now apply Hn.
Qed.

Lemma evaluates_intro n g t it r : value n (Some g) (Some t) it value_refattrs = r -> r <> Err RecursionError ->
  evaluates g t it r.
Proof.
  intros H Hr. split; [easy|]. exists n. intros m Hm. rewrite <- H.
  apply value_mono; [easy|]. now rewrite H.
Qed.

Lemma evaluates_det g t it r r' : evaluates g t it r -> evaluates g t it r' -> r = r'.
Proof. intros (_ & n & H) (_ & n' & H'). rewrite <- (H (n + n')), <- (H' (n + n')) by lia. reflexivity. Qed.

Lemma first_ref_find it ra : it_text it = None ->
  (find (dmem (a_dict (it_attrs it))) value_refattrs = Some ra <-> first_ref it ra).
Proof.
  intros Ht. unfold first_ref, attr, value_refattrs. cbn [find]. unfold dmem, CONTENT, SEGMENTATION.
  destruct (dget _ (L "content")) eqn:E1.
  - split; [intros [= <-]; split; [easy|]; left; split; [easy|congruence]|].
    intros (_ & [[-> _]|(_ & ? & _)]); [easy|congruence].
  - destruct (dget _ (L "segmentation")) eqn:E2.
    + split; [intros [= <-]; split; [easy|]; right; repeat split; congruence|].
      intros (_ & [[_ H]|(-> & _)]); [now destruct H|easy].
    + split; [easy|]. intros (_ & [[_ H]|(_ & _ & H)]); now destruct H.
Qed.

Lemma value_step n g t it ra : first_ref it ra ->
  value (S n) g t it value_refattrs
  = do s <- resolve_ref (fun rt i => value n g (Some rt) i value_refattrs) g t it ra; Ok (Some s).
Proof.
  intros H. assert (Ht := proj1 H). apply (first_ref_find it ra Ht) in H. cbn [value]. now rewrite Ht, H.
Qed.

Lemma container_get_named g rid rt : container_get tier_id (g_tiers g) rid = Some rt -> names_tier g rid rt.
Proof.
  unfold container_get. destruct (find_id tier_id (g_tiers g) rid) as [x|] eqn:E.
  - intros [= ->]. apply find_id_some in E as [H1 H2]. split; auto.
  - apply find_id_none in E. destruct (py_int rid) as [z|] eqn:Ez; [|easy].
    destruct (py_index _ z) as [k|]; [|easy]. intros H. apply nth_error_In in H. split; [easy|]. right. split; [easy|congruence].
Qed.

(* named ids start with a letter, hence are found by id or not at all *)
Lemma named_letter e i : In i (named e) -> py_int i = None.
Proof.
  unfold named, findall3. rewrite map_map, finditer_0. cbn [fst snd].
  enough (H : forall n adv pos s, length s <= n ->
            In i (map (fun m => capd 2 m) (finditer_at adv selection_re pos s)) -> py_int i = None)
    by (apply H with (n := length (strip e)); lia).
  induction n as [n IH] using lt_wf_ind. intros adv pos s Hn.
  destruct (search_from adv selection_re pos s) as [m|] eqn:E.
  2:{ rewrite finditer_none by easy. intros []. }
  rewrite (finditer_some _ _ _ _ _ E). cbn [map]. intros [H|H].
  - subst i. apply search_match in E as (g & s' & pos' & adv' & -> & E).
    assert (E' : match_at false selection_re pos' s' = Some m) by (destruct adv'; [now rewrite <- sel_adv|easy]).
    rewrite match_sel in E'. destruct (sel_at pos' s') as [[[[d i] u] r]|] eqn:Es; [|easy].
    injection E' as <-.
    assert (Ei : capd 2 (mk pos' (length d + length i + range_len u) r (range_cap u ++ [(2, i); (1, d)])) = i)
      by (destruct u; reflexivity).
    rewrite Ei. clear Ei.
    assert (Hi : forall s i u r, idrange_at s = Some (i, u, r) -> py_int i = None).
    { clear. intros s i u r H. unfold idrange_at in H. destruct (id_at s) as [[i' r']|] eqn:E; [|easy].
      assert (i' = i) by (destruct (range_at r') as [[? ?]|]; congruence). subst.
      apply id_at_shape_inv in E as (_ & Hs & _). now apply id_shape_int. }
    unfold sel_at in Es. destruct (if pos' =? 0 then idrange_at s' else None) as [[[i' u'] r']|] eqn:E0.
    + injection Es as <- <- <- <-. destruct (pos' =? 0); [|easy]. eauto.
    + destruct s' as [|c t]; [easy|]. destruct (sel_delim c); [|easy].
      destruct (idrange_at t) as [[[i' u'] r']|] eqn:E'; [|easy]. cbn in Es. injection Es as <- <- <- <-. eauto.
  - assert (Hlt : length (r_rest m) < length s).
    { assert (E0 := E). apply search_from_rest in E as (g & u & Es & H1 & H2 & _).
      assert (u <> []).
      { intros ->. apply search_match in E0 as (g' & s' & pos' & adv' & _ & E0).
        assert (E1 : match_at true selection_re pos' s' = Some m) by (destruct adv'; [easy|now rewrite sel_adv]).
        unfold match_at in E1. apply rmatch_sound in E1 as (s2 & _ & E1). cbn in E1.
        destruct (Nat.eqb_spec (m_pos s2) pos'); [easy|]. injection E1 as <-. cbn in *. lia. }
      rewrite Es. rewrite !app_length. destruct u; [easy|]. cbn. lia. }
    eapply (IH (length (r_rest m))); [lia| |exact H]. lia.
Qed.

(* ---------- termination ---------- *)

Lemma items_bound (g : igt) (rt : tier) (l : list str) (Q : item -> nat -> Prop) :
  (forall it n m, Q it n -> n <= m -> Q it m) ->
  (forall i it, In i l -> container_get item_id (t_items rt) i = Some it -> exists n, Q it n) ->
  exists n, forall i it, In i l -> container_get item_id (t_items rt) i = Some it -> Q it n.
Proof.
  intros Hm. induction l as [|i l IH]; intros H; [exists 0; intros ? ? []|].
  destruct IH as [n Hn]; [intros; eapply H; eauto; now right|].
  destruct (container_get item_id (t_items rt) i) as [it|] eqn:E.
  - destruct (H i it) as [k Hk]; [now left|easy|]. exists (n + k). intros i' it' [<-|Hi] E'.
    + rewrite E in E'. injection E' as <-. eapply Hm; [exact Hk|lia].
    + eapply Hm; [eapply Hn; eauto|lia].
  - exists n. intros i' it' [<-|Hi] E'; [congruence|]. eauto.
Qed.

Theorem value_terminates g t it : Acc (fun q p => follows g p q) (t, it) -> exists r, evaluates g t it r.
Proof.
  intros H. remember (t, it) as p eqn:Ep. revert t it Ep. induction H as [p _ IH]. intros t it ->.
  enough (E : exists n, value n (Some g) (Some t) it value_refattrs <> Err RecursionError)
    by (destruct E as [n E]; eexists; eapply evaluates_intro; eauto).
  destruct (it_text it) as [s|] eqn:Et; [exists 1; cbn; now rewrite Et|].
  destruct (find (dmem (a_dict (it_attrs it))) value_refattrs) as [ra|] eqn:Ef.
  2:{ exists 1. cbn -[find]. now rewrite Et, Ef. }
  assert (Hf := proj1 (first_ref_find it ra Et) Ef).
  destruct (dget (a_dict (it_attrs it)) ra) as [e|] eqn:Ee.
  2:{ exists 1. rewrite (value_step _ _ _ _ _ Hf). unfold resolve_ref. now rewrite Ee. }
  destruct (dget (a_dict (t_attrs t)) ra) as [rid|] eqn:Er.
  2:{ exists 1. rewrite (value_step _ _ _ _ _ Hf). unfold resolve_ref. now rewrite Ee, Er. }
  destruct (container_get tier_id (g_tiers g) rid) as [rt|] eqn:Eg.
  2:{ exists 1. rewrite (value_step _ _ _ _ _ Hf). unfold resolve_ref. now rewrite Ee, Er, Eg. }
  destruct (items_bound g rt (named e) (fun i n => value n (Some g) (Some rt) i value_refattrs <> Err RecursionError)) as [n Hn].
  - intros i n m Hi Hm. now rewrite (value_mono n m).
  - intros i it' Hi Hit. assert (Hit' := Hit). unfold container_get in Hit. rewrite (named_letter _ _ Hi) in Hit.
    destruct (find_id item_id (t_items rt) i) as [x|] eqn:Ex; [|easy]. injection Hit as ->.
    apply find_id_some in Ex as [Hx Ex].
    destruct (IH (rt, it')) with (t := rt) (it := it') as (r & Hr & n & Hn); [|easy|].
    + exists ra, e, rid, i. cbn [fst snd]. split; [easy|]. split; [easy|]. split; [easy|].
      split; [now apply container_get_named|]. split; [easy|]. split; [easy|]. now apply named_refers.
    + exists n. unfold value_refattrs, CONTENT, SEGMENTATION. now rewrite Hn.
  - exists (S n). rewrite (value_step _ _ _ _ _ Hf). unfold resolve_ref. rewrite Ee, Er, Eg.
    assert (Hr : resolve (fun i => option_map (fun i0 => value n (Some g) (Some rt) i0 value_refattrs)
                       (container_get item_id (t_items rt) i)) e <> Err RecursionError).
    { apply resolve_no_rec. intros i Hi. destruct (container_get item_id (t_items rt) i) as [it'|] eqn:Ei; [|easy].
      cbn. intros [= E]. exact (Hn _ _ Hi Ei E). }
    destruct (resolve _ e); cbn; congruence.
Qed.

(* ---------- what value() returns ---------- *)

Theorem value_text g t it s ras : it_text it = Some s -> forall n, value (S n) g t it ras = Ok (Some s).
Proof. intros H n. cbn. now rewrite H. Qed.

Theorem value_none g t it : it_text it = None ->
  attr (it_attrs it) (L "content") = None -> attr (it_attrs it) (L "segmentation") = None ->
  forall n, value (S n) g t it [L "content"; L "segmentation"] = Ok None.
Proof. intros H H1 H2 n. cbn [value find]. unfold dmem, attr in *. now rewrite H, H1, H2. Qed.

Lemma env_bound g rt l rho : env_of g rt l rho ->
  exists n, forall m, n <= m -> forall i, In i l -> py_int i = None ->
    option_map (fun it => value m (Some g) (Some rt) it value_refattrs) (container_get item_id (t_items rt) i) = rho i.
Proof.
  induction l as [|i l IH]; intros H; [exists 0; intros ? ? ? []|].
  destruct IH as [n Hn]; [intros j Hj; apply H; now right|].
  destruct (H i (or_introl eq_refl)) as [[H1 H2]|(it & r & H1 & (_ & k & H2) & H3)].
  - exists n. intros m Hm j [<-|Hj] Hint; [|now apply Hn]. rewrite (get_no_member _ _ _ H1 Hint), H2. easy.
  - exists (n + k). intros m Hm j [<-|Hj] Hint; [|apply Hn; auto; lia].
    rewrite (get_member _ _ _ _ H1). cbn. rewrite H3. f_equal. apply H2. lia.
Qed.

Lemma expr_text_no_rec rho x : (forall i, In i (expr_ids x) -> rho i <> Some (Err RecursionError)) ->
  wf_loose x -> expr_text rho x <> Err RecursionError.
Proof.
  intros H Hx. rewrite <- resolve_loose by easy. apply resolve_no_rec. intros i Hi. apply H.
  now rewrite named_show in Hi.
Qed.

Theorem value_resolves g t it ra rid rt x rho :
  first_ref it ra -> attr (it_attrs it) ra = Some (show x) -> wf_loose x ->
  attr (t_attrs t) ra = Some rid -> the_member tier_id (g_tiers g) rid rt ->
  env_of g rt (expr_ids x) rho ->
  evaluates g t it (do s <- expr_text rho x; Ok (Some s)).
Proof.
  intros Hf He Hx Hr Hrt Henv. destruct (env_bound _ _ _ _ Henv) as [n Hn].
  assert (Hno : forall i, In i (expr_ids x) -> rho i <> Some (Err RecursionError)).
  { intros i Hi E. destruct (Henv i Hi) as [[_ H]|(it' & r & _ & [H1 _] & H2)]; congruence. }
  apply evaluates_intro with (n := S n).
  - rewrite (value_step _ _ _ _ _ Hf). f_equal. unfold resolve_ref.
    change (dget (a_dict (it_attrs it)) ra) with (attr (it_attrs it) ra). rewrite He.
    change (dget (a_dict (t_attrs t)) ra) with (attr (t_attrs t) ra). rewrite Hr.
    rewrite (get_member _ _ _ _ Hrt). rewrite <- (resolve_loose rho) by easy.
    apply resolve_ext. intros i Hi. apply Hn; [lia| |eapply named_letter; eauto]. now rewrite named_show in Hi.
  - assert (E := expr_text_no_rec rho x Hno Hx). destruct (expr_text rho x); cbn; congruence.
Qed.

Theorem value_missing_tier g t it ra e :
  first_ref it ra -> attr (it_attrs it) ra = Some e ->
  (attr (t_attrs t) ra = None -> evaluates g t it (Err KeyError))
  /\ (forall rid, attr (t_attrs t) ra = Some rid -> no_member tier_id (g_tiers g) rid -> py_int rid = None ->
        evaluates g t it (Err XigtStructureError)).
Proof.
  intros Hf He. unfold attr in *. split.
  - intros Hr. apply evaluates_intro with (n := 1); [|easy]. rewrite (value_step _ _ _ _ _ Hf).
    unfold resolve_ref. now rewrite He, Hr.
  - intros rid Hr Hn Hi. apply evaluates_intro with (n := 1); [|easy]. rewrite (value_step _ _ _ _ _ Hf).
    unfold resolve_ref. now rewrite He, Hr, get_no_member.
Qed.

Theorem resolve_ref_raises rec g og t ot it ra e rid :
  (attr (it_attrs it) ra = None -> resolve_ref rec og ot it ra = Err KeyError)
  /\ (attr (it_attrs it) ra = Some e -> resolve_ref rec og None it ra = Err XigtStructureError
      /\ (attr (t_attrs t) ra = None -> resolve_ref rec og (Some t) it ra = Err KeyError)
      /\ (attr (t_attrs t) ra = Some rid -> resolve_ref rec None (Some t) it ra = Err XigtStructureError
          /\ (no_member tier_id (g_tiers g) rid -> py_int rid = None ->
              resolve_ref rec (Some g) (Some t) it ra = Err XigtStructureError))).
Proof.
  unfold attr, resolve_ref. split; [now intros ->|]. intros ->. split; [reflexivity|]. split; [now intros ->|].
  intros ->. split; [reflexivity|]. intros Hn Hi. now rewrite get_no_member.
Qed.

(* ---------- cycles ---------- *)

Theorem value_cycle (g : igt) (P : tier -> item -> Prop) :
  (forall t it, P t it -> exists ra x sl rid rt it',
     first_ref it ra /\ attr (it_attrs it) ra = Some (show (sl :: x)) /\ wf_loose (sl :: x)
     /\ attr (t_attrs t) ra = Some rid /\ the_member tier_id (g_tiers g) rid rt
     /\ the_member item_id (t_items rt) (sl_id sl) it' /\ P rt it') ->
  forall t it, P t it -> overflows g t it.
Proof.
  intros H t it Hp m. change [L "content"; L "segmentation"] with value_refattrs. revert t it Hp.
  induction m as [|m IH]; intros t it Hp; [easy|].
  destruct (H t it Hp) as (ra & x & sl & rid & rt & it' & Hf & He & Hx & Hr & Hrt & Hit & Hp').
  rewrite (value_step _ _ _ _ _ Hf). unfold resolve_ref.
  change (dget (a_dict (it_attrs it)) ra) with (attr (it_attrs it) ra). rewrite He.
  change (dget (a_dict (t_attrs t)) ra) with (attr (t_attrs t) ra). rewrite Hr.
  rewrite (get_member _ _ _ _ Hrt).
  erewrite resolve_first; [easy| |].
  - rewrite (strip_show false), (findall3_sels false) by easy. reflexivity.
  - cbn beta. rewrite (get_member _ _ _ _ Hit). cbn. now rewrite IH.
Qed.

(* ---------- acyclic tier references ---------- *)

Theorem acyclic_tiers g (rank : tier -> nat) :
  (forall t ra rid rt, In t (g_tiers g) -> (ra = L "content" \/ ra = L "segmentation") ->
     attr (t_attrs t) ra = Some rid -> names_tier g rid rt -> rank rt < rank t) ->
  forall t it, In t (g_tiers g) -> exists r, evaluates g t it r.
Proof.
  intros H t it Ht. apply value_terminates.
  remember (rank t) as n eqn:En. revert t it Ht En. induction n as [n IH] using lt_wf_ind. intros t it Ht ->.
  constructor. intros [rt it'] (ra & e & rid & i & Hf & He & Hr & Hn & Hi & Hid & Href). cbn [fst snd] in *.
  apply IH with (m := rank rt); auto; [|apply Hn].
  apply (H t ra rid rt); auto. destruct Hf as (_ & [[-> _]|[-> _]]); auto.
Qed.

End VP.

Section Seg.
Context {U : Unicode}.

Definition one_span (i a b : str) : expr :=
  [{| sl_delim := []; sl_id := i; sl_spans := [{| sp_delim := []; sp_start := a; sp_end := b |}] |}].

Lemma show_one_span i a b : show (one_span i a b) = i ++ L "[" ++ a ++ L ":" ++ b ++ L "]".
Proof. unfold show, one_span, show_sel, show_range, show_span. cbn -[L]. rewrite !app_nil_r, <- !app_assoc. reflexivity. Qed.

Lemma wf_one_span i a b : id_shape i -> num_shape a -> num_shape b -> wf_loose (one_span i a b).
Proof. intros. cbn. unfold wf_sel, wf_span. cbn. repeat split; auto. Qed.

Lemma one_span_text rho i v c d : rho i = Some (Ok (Some v)) ->
  expr_text rho (one_span i (dec_nat c) (dec_nat d))
  = Ok (py_slice (Some (Z.of_nat c)) (Some (Z.of_nat d)) v).
Proof.
  intros H. unfold expr_text, one_span. cbn [mapM]. unfold sel_text. cbn [sl_id sl_spans sl_delim]. rewrite H. cbn [bind mapM].
  unfold span_text, bound. cbn [sp_start sp_end sp_delim]. rewrite !py_int_dec_nat. cbn [bind].
  rewrite py_slice_chars. cbn [List.concat bind]. unfold joiner. cbn. now rewrite !app_nil_r.
Qed.

Lemma slice_nat {A} c d (v : list A) : py_slice (Some (Z.of_nat c)) (Some (Z.of_nat d)) v = firstn (d - c) (skipn c v).
Proof.
  unfold py_slice, slice_bound.
  destruct (Z.ltb_spec (Z.of_nat c) 0); [lia|]. destruct (Z.ltb_spec (Z.of_nat d) 0); [lia|]. rewrite !Nat2Z.id.
  destruct (Nat.le_gt_cases c (length v)) as [Hc|Hc].
  - replace (Nat.min c (length v)) with c by lia.
    destruct (Nat.le_gt_cases d (length v)) as [Hd|Hd].
    + now replace (Nat.min d (length v)) with d by lia.
    + replace (Nat.min d (length v)) with (length v) by lia.
      rewrite !firstn_all2; [easy| |]; rewrite skipn_length; lia.
  - rewrite !skipn_all2 by lia. now rewrite !firstn_nil.
Qed.

Lemma skipn_skipn' {A} a : forall b (l : list A), skipn a (skipn b l) = skipn (a + b) l.
Proof.
  intros b; induction b as [|b IH]; intros l; [now rewrite Nat.add_0_r|].
  rewrite Nat.add_succ_r. destruct l; cbn; [now rewrite skipn_nil|apply IH].
Qed.

Lemma slice_compose {A} c d lo hi (s : list A) :
  firstn (d - c) (skipn c (firstn (hi - lo) (skipn lo s)))
  = firstn (Nat.min (lo + d) hi - (lo + c)) (skipn (lo + c) s).
Proof.
  rewrite skipn_firstn_comm, skipn_skipn', firstn_firstn. f_equal; [lia|]. f_equal. lia.
Qed.

Theorem segments g base t it lo hi : segment g base t it lo hi ->
  evaluates g t it (Ok (Some (substring lo hi base))).
Proof.
  induction 1 as [t it Ht|t it rid rt i it' lo hi c d Ht Hc Hr Hrt Hi Hit He Hseg IH].
  - apply evaluates_intro with (n := 1); [|easy]. unfold substring. cbn. rewrite Ht, Nat.sub_0_r, firstn_all. easy.
  - set (rho := fun _ : str => Some (Ok (Some (substring lo hi base)) : res (option str))).
    assert (Hf : first_ref it (L "segmentation")).
    { split; [easy|]. right. split; [easy|]. split; [easy|]. congruence. }
    rewrite <- show_one_span in He.
    assert (E := value_resolves g t it _ rid rt (one_span i (dec_nat c) (dec_nat d)) rho Hf He).
    rewrite (one_span_text rho i (substring lo hi base)) in E by easy. cbn [bind] in E.
    rewrite slice_nat in E. unfold substring in E at 1. rewrite slice_compose in E. apply E; auto.
    + apply wf_one_span; auto using dec_nat_num.
    + intros j [<-|[]]. right. exists it', (Ok (Some (substring lo hi base))). auto.
Qed.
End Seg.

Theorem value_orphan {U : Unicode} g t it ra e n :
  first_ref it ra -> attr (it_attrs it) ra = Some e ->
  value (S n) g None it [L "content"; L "segmentation"] = Err XigtStructureError
  /\ (attr (t_attrs t) ra <> None ->
      value (S n) None (Some t) it [L "content"; L "segmentation"] = Err XigtStructureError).
Proof.
  intros Hf He. change [L "content"; L "segmentation"] with value_refattrs. rewrite !(value_step _ _ _ _ _ Hf).
  unfold resolve_ref, attr in *. rewrite He. split; [easy|]. intros Hn. destruct (dget (a_dict (t_attrs t)) ra); [easy|now destruct Hn].
Qed.
