(* Proofs about the tiers of the Toolbox importer. *)
From Verif Require Import PyStr PyStrFacts DecFacts Ref SpecRef Model Xml XmlProofs Odin SpecOdin OdinProofs Value SpecValue ValueProofs Toolbox SpecToolbox.

(* ---------- boundary marks ---------- *)

Lemma mark_b c : is_bound c = true <-> mark c.
Proof.
  unfold is_bound, mark. rewrite existsb_exists. split.
  - intros (x & Hx & E). apply N.eqb_eq in E. now subst.
  - intros H. exists c. split; [easy|]. apply N.eqb_refl.
Qed.
Lemma lstrip_bounds_drop s : lstrip_bounds s = dropw is_bound s.
Proof. induction s as [|c s IH]; [easy|]. cbn. now destruct (is_bound c). Qed.
Lemma strip_bare t : bare t (strip_bounds t).
Proof.
  unfold strip_bounds. rewrite !lstrip_bounds_drop. set (x := dropw is_bound t).
  exists (takew is_bound t), (rev (takew is_bound (rev x))).
  assert (E : x = rev (dropw is_bound (rev x)) ++ rev (takew is_bound (rev x))).
  { rewrite <- rev_app_distr, takew_dropw. symmetry. apply rev_involutive. }
  split; [rewrite <- E; symmetry; apply takew_dropw|].
  assert (Hf : forall l, Forall mark (takew is_bound l)).
  { intros l. eapply Forall_impl; [|apply takew_forall]. intros c. apply mark_b. }
  split; [apply Hf|]. split; [apply Forall_rev; apply Hf|].
  split; [|split].
  - intros c m' Em Hc. rewrite Em in E. apply mark_b in Hc. unfold x in E. cbn in E. apply dropw_head in E. congruence.
  - intros m' c Em Hc. apply (f_equal (@rev N)) in Em. rewrite rev_involutive, rev_app_distr in Em. cbn in Em.
    apply dropw_head in Em. apply mark_b in Hc. congruence.
  - intros Em. rewrite Em in E. cbn [app] in E. destruct x as [|c l] eqn:Ex; [easy|]. exfalso.
    assert (Hc : is_bound c = false) by (unfold x in Ex; now apply dropw_head in Ex).
    assert (Hm : Forall mark (c :: l)) by (rewrite E; apply Forall_rev; apply Hf).
    inversion_clear Hm as [|? ? Hm1 _]. apply mark_b in Hm1. congruence.
Qed.
Lemma strip_of_bare t m : bare t m -> strip_bounds t = m.
Proof.
  intros (u & v & -> & Hu & Hv & Hh & Hl & Hn). unfold strip_bounds. rewrite !lstrip_bounds_drop.
  assert (Hd : forall u s, Forall mark u -> dropw is_bound (u ++ s) = dropw is_bound s).
  { clear. intros u s. induction 1 as [|c u Hc _ IH]; [easy|]. apply mark_b in Hc. cbn. now rewrite Hc. }
  assert (Hs : forall s, (forall c m, s = c :: m -> ~ mark c) -> dropw is_bound s = s).
  { clear. intros [|c s] H; [easy|]. cbn. destruct (is_bound c) eqn:E; [|easy]. apply mark_b in E. now apply (H c s) in E. }
  rewrite Hd by easy. destruct m as [|c m].
  - rewrite (Hn eq_refl). reflexivity.
  - rewrite (Hs ((c :: m) ++ v)) by (intros c' m' [= <- _]; now apply (Hh c m)).
    rewrite rev_app_distr, Hd by now apply Forall_rev. rewrite Hs; [apply rev_involutive|].
    intros c' m' E. apply (Hl (rev m')). rewrite <- (rev_involutive (c :: m)), E. reflexivity.
Qed.

Lemma startswith_app p s : startswith p s = true <-> exists r, s = p ++ r.
Proof.
  revert s; induction p as [|c p IH]; intros s; cbn; [split; [eauto|easy]|]. destruct s as [|d s]; [split; [easy|intros (r & [=])]|].
  rewrite andb_true_iff, N.eqb_eq, IH. split.
  - intros (-> & r & ->). eauto.
  - intros (r & [= -> ->]). eauto.
Qed.

(* ---------- words and morphemes ---------- *)

Lemma mapM_index {A} (l : list A) n : n <= length l -> mapM (index l) (seq 0 n) = Ok (firstn n l).
Proof.
  intros Hn.
  assert (H : forall n k, k + n <= length l -> mapM (index l) (seq k n) = Ok (firstn n (skipn k l))).
  { clear n Hn. induction n as [|n IH]; intros k Hk; [easy|]. cbn [seq mapM]. unfold index at 1.
    destruct (nth_error l k) as [x|] eqn:E; [|apply nth_error_None in E; lia]. cbn [bind].
    rewrite IH by lia. cbn [bind].
    assert (Es : skipn k l = x :: skipn (S k) l).
    { clear -E. revert l E; induction k as [|k IHk]; intros [|y l] E; try discriminate; [now injection E as ->|]. exact (IHk l E). }
    now rewrite Es. }
  now rewrite (H n 0).
Qed.
Lemma word_start_sum toks : forall s, s <= length toks -> word_start toks s = list_sum (map (@length N) (firstn s toks)) + s.
Proof.
  induction toks as [|t toks IH]; intros [|s] Hs; cbn in *; [easy|lia|easy|]. rewrite IH by lia. unfold list_sum in *. lia.
Qed.

Section Align.
Context {U : Unicode} (lower : str -> str).

Lemma align_words w toks s tok : nth_error toks s = Some tok ->
  align_word lower (L "words") s (Some w) toks
  = Ok (Z.of_nat (word_start toks s), Z.of_nat (word_start toks s + length tok), 0%Z).
Proof.
  intros E. assert (Hs : s < length toks) by (apply nth_error_Some; congruence).
  unfold align_word. rewrite str_eqb_refl, mapM_index by lia. cbn [bind]. unfold index. rewrite E. cbn [bind].
  rewrite <- word_start_sum by lia. unfold zlen. do 3 f_equal. lia.
Qed.

Definition low_inv (tgt prev try : str) : Prop := startswith prev tgt = true /\ length try + length prev <= length tgt.

Lemma amalgam_inv tgt toks : forall done prev try, low_inv tgt prev try -> spelled done prev ->
  let '(all, p) := amalgam tgt toks prev try in
  length p <= length tgt /\ (all = true -> startswith p tgt = true /\ spelled (done ++ toks) p).
Proof.
  induction toks as [|t toks IH]; intros done prev try [H1 H2] Hsp; cbn [amalgam].
  - apply startswith_app in H1 as H1'. destruct H1' as (r & ->). rewrite app_length. split; [lia|]. intros _. rewrite app_nil_r. now split.
  - assert (Hh : exists h try', (h = [] \/ h = L "-")
       /\ match try with c :: try' => if N.eqb c (Ch "-") then (prev ++ L "-", try') else (prev, try) | [] => (prev, try) end = (prev ++ h, try')
       /\ length try' + length (prev ++ h) <= length tgt).
    { destruct try as [|c try'].
      - exists [], []. rewrite app_nil_r. split; [now left|]. split; [easy|]. exact H2.
      - destruct (N.eqb c (Ch "-")).
        + exists (L "-"), try'. split; [now right|]. split; [easy|]. rewrite app_length. change (length (L "-")) with 1. cbn [length] in H2. lia.
        + exists [], (c :: try'). rewrite app_nil_r. split; [now left|]. split; [easy|]. exact H2. }
    destruct Hh as (h & try' & Hh & -> & Hlen).
    destruct (startswith ((prev ++ h) ++ strip_bounds t) tgt) eqn:E.
    + assert (Hi : low_inv tgt ((prev ++ h) ++ strip_bounds t) (skipn (length ((prev ++ h) ++ strip_bounds t)) try')).
      { split; [exact E|]. apply startswith_app in E as (r & ->). rewrite skipn_length, !app_length in *. lia. }
      assert (Hs : spelled (done ++ [t]) ((prev ++ h) ++ strip_bounds t)).
      { rewrite <- app_assoc. constructor; [easy|easy|apply strip_bare]. }
      specialize (IH (done ++ [t]) _ _ Hi Hs). destruct (amalgam tgt toks _ _) as [all p]. destruct IH as [IH1 IH2]. split; [easy|].
      intros Ha. destruct (IH2 Ha) as [? IH3]. split; [easy|]. now rewrite <- app_assoc in IH3.
    + split; [lia|discriminate].
Qed.

Lemma amalgam_start tgt toks : let '(all, p) := amalgam tgt toks [] tgt in
  length p <= length tgt /\ (all = true -> startswith p tgt = true /\ spelled toks p).
Proof. apply (amalgam_inv tgt toks []); [split; [easy|cbn; lia]|constructor]. Qed.

Lemma sub_app (a b c : str) : substring (length a) (length b + length a) (a ++ b ++ c) = b.
Proof.
  unfold substring. rewrite skipn_app_len. replace (length b + length a - length a) with (length b) by lia. apply firstn_app_len.
Qed.
Lemma sub_app0 (b c : str) : substring 0 (length b) (b ++ c) = b.
Proof. unfold substring. cbn [skipn]. rewrite Nat.sub_0_r. apply firstn_app_len. Qed.

Theorem align_morphemes w toks s tok : nth_error toks s = Some tok -> 2 <= length toks ->
  exists b e c, align_word lower (L "morphemes") s (Some w) toks = Ok (Z.of_nat b, Z.of_nat e, c)
    /\ b <= length (lower w) /\ e <= length (lower w) /\ (c = 0 \/ c = -1)%Z
    /\ (c = 0%Z -> b <= e /\ spelled (firstn s toks) (firstn b (lower w))
         /\ (S s < length toks -> bare tok (substring b e (lower w)))
         /\ (S s = length toks -> s <> 0 -> e = length (lower w))).
Proof.
  intros E Hl. unfold align_word. set (tgt := lower w).
  change (str_eqb (L "morphemes") (L "words")) with false. cbv iota. rewrite str_eqb_refl. unfold index. rewrite E. cbn [bind].
  destruct (Nat.eqb_spec (length toks) 1) as [|_]; [lia|].
  destruct (Nat.eqb_spec s 0) as [->|Hs].
  - destruct (startswith (strip_bounds tok) tgt) eqn:Es.
    + apply startswith_app in Es as (r & Er). exists 0, (length (strip_bounds tok)), 0%Z. split; [easy|].
      rewrite Er, app_length. split; [lia|]. split; [lia|]. split; [now left|]. intros _. split; [lia|]. split; [constructor|].
      split; [intros _; rewrite sub_app0; apply strip_bare|lia].
    + exists 0, (length tgt), (-1)%Z. split; [easy|]. split; [lia|]. split; [lia|]. split; [now right|discriminate].
  - pose proof (amalgam_start tgt (firstn s toks)) as Ha. destruct (amalgam tgt (firstn s toks) [] tgt) as [all p].
    destruct Ha as [Hp Hall]. destruct all.
    2:{ exists (length p), (length tgt), (-1)%Z. split; [easy|]. split; [lia|]. split; [lia|]. split; [now right|discriminate]. }
    destruct (Hall eq_refl) as [Hst Hsp]. rewrite Hst. apply startswith_app in Hst as (r & Er).
    destruct (Nat.eqb_spec s (length toks - 1)) as [Elast|Hlast].
    + exists (length p), (length tgt), 0%Z. split; [easy|]. split; [lia|]. split; [lia|]. split; [now left|]. intros _. split; [lia|].
      split; [rewrite Er; now rewrite firstn_app_len|]. split; [lia|easy].
    + destruct (startswith (strip_bounds tok) (skipn (length p) tgt)) eqn:En.
      * apply startswith_app in En as (r' & Er'). rewrite Er, skipn_app_len in Er'. subst r.
        exists (length p), (length (strip_bounds tok) + length p), 0%Z. split; [unfold zlen; do 3 f_equal; lia|].
        rewrite Er. rewrite !app_length. split; [lia|]. split; [lia|]. split; [now left|]. intros _. split; [lia|].
        split; [now rewrite firstn_app_len|]. split; [intros _; rewrite sub_app; apply strip_bare|lia].
      * exists (length p), (length (skipn (length p) tgt)), (-1)%Z. split; [easy|]. rewrite skipn_length. split; [lia|]. split; [lia|].
        split; [now right|discriminate].
Qed.
Theorem align_alone w tok : align_word lower (L "morphemes") 0 (Some w) [tok] = Ok (0%Z, zlen tok, 0%Z).
Proof. reflexivity. Qed.

(* ---------- words without hyphens ---------- *)

Lemma amalgam_plain tgt toks : forall prev try r, tgt = prev ++ List.concat (map strip_bounds toks) ++ r -> ~ In (Ch "-") try ->
  amalgam tgt toks prev try = (true, prev ++ List.concat (map strip_bounds toks)).
Proof.
  induction toks as [|t toks IH]; intros prev try r E Hi; cbn [amalgam map List.concat]; [now rewrite app_nil_r|].
  assert (Em : match try with c :: try' => if N.eqb c (Ch "-") then (prev ++ L "-", try') else (prev, try) | [] => (prev, try) end = (prev, try)).
  { destruct try as [|c try']; [easy|]. destruct (N.eqb_spec c (Ch "-")) as [->|]; [exfalso; apply Hi; now left|easy]. }
  rewrite Em. cbn [map List.concat] in E. rewrite <- app_assoc in E.
  replace (startswith (prev ++ strip_bounds t) tgt) with true.
  2:{ symmetry. apply startswith_app. eexists. rewrite E, <- app_assoc. reflexivity. }
  rewrite (IH _ _ r); [now rewrite <- app_assoc|rewrite E; now rewrite <- app_assoc|].
  intros H. apply Hi. rewrite <- (firstn_skipn (length (prev ++ strip_bounds t)) try). apply in_or_app. now right.
Qed.

Lemma bare_strips toks ms : Forall2 bare toks ms -> map strip_bounds toks = ms.
Proof. induction 1 as [|t m toks ms H _ IH]; [easy|]. cbn. now rewrite IH, (strip_of_bare t m H). Qed.

Theorem align_tiles w toks ms s m : Forall2 bare toks ms -> lower w = List.concat ms -> ~ In (Ch "-") (lower w) -> 2 <= length toks ->
  nth_error ms s = Some m ->
  exists b, align_word lower (L "morphemes") s (Some w) toks = Ok (Z.of_nat b, Z.of_nat (b + length m), 0%Z)
    /\ b = length (List.concat (firstn s ms)).
Proof.
  intros Hf Ew Hi Hl Em. apply bare_strips in Hf as Es.
  assert (Hm : exists tok, nth_error toks s = Some tok /\ strip_bounds tok = m).
  { rewrite <- Es, nth_error_map in Em. destruct (nth_error toks s) as [tok|]; [|discriminate]. exists tok. split; [easy|]. now injection Em. }
  destruct Hm as (tok & Et & <-). exists (length (List.concat (firstn s ms))). split; [|easy].
  assert (Ems : ms = firstn s ms ++ strip_bounds tok :: skipn (S s) ms).
  { clear -Em. revert ms Em; induction s as [|s IH]; intros [|x ms] Em; try discriminate; [now injection Em as ->|]. cbn. f_equal. now apply IH. }
  assert (Ec : lower w = List.concat (firstn s ms) ++ strip_bounds tok ++ List.concat (skipn (S s) ms)).
  { rewrite Ew. rewrite Ems at 1. now rewrite concat_app. }
  unfold align_word. change (str_eqb (L "morphemes") (L "words")) with false. cbv iota. rewrite str_eqb_refl. unfold index. rewrite Et. cbn [bind].
  destruct (Nat.eqb_spec (length toks) 1) as [|_]; [lia|].
  destruct (Nat.eqb_spec s 0) as [->|Hs].
  - cbn [firstn List.concat app] in Ec. replace (startswith (strip_bounds tok) (lower w)) with true; [easy|].
    symmetry. apply startswith_app. eauto.
  - assert (Ea : amalgam (lower w) (firstn s toks) [] (lower w) = (true, List.concat (firstn s ms))).
    { rewrite (amalgam_plain (lower w) (firstn s toks) [] (lower w) (strip_bounds tok ++ List.concat (skipn (S s) ms))); [| |easy].
      - cbn [app]. now rewrite <- firstn_map, Es.
      - cbn [app]. now rewrite <- firstn_map, Es. }
    rewrite Ea. replace (startswith (List.concat (firstn s ms)) (lower w)) with true by (symmetry; apply startswith_app; eauto).
    assert (Hlen : length ms = length toks) by (rewrite <- Es; apply map_length).
    destruct (Nat.eqb_spec s (length toks - 1)) as [Elast|Hlast].
    + rewrite (skipn_all2 (n := S s)) in Ec by lia. cbn [List.concat] in Ec. rewrite app_nil_r in Ec. unfold zlen. rewrite Ec.
      rewrite app_length. easy.
    + assert (Ek : skipn (length (List.concat (firstn s ms))) (lower w) = strip_bounds tok ++ List.concat (skipn (S s) ms)) by (rewrite Ec; apply skipn_app_len).
      rewrite Ek. replace (startswith (strip_bounds tok) (strip_bounds tok ++ List.concat (skipn (S s) ms))) with true by (symmetry; apply startswith_app; eauto).
      unfold zlen. do 3 f_equal. lia.
Qed.

(* when the first morpheme does not match, all get the whole word *)
Theorem align_fails w toks t0 m0 s : nth_error toks 0 = Some t0 -> bare t0 m0 -> ~ (exists r, lower w = m0 ++ r) ->
  (forall r, lower w <> Ch "-" :: r) -> 2 <= length toks -> s < length toks ->
  align_word lower (L "morphemes") s (Some w) toks = Ok (0%Z, Z.of_nat (length (lower w)), (-1)%Z).
Proof.
  intros E0 Hb Hn Hh Hl Hs. apply strip_of_bare in Hb.
  assert (Hst : startswith (strip_bounds t0) (lower w) = false).
  { destruct (startswith (strip_bounds t0) (lower w)) eqn:E; [|easy]. exfalso. apply startswith_app in E. rewrite Hb in E. now apply Hn. }
  unfold align_word. change (str_eqb (L "morphemes") (L "words")) with false. cbv iota. rewrite str_eqb_refl. unfold index.
  destruct (nth_error toks s) as [tok|] eqn:Et; [|apply nth_error_None in Et; lia]. cbn [bind].
  destruct (Nat.eqb_spec (length toks) 1) as [|_]; [lia|].
  destruct (Nat.eqb_spec s 0) as [->|Hs0].
  - rewrite E0 in Et. injection Et as ->. now rewrite Hst.
  - destruct toks as [|t toks]; [discriminate|]. injection E0 as ->. destruct s as [|s]; [lia|]. cbn [firstn amalgam].
    assert (Em : match lower w with c :: try' => if N.eqb c (Ch "-") then ([] ++ L "-", try') else ([], lower w) | [] => ([], lower w) end = ([], lower w)).
    { destruct (lower w) as [|c x] eqn:E; [easy|]. destruct (N.eqb_spec c (Ch "-")) as [->|]; [|easy]. now exfalso; apply (Hh x). }
    rewrite Em. cbn [app]. now rewrite Hst.
Qed.
End Align.
