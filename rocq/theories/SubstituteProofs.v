(* Proofs about substitutions. *)
From Coq Require Import Lia.
From Verif Require Import PyStr PyStrFacts Regex RegexFacts Substitute SpecSubstitute Latex.
From Verif Require Import LoadProofs DecFacts.

(* ---------- re.sub is scanning ---------- *)

Lemma match_here adv r pos s m : match_at adv r pos s = Some m -> r_start m = pos /\ exists u, s = u ++ r_rest m /\ r_end m = pos + length u /\ (adv = true -> u <> []).
Proof.
  unfold match_at. intros E. apply rmatch_sound in E as (s' & Hs' & E). destruct (matches_consume _ _ _ Hs') as (u & Hu & Hp). cbn in *.
  destruct (adv && _) eqn:Ea; [easy|]. injection E as <-. cbn. split; [easy|]. exists u. split; [easy|]. split; [lia|].
  intros -> ->. cbn in *. apply Nat.eqb_neq in Ea. lia.
Qed.
Section Splice.
Variable f : rmatched -> res str.
Notation go adv r pos s := (splice f pos s (finditer_at adv r pos s)).
Lemma go_end adv r pos : match_at adv r pos [] = None -> go adv r pos [] = Ok [].
Proof. intros H. rewrite finditer_none; [easy|]. cbn. now rewrite H. Qed.
Lemma go_match adv r pos s m : match_at adv r pos s = Some m ->
  go adv r pos s = do v <- f m; do out <- go (Nat.eqb (r_end m) (r_start m)) r (r_end m) (r_rest m); Ok (v ++ out).
Proof.
  intros H. rewrite (finditer_some adv r pos s m) by now apply search_here. cbn [splice]. destruct (f m); [|easy]. cbn [bind].
  destruct (match_here _ _ _ _ _ H) as [-> _]. now rewrite Nat.sub_diag.
Qed.
Lemma go_skip adv r pos c s : match_at adv r pos (c :: s) = None -> go adv r pos (c :: s) = do out <- go false r (S pos) s; Ok (c :: out).
Proof.
  intros H. assert (E : search_from adv r pos (c :: s) = search_from false r (S pos) s) by (cbn; now rewrite H).
  destruct (search_from false r (S pos) s) as [m|] eqn:Em.
  - rewrite (finditer_some _ _ _ _ _ E), (finditer_some _ _ _ _ _ Em). cbn [splice]. destruct (f m) as [v|]; [|easy]. cbn [bind].
    destruct (splice f (r_end m) _ _); [|easy]. cbn [bind]. destruct (search_from_rest _ _ _ _ _ Em) as (g & u & _ & Hs & _).
    replace (r_start m - pos) with (S (r_start m - S pos)) by lia. reflexivity.
  - now rewrite (finditer_none _ _ _ _ E), (finditer_none _ _ _ _ Em).
Qed.
Lemma measure_match adv r pos s m : match_at adv r pos s = Some m ->
  2 * length (r_rest m) + (if Nat.eqb (r_end m) (r_start m) then 0 else 1) < 2 * length s + (if adv then 0 else 1).
Proof.
  intros H. destruct (match_here _ _ _ _ _ H) as (-> & u & -> & -> & Hu). rewrite app_length. destruct (Nat.eqb_spec (pos + length u) pos) as [E|E].
  - destruct adv; [|lia]. destruct u; [now destruct Hu|cbn in E; lia].
  - destruct u; [cbn in E; lia|]. cbn [length]. destruct adv; lia.
Qed.
Theorem go_scanned r : forall adv pos s out, go adv r pos s = Ok out <-> scanned r f adv pos s out.
Proof.
  assert (Hf : forall (n : nat) (adv : bool) (pos : nat) (s out : str), 2 * length s + (if adv then 0 else 1) < n -> go adv r pos s = Ok out -> scanned r f adv pos s out).
  { induction n as [|n IH]; intros adv pos s out Hn E; [lia|]. destruct (match_at adv r pos s) as [m|] eqn:Em.
    - rewrite (go_match _ _ _ _ _ Em) in E. inv_bind E. inv_bind E. injection E as <-. apply (scan_match r f adv pos s m x x0 Em E0).
      apply IH; [|easy]. apply measure_match in Em. lia.
    - destruct s as [|c s].
      + rewrite (go_end _ _ _ Em) in E. injection E as <-. now constructor.
      + rewrite (go_skip _ _ _ _ _ Em) in E. inv_bind E. injection E as <-. constructor; [easy|]. apply IH; [|easy]. cbn [length] in Hn. destruct adv; lia. }
  intros adv pos s out. split; [apply (Hf (S (2 * length s + (if adv then 0 else 1)))); lia|].
  induction 1 as [adv pos H|adv pos c s out H _ IH|adv pos s m v out H Hv _ IH].
  - now apply go_end.
  - now rewrite (go_skip _ _ _ _ _ H), IH.
  - now rewrite (go_match _ _ _ _ _ H), Hv, IH.
Qed.
Theorem go_total r : (forall m, exists v, f m = Ok v) -> forall adv pos s, exists out, go adv r pos s = Ok out.
Proof.
  intros Hf adv pos s. generalize (finditer_at adv r pos s) as l. intros l. revert pos s. induction l as [|m l IH]; intros pos s; cbn [splice]; [eauto|].
  destruct (Hf m) as (v & ->). destruct (IH (r_end m) (r_rest m)) as (out & ->). cbn [bind]. eauto.
Qed.
End Splice.
Theorem sub_scanned r f s out : sub_with r f s = Ok out <-> scanned (RGroup 0 r) f false 0 s out.
Proof. unfold sub_with. rewrite finditer_0. apply go_scanned. Qed.
Theorem template_scanned r t s out : sub_template r t s = Ok out <->
  exists ps, template (group_count r) t = Ok ps /\ scanned (RGroup 0 r) (fun m => Ok (expand ps m)) false 0 s out.
Proof.
  unfold sub_template. destruct (template (group_count r) t) as [ps|x]; cbn [bind].
  - rewrite sub_scanned. split; [now exists ps|]. intros (ps' & E & H). assert (ps' = ps) by congruence. now subst.
  - split; [discriminate|]. intros (ps & E & _). discriminate.
Qed.
(* it fails only if the template is bad, whatever the text is *)
Theorem template_fails r t s x : sub_template r t s = Err x <-> template (group_count r) t = Err x.
Proof.
  unfold sub_template. destruct (template (group_count r) t) as [ps|y]; cbn [bind]; [|split; intros E; injection E as ->; reflexivity]. split; [|discriminate]. intros E. exfalso.
  destruct (go_total (fun m => Ok (expand ps m)) (RGroup 0 r) (fun m => ex_intro _ _ eq_refl) false 0 s) as (out & E'). unfold sub_with in E. rewrite finditer_0 in E. congruence.
Qed.

(* ---------- the whole match ---------- *)

Lemma match_text adv r pos s m : match_at adv (RGroup 0 r) pos s = Some m -> s = capd 0 m ++ r_rest m.
Proof.
  unfold match_at. change {| m_pos := pos; m_rest := s; m_caps := [] |} with (st pos s []). rewrite rmatch_group. intros E.
  apply rmatch_sound in E as (s' & Hs' & E). destruct (matches_consume _ _ _ Hs') as (u & Hu & Hp). cbn in *.
  destruct (adv && _) eqn:Ea; [easy|]. injection E as <-. cbn. rewrite Hp, Hu. replace (pos + length u - pos) with (length u) by lia.
  unfold capd, cap. cbn. rewrite firstn_app, Nat.sub_diag, firstn_all. cbn [firstn]. now rewrite app_nil_r.
Qed.
Lemma scanned_same r f adv pos s out : (forall m, f m = Ok (capd 0 m)) -> scanned (RGroup 0 r) f adv pos s out -> out = s.
Proof.
  intros Hf. induction 1 as [|adv pos c s out H _ IH|adv pos s m v out H Hv _ IH]; [easy|congruence|].
  rewrite Hf in Hv. injection Hv as <-. rewrite IH. symmetry. now apply (match_text adv r pos).
Qed.
Theorem sub_same r s : sub_template r (L "\g<0>") s = Ok s.
Proof.
  unfold sub_template. change (template (group_count r) (L "\g<0>")) with (Ok [Grp 0]). cbn [bind].
  destruct (go_total (fun m => Ok (expand [Grp 0] m)) (RGroup 0 r) (fun m => ex_intro _ _ eq_refl) false 0 s) as (out & E).
  unfold sub_with. rewrite finditer_0, E. f_equal. apply go_scanned in E. apply scanned_same in E; [easy|].
  intros m. cbn. now rewrite app_nil_r.
Qed.
Theorem sub_nowhere r f s : (forall pos t, match_at false (RGroup 0 r) pos t = None) -> sub_with r f s = Ok s.
Proof.
  intros H. apply sub_scanned. assert (Hs : forall pos, scanned (RGroup 0 r) f false pos s s); [|apply Hs].
  induction s as [|c s IH]; intros pos; constructor; auto.
Qed.

(* ---------- quoted templates ---------- *)

Lemma template_quoted ng t : forall fuel, length (quoted t) < fuel -> template_ fuel ng (quoted t) = Ok (map Lit t).
Proof.
  induction t as [|c t IH]; intros [|fuel] Hf; try (cbn in Hf; lia); [easy|]. unfold quoted in *. cbn [flat_map map] in *.
  change (Ch "\") with backslash in *. destruct (N.eqb c backslash) eqn:Ec.
  - apply N.eqb_eq in Ec. subst c. cbn [app length] in *. cbn [template_]. change (N.eqb backslash backslash) with true. cbn iota.
    change (N.eqb backslash (Ch "g")) with false. change (N.eqb backslash (Ch "0")) with false. change (digit backslash) with false. cbn iota.
    change (dget_ N.eqb escapes backslash) with (Some backslash). cbn iota. rewrite IH by lia. reflexivity.
  - cbn [app length] in *. cbn [template_]. rewrite Ec, IH by lia. reflexivity.
Qed.
Theorem quoted_means ng t : template ng (quoted t) = Ok (map Lit t).
Proof. apply template_quoted. lia. Qed.
Theorem plain_quoted t : ~ In (Ch "\") t -> quoted t = t.
Proof.
  unfold quoted. induction t as [|c t IH]; intros H; [easy|]. cbn [flat_map]. destruct (N.eqb_spec c (Ch "\")) as [->|]; [exfalso; apply H; now left|].
  cbn [app]. f_equal. apply IH. intros Hi. apply H. now right.
Qed.
Lemma expand_lit t m : expand (map Lit t) m = t.
Proof. unfold expand. induction t as [|c t IH]; [easy|]. cbn [map flat_map app]. now f_equal. Qed.

Theorem expand_parts m : expand [] m = [] /\ (forall c ps, expand (Lit c :: ps) m = c :: expand ps m)
  /\ (forall n v ps, cap n m = Some v -> expand (Grp n :: ps) m = v ++ expand ps m) /\ forall n ps, cap n m = None -> expand (Grp n :: ps) m = expand ps m.
Proof. split; [easy|]. split; [easy|]. unfold expand. cbn [flat_map]. split; intros; unfold capd; now rewrite H. Qed.

(* ---------- groups ---------- *)

Lemma number_value s : Forall ascii_digit s -> forall n, fold_left (fun n c => 10 * n + dig c) s (N.to_nat n) = N.to_nat (digits_value n s).
Proof.
  induction 1 as [|c s Hc _ IH]; intros n; [easy|]. cbn [fold_left]. unfold digits_value. cbn [fold_left]. fold (digits_value (n * 10 + (c - 48)) s). rewrite <- IH. f_equal.
  unfold dig, ascii_digit in *. lia.
Qed.
Lemma number_dec n : number (dec_nat n) = n.
Proof. unfold number. etransitivity; [exact (number_value (dec_nat n) (dec_nat_ascii n) 0%N)|]. unfold dec_nat. rewrite dec_N_value. lia. Qed.
Lemma until_digits s r : Forall ascii_digit s -> until_gt (s ++ Ch ">" :: r) = Some (s, r).
Proof.
  induction 1 as [|c s Hc _ IH]; [easy|]. cbn [app until_gt]. destruct (N.eqb_spec c (Ch ">")) as [->|]; [vm_compute in Hc; intuition discriminate|]. now rewrite IH.
Qed.
(* \g<n> is group n, if there is one *)
Theorem template_group ng n : template ng (L "\g<" ++ dec_nat n ++ L ">") = if ng <? n then Err ValueError else Ok [Grp n].
Proof.
  unfold template. change (L "\g<" ++ dec_nat n ++ L ">") with (backslash :: Ch "g" :: Ch "<" :: (dec_nat n ++ [Ch ">"])). cbn [length]. cbn [template_].
  change (N.eqb backslash backslash) with true. change (N.eqb (Ch "g") (Ch "g")) with true. cbn iota. cbn [named]. change (N.eqb (Ch "<") (Ch "<")) with true. cbn iota.
  rewrite until_digits by apply dec_nat_ascii. destruct (dec_nat n) as [|c t] eqn:E; [now apply dec_nat_ne in E|]. rewrite <- E.
  replace (forallb digit (dec_nat n)) with true.
  2:{ symmetry. apply forallb_forall. intros x Hx. pose proof (dec_nat_ascii n) as Ha. rewrite Forall_forall in Ha. specialize (Ha x Hx). unfold ascii_digit in Ha. unfold digit, in_range.
      apply andb_true_intro. split; apply N.leb_le; lia. }
  rewrite number_dec. unfold group_ref. now destruct (ng <? n).
Qed.

(* ---------- what templates say ---------- *)

Lemma in_range_spec a b c : Bool.reflect (a <= c <= b)%N (in_range a b c).
Proof. apply Bool.iff_reflect. unfold in_range. rewrite Bool.andb_true_iff, !N.leb_le. easy. Qed.
Lemma digit_spec c : Bool.reflect (dec_digit c) (digit c).
Proof. apply in_range_spec. Qed.
Lemma octal_spec c : Bool.reflect (oct_digit c) (octal c).
Proof. apply in_range_spec. Qed.
Lemma letter_spec c : Bool.reflect (ascii_letter c) (letter c).
Proof. unfold letter, ascii_letter. destruct (in_range_spec 65 90 c), (in_range_spec 97 122 c); cbn; constructor; tauto. Qed.
Lemma starts_cons (P : char -> Prop) c s : starts P (c :: s) <-> P c.
Proof. split; [intros (x & r & E & H); congruence|]. intros H. now exists c, s. Qed.
Lemma starts_nil (P : char -> Prop) : ~ starts P [].
Proof. now intros (x & r & E & H). Qed.
Lemma until_split s n r : until_gt s = Some (n, r) -> s = n ++ Ch ">" :: r.
Proof.
  revert n. induction s as [|c s IH]; intros n; [easy|]. cbn [until_gt]. destruct (N.eqb_spec c (Ch ">")) as [->|].
  - intros E. assert (n = []) as -> by congruence. cbn. congruence.
  - destruct (until_gt s) as [[m t]|]; [|easy]. intros E. assert (n = c :: m) as -> by congruence. assert (t = r) as -> by congruence. cbn. f_equal. now apply IH.
Qed.
Lemma until_dec n r : Forall dec_digit n -> until_gt (n ++ Ch ">" :: r) = Some (n, r).
Proof.
  induction 1 as [|c n Hc _ IH]; [easy|]. cbn [app until_gt]. destruct (N.eqb_spec c (Ch ">")) as [->|]; [exfalso; revert Hc; now compute|]. now rewrite IH.
Qed.
Lemma number_val n : number n = fold_left (fun v c => 10 * v + val c) n 0.
Proof. reflexivity. Qed.
Lemma val_oct c : oct_digit c -> val c <= 7.
Proof. unfold oct_digit, val. lia. Qed.
Lemma oct_ok ds v : fold_left (fun n c => 8 * n + N.to_nat (c - 48)) ds 0 = v -> v <= 255 -> oct ds = Ok (Lit (N.of_nat v)).
Proof. intros <- H. unfold oct. destruct (Nat.ltb_spec 255 (fold_left (fun n c => 8 * n + N.to_nat (c - 48)) ds 0)); [lia|easy]. Qed.
Lemma oct_inv ds p : oct ds = Ok p -> fold_left (fun n c => 8 * n + N.to_nat (c - 48)) ds 0 <= 255 /\ p = Lit (N.of_nat (fold_left (fun n c => 8 * n + N.to_nat (c - 48)) ds 0)).
Proof. unfold oct. destruct (Nat.ltb_spec 255 (fold_left (fun n c => 8 * n + N.to_nat (c - 48)) ds 0)); [easy|]. intros E. split; [easy|congruence]. Qed.
Lemma group_ok ng n : n <= ng -> group_ref ng n = Ok (Grp n).
Proof. intros H. unfold group_ref. destruct (Nat.ltb_spec ng n); [lia|easy]. Qed.
Lemma group_inv ng n p : group_ref ng n = Ok p -> n <= ng /\ p = Grp n.
Proof. unfold group_ref. destruct (Nat.ltb_spec ng n); [easy|]. intros E. split; [easy|congruence]. Qed.

Lemma named_says ng s p r : named ng s = Ok (p, r) -> token ng (Ch "\" :: Ch "g" :: s) [p] r.
Proof.
  destruct s as [|c s]; [easy|]. cbn [named]. destruct (N.eqb_spec c (Ch "<")) as [->|]; [|easy]. destruct (until_gt s) as [[n t]|] eqn:E; [|easy].
  apply until_split in E as ->. intros E. destruct n as [|x n]; [easy|]. destruct (forallb digit (x :: n)) eqn:F; [|easy].
  inv_bind E. apply group_inv in E0 as (H & ->). assert (t = r) as -> by congruence. assert (p = Grp (number (x :: n))) as -> by congruence.
  rewrite number_val in *. apply tok_group; [easy| |easy]. apply Forall_forall. intros y Hy. rewrite forallb_forall in F. specialize (F y Hy). now destruct (digit_spec y).
Qed.
Lemma zero_says ng s p r : zero s = Ok (p, r) -> token ng (Ch "\" :: Ch "0" :: s) [p] r.
Proof.
  unfold zero. destruct s as [|a [|b s]].
  - intros E. assert (p = Lit 0%N) as -> by congruence. assert (r = []) as -> by congruence. apply tok_zero. apply starts_nil.
  - destruct (octal_spec a) as [Ha|Ha]; intros E.
    + inv_bind E. apply oct_inv in E0 as (_ & ->). assert (r = []) as -> by congruence. assert (p = Lit (N.of_nat (val a))) as -> by (unfold val; cbn in *; congruence). apply tok_zero1; [easy|]. apply starts_nil.
    + assert (p = Lit 0%N) as -> by congruence. assert (r = [a]) as -> by congruence. apply tok_zero. now rewrite starts_cons.
  - destruct (octal_spec a) as [Ha|Ha]; [destruct (octal_spec b) as [Hb|Hb]|]; intros E.
    + inv_bind E. apply oct_inv in E0 as (_ & ->). assert (r = s) as -> by congruence. replace p with (Lit (N.of_nat (8 * val a + val b))); [now apply tok_zero2|].
      change (fold_left (fun n c => 8 * n + N.to_nat (c - 48)) [a; b] 0) with (8 * (val a) + val b) in E. congruence.
    + inv_bind E. apply oct_inv in E0 as (_ & ->). assert (r = b :: s) as -> by congruence. assert (p = Lit (N.of_nat (val a))) as -> by (unfold val; cbn in *; congruence). apply tok_zero1; [easy|]. now rewrite starts_cons.
    + assert (p = Lit 0%N) as -> by congruence. assert (r = a :: b :: s) as -> by congruence. apply tok_zero. now rewrite starts_cons.
Qed.
Lemma oct3 c a b : fold_left (fun n c => 8 * n + N.to_nat (c - 48)) [c; a; b] 0 = 64 * val c + 8 * val a + val b.
Proof. unfold val. cbn [fold_left]. lia. Qed.
Lemma number2 c a : number [c; a] = 10 * val c + val a.
Proof. unfold number, val, dig. cbn [fold_left]. lia. Qed.
Lemma numbered_says ng c s p r : c <> Ch "0" -> dec_digit c -> numbered ng c s = Ok (p, r) -> token ng (Ch "\" :: c :: s) [p] r.
Proof.
  intros H0 Hc. unfold numbered. destruct s as [|a s].
  - intros E. inv_bind E. apply group_inv in E0 as (H & ->). assert (r = []) as -> by congruence. assert (p = Grp (val c)) as -> by (unfold val, dig in *; congruence). apply tok_group1; [easy|easy| |easy]. apply starts_nil.
  - destruct (digit_spec a) as [Ha|Ha].
    + destruct s as [|b s].
      * intros E. inv_bind E. rewrite number2 in E0. apply group_inv in E0 as (H & ->). assert (r = []) as -> by congruence. assert (p = Grp (10 * val c + val a)) as -> by congruence.
        apply tok_group2; try easy. intros (_ & _ & X). now apply starts_nil in X.
      * destruct (octal c && octal a && octal b) eqn:O; intros E.
        -- inv_bind E. apply oct_inv in E0 as (H & ->). rewrite oct3 in *. assert (r = s) as -> by congruence. assert (p = Lit (N.of_nat (64 * val c + 8 * val a + val b))) as -> by congruence.
           destruct (octal_spec c); [|easy]. destruct (octal_spec a); [|easy]. destruct (octal_spec b); [|easy]. now apply tok_octal.
        -- inv_bind E. rewrite number2 in E0. apply group_inv in E0 as (H & ->). assert (r = b :: s) as -> by congruence. assert (p = Grp (10 * val c + val a)) as -> by congruence.
           apply tok_group2; try easy. rewrite starts_cons. intros (A & B & C). destruct (octal_spec c); [|easy]. destruct (octal_spec a); [|easy]. destruct (octal_spec b); easy.
    + intros E. inv_bind E. apply group_inv in E0 as (H & ->). assert (r = a :: s) as -> by congruence. assert (p = Grp (val c)) as -> by (unfold val, dig in *; congruence). apply tok_group1; try easy. now rewrite starts_cons.
Qed.
Lemma escape_in c e : dget_ N.eqb escapes c = Some e -> In (c, e) escapes.
Proof.
  generalize escapes. intros d. induction d as [|[k v] d IH]; [easy|]. cbn. destruct (N.eqb_spec c k) as [->|]; intros E; [left; congruence|right; auto].
Qed.
Lemma escape_none c : dget_ N.eqb escapes c = None -> c <> Ch "\".
Proof. intros E ->. now compute in E. Qed.
Lemma template_says ng : forall fuel s ps, length s < fuel -> template_ fuel ng s = Ok ps -> says ng s ps.
Proof.
  assert (T : forall s p r, token ng s p r -> length r < length s).
  { intros s p r []; cbn [length]; try lia. rewrite app_length. cbn. lia. }
  assert (K : forall fuel s p r ps q, (forall s ps, length s < fuel -> template_ fuel ng s = Ok ps -> says ng s ps) -> length s < S fuel ->
    token ng s p r -> template_ fuel ng r = Ok q -> ps = p ++ q -> says ng s ps).
  { intros fuel s p r ps q IH Hl Ht E ->. econstructor; [exact Ht|]. apply IH; [|easy]. apply T in Ht. lia. }
  induction fuel as [|fuel IH]; intros s ps Hl E; [lia|]. cbn [template_] in E. destruct s as [|c s]; [assert (ps = []) as -> by congruence; constructor|].
  destruct (N.eqb_spec c backslash) as [->|Hc].
  2:{ inv_bind E. eapply K; [exact IH|exact Hl|now apply tok_char|exact E0|]. cbn. congruence. }
  destruct s as [|c s]; [easy|]. change backslash with (Ch "\") in *. destruct (N.eqb_spec c (Ch "g")) as [->|_].
  { inv_bind E. destruct x as [p r]. inv_bind E. apply named_says in E0. eapply K; [exact IH|exact Hl|exact E0|eassumption|]. cbn. congruence. }
  destruct (N.eqb_spec c (Ch "0")) as [->|H0].
  { inv_bind E. destruct x as [p r]. inv_bind E. apply (zero_says ng) in E0. eapply K; [exact IH|exact Hl|exact E0|eassumption|]. cbn. congruence. }
  destruct (digit_spec c) as [Hd|Hd].
  { inv_bind E. destruct x as [p r]. inv_bind E. apply numbered_says in E0; try easy. eapply K; [exact IH|exact Hl|exact E0|eassumption|]. cbn. congruence. }
  destruct (dget_ N.eqb escapes c) as [e|] eqn:X.
  - inv_bind E. eapply K; [exact IH|exact Hl|apply tok_escape; apply (escape_in _ _ X)|eassumption|]. cbn. congruence.
  - destruct (letter_spec c); [easy|]. inv_bind E. eapply K; [exact IH|exact Hl|apply tok_other; [now apply escape_none|easy|easy]|eassumption|]. cbn. congruence.
Qed.
Lemma token_read ng s p r fuel : token ng s p r -> template_ (S fuel) ng s = do q <- template_ fuel ng r; Ok (p ++ q).
Proof.
  assert (D : forall c, dec_digit c -> digit c = true) by (intros c H; now destruct (digit_spec c)).
  assert (O : forall c, oct_digit c -> octal c = true) by (intros c H; now destruct (octal_spec c)).
  assert (G : forall c, dec_digit c -> N.eqb c (Ch "g") = false) by (intros c H; destruct (N.eqb_spec c (Ch "g")) as [->|]; [exfalso; revert H; now compute|easy]).
  assert (OD : forall c, oct_digit c -> dec_digit c) by (unfold oct_digit, dec_digit; intros; lia).
  intros [c s' Hc|c e s' Hi|c s' Hc Hl Hd|a b c s' H0 Ha Hb Hc Hv|a b s' Ha Hb|a s' Ha Hs|s' Hs|a s' H0 Ha Hs Hg|a b s' H0 Ha Hb Hs Hg|n s' Hn Hd Hg]; cbn [template_];
    try change (N.eqb (Ch "\") backslash) with true; cbn iota.
  - change backslash with (Ch "\"). destruct (N.eqb_spec c (Ch "\")); easy.
  - cbn in Hi. repeat destruct Hi as [Hi|Hi]; try easy; assert (c = fst (c, e)) as Hx by easy; assert (e = snd (c, e)) as Hy by easy; rewrite <- Hi in Hx, Hy; cbn in Hx, Hy; subst c e; reflexivity.
  - destruct (N.eqb_spec c (Ch "g")) as [->|_]; [exfalso; apply Hl; right; now compute|]. destruct (N.eqb_spec c (Ch "0")) as [->|_]; [exfalso; apply Hd; now compute|].
    destruct (digit_spec c); [easy|]. destruct (letter_spec c); [easy|]. destruct (dget_ N.eqb escapes c) as [e|] eqn:X; [exfalso|reflexivity].
    apply escape_in in X. cbn in X. repeat destruct X as [X|X]; try easy; assert (c = fst (c, e)) as Hx by easy; rewrite <- X in Hx; cbn in Hx; subst c; try (apply Hl; right; now compute).
  - rewrite G by auto. destruct (N.eqb_spec a (Ch "0")); [easy|]. rewrite (D a) by auto. unfold numbered. rewrite (D b) by auto. rewrite !O by easy. cbn [andb].
    rewrite (oct_ok _ _ (oct3 a b c) Hv). reflexivity.
  - change (N.eqb (Ch "0") (Ch "g")) with false. change (N.eqb (Ch "0") (Ch "0")) with true. cbn iota. unfold zero. rewrite !O by easy.
    rewrite (oct_ok [a; b] (8 * val a + val b)); [reflexivity|reflexivity|]. apply val_oct in Ha, Hb. lia.
  - change (N.eqb (Ch "0") (Ch "g")) with false. change (N.eqb (Ch "0") (Ch "0")) with true. cbn iota. unfold zero. rewrite !O by easy.
    assert (X : oct [a] = Ok (Lit (N.of_nat (val a)))) by (apply oct_ok; [reflexivity|apply val_oct in Ha; lia]). rewrite X. destruct s' as [|b s']; [reflexivity|].
    rewrite starts_cons in Hs. destruct (octal_spec b); [easy|]. reflexivity.
  - change (N.eqb (Ch "0") (Ch "g")) with false. change (N.eqb (Ch "0") (Ch "0")) with true. cbn iota. unfold zero. destruct s' as [|a s']; [reflexivity|].
    rewrite starts_cons in Hs. destruct (octal_spec a); [easy|]. now destruct s'.
  - rewrite G by auto. destruct (N.eqb_spec a (Ch "0")); [easy|]. rewrite (D a) by auto. unfold numbered. change (dig a) with (val a). rewrite group_ok by easy. destruct s' as [|b s']; [reflexivity|].
    rewrite starts_cons in Hs. destruct (digit_spec b); [easy|]. reflexivity.
  - rewrite G by auto. destruct (N.eqb_spec a (Ch "0")); [easy|]. rewrite (D a) by auto. unfold numbered. rewrite (D b) by auto. rewrite number2, group_ok by easy. destruct s' as [|c s']; [reflexivity|].
    rewrite starts_cons in Hs. destruct (octal_spec a), (octal_spec b), (octal_spec c); try (exfalso; tauto); reflexivity.
  - change (N.eqb (Ch "g") (Ch "g")) with true. cbn iota. cbn [named]. change (N.eqb (Ch "<") (Ch "<")) with true. cbn iota. rewrite until_dec by easy.
    replace (forallb digit n) with true by (symmetry; apply forallb_forall; intros x Hx; apply D; rewrite Forall_forall in Hd; auto). destruct n as [|x n]; [easy|].
    rewrite number_val, group_ok by easy. reflexivity.
Qed.
Lemma token_shorter ng s p r : token ng s p r -> length r < length s.
Proof. intros []; cbn [length]; try lia. rewrite app_length. cbn. lia. Qed.
Theorem template_means ng s ps : template ng s = Ok ps <-> says ng s ps.
Proof.
  split; [apply template_says; lia|]. unfold template. intros H. assert (forall fuel, length s < fuel -> template_ fuel ng s = Ok ps); [|auto].
  induction H as [|s p r q Ht _ IH]; intros fuel Hl; (destruct fuel as [|fuel]; [lia|]); [easy|]. rewrite (token_read _ _ _ _ _ Ht). apply token_shorter in Ht. rewrite IH by lia. reflexivity.
Qed.
(* a bad template raises re.error *)
Theorem template_bad ng s x : template ng s = Err x -> x = ValueError.
Proof.
  unfold template. generalize (S (length s)). intros fuel. revert s. induction fuel as [|fuel IH]; intros s; [easy|]. cbn [template_].
  assert (G : forall n e, group_ref ng n = Err e -> e = ValueError) by (intros n e; unfold group_ref; destruct (ng <? n); [congruence|easy]).
  assert (O : forall ds e, oct ds = Err e -> e = ValueError) by (intros ds e; unfold oct; destruct (255 <? _); [congruence|easy]).
  assert (I : forall s (f : list part -> list part), (do l <- template_ fuel ng s; Ok (f l)) = Err x -> x = ValueError).
  { intros s' f. destruct (template_ fuel ng s') as [l|e'] eqn:Y; cbn; [easy|]. intros Z. apply (IH s'). congruence. }
  assert (R : forall r : res (part * str), (forall e, r = Err e -> e = ValueError) -> (do (p, s) <- r; do l <- template_ fuel ng s; Ok (p :: l)) = Err x -> x = ValueError).
  { intros [[p t]|e] Hr; cbn; [apply (I t (cons p))|]. intros E. apply Hr. congruence. }
  assert (P : forall (r : res part) (t : str) e, (forall e, r = Err e -> e = ValueError) -> (do p <- r; Ok (p, t)) = Err e -> e = ValueError).
  { intros [p|e'] t e Hr; cbn; [easy|]. intros E. apply Hr. congruence. }
  destruct s as [|c s]; [easy|]. destruct (N.eqb c backslash); [|apply (I s (cons _))]. destruct s as [|c' s]; [congruence|].
  destruct (N.eqb c' (Ch "g")).
  { apply R. intros e. unfold named. destruct s as [|y s]; [congruence|]. destruct (N.eqb y (Ch "<")); [|congruence]. destruct (until_gt s) as [[n t]|]; [|congruence].
    destruct n as [|z n]; [congruence|]. destruct (forallb digit (z :: n)); [|congruence]. apply P. apply G. }
  destruct (N.eqb c' (Ch "0")).
  { apply R. intros e. unfold zero. destruct s as [|a [|b s]]; [easy| |]; destruct (octal a); try easy; [apply P, O|]. destruct (octal b); apply P, O. }
  destruct (digit c').
  { apply R. intros e. unfold numbered. destruct s as [|a s]; [apply P, G|]. destruct (digit a); [|apply P, G]. destruct s as [|b s]; [apply P, G|]. destruct (_ && _); [apply P, O|apply P, G]. }
  destruct (dget_ N.eqb escapes c') as [e|]; [apply (I s (cons _))|]. destruct (letter c'); [congruence|]. apply (I s (fun l => Lit backslash :: Lit c' :: l)).
Qed.

(* ---------- texts ---------- *)

Lemma match_str {A} p : forall pos s caps (k : mst -> option A),
  rmatch (RStr p) (st pos (p ++ s) caps) k = k (st (pos + length p) s caps).
Proof.
  induction p as [|c p IH]; intros pos s caps k; [cbn; now rewrite Nat.add_0_r|]. destruct p as [|d p].
  - cbn. rewrite N.eqb_refl. now rewrite Nat.add_1_r.
  - change (RStr (c :: d :: p)) with (RSeq (RChr (N.eqb c)) (RStr (d :: p))). rewrite rm_seq, rm_chr. cbn [app]. rewrite N.eqb_refl.
    change (d :: p ++ s) with ((d :: p) ++ s). rewrite IH. f_equal. cbn [length]. unfold st. f_equal. lia.
Qed.
Lemma match_str_not {A} p : p <> [] -> forall pos s caps (k : mst -> option A), (forall s', s <> p ++ s') -> rmatch (RStr p) (st pos s caps) k = None.
Proof.
  induction p as [|c p IH]; intros Hp pos s caps k H; [easy|]. destruct p as [|d p].
  - cbn. destruct s as [|x s]; [easy|]. destruct (N.eqb_spec c x) as [->|]; [|easy]. now destruct (H s).
  - change (RStr (c :: d :: p)) with (RSeq (RChr (N.eqb c)) (RStr (d :: p))). rewrite rm_seq, rm_chr. destruct s as [|x s]; [easy|].
    destruct (N.eqb_spec c x) as [<-|]; [|easy]. apply IH; [easy|]. intros s' ->. now apply (H s').
Qed.
Lemma prefix_dec (p s : str) : (exists s', s = p ++ s') \/ forall s', s <> p ++ s'.
Proof.
  revert s. induction p as [|c p IH]; intros s; [left; now exists s|]. destruct s as [|x s]; [right; discriminate|].
  destruct (N.eq_dec x c) as [->|Hx]; [|right; intros s' E; apply Hx; cbn in E; congruence].
  destruct (IH s) as [(s' & ->)|H]; [left; now exists s'|]. right. intros s' E. apply (H s'). cbn in E. congruence.
Qed.
Lemma str_here p adv pos s : p <> [] -> exists m, match_at adv (RGroup 0 (RStr p)) pos (p ++ s) = Some m /\ r_rest m = s /\ Nat.eqb (r_end m) (r_start m) = false.
Proof.
  intros Hp. unfold match_at. change {| m_pos := pos; m_rest := p ++ s; m_caps := [] |} with (st pos (p ++ s) []). rewrite rmatch_group, match_str. cbn.
  assert (E : Nat.eqb (pos + length p) pos = false) by (apply Nat.eqb_neq; destruct p; [easy|cbn; lia]). rewrite E, andb_false_r. eexists. split; [reflexivity|]. split; [easy|exact E].
Qed.
Lemma str_not p adv pos s : p <> [] -> (forall s', s <> p ++ s') -> match_at adv (RGroup 0 (RStr p)) pos s = None.
Proof.
  intros Hp H. unfold match_at. change {| m_pos := pos; m_rest := s; m_caps := [] |} with (st pos s []). rewrite rmatch_group. now apply match_str_not.
Qed.
Lemma scanned_replaced p t : p <> [] -> forall adv pos s out,
  scanned (RGroup 0 (RStr p)) (fun m => Ok t) adv pos s out <-> replaced p t s out.
Proof.
  intros Hp adv pos s out. split.
  - induction 1 as [adv pos H|adv pos c s out H _ IH|adv pos s m v out H Hv _ IH].
    + constructor.
    + constructor; [|easy]. intros s' E. destruct (str_here p adv pos s' Hp) as (m & Em & _). rewrite E in H. congruence.
    + injection Hv as <-. destruct (prefix_dec p s) as [(s' & ->)|Hn]; [|rewrite (str_not p adv pos s Hp Hn) in H; discriminate].
      destruct (str_here p adv pos s' Hp) as (m' & Em & Er & _). assert (m' = m) by congruence. subst m'. rewrite Er in IH. now constructor.
  - intros H. revert adv pos. induction H as [|s out _ IH|c s out Hn _ IH]; intros adv pos.
    + constructor. apply str_not; [easy|]. intros s' E. now destruct p.
    + destruct (str_here p adv pos s Hp) as (m & Em & Er & Ee). apply (scan_match _ _ adv pos _ m t out Em eq_refl). rewrite Er. apply IH.
    + constructor; [now apply str_not|apply IH].
Qed.
Lemma scanned_ext r f g adv pos s out : (forall m, f m = g m) -> scanned r f adv pos s out -> scanned r g adv pos s out.
Proof.
  intros H. induction 1 as [adv pos H1|adv pos c s out H1 _ IH|adv pos s m v out H1 Hv _ IH]; [now constructor|now constructor|].
  apply (scan_match r g adv pos s m v out); [easy|now rewrite <- H|easy].
Qed.
Theorem sub_text p t s out : p <> [] -> sub_template (RStr p) (quoted t) s = Ok out <-> replaced p t s out.
Proof.
  intros Hp. rewrite template_scanned, <- (scanned_replaced p t Hp false 0 s out). split.
  - intros (ps & E & H). rewrite quoted_means in E. injection E as <-. revert H. apply scanned_ext. intros m. now rewrite expand_lit.
  - intros H. exists (map Lit t). split; [apply quoted_means|]. revert H. apply scanned_ext. intros m. now rewrite expand_lit.
Qed.
Theorem sub_char c t s : sub_template (RStr [c]) (quoted t) s = Ok (replace_char c t s).
Proof.
  apply sub_text; [easy|]. unfold replace_char. induction s as [|x s IH]; [constructor|]. cbn [flat_map]. destruct (N.eqb_spec x c) as [->|Hx].
  - exact (rep_here [c] t s _ IH).
  - cbn [app]. constructor; [|easy]. intros s' E. apply Hx. cbn in E. congruence.
Qed.

(* ---------- sub ---------- *)

Section Sub.
Variable compile : str -> res re.
Variable evaluate : str -> str -> res (rmatched -> res str).
Notation sub := (sub compile evaluate).
Notation sub_all := (sub_all compile evaluate).
Theorem sub_nothing s ty : sub s ty [] = Ok s.
Proof. easy. Qed.
Theorem sub_app ty a : forall s b, sub s ty (a ++ b) = do s' <- sub s ty a; sub s' ty b.
Proof.
  induction a as [|[rx ps] a IH]; intros s b; [easy|]. cbn [app Substitute.sub]. destruct (compile rx) as [r|]; [|easy]. cbn [bind].
  destruct (re_match r ty); [|apply IH]. destruct (sub_all ps s) as [s'|]; [|easy]. cbn [bind]. apply IH.
Qed.
Theorem all_app a : forall s b, sub_all (a ++ b) s = do s' <- sub_all a s; sub_all b s'.
Proof.
  induction a as [|[rx p] a IH]; intros s b; [easy|]. cbn [app Substitute.sub_all]. destruct (sub_one compile evaluate rx p s) as [s'|]; [|easy]. cbn [bind]. apply IH.
Qed.
Theorem sub_other s ty rx r ps : compile rx = Ok r -> re_match r ty = None -> sub s ty [(rx, ps)] = Ok s.
Proof. intros E Em. cbn [Substitute.sub]. now rewrite E; cbn [bind]; rewrite Em. Qed.
Theorem sub_these s ty rx r ps m : compile rx = Ok r -> re_match r ty = Some m -> sub s ty [(rx, ps)] = sub_all ps s.
Proof. intros E Em. cbn [Substitute.sub]. rewrite E. cbn [bind]. rewrite Em. now destruct (sub_all ps s). Qed.
Theorem all_one s rx r t : compile rx = Ok r -> sub_all [(rx, Template t)] s = sub_template r t s.
Proof. intros E. cbn [Substitute.sub_all sub_one]. rewrite E. cbn [bind]. now destruct (sub_template r t s). Qed.
Theorem all_lambda s rx r a b f : compile rx = Ok r -> evaluate a b = Ok f -> sub_all [(rx, Lambda a b)] s = sub_with r f s.
Proof. intros E Ef. cbn [Substitute.sub_all sub_one]. rewrite Ef. cbn [bind]. rewrite E. cbn [bind]. now destruct (sub_with r f s). Qed.
Theorem all_raises s rx x : (forall a b, evaluate a b = Err x -> sub_all [(rx, Lambda a b)] s = Err x)
  /\ (compile rx = Err x -> (forall t, sub_all [(rx, Template t)] s = Err x) /\ forall a b f, evaluate a b = Ok f -> sub_all [(rx, Lambda a b)] s = Err x).
Proof. cbn. split; [now intros a b ->|]. intros ->. split; [easy|]. now intros a b f ->. Qed.
Theorem all_neither s rx : sub_all [(rx, Neither)] s = Ok s.
Proof. easy. Qed.
End Sub.
