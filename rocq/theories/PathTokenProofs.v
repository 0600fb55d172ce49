(* The path tokenizer: what the pattern matches at each position, and what
   follows for the tokens of a path (C31). *)
From Verif Require Import PyStr PyStrFacts Regex RegexFacts Path SpecPath.

(* ---------- the pattern at one position ---------- *)

Fixpoint scan_str (s : str) : option (str * str) :=
  match s with
  | [] => None
  | c :: r =>
    if N.eqb c 34 then Some ([c], r)
    else if N.eqb c 92 then
      match r with
      | d :: r' => if N.eqb d 10 then None else option_map (fun p => (c :: d :: fst p, snd p)) (scan_str r')
      | [] => None
      end
    else option_map (fun p => (c :: fst p, snd p)) (scan_str r)
  end.

Definition starts_fn (s : str) : option str := List.find (fun f => startswith f s) functions.

Definition name_run (s : str) : option (str * str) :=
  match takew name_char s with [] => None | u => Some (u, dropw name_char s) end.

Definition next_tok (s : str) : option (str * str) :=
  match s with
  | [] => None
  | c :: t =>
    if N.eqb c 34 then match scan_str t with Some (u, r) => Some (c :: u, r) | None => name_run s end
    else if N.eqb c 47 then match t with d :: t' => if N.eqb d 47 then Some ([c; d], t') else Some ([c], t) | [] => Some ([c], t) end
    else if N.eqb c 46 then match t with d :: t' => if N.eqb d 46 then Some ([c; d], t') else Some ([c], t) | [] => Some ([c], t) end
    else if existsb (N.eqb c) (L "@[]()|") then Some ([c], t)
    else if N.eqb c 33 then match t with d :: t' => if N.eqb d 61 then Some ([c; d], t') else None | [] => None end
    else if N.eqb c 61 then Some ([c], t)
    else match starts_fn s with
         | Some f => Some (f, skipn (length f) s)
         | None => if N.eqb c 42 then Some ([c], t) else name_run s
         end
  end.

Lemma scan_str_len s u r : scan_str s = Some (u, r) -> s = u ++ r.
Proof.
  assert (H : forall n s u r, length s <= n -> scan_str s = Some (u, r) -> s = u ++ r).
  { intros n. induction n as [|n IH]; intros [|c t] u' r' Hl; cbn in *; try easy; try lia.
    destruct (N.eqb c 34); [intros [= <- <-]; easy|].
    destruct (N.eqb c 92).
    - destruct t as [|d t]; [easy|]. destruct (N.eqb d 10); [easy|].
      destruct (scan_str t) as [[u2 r2]|] eqn:E; [|easy]. cbn. intros [= <- <-].
      cbn in *. rewrite (IH t u2 r2) at 1; [easy|lia|easy].
    - destruct (scan_str t) as [[u2 r2]|] eqn:E; [|easy]. cbn. intros [= <- <-].
      cbn in *. rewrite (IH t u2 r2) at 1; [easy|lia|easy]. }
  eauto.
Qed.

Section Engine.
Context {A : Type} (g : mst -> A).
Notation K := (fun s' => Some (g s')).

Definition str_body : re :=
  RAlt (RSeq (RChr (N.eqb 92)) (RChr (fun c => negb (N.eqb c 10)))) (RChr (fun c => negb (N.eqb c 92 || N.eqb c 34))).

Lemma string_tail : forall n s pos caps, length s <= n ->
  rmatch (RStar true str_body) (st pos s caps) (fun s' => rmatch (RChr (N.eqb 34)) s' K) =
  match scan_str s with Some (u, r) => Some (g (st (pos + length u) r caps)) | None => None end.
Proof.
  intros n. induction n as [|n IH]; intros s pos caps Hl.
  - destruct s; [|cbn in Hl; lia]. reflexivity.
  - rewrite rm_star_greedy. unfold str_body at 1.
    destruct s as [|c s]; [reflexivity|].
    rewrite rm_alt, rm_seq, rm_chr.
    rewrite (N.eqb_sym 92 c). cbn [scan_str].
    destruct (N.eqb_spec c 34) as [->|Hq].
    { change (N.eqb 34 92) with false. cbn [orb negb]. rewrite rm_chr. cbn [orb negb N.eqb Pos.eqb].
      rewrite rm_chr. change (N.eqb 34 34) with true. cbn [length]. now rewrite Nat.add_1_r. }
    destruct (N.eqb_spec c 92) as [->|Hb].
    + rewrite rm_chr. destruct s as [|d s].
      * rewrite rm_chr. cbn [N.eqb Pos.eqb orb negb]. rewrite rm_chr. reflexivity.
      * destruct (N.eqb_spec d 10) as [->|Hd]; cbn [negb].
        { rewrite rm_chr. cbn [N.eqb Pos.eqb orb negb]. rewrite rm_chr. reflexivity. }
        cbn [m_rest st].
        replace (length s <? length (92%N :: d :: s)) with true
          by (symmetry; apply Nat.ltb_lt; cbn; lia).
        rewrite IH by (cbn in Hl; lia).
        destruct (scan_str s) as [[u r]|]; cbn [option_map fst snd].
        -- f_equal. f_equal. unfold st. f_equal. cbn. lia.
        -- rewrite !rm_chr. cbn [N.eqb Pos.eqb orb negb]. rewrite ?rm_chr. reflexivity.
    + rewrite rm_chr. replace (c =? 92)%N with false by (symmetry; now apply N.eqb_neq).
      replace (c =? 34)%N with false by (symmetry; now apply N.eqb_neq). cbn [orb negb].
      cbn [m_rest st].
      replace (length s <? length (c :: s)) with true
        by (symmetry; apply Nat.ltb_lt; cbn; lia).
      rewrite IH by (cbn in Hl; lia).
      destruct (scan_str s) as [[u r]|]; cbn [option_map fst snd].
      * f_equal. f_equal. unfold st. f_equal. cbn. lia.
      * rewrite rm_chr. rewrite N.eqb_sym. replace (c =? 34)%N with false by (symmetry; now apply N.eqb_neq). reflexivity.
Qed.

Lemma rm_str w : w <> [] -> forall s pos caps,
  rmatch (RStr w) (st pos s caps) K =
  if startswith w s then Some (g (st (pos + length w) (skipn (length w) s) caps)) else None.
Proof.
  induction w as [|c w IH]; [easy|]. intros _ s pos caps.
  destruct w as [|d w].
  - cbn [RStr]. rewrite rm_chr. destruct s as [|x s]; [easy|]. cbn [startswith length skipn].
    destruct (N.eqb c x); [|easy]. cbn. now rewrite Nat.add_1_r.
  - change (RStr (c :: d :: w)) with (RSeq (RChr (N.eqb c)) (RStr (d :: w))).
    rewrite rm_seq, rm_chr. destruct s as [|x s]; [easy|].
    change (startswith (c :: d :: w) (x :: s)) with (N.eqb c x && startswith (d :: w) s).
    destruct (N.eqb c x); [|easy]. rewrite IH by easy. cbn [andb].
    destruct (startswith (d :: w) s); [|easy]. f_equal. f_equal. unfold st. f_equal. cbn. lia.
Qed.

Lemma name_run_spec s pos caps :
  rmatch (RPlus true (RChr name_char)) (st pos s caps) K =
  match name_run s with Some (u, r) => Some (g (st (pos + length u) r caps)) | None => None end.
Proof.
  unfold RPlus, name_run. rewrite rm_seq, rm_chr. destruct s as [|c s]; [easy|]. cbn [takew dropw].
  destruct (name_char c); [|easy]. rewrite rmatch_star_chr.
  rewrite (star_g_some _ _ _ _ _ (g (st (S pos + length (takew name_char s)) (dropw name_char s) caps))) by reflexivity.
  f_equal. f_equal. unfold st. f_equal. cbn. lia.
Qed.

Lemma rm_lit_k c pos s caps :
  rmatch (RLit c) (st pos s caps) K =
  match s with d :: t => if N.eqb d (Ch c) then Some (g (st (S pos) t caps)) else None | [] => None end.
Proof. now rewrite rm_lit. Qed.

Lemma two_chars a b pos c t caps : Ch a = c ->
  rmatch (RSeq (RLit a) (ROpt (RLit b))) (st pos (c :: t) caps) K =
  Some (match t with d :: t' => if N.eqb d (Ch b) then g (st (S (S pos)) t' caps) else g (st (S pos) t caps)
        | [] => g (st (S pos) t caps) end).
Proof.
  intros <-. rewrite rm_seq, rm_lit, N.eqb_refl, rm_opt, rm_lit.
  destruct t as [|d t']; [easy|]. now destruct (N.eqb d (Ch b)).
Qed.

Lemma seq_lit_no a b pos c t caps : N.eqb c (Ch a) = false ->
  rmatch (RSeq (RLit a) b) (st pos (c :: t) caps) K = None.
Proof. intros H. now rewrite rm_seq, rm_lit, H. Qed.

Lemma string_no pos c t caps : N.eqb c 34 = false ->
  rmatch string_re (st pos (c :: t) caps) K = None.
Proof. intros H. unfold string_re. now rewrite rm_seq, rm_chr, N.eqb_sym, H. Qed.

Lemma string_yes pos t caps :
  rmatch string_re (st pos (34%N :: t) caps) K =
  match scan_str t with Some (u, r) => Some (g (st (pos + S (length u)) r caps)) | None => None end.
Proof.
  unfold string_re. rewrite rm_seq, rm_chr. change (N.eqb 34 34) with true. cbn iota.
  rewrite rm_seq. fold str_body. rewrite (string_tail (length t)) by lia.
  destruct (scan_str t) as [[u r]|]; [|easy]. f_equal. f_equal. unfold st. f_equal. lia.
Qed.

Lemma fns_spec pos s caps :
  rmatch (ralts [RStr (L "text"); RStr (L "value"); RStr (L "referent")] (RStr (L "referrer"))) (st pos s caps) K =
  match starts_fn s with Some f => Some (g (st (pos + length f) (skipn (length f) s) caps)) | None => None end.
Proof.
  unfold ralts. cbn [fold_right]. rewrite !rm_alt, !rm_str by (vm_compute; discriminate).
  unfold starts_fn, functions. cbn [List.find].
  destruct (startswith (L "text") s); [easy|].
  destruct (startswith (L "value") s); [easy|].
  destruct (startswith (L "referent") s); [easy|].
  now destruct (startswith (L "referrer") s).
Qed.

Lemma fns_no c t : In c (L """/.@[]()|!=*") -> starts_fn (c :: t) = None.
Proof. intros H. vm_compute in H. repeat (destruct H as [<-|H]; [reflexivity|]). easy. Qed.

Ltac pos_lia := f_equal; f_equal; unfold st; f_equal; cbn; lia.
Theorem tok_match pos s caps :
  rmatch xp_tokenizer_re (st pos s caps) K =
  match next_tok s with Some (u, r) => Some (g (st (pos + length u) r caps)) | None => None end.
Proof.
  unfold xp_tokenizer_re. unfold ralts at 1. cbn [fold_right].
  rewrite !rm_alt, fns_spec, name_run_spec.
  destruct s as [|c t]; [vm_compute; reflexivity|].
  cbn [next_tok].
  destruct (N.eqb_spec c 34) as [->|H34].
  { rewrite string_yes. destruct (scan_str t) as [[u r]|]; [easy|].
    rewrite !seq_lit_no by reflexivity. rewrite !rm_lit_k.
    rewrite (fns_no 34) by (vm_compute; auto). reflexivity. }
  apply N.eqb_neq in H34. rewrite string_no by easy.
  destruct (N.eqb_spec c 47) as [->|H47].
  { rewrite two_chars by reflexivity. change (Ch "/") with 47%N.
    destruct t as [|d t']; [pos_lia|]. destruct (N.eqb d 47); pos_lia. }
  apply N.eqb_neq in H47. rewrite (seq_lit_no "/") by easy.
  destruct (N.eqb_spec c 46) as [->|H46].
  { rewrite two_chars by reflexivity. change (Ch ".") with 46%N.
    destruct t as [|d t']; [pos_lia|]. destruct (N.eqb d 46); pos_lia. }
  apply N.eqb_neq in H46. rewrite (seq_lit_no ".") by easy.
  rewrite !rm_lit_k.
  change (existsb (N.eqb c) (L "@[]()|")) with
    (N.eqb c (Ch "@") || (N.eqb c (Ch "[") || (N.eqb c (Ch "]") || (N.eqb c (Ch "(") || (N.eqb c (Ch ")") || (N.eqb c (Ch "|") || false)))))).
  destruct (N.eqb c (Ch "@")); [cbn [orb length]; now rewrite Nat.add_1_r|].
  destruct (N.eqb c (Ch "[")); [cbn [orb length]; now rewrite Nat.add_1_r|].
  destruct (N.eqb c (Ch "]")); [cbn [orb length]; now rewrite Nat.add_1_r|].
  destruct (N.eqb c (Ch "(")); [cbn [orb length]; now rewrite Nat.add_1_r|].
  destruct (N.eqb c (Ch ")")); [cbn [orb length]; now rewrite Nat.add_1_r|].
  destruct (N.eqb c (Ch "|")); [cbn [orb length]; now rewrite Nat.add_1_r|].
  cbn [orb].
  destruct (N.eqb_spec c 33) as [->|H33].
  { rewrite rm_seq, rm_lit. change (N.eqb 33 (Ch "!")) with true. cbn iota. rewrite rm_lit_k.
    rewrite (fns_no 33) by (vm_compute; tauto).
    destruct t as [|d t']; [reflexivity|]. change (Ch "=") with 61%N.
    destruct (N.eqb d 61); [pos_lia|reflexivity]. }
  apply N.eqb_neq in H33. rewrite (seq_lit_no "!") by easy.
  change (Ch "=") with 61%N.
  destruct (N.eqb c 61); [cbn [length]; now rewrite Nat.add_1_r|].
  destruct (starts_fn (c :: t)); [easy|]. change (Ch "*") with 42%N.
  destruct (N.eqb c 42); [cbn [length]; now rewrite Nat.add_1_r|]. easy.
Qed.
End Engine.

(* ---------- all tokens ---------- *)

Lemma next_tok_app s u r : next_tok s = Some (u, r) -> s = u ++ r /\ u <> [].
Proof.
  destruct s as [|c t]; [easy|]. cbn [next_tok].
  assert (Hn : forall u r, name_run (c :: t) = Some (u, r) -> c :: t = u ++ r /\ u <> []).
  { intros u' r'. unfold name_run. destruct (takew name_char (c :: t)) eqn:E; [easy|].
    intros H. injection H as Hu Hr. subst u' r'. split; [|easy].
    rewrite <- (takew_dropw name_char (c :: t)) at 1. now rewrite E. }
  repeat match goal with
  | |- (if ?b then _ else _) = _ -> _ => destruct b
  | |- Some _ = Some _ -> _ => intros [= <- <-]; easy
  | |- None = _ -> _ => easy
  | |- name_run _ = _ -> _ => apply Hn
  | |- (match scan_str ?t with _ => _ end) = _ -> _ =>
      destruct (scan_str t) as [[u' r']|] eqn:E;
      [intros [= <- <-]; apply scan_str_len in E; subst; easy|]
  | |- (match t with [] => _ | _ :: _ => _ end) = _ -> _ => destruct t
  end.
  destruct (starts_fn (c :: t)) as [f|] eqn:E.
  - unfold starts_fn in E. apply find_some in E as [Hf E]. intros [= <- <-].
    assert (Hs : forall f s, startswith f s = true -> s = f ++ skipn (length f) s).
    { clear. induction f as [|x f IH]; intros [|y s]; cbn; try easy.
      intros H. apply andb_prop in H as [H1 H2]. apply N.eqb_eq in H1 as ->. f_equal; auto. }
    split; [now apply Hs|]. vm_compute in Hf. intros ->. repeat (destruct Hf as [Hf|Hf]; try easy).
  - destruct (N.eqb c 42); [intros [= <- <-]; easy|]. apply Hn.
Qed.

Inductive scan : str -> list str -> Prop :=
| scan_nil : scan [] []
| scan_tok s u r l : next_tok s = Some (u, r) -> scan r l -> scan s (u :: l)
| scan_skip c s l : next_tok (c :: s) = None -> scan s l -> scan (c :: s) l.

Lemma match_tok pos s : match_at false (RGroup 0 xp_tokenizer_re) pos s =
  match next_tok s with
  | Some (u, r) => Some {| r_start := pos; r_end := pos + length u; r_rest := r; r_caps := [(0, u)] |}
  | None => None
  end.
Proof.
  unfold match_at. change {| m_pos := pos; m_rest := s; m_caps := [] |} with (st pos s []).
  rewrite rm_group. cbn [andb].
  rewrite (tok_match (fun s' => {| r_start := pos; r_end := m_pos s'; r_rest := m_rest s';
     r_caps := (0, firstn (m_pos s' - pos) s) :: m_caps s' |})).
  destruct (next_tok s) as [[u r]|] eqn:E; [|easy]. cbn. f_equal. f_equal.
  apply next_tok_app in E as [-> _]. replace (pos + length u - pos) with (length u) by lia.
  now rewrite firstn_app_len.
Qed.

Lemma scan_search s l : scan s l -> forall pos,
  match l with
  | [] => search_from false (RGroup 0 xp_tokenizer_re) pos s = None
  | u :: l' => exists m, search_from false (RGroup 0 xp_tokenizer_re) pos s = Some m
     /\ r_caps m = [(0, u)] /\ r_end m <> r_start m /\ scan (r_rest m) l'
  end.
Proof.
  induction 1 as [|s u r l E H IH|c s l E H IH]; intros pos.
  - apply search_nil. now rewrite match_tok.
  - eexists. split; [apply search_here; rewrite match_tok, E; reflexivity|]. cbn.
    split; [easy|]. split; [|easy]. apply next_tok_app in E as [_ E]. destruct u; [easy|cbn; lia].
  - specialize (IH (S pos)). destruct l as [|u l].
    + rewrite search_skip; [easy|]. now rewrite match_tok, E.
    + rewrite search_skip; [easy|]. now rewrite match_tok, E.
Qed.

Lemma scan_finditer s l : scan s l -> forall pos,
  map (capd 0) (finditer_at false (RGroup 0 xp_tokenizer_re) pos s) = l.
Proof.
  assert (G : forall l s, scan s l -> forall pos,
     map (capd 0) (finditer_at false (RGroup 0 xp_tokenizer_re) pos s) = l).
  { clear. induction l as [|u l IH]; intros s H pos.
    - pose proof (scan_search _ _ H pos) as G. now rewrite finditer_none.
    - destruct (scan_search _ _ H pos) as (m & Hm & Hc & Hne & Hs).
      rewrite (finditer_some _ _ _ _ m) by easy. cbn [map].
      unfold capd, cap. rewrite Hc. cbn. apply Nat.eqb_neq in Hne. rewrite Hne.
      f_equal. now apply IH. }
  intros H pos. now apply G.
Qed.

Theorem scan_findall s l : scan s l -> findall0 xp_tokenizer_re s = l.
Proof. intros H. unfold findall0. rewrite finditer_0. now apply scan_finditer. Qed.

Theorem scan_total s : exists l, scan s l.
Proof.
  remember (length s) as n eqn:Hn. assert (Hl : length s <= n) by lia. clear Hn. revert s Hl.
  induction n as [|n IH]; intros s Hl.
  - destruct s; [|cbn in Hl; lia]. eexists; constructor.
  - destruct (next_tok s) as [[u r]|] eqn:E.
    + destruct (next_tok_app _ _ _ E) as [-> Hu].
      destruct (IH r) as [l H]. { rewrite app_length in Hl. destruct u; [easy|cbn in Hl; lia]. }
      exists (u :: l). econstructor; eauto.
    + destruct s as [|c s]; [eexists; constructor|]. cbn in Hl.
      destruct (IH s) as [l H]; [lia|]. exists l. now apply scan_skip.
Qed.

(* only an exclamation mark that no equals sign follows is skipped *)
Lemma next_tok_none c s : next_tok (c :: s) = None -> c = Ch "!" /\ forall r, s <> Ch "=" :: r.
Proof.
  cbn [next_tok].
  assert (Hn : name_run (c :: s) = None -> name_char c = false).
  { unfold name_run. cbn. destruct (name_char c); [easy|auto]. }
  destruct (N.eqb_spec c 34) as [->|H1].
  { destruct (scan_str s) as [[? ?]|]; [easy|]. intros H. now apply Hn in H. }
  destruct (N.eqb_spec c 47) as [->|H2].
  { destruct s as [|d s]; [easy|]. now destruct (N.eqb d 47). }
  destruct (N.eqb_spec c 46) as [->|H3].
  { destruct s as [|d s]; [easy|]. now destruct (N.eqb d 46). }
  destruct (existsb (N.eqb c) (L "@[]()|")) eqn:H4; [easy|].
  destruct (N.eqb_spec c 33) as [->|H5].
  { intros H. split; [easy|]. intros r ->. now vm_compute in H. }
  destruct (N.eqb_spec c 61) as [->|H6]; [easy|].
  destruct (starts_fn (c :: s)); [easy|]. destruct (N.eqb c 42); [easy|].
  intros H. apply Hn in H. unfold name_char in H. apply negb_false_iff, existsb_exists in H as (x & Hx & E).
  apply N.eqb_eq in E as <-. exfalso.
  assert (H4' : forall x, In x (L "@[]()|") -> c <> x).
  { intros x Hx' ->. assert (existsb (N.eqb x) (L "@[]()|") = true); [|congruence].
    apply existsb_exists. exists x. split; [easy|apply N.eqb_refl]. }
  vm_compute in Hx, H4'.
  repeat (destruct Hx as [Hx|Hx]; [subst c; (congruence || (eapply H4'; [|reflexivity]; tauto))|]). easy.
Qed.

(* ---------- induction over paths ---------- *)

Section Ind.
Variables (Ph : head -> Prop) (Pp : path -> Prop) (Pq : pred -> Prop).
Hypothesis Hatom : forall h, is_group h = false -> Ph h.
Hypothesis Hgroup : forall p ps, Pp p -> Forall Pp ps -> Ph (HGroup p ps).
Hypothesis Hpath : forall a ss, Forall (fun x => Ph (fst x) /\ Forall Pq (snd x)) ss -> Pp (Path a ss).
Hypothesis Hpred : forall sub test, Pp sub -> Pq (Pred sub test).
Fixpoint ih_head (h : head) : Ph h :=
  match h with
  | HGroup p ps =>
    Hgroup p ps (ih_path p)
      ((fix go ps : Forall Pp ps := match ps with [] => Forall_nil _ | q :: ps' => Forall_cons _ (ih_path q) (go ps') end) ps)
  | h' => Hatom h' ltac:(reflexivity)
  end
with ih_path (p : path) : Pp p :=
  match p with
  | Path a ss =>
    Hpath a ss
      ((fix go ss : Forall (fun x => Ph (fst x) /\ Forall Pq (snd x)) ss :=
          match ss with
          | [] => Forall_nil _
          | (h, qs) :: ss' =>
            Forall_cons (h, qs)
              (conj (ih_head h)
                 ((fix go2 qs : Forall Pq qs :=
                     match qs with [] => Forall_nil _ | q :: qs' => Forall_cons _ (ih_pred q) (go2 qs') end) qs))
              (go ss')
          end) ss)
  end
with ih_pred (q : pred) : Pq q :=
  match q with Pred sub test => Hpred sub test (ih_path sub) end.
End Ind.

(* the inner recursions of SpecPath.v as functions of their own *)
Fixpoint steps_toks (a first : bool) (ss : list (head * list pred)) : list str :=
  match ss with
  | [] => []
  | (h, ps) :: ss' =>
    slash_if (negb (is_desc h) && (a || negb first)) ++ head_toks h ++ flat_map pred_toks ps ++ steps_toks a false ss'
  end.
Lemma path_toks_eq a ss : path_toks (Path a ss) = steps_toks a true ss.
Proof.
  cbn. generalize true as first. induction ss as [|[h ps] ss IH]; intros first; cbn; [easy|].
  now rewrite IH.
Qed.

Section WF.
Context {U : Unicode}.
Fixpoint wf_steps (g np first : bool) (ss : list (head * list pred)) : Prop :=
  match ss with
  | [] => True
  | (h, ps) :: ss' =>
    wf_head g np first h /\ (np = true -> ps = []) /\ Forall wf_pred ps /\ wf_steps g np false ss'
  end.
Lemma wf_path_eq g np a ss : wf_path g np (Path a ss) <->
  ss <> []
  /\ (a = false -> match ss with
                   | (h, ps) :: ss' => is_desc h = false /\ (is_group h = true -> ps = [] /\ ss' = [])
                   | [] => True
                   end)
  /\ wf_steps g np true ss.
Proof.
  cbn. assert (E : forall first ss,
    (fix go (first : bool) (ss : list (head * list pred)) : Prop :=
          match ss with
          | [] => True
          | (h, ps) :: ss' =>
            wf_head g np first h
            /\ (np = true -> ps = [])
            /\ (fix all (ps : list pred) : Prop := match ps with [] => True | q :: ps' => wf_pred q /\ all ps' end) ps
            /\ go false ss'
          end) first ss <-> wf_steps g np first ss).
  { clear. intros first ss; revert first. induction ss as [|[h ps] ss IH]; intros first; cbn; [easy|].
    rewrite IH.
    assert (E : forall ps, (fix all (ps : list pred) : Prop := match ps with [] => True | q :: ps' => wf_pred q /\ all ps' end) ps
      <-> Forall wf_pred ps).
    { clear. induction ps as [|q ps IH]; [split; constructor|]. rewrite IH. split.
      - intros []; now constructor. - inversion 1; auto. }
    now rewrite E. }
  now rewrite E.
Qed.
Lemma wf_group_eq g np first p ps : wf_head g np first (HGroup p ps) <->
  (g = true -> first = true) /\ wf_path true np p /\ Forall (wf_path true np) ps.
Proof.
  cbn. assert (E : forall ps, (fix all (ps : list path) : Prop := match ps with [] => True | q :: ps' => wf_path true np q /\ all ps' end) ps
    <-> Forall (wf_path true np) ps).
  { clear. induction ps as [|q ps IH]; [split; constructor|]. rewrite IH. split.
    - intros []; now constructor. - inversion 1; auto. }
  now rewrite E.
Qed.
End WF.

(* ---------- white space ---------- *)

Section Tokens.
Context {U : Unicode}.

Lemma squeeze_app a b : squeeze (a ++ b) = squeeze a ++ squeeze b.
Proof. apply filter_app. Qed.
Lemma squeeze_cons c s : squeeze (c :: s) = if is_space c then squeeze s else c :: squeeze s.
Proof. unfold squeeze. cbn. now destruct (is_space c). Qed.
Lemma squeeze_rev s : squeeze (rev s) = rev (squeeze s).
Proof.
  induction s as [|c s IH]; [easy|]. cbn [rev]. rewrite squeeze_app, IH, !squeeze_cons.
  destruct (is_space c); [apply app_nil_r|easy].
Qed.
Lemma squeeze_lstrip s : squeeze (lstrip s) = squeeze s.
Proof. induction s as [|c s IH]; [easy|]. cbn [lstrip]. rewrite squeeze_cons. destruct (is_space c) eqn:E; [easy|]. now rewrite squeeze_cons, E. Qed.
Lemma squeeze_strip s : squeeze (strip s) = squeeze s.
Proof. unfold strip, rstrip. now rewrite squeeze_rev, squeeze_lstrip, squeeze_rev, rev_involutive, squeeze_lstrip. Qed.

Lemma squeeze_tokens l : squeeze (concat (filter nonblank (map strip l))) = squeeze (concat l).
Proof.
  induction l as [|t l IH]; [easy|]. cbn [concat map filter]. rewrite squeeze_app, <- IH, <- (squeeze_strip t).
  destruct (strip t) as [|c s]; [easy|]. cbn [nonblank concat]. now rewrite squeeze_app.
Qed.

Lemma tokenize_scan s l : scan s l -> tokenize s = filter nonblank (map strip l).
Proof. intros H. unfold tokenize. now rewrite (scan_findall _ _ H). Qed.

Lemma no_bang_app a b : no_bang (a ++ b) = no_bang a ++ no_bang b.
Proof. apply filter_app. Qed.
Lemma squeeze_no_bang s : squeeze (no_bang s) = no_bang (squeeze s).
Proof.
  unfold squeeze, no_bang in *.
  induction s as [|c s IH]; [easy|]. cbn. destruct (N.eqb c (Ch "!")) eqn:E1, (is_space c) eqn:E2; cbn; rewrite ?E1, ?E2; cbn; now rewrite IH.
Qed.

Lemma scan_no_bang s l : scan s l -> no_bang (concat l) = no_bang s.
Proof.
  induction 1 as [|s u r l E H IH|c s l E H IH]; [easy| |].
  - apply next_tok_app in E as [-> _]. cbn [concat]. now rewrite !no_bang_app, IH.
  - apply next_tok_none in E as [-> _]. cbn. exact IH.
Qed.

Theorem nothing_but_bangs path : squeeze (no_bang (concat (tokenize path))) = squeeze (no_bang path).
Proof.
  destruct (scan_total path) as [l H]. rewrite (tokenize_scan _ _ H).
  rewrite !squeeze_no_bang, squeeze_tokens, <- !squeeze_no_bang. f_equal. now apply scan_no_bang.
Qed.

Definition bangs_ok (s : str) : Prop := forall a b, s = a ++ L "!" ++ b -> exists c, b = L "=" ++ c.
Lemma scan_all s l : scan s l -> bangs_ok s -> concat l = s.
Proof.
  induction 1 as [|s u r l E H IH|c s l E H IH]; intros Hb; [easy| |].
  - apply next_tok_app in E as [-> _]. cbn. rewrite IH; [easy|]. intros a b ->.
    destruct (Hb (u ++ a) b) as [c ->]; [now rewrite <- app_assoc|]. eauto.
  - apply next_tok_none in E as [-> E]. destruct (Hb [] s) as [r ->]; [easy|]. now destruct (E r).
Qed.
Theorem nothing_lost path : bangs_ok path -> squeeze (concat (tokenize path)) = squeeze path.
Proof.
  intros Hb. destruct (scan_total path) as [l H]. rewrite (tokenize_scan _ _ H), squeeze_tokens.
  now rewrite (scan_all _ _ H).
Qed.

(* ---------- single tokens ---------- *)

Lemma special_chars c : special c <-> name_char c = false.
Proof.
  unfold special, name_char. rewrite negb_false_iff, existsb_exists. split.
  - intros H. exists c. split; [easy|apply N.eqb_refl].
  - intros (x & Hx & E). now apply N.eqb_eq in E as ->.
Qed.
Lemma startswith_iff p s : startswith p s = true <-> starts s p.
Proof.
  revert s; induction p as [|x p IH]; intros s; cbn.
  - split; [intros _; now exists s|easy].
  - destruct s as [|y s]; [split; [easy|intros [r Hr]; easy]|].
    rewrite andb_true_iff, IH, N.eqb_eq. split.
    + intros [-> [r ->]]. now exists r.
    + intros [r Hr]. cbn in Hr. injection Hr as -> ->. split; [easy|now exists r].
Qed.
Lemma keyword_functions k : keyword k <-> In k functions.
Proof. unfold keyword, functions. cbn. intuition. Qed.

Lemma starts_fn_none s : starts_fn s = None <-> forall k, keyword k -> ~ starts s k.
Proof.
  unfold starts_fn. split.
  - intros H k Hk Hs. apply keyword_functions in Hk. pose proof (find_none _ _ H _ Hk) as E. cbn in E.
    apply startswith_iff in Hs. congruence.
  - intros H. destruct (List.find _ _) as [f|] eqn:E; [|easy]. apply find_some in E as [Hf E].
    apply startswith_iff in E. exfalso. apply (H f); [now apply keyword_functions|easy].
Qed.
Lemma starts_fn_some k r : keyword k -> starts_fn (k ++ r) = Some k.
Proof. intros [-> | [-> | [-> | ->]]]; reflexivity. Qed.

(* the text after a token: nothing, or a special character other than a dot *)
Definition boundary (r : str) : Prop := r = [] \/ exists c r', r = c :: r' /\ In c (L "/[]!=|()").
Lemma next_plain_name s r : s <> [] -> (forall c, In c s -> ~ special c) -> boundary r ->
  (forall k, keyword k -> ~ starts s k) -> ~ starts s (L "@") -> ~ starts s (L "*") -> ~ starts s (L """") ->
  next_tok (s ++ r) = Some (s, r).
Proof.
  intros Hne Hs Hr Hk H1 H2 H3. destruct s as [|c s]; [easy|].
  assert (Hn : name_run ((c :: s) ++ r) = Some (c :: s, r)).
  { unfold name_run.
    assert (F1 : Forall (fun c => name_char c = true) (c :: s)).
    { apply Forall_forall. intros x Hx. destruct (name_char x) eqn:E; [easy|]. apply special_chars in E. now destruct (Hs x Hx). }
    assert (F2 : match r with [] => True | c :: _ => name_char c = false end).
    { destruct Hr as [->|(x & r' & -> & Hx)]; [easy|]. apply special_chars. unfold special. vm_compute in Hx |- *. tauto. }
    now rewrite takew_app_all, dropw_app_all. }
  assert (Hf : starts_fn ((c :: s) ++ r) = None).
  { apply starts_fn_none. intros k Hkw [r' E].
    assert (Hd : forall d, In d k -> ~ special d).
    { intros d Hd Hsp. clear - Hkw Hd Hsp. destruct Hkw as [-> | [-> | [-> | ->]]]; vm_compute in Hd, Hsp;
      repeat (destruct Hd as [<-|Hd]; [now intuition discriminate|]); easy. }
    destruct (le_lt_dec (length k) (length (c :: s))) as [Hle|Hlt].
    - apply (Hk k Hkw). assert (E2 := f_equal (firstn (length k)) E). rewrite firstn_app_len in E2.
      rewrite firstn_app in E2. replace (length k - length (c :: s)) with 0 in E2 by lia. cbn [firstn] in E2.
      rewrite app_nil_r in E2. exists (skipn (length k) (c :: s)). rewrite <- E2 at 1. symmetry. apply firstn_skipn.
    - destruct Hr as [->|(x & r2 & -> & Hx)].
      + apply (f_equal (@length _)) in E. rewrite !app_length in E. cbn in *. lia.
      + assert (E2 := f_equal (fun l => nth_error l (length (c :: s))) E). cbv beta in E2.
        rewrite nth_error_app2, Nat.sub_diag in E2 by lia. cbn [nth_error] in E2.
        rewrite nth_error_app1 in E2 by easy. symmetry in E2. apply nth_error_In in E2.
        apply (Hd x E2). unfold special. vm_compute in Hx |- *. tauto. }
  assert (Hc : ~ special c) by (apply Hs; now left).
  assert (N1 : c <> 64%N). { intros ->. apply H1. now exists s. }
  assert (N2 : c <> 42%N). { intros ->. apply H2. now exists s. }
  assert (N3 : c <> 34%N). { intros ->. apply H3. now exists s. }
  assert (Hsp : forall x, In x (L "./[]!=|()") -> c <> x). { intros x Hx ->. now apply Hc. }
  cbn [app next_tok] in *. rewrite Hf.
  assert (Hq : forall x, In x (L "./[]!=|()") -> (c =? x)%N = false). { intros x Hx. now apply N.eqb_neq, Hsp. }
  replace (c =? 34)%N with false by (symmetry; now apply N.eqb_neq).
  rewrite (Hq 47%N) by (vm_compute; tauto).
  rewrite (Hq 46%N) by (vm_compute; tauto).
  replace (existsb (N.eqb c) (L "@[]()|")) with false.
  2:{ symmetry. destruct (existsb _ _) eqn:E; [|easy]. apply existsb_exists in E as (x & Hx & E).
      apply N.eqb_eq in E as <-. exfalso. vm_compute in Hx.
      destruct Hx as [Hx|Hx]; [congruence|]. apply (Hsp c); [vm_compute; tauto|easy]. }
  rewrite (Hq 33%N) by (vm_compute; tauto).
  rewrite (Hq 61%N) by (vm_compute; tauto).
  replace (c =? 42)%N with false by (symmetry; now apply N.eqb_neq).
  exact Hn.
Qed.

Lemma next_keyword k r : keyword k -> next_tok (k ++ r) = Some (k, r).
Proof.
  intros Hk. assert (E : skipn (length k) (k ++ r) = r) by apply skipn_app_len.
  destruct Hk as [-> | [-> | [-> | ->]]]; reflexivity.
Qed.

Lemma next_valid fn s r : valid_name fn s -> boundary r -> next_tok (s ++ r) = Some (s, r).
Proof.
  intros [-> | [[_ Hk] | (H1 & H2 & _ & H3 & H4 & H5 & H6)]] Hr.
  - reflexivity.
  - now apply next_keyword.
  - now apply next_plain_name.
Qed.

Lemma scan_plain s r : plain s -> scan_str (s ++ L """" ++ r) = Some (s ++ L """", r).
Proof.
  intros [H1 H2]. induction s as [|c s IH]; [reflexivity|]. cbn [app scan_str].
  replace (c =? 34)%N with false by (symmetry; apply N.eqb_neq; intros ->; apply H1; now left).
  replace (c =? 92)%N with false by (symmetry; apply N.eqb_neq; intros ->; apply H2; now left).
  rewrite IH; [easy| |]; intros H; [apply H1|apply H2]; now right.
Qed.
Lemma next_quoted s r : plain s -> next_tok (quoted s ++ r) = Some (quoted s, r).
Proof.
  intros H. unfold quoted. rewrite <- !app_assoc.
  change (L """" ++ s ++ L """" ++ r) with (34%N :: s ++ L """" ++ r).
  cbn [next_tok]. now rewrite scan_plain.
Qed.

(* C31: a text without special characters is one token unless a function name is a proper prefix *)
Theorem name_one_token s : s <> [] -> (forall c, In c s -> ~ special c) -> strip s = s ->
  ~ starts s (L "@") -> ~ starts s (L "*") -> ~ starts s (L """") ->
  (tokenize s = [s] <-> forall k r, keyword k -> s = k ++ r -> r = []).
Proof.
  intros Hne Hs Hst H1 H2 H3.
  assert (Hone : next_tok s = Some (s, []) -> tokenize s = [s]).
  { intros E. rewrite (tokenize_scan s [s]); [|econstructor; [exact E|constructor]].
    cbn. rewrite Hst. now destruct s. }
  split.
  - intros E k r Hk ->. destruct (scan_total r) as [l Hl].
    rewrite (tokenize_scan _ (k :: l)) in E; [|econstructor; [now apply next_keyword|easy]].
    cbn in E. assert (Ek : strip k = k /\ k <> []).
    { destruct Hk as [-> | [-> | [-> | ->]]]; split; (vm_compute; reflexivity) || easy. }
    destruct Ek as [Ek Ek2]. rewrite Ek in E. destruct k as [|c k]; [easy|]. cbn [nonblank] in E.
    injection E as E _. rewrite <- (app_nil_r k) in E at 1. now apply app_inv_head in E.
  - intros Hk. apply Hone. destruct (starts_fn s) as [k|] eqn:E.
    + unfold starts_fn in E. apply find_some in E as [Hf E]. apply startswith_iff in E as [r ->].
      apply keyword_functions in Hf. assert (r = []) as -> by eauto. rewrite app_nil_r at 2. now apply next_keyword.
    + rewrite <- (app_nil_r s) at 1. apply next_plain_name; try easy; [now left|]. now apply starts_fn_none.
Qed.
Lemma strip_quoted s : strip (quoted s) = quoted s.
Proof.
  assert (H : forall t, lstrip (34%N :: t) = 34%N :: t) by reflexivity.
  unfold strip, rstrip, quoted. change (L """" ++ s ++ L """") with (34%N :: s ++ [34%N]). rewrite H.
  change (34%N :: s ++ [34%N]) with ((34%N :: s) ++ [34%N]). rewrite rev_app_distr. cbn [rev app].
  rewrite H. cbn [rev]. now rewrite rev_app_distr, rev_involutive.
Qed.
Theorem literal_one_token s : plain s -> tokenize (quoted s) = [quoted s].
Proof.
  intros H. rewrite (tokenize_scan _ [quoted s]).
  - cbn. now rewrite strip_quoted.
  - econstructor; [|constructor]. rewrite <- (app_nil_r (quoted s)) at 1. now apply next_quoted.
Qed.

(* ---------- the tokens of a written path ---------- *)

(* every token is read off as it was written *)
Fixpoint chained (l : list str) : Prop :=
  match l with
  | [] => True
  | t :: l' => next_tok (t ++ concat l') = Some (t, concat l') /\ strip t = t /\ chained l'
  end.
Lemma chained_tokens l : chained l -> tokenize (concat l) = l.
Proof.
  intros H. assert (Hs : scan (concat l) l).
  { induction l as [|t l IH]; [constructor|]. destruct H as (H1 & H2 & H3). cbn. econstructor; eauto. }
  rewrite (tokenize_scan _ _ Hs). clear Hs. induction l as [|t l IH]; [easy|].
  destruct H as (H1 & H2 & H3). cbn. rewrite H2, IH by easy.
  apply next_tok_app in H1 as [_ H1]. now destruct t.
Qed.

Lemma chained_cons t l : next_tok (t ++ concat l) = Some (t, concat l) -> strip t = t -> chained l -> chained (t :: l).
Proof. cbn. auto. Qed.

(* what may follow a path *)
Definition closes (l : list str) : Prop := chained l /\ boundary (concat l).

Lemma valid_strip fn n : valid_name fn n -> strip n = n.
Proof.
  intros [-> | [[_ [-> | [-> | [-> | ->]]]] | H]]; try (vm_compute; reflexivity). easy.
Qed.

Lemma one_char c r : In c (L "@[]()|=") -> next_tok (c :: r) = Some ([c], r).
Proof. intros H. vm_compute in H. repeat (destruct H as [<-|H]; [reflexivity|]). easy. Qed.
Lemma strip_one c : In c (L "@[]()|=/.*!") -> strip [c] = [c].
Proof. intros H. vm_compute in H. repeat (destruct H as [<-|H]; [reflexivity|]). easy. Qed.
Lemma one_chained c l : In c (L "@[]()|=") -> chained l -> chained ([c] :: l).
Proof.
  intros H Hl. apply chained_cons; [now apply one_char| |easy].
  apply strip_one. vm_compute in H |- *. tauto.
Qed.
Lemma valid_chained fn n l : valid_name fn n -> closes l -> chained (n :: l).
Proof. intros H [Hl Hb]. apply chained_cons; [now apply (next_valid fn)|now apply (valid_strip fn)|easy]. Qed.
Lemma quoted_chained n l : plain n -> chained l -> chained (quoted n :: l).
Proof. intros H Hl. apply chained_cons; [now apply next_quoted|apply strip_quoted|easy]. Qed.

Lemma boundary_cons t l c t' : t = c :: t' -> In c (L "/[]!=|()") -> boundary (concat (t :: l)).
Proof. intros -> H. right. cbn. eauto. Qed.

(* the first text of a step is no slash *)
Lemma slash_next n r : (forall r', n <> Ch "/" :: r') -> n <> [] -> next_tok (L "/" ++ n ++ r) = Some (L "/", n ++ r).
Proof.
  intros H Hn. destruct n as [|c n]; [easy|]. change (L "/") with [47%N]. cbn [app next_tok].
  change (N.eqb 47 34) with false. change (N.eqb 47 47) with true. cbn iota.
  destruct (N.eqb_spec c 47) as [->|Hc]; [now destruct (H n)|easy].
Qed.

Lemma valid_first fn n : valid_name fn n -> n <> [] /\ forall r, n <> Ch "/" :: r.
Proof.
  intros [-> | [[_ Hk] | (H1 & H2 & _)]].
  - easy.
  - destruct Hk as [-> | [-> | [-> | ->]]]; easy.
  - split; [easy|]. intros r ->. apply (H2 (Ch "/")); [now left|]. vm_compute. tauto.
Qed.

Lemma head_first g np first h : wf_head g np first h -> is_desc h = false ->
  exists t l, head_toks h = t :: l /\ t <> [] /\ forall r, t <> Ch "/" :: r.
Proof.
  intros H Hd. destruct h as [n|n|n| | |f [a|]|p ps]; try easy; cbn [head_toks]; do 2 eexists; (split; [reflexivity|]); try easy.
  - now apply (valid_first false).
  - destruct H as [[-> | [-> | [-> | ->]]] _]; easy.
  - destruct H as [[-> | [-> | [-> | ->]]] _]; easy.
Qed.

Definition chain_head h := forall g np first l, wf_head g np first h -> closes l -> chained (head_toks h ++ l).
Definition chain_path p := forall g np l, wf_path g np p -> closes l -> chained (path_toks p ++ l).
Definition chain_pred q := forall l, wf_pred q -> chained l -> chained (pred_toks q ++ l).

Lemma closes_cons t l : closes l \/ chained l -> chained (t :: l) -> boundary (concat (t :: l)) -> closes (t :: l).
Proof. intros _ H1 H2. now split. Qed.

Lemma chain_all : (forall h, chain_head h) /\ (forall p, chain_path p) /\ (forall q, chain_pred q).
Proof.
  assert (Hatom : forall h, is_group h = false -> chain_head h).
  { intros [n|n|n| | |f a|p ps] Hg g np first l H Hl; try easy; cbn [head_toks app].
    - now apply (valid_chained false).
    - apply chained_cons; [reflexivity|reflexivity|]. now apply (valid_chained true).
    - change (L "@") with [Ch "@"]. apply one_chained; [vm_compute; tauto|]. now apply (valid_chained true).
    - apply chained_cons; [reflexivity|reflexivity|apply Hl].
    - destruct Hl as [Hl Hb]. apply chained_cons; [|reflexivity|easy].
      destruct Hb as [->|(c & r & -> & Hc)]; [reflexivity|].
      vm_compute in Hc. repeat (destruct Hc as [<-|Hc]; [reflexivity|]). easy.
    - destruct H as [Hk Ha]. destruct Hl as [Hl Hb].
      assert (Hp : chained (L ")" :: l)). { change (L ")") with [Ch ")"]. apply one_chained; [vm_compute; tauto|easy]. }
      assert (Hs : strip f = f). { apply (valid_strip true). right; left; easy. }
      destruct a as [a|]; cbn [app]; (apply chained_cons; [now apply next_keyword|easy|]);
      (change (L "(") with [Ch "("]; apply one_chained; [vm_compute; tauto|]).
      + now apply quoted_chained. + easy. }
  assert (Hgroup : forall p ps, chain_path p -> Forall chain_path ps -> chain_head (HGroup p ps)).
  { intros p ps Hp Hps g np first l H [Hl Hb]. apply wf_group_eq in H as (_ & H1 & H2). cbn [head_toks].
    cbn [app]. change (L "(") with [Ch "("]. apply one_chained; [vm_compute; tauto|].
    rewrite <- app_assoc. apply (Hp true np); [easy|]. rewrite <- app_assoc.
    assert (Hc : closes ([L ")"] ++ l)).
    { split; [|eapply boundary_cons; [reflexivity|vm_compute; tauto]].
      change (L ")") with [Ch ")"]. apply one_chained; [vm_compute; tauto|easy]. }
    revert Hc. generalize ([L ")"] ++ l) as k. clear - Hps H2.
    induction ps as [|q ps IH]; intros k Hk; cbn [flat_map app]; [easy|].
    inversion Hps as [|? ? Hq Hps']; inversion H2 as [|? ? Hw H2']; subst.
    split; [|eapply boundary_cons; [reflexivity|vm_compute; tauto]].
    change (L "|") with [Ch "|"]. apply one_chained; [vm_compute; tauto|].
    rewrite <- app_assoc. apply (Hq true np); [easy|]. now apply IH. }
  assert (Hpath : forall a ss, Forall (fun x => chain_head (fst x) /\ Forall chain_pred (snd x)) ss -> chain_path (Path a ss)).
  { intros a ss Hss g np l H Hl. rewrite path_toks_eq. apply wf_path_eq in H as (Hne & _ & H).
    assert (Hpreds : forall ps k, Forall chain_pred ps -> Forall wf_pred ps -> closes k -> closes (flat_map pred_toks ps ++ k)).
    { clear. induction ps as [|q ps IH]; intros k F1 F2 Hk; cbn [flat_map app]; [easy|].
      inversion F1 as [|? ? Hq F1']; inversion F2 as [|? ? Hw F2']; subst.
      rewrite <- app_assoc. split; [now apply Hq, IH|].
      destruct q. cbn [pred_toks app]. eapply boundary_cons; [reflexivity|vm_compute; tauto]. }
    assert (G : forall first ss, Forall (fun x => chain_head (fst x) /\ Forall chain_pred (snd x)) ss ->
              wf_steps g np first ss -> chained (steps_toks a first ss ++ l)
              /\ (first = false -> boundary (concat (steps_toks a first ss ++ l)))).
    { clear - Hl Hpreds. intros first ss; revert first. induction ss as [|[h ps] ss IH]; intros first F H; cbn [steps_toks app].
      - split; [apply Hl|intros _; apply Hl].
      - inversion F as [|? ? [Fh Fp] F']; subst. destruct H as (H1 & H2 & H3 & H4). cbn [fst snd] in *.
        destruct (IH false F' H4) as [I1 I2].
        assert (Hc : closes (flat_map pred_toks ps ++ steps_toks a false ss ++ l)).
        { apply Hpreds; auto. now split; auto. }
        assert (Hh : chained (head_toks h ++ flat_map pred_toks ps ++ steps_toks a false ss ++ l)).
        { eapply Fh; eauto. }
        rewrite <- !app_assoc. destruct (is_desc h) eqn:Ed.
        + cbn [negb andb slash_if app]. split; [easy|]. intros _. destruct h; try easy.
          cbn [head_toks app]. eapply boundary_cons; [reflexivity|vm_compute; tauto].
        + cbn [negb andb]. destruct (a || negb first) eqn:Es; cbn [slash_if app].
          * split; [|intros _; eapply boundary_cons; [reflexivity|vm_compute; tauto]].
            apply chained_cons; [|reflexivity|easy].
            destruct (head_first _ _ _ _ H1 Ed) as (t & k & E & Ht1 & Ht2). rewrite E. cbn [app concat].
            now apply slash_next.
          * split; [easy|]. intros ->. now rewrite orb_true_r in Es. }
    now apply (G true). }
  assert (Hpred : forall sub test, chain_path sub -> chain_pred (Pred sub test)).
  { intros sub test Hs l [H1 H2] Hl. cbn [pred_toks app].
    change (L "[") with [Ch "["]. apply one_chained; [vm_compute; tauto|].
    rewrite <- app_assoc. apply (Hs false true); [easy|]. rewrite <- app_assoc. cbn [app].
    assert (Hb : chained (L "]" :: l)). { change (L "]") with [Ch "]"]. apply one_chained; [vm_compute; tauto|easy]. }
    destruct test as [[neg lit]|]; cbn [app].
    2:{ split; [easy|eapply boundary_cons; [reflexivity|vm_compute; tauto]]. }
    assert (Hq : chained (quoted lit :: L "]" :: l)) by now apply quoted_chained.
    destruct neg.
    - split; [|eapply boundary_cons; [reflexivity|vm_compute; tauto]].
      apply chained_cons; [reflexivity|reflexivity|easy].
    - split; [|eapply boundary_cons; [reflexivity|vm_compute; tauto]].
      change (L "=") with [Ch "="]. apply one_chained; [vm_compute; tauto|easy]. }
  split; [|split]; intros x.
  - now apply (ih_head _ _ _ Hatom Hgroup Hpath Hpred).
  - now apply (ih_path _ _ _ Hatom Hgroup Hpath Hpred).
  - now apply (ih_pred _ _ _ Hatom Hgroup Hpath Hpred).
Qed.

Theorem show_tokens g np p : wf_path g np p -> tokenize (show p) = path_toks p.
Proof.
  intros H. apply chained_tokens. rewrite <- (app_nil_r (path_toks p)).
  apply (proj1 (proj2 chain_all) p g np []); [easy|]. split; [easy|now left].
Qed.
End Tokens.
