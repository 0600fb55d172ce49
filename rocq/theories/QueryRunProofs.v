(* Proofs about xigt query over files. *)
From Verif Require Import PyStr PyStrFacts SpecRef Ref Model SpecModel XmlStd Xml SpecXml XmlText Index Files SpecValidateRun.
From Verif Require Path SpecPathSame PathSameProofs SameProofs TextRunProofs.
From Verif Require Import Scripts Format SpecFormat FormatProofs QueryRun SpecQueryRun.

Section Query.
Context {U : Unicode}.
Context (obj_str : nat -> str) (show_other : fval -> str -> option N -> str -> res str).
Variable num : Path.pval -> nat.
Variable vfuel : nat.
Variable ahead : str -> nat.
Notation of_pval := (of_pval num).
Notation found := (found num vfuel).
Notation findall := (findall vfuel).
Notation run_find := (run_find obj_str show_other num vfuel).
Notation run_counts := (run_counts obj_str show_other num vfuel).
Notation run_tally := (run_tally obj_str show_other num vfuel).
Notation run_agenda := (run_agenda obj_str show_other num vfuel).
Notation run_corpus := (run_corpus obj_str show_other num vfuel).
Notation run_file := (run_file obj_str show_other num vfuel).
Notation run_files := (run_files obj_str show_other num vfuel).
Notation run_loaded := (run_loaded obj_str show_other num vfuel).
Notation run := (run obj_str show_other num vfuel ahead).
Notation load_file := (load_file ahead).
Notation heading := (heading obj_str show_other).

(* ---------- file after file ---------- *)

Theorem files_order o args fs1 fs2 : (exists l, make_job obj_str show_other args = Ok l) ->
  first_then (run_loaded o args fs1) (run_loaded o args fs2) (run_loaded o args (fs1 ++ fs2)).
Proof.
  intros [l E]. unfold QueryRun.run_loaded. rewrite E. clear E. unfold first_then. induction fs1 as [|[p r] fs1 IH]; cbn [app QueryRun.run_files].
  - cbn. now destruct (run_files o l fs2).
  - destruct (run_file o l p r) as [x [e|]]; cbn [snd]; [reflexivity|].
    destruct (run_files o l fs1) as [a [e|]]; cbn [fst snd] in *; rewrite IH; [reflexivity|]. now rewrite app_assoc.
Qed.
Theorem run_order o args ps1 ps2 w : (exists l, make_job obj_str show_other args = Ok l) ->
  first_then (run o args ps1 w) (run o args ps2 w) (run o args (ps1 ++ ps2) w).
Proof. intros H. unfold QueryRun.run. rewrite map_app. now apply files_order. Qed.
Theorem bad_args o args ps w e : make_job obj_str show_other args = Err e -> run o args ps w = ([], Some e).
Proof. intros H. unfold QueryRun.run, QueryRun.run_loaded. now rewrite H. Qed.
Theorem unreadable o args p w l h e : make_job obj_str show_other args = Ok l -> heading o p = Ok h -> load_file w p = Err e ->
  run o args [p] w = ([h], Some e).
Proof. intros H1 H2 H3. unfold QueryRun.run, QueryRun.run_loaded. cbn. rewrite H1. unfold QueryRun.run_file. now rewrite H2, H3. Qed.
Theorem missing_file o args p w l h : make_job obj_str show_other args = Ok l -> heading o p = Ok h -> dget (d_files w) p = None ->
  run o args [p] w = ([h], Some OSError).
Proof. intros H1 H2 H3. apply (unreadable o args p w l h OSError H1 H2). unfold QueryRun.load_file. now rewrite H3. Qed.
Theorem reads_only o args ps w w' : (forall p, In p ps -> dget (d_files w) p = dget (d_files w') p) -> run o args ps w = run o args ps w'.
Proof.
  intros H. unfold QueryRun.run. f_equal. apply map_ext_in. intros p Hp. unfold QueryRun.load_file. now rewrite (H p Hp).
Qed.

(* ---------- one file: what Format.v says ---------- *)

Lemma tally_found findsub c a : (forall v q, findsub (of_pval v) q = found v q) ->
  tally_pattern obj_str show_other (found (root c)) findsub a = run_tally c a.
Proof.
  intros H. unfold tally_pattern, QueryRun.run_tally, tally. unfold QueryRun.found at 1.
  destruct (findall (root c) (a_query a)) as [ms|e]; [|reflexivity]. cbn [bind].
  assert (E : forall n, tally_loop (fun m => findsub m (a_sub a)) (map of_pval ms) n = tally_loop (fun m => found m (a_sub a)) ms n).
  { induction ms as [|m ms IH]; intros n; cbn [map tally_loop]; [reflexivity|]. rewrite H. destruct (found m (a_sub a)) as [g|]; [|reflexivity].
    cbn [bind]. destruct (count1 n g); [|reflexivity]. apply IH. }
  now rewrite E.
Qed.
Lemma print_found a ms : match mapM (fun m => do x <- fill obj_str show_other a (FVal m); Ok (L "  " ++ x)) ms with
  | Ok p => print_all obj_str show_other a ms = (p, None) | Err e => snd (print_all obj_str show_other a ms) = Some e end.
Proof.
  induction ms as [|m ms IH]; cbn [mapM print_all]; [reflexivity|]. destruct (fill obj_str show_other a (FVal m)) as [x|e]; cbn [bind]; [|reflexivity].
  destruct (mapM _ ms) as [p|e]; cbn [bind]; destruct (print_all obj_str show_other a ms) as [p' e']; cbn [snd] in *; congruence.
Qed.
Lemma agenda_found findsub c l : (forall v q, findsub (of_pval v) q = found v q) ->
  match process_agenda obj_str show_other (found (root c)) findsub l with
  | Ok (p, r) => run_agenda c l = (p, Ok r) | Err e => snd (run_agenda c l) = Err e end.
Proof.
  intros H. induction l as [|a l IH]; [reflexivity|]. cbn [process_agenda QueryRun.run_agenda].
  assert (C : forall r0 : res (list (nat * str)), match (do (p, r) <- (do r <- r0; Ok ([], r)); do (p', r') <- process_agenda obj_str show_other (found (root c)) findsub l; Ok (p ++ p', r ++ r')) with
    | Ok (p, r) => match r0 with Err e => ([], Err e) | Ok r => let '(p, r') := run_agenda c l in (p, do x <- r'; Ok (r ++ x)) end = (p, Ok r)
    | Err e => snd (match r0 with Err e => ([], Err e) | Ok r => let '(p, r') := run_agenda c l in (p, do x <- r'; Ok (r ++ x)) end) = Err e end).
  { intros [r|e]; cbn [bind]; [|reflexivity]. destruct (process_agenda _ _ _ _ l) as [[p' r']|e]; cbn [bind].
    - rewrite IH. reflexivity.
    - destruct (run_agenda c l) as [p' r']. cbn [snd] in *. rewrite IH. reflexivity. }
  unfold QueryRun.run_counts. destruct (a_action a).
  - unfold find_pattern, QueryRun.run_find. destruct (found (root c) (a_query a)) as [ms|e]; cbn [bind]; [|reflexivity].
    pose proof (print_found a ms) as Hp. destruct (mapM _ ms) as [p|e]; cbn [bind].
    + rewrite Hp. destruct (process_agenda _ _ _ _ l) as [[p' r']|e]; cbn [bind].
      * rewrite IH. reflexivity.
      * destruct (run_agenda c l) as [p' r']. exact IH.
    + destruct (print_all obj_str show_other a ms) as [p' e']. cbn [snd] in Hp. subst e'. reflexivity.
  - rewrite (tally_found findsub c a H). apply C.
  - apply C.
  - apply C.
Qed.
Theorem one_file o args p w h c findsub : (forall v q, findsub (of_pval v) q = found v q) -> heading o p = Ok h -> load_file w p = Ok c ->
  match query_run obj_str show_other (found (root c)) findsub args with
  | Ok lines => run o args [p] w = (h :: lines, None)
  | Err e => snd (run o args [p] w) = Some e
  end.
Proof.
  intros Hs Hh Hl. unfold QueryRun.run, QueryRun.run_loaded, query_run. destruct (make_job obj_str show_other args) as [l|e]; cbn [bind]; [|reflexivity].
  cbn [map QueryRun.run_files]. unfold QueryRun.run_file. rewrite Hh, Hl. unfold query_file, QueryRun.run_corpus.
  pose proof (agenda_found findsub c l Hs) as Ha. destruct (process_agenda _ _ _ _ l) as [[p' r']|e]; cbn [bind].
  - rewrite Ha, app_nil_r. reflexivity.
  - destruct (run_agenda c l) as [p' r']. cbn [snd] in Ha. subst r'. reflexivity.
Qed.

(* ---------- headings and default descriptions ---------- *)

Theorem default_heading p b : heading {| q_heading := None; q_basename := b |} p = Ok ((if b then basename p else p) ++ L ":").
Proof. destruct b; reflexivity. Qed.
Lemma base_no_slash p : existsb (N.eqb (Ch "/")) p = false -> basename p = p.
Proof. destruct p as [|c p]; [reflexivity|]. intros H. cbn [basename]. now rewrite H. Qed.
Theorem basename_of d n : ~ In (Ch "/") n -> basename n = n /\ basename (d ++ Ch "/" :: n) = n.
Proof.
  intros H. assert (E : existsb (N.eqb (Ch "/")) n = false).
  { apply Bool.not_true_is_false. intros K. apply existsb_exists in K as (x & Hx & K). apply N.eqb_eq in K. now subst x. }
  split; [now apply base_no_slash|]. induction d as [|c d IH].
  - cbn [app basename existsb]. rewrite N.eqb_refl. cbn [orb]. now apply base_no_slash.
  - cbn [app basename]. destruct (existsb (N.eqb (Ch "/")) (c :: d ++ Ch "/" :: n)) eqn:K; [exact IH|].
    exfalso. apply Bool.not_true_iff_false in K. apply K. apply existsb_exists. exists (Ch "/"). split; [|apply N.eqb_refl]. right. apply in_or_app. right. now left.
Qed.
Lemma default_agendum a q : new_agendum obj_str show_other a q [] DESC1 = Ok {| a_action := a; a_query := q; a_sub := []; a_desc := q ++ [9%N] ++ L "{match!s}" |}.
Proof.
  unfold new_agendum. assert (E : safe_format obj_str show_other (given q []) DESC1 = Ok (q ++ [9%N] ++ L "{match!s}")) by reflexivity. now rewrite E.
Qed.
Lemma default_fill a q m : no_braces q -> fill obj_str show_other {| a_action := a; a_query := q; a_sub := []; a_desc := q ++ [9%N] ++ L "{match!s}" |} m
  = Ok (q ++ [9%N] ++ fval_str obj_str m).
Proof.
  intros H. unfold fill, str_format. cbn [a_desc build].
  assert (E : parse (q ++ [9%N] ++ L "{match!s}") = (map TLit q ++ [TLit 9%N; TField {| f_name := L "match"; f_conv := Some 115%N; f_spec := [] |}], false)).
  { apply parse_ok, parses_app_text; [exact H|]. apply (P_lit 9%N); [reflexivity|]. eapply (P_field (L "match!s}")); [reflexivity|constructor]. }
  rewrite E. rewrite fill_app, fill_lits. cbn -[fval_str]. unfold bind.
  change (lookup _ _) with (Ok m : res fval). cbv iota beta. change (show _ _ m _ _ _) with (Ok (fval_str obj_str m)). cbv iota beta. now rewrite app_nil_r.
Qed.
Theorem count_run p w b c q ms : no_braces q -> load_file w p = Ok c -> findall (root c) q = Ok ms ->
  run {| q_heading := None; q_basename := b |} [GCount q] [p] w
  = ([(if b then basename p else p) ++ L ":"; L " " ++ dec_nat (length ms) ++ [9%N] ++ q ++ [9%N]; []], None).
Proof.
  intros Hq Hl Hf. unfold QueryRun.run, QueryRun.run_loaded. cbn [make_job make_agenda]. rewrite default_agendum. cbn [bind make_agenda rev app map QueryRun.run_files].
  unfold QueryRun.run_file. rewrite default_heading, Hl. unfold QueryRun.run_corpus. cbn [QueryRun.run_agenda a_action]. unfold QueryRun.run_counts, count_pattern, count.
  cbn [a_action a_query]. unfold QueryRun.found at 1. rewrite Hf. cbn [bind]. rewrite map_length, default_fill by exact Hq. cbn [bind app fval_str val_str].
  unfold print_results, rjust, max_len. cbn [map fst fold_right]. rewrite Nat.max_0_r, Nat.sub_diag. cbn [repeat app]. reflexivity.
Qed.
Theorem find_run p w b c q ms : no_braces q -> load_file w p = Ok c -> findall (root c) q = Ok ms ->
  run {| q_heading := None; q_basename := b |} [GFind q] [p] w
  = (((if b then basename p else p) ++ L ":") :: map (fun m => L "  " ++ q ++ [9%N] ++ printed obj_str num m) ms ++ [[]], None).
Proof.
  intros Hq Hl Hf. unfold QueryRun.run, QueryRun.run_loaded. cbn [make_job make_agenda]. rewrite default_agendum. cbn [bind make_agenda rev app map QueryRun.run_files].
  unfold QueryRun.run_file. rewrite default_heading, Hl. unfold QueryRun.run_corpus. cbn [QueryRun.run_agenda a_action]. unfold QueryRun.run_find.
  cbn [a_query]. unfold QueryRun.found at 1. rewrite Hf. cbn [bind].
  assert (E : forall l, print_all obj_str show_other {| a_action := Find; a_query := q; a_sub := []; a_desc := q ++ [9%N] ++ L "{match!s}" |} (map of_pval l)
    = (map (fun m => L "  " ++ q ++ [9%N] ++ printed obj_str num m) l, None)).
  { induction l as [|m l IH]; [reflexivity|]. cbn [map print_all]. rewrite default_fill by exact Hq. rewrite IH. now destruct m. }
  rewrite E. cbn [map print_results app]. now rewrite !app_nil_r.
Qed.
Theorem find_until p w b c q q' ms e : no_braces q -> load_file w p = Ok c -> findall (root c) q = Ok ms -> findall (root c) q' = Err e ->
  run {| q_heading := None; q_basename := b |} [GFind q; GCount q'] [p] w
  = (((if b then basename p else p) ++ L ":") :: map (fun m => L "  " ++ q ++ [9%N] ++ printed obj_str num m) ms, Some e).
Proof.
  intros Hq Hl Hf Hf'. unfold QueryRun.run, QueryRun.run_loaded. cbn [make_job make_agenda]. rewrite default_agendum. cbn [bind make_agenda]. rewrite default_agendum.
  cbn [bind make_agenda rev app map QueryRun.run_files].
  unfold QueryRun.run_file. rewrite default_heading, Hl. unfold QueryRun.run_corpus. cbn [QueryRun.run_agenda a_action]. unfold QueryRun.run_find.
  cbn [a_query]. unfold QueryRun.found at 1. rewrite Hf. cbn [bind].
  assert (E : forall l, print_all obj_str show_other {| a_action := Find; a_query := q; a_sub := []; a_desc := q ++ [9%N] ++ L "{match!s}" |} (map of_pval l)
    = (map (fun m => L "  " ++ q ++ [9%N] ++ printed obj_str num m) l, None)).
  { induction l as [|m l IH]; [reflexivity|]. cbn [map print_all]. rewrite default_fill by exact Hq. rewrite IH. now destruct m. }
  rewrite E. unfold QueryRun.run_counts, count_pattern, count. cbn [a_action a_query]. unfold QueryRun.found at 1. rewrite Hf'. cbn [bind]. now rewrite app_nil_r.
Qed.

(* ---------- equal corpora ---------- *)

Definition alike (x y : pyval) : Prop := x = y \/ (exists n m, x = VObj n /\ y = VObj m).
Lemma of_pval_alike v v' : SpecPathSame.same_val v v' -> alike (of_pval v) (of_pval v').
Proof. intros H. unfold alike. destruct v, v'; cbn in H |- *; try contradiction; [right; eauto|left; congruence|now left|right; eauto]. Qed.
Lemma hash_alike g g' : Forall2 alike g g' -> hashable g = hashable g' /\ (hashable g = true -> g = g').
Proof.
  induction 1 as [|x y g g' H _ [IH1 IH2]]; [now split|]. cbn. fold (hashable g) (hashable g'). split.
  - rewrite IH1. destruct H as [->|(n & m & -> & ->)]; reflexivity.
  - destruct H as [->|(n & m & -> & ->)]; cbn; [|easy]. intros H. f_equal. apply IH2. destruct y; cbn in H; congruence.
Qed.
Lemma count_alike n g g' : Forall2 alike g g' -> count1 n g = count1 n g'.
Proof.
  intros H. apply hash_alike in H as [E K]. unfold count1. rewrite <- E. destruct (hashable g); [|reflexivity]. now rewrite K.
Qed.
Definition alike_res (r r' : res (list pyval)) : Prop := match r, r' with Ok l, Ok l' => Forall2 alike l l' | Err e, Err e' => e = e' | _, _ => False end.
Lemma findall_same v v' q : SpecPathSame.plain_path q -> SpecPathSame.same_val v v' -> SpecPathSame.same_results (findall v q) (findall v' q).
Proof. intros Hq H. unfold QueryRun.findall. apply PathSameProofs.path_same; auto. apply PathSameProofs.construct_same. Qed.
Lemma found_same v v' q : SpecPathSame.plain_path q -> SpecPathSame.same_val v v' -> alike_res (found v q) (found v' q).
Proof.
  intros Hq H. pose proof (findall_same v v' q Hq H) as Hr. unfold QueryRun.found. destruct (findall v q), (findall v' q); cbn in *; try easy.
  eapply PathSameProofs.F2_map; [|exact Hr]. apply of_pval_alike.
Qed.
Lemma tally_loop_same {M N} (f : M -> res (list pyval)) (g : N -> res (list pyval)) (R : M -> N -> Prop) l l' :
  (forall a b, R a b -> alike_res (f a) (g b)) -> Forall2 R l l' -> forall n, tally_loop f l n = tally_loop g l' n.
Proof.
  intros H. induction 1 as [|a b l l' Hab _ IH]; intros n; cbn [tally_loop]; [reflexivity|]. specialize (H a b Hab).
  destruct (f a) as [x|e], (g b) as [y|e']; cbn in H |- *; try easy; [|congruence].
  rewrite (count_alike n x y H). destruct (count1 n y); cbn [bind]; [apply IH|reflexivity].
Qed.
Definition agendum_plain (a : agendum) : Prop := SpecPathSame.plain_path (a_query a) /\ (a_action a = Tally -> SpecPathSame.plain_path (a_sub a)).
Lemma root_same c c' : same_corpus c c' -> SpecPathSame.same_val (root c) (root c').
Proof. intros H. cbn. split; [exact H|constructor]. Qed.
Lemma counts_same c c' a : a_action a <> Find -> agendum_plain a -> same_corpus c c' -> run_counts c a = run_counts c' a.
Proof.
  intros Hn [Hq Hs] Hc. unfold QueryRun.run_counts. apply root_same in Hc. pose proof (found_same _ _ _ Hq Hc) as Hf.
  destruct (a_action a); [easy| | |].
  - unfold QueryRun.run_tally, tally. pose proof (findall_same _ _ _ Hq Hc) as Hr.
    destruct (findall (root c) (a_query a)), (findall (root c') (a_query a)); cbn in Hr |- *; try easy; [|congruence].
    rewrite (tally_loop_same _ (fun m => found m (a_sub a)) SpecPathSame.same_val _ _ (fun x y H => found_same x y _ (Hs eq_refl) H) Hr). reflexivity.
  - unfold unique_pattern, unique. destruct (found (root c) (a_query a)) as [x|], (found (root c') (a_query a)) as [y|]; cbn [alike_res] in Hf; try easy; [|congruence].
    cbn [bind]. assert (E : tally_loop (fun v => Ok [v]) x [] = tally_loop (fun v => Ok [v]) y []); [|now rewrite E].
    apply (tally_loop_same _ _ alike); [|exact Hf]. intros u v H. cbn. constructor; [exact H|constructor].
  - unfold count_pattern, count. destruct (found (root c) (a_query a)), (found (root c') (a_query a)); cbn [alike_res] in Hf; try easy; [|congruence].
    cbn [bind]. now rewrite (SameProofs.length_same _ _ _ Hf).
Qed.
Definition prints (c : corpus) (q : str) : Prop := forall l, findall (root c) q = Ok l -> Forall printable l.
Lemma find_same c c' a : agendum_plain a -> prints c (a_query a) -> same_corpus c c' -> run_find c a = run_find c' a.
Proof.
  intros [Hq _] Hp Hc. unfold QueryRun.run_find, QueryRun.found. apply root_same in Hc. pose proof (findall_same _ _ _ Hq Hc) as Hr. specialize (Hp).
  unfold prints in Hp. destruct (findall (root c) (a_query a)) as [l|e], (findall (root c') (a_query a)) as [l'|e']; cbn in Hr |- *; try easy; [|congruence].
  specialize (Hp l eq_refl). f_equal. clear - Hp Hr. induction Hr as [|v v' l l' H _ IH]; [reflexivity|]. cbn [map]. f_equal; [|apply IH; now inversion Hp].
  apply Forall_inv in Hp. destruct v, v'; cbn in *; try easy; congruence.
Qed.
Lemma agenda_same c c' l : Forall agendum_plain l -> (forall a, In a l -> a_action a = Find -> prints c (a_query a)) -> same_corpus c c' -> run_agenda c l = run_agenda c' l.
Proof.
  intros Hl Hp Hc. induction Hl as [|a l Ha _ IH]; [reflexivity|]. cbn [QueryRun.run_agenda]. rewrite IH by (intros; apply Hp; [now right|assumption]).
  destruct (a_action a) eqn:Ea; [rewrite (find_same c c' a Ha (Hp a (or_introl eq_refl) Ea) Hc); reflexivity| | |];
    rewrite (counts_same c c' a) by (auto; congruence); reflexivity.
Qed.
Lemma job_of args l : make_job obj_str show_other args = Ok l -> Forall arg_plain args ->
  Forall agendum_plain l /\ forall a, In a l -> a_action a = Find -> In (GFind (a_query a)) args.
Proof.
  assert (G : forall args0 args done l, make_agenda obj_str show_other done args = Ok l -> Forall arg_plain args -> incl args args0 ->
    (forall a, In a done -> agendum_plain a /\ (a_action a = Find -> In (GFind (a_query a)) args0)) ->
    forall a, In a l -> agendum_plain a /\ (a_action a = Find -> In (GFind (a_query a)) args0)).
  { clear args l. intros args0 args. induction args as [|g args0' IH]; intros done l' E Hp Hi Hd.
    - injection E as <-. intros a Ha. apply in_rev in Ha. auto.
    - pose proof (Forall_inv Hp) as Hg. apply Forall_inv_tail in Hp. assert (Hg0 : In g args0) by (apply Hi; now left). assert (Hi' : incl args0' args0) by (intros x Hx; apply Hi; now right).
      destruct g as [q|q sq|q|q|d]; cbn [make_agenda] in E; unfold new_agendum in E.
      1-4: destruct (safe_format _ _ _ _) as [d|]; [|discriminate]; cbn [bind] in E; apply (IH _ _ E Hp Hi');
        intros a [<-|Ha]; [|auto]; cbn; (split; [split; cbn; [apply Hg|try easy; intros _; apply Hg]|try easy; now intros _]).
      destruct done as [|a0 done]; [discriminate|]. destruct (safe_format _ _ _ _) as [d'|]; [|discriminate]. cbn [bind] in E.
      apply (IH _ _ E Hp Hi'). intros a [<-|Ha]; [|apply Hd; now right]. cbn. apply (Hd a0). now left. }
  intros E Hp. unfold make_job in E. destruct args as [|g args]; [discriminate|].
  pose proof (G (g :: args) (g :: args) [] l E Hp (fun x H => H) (fun a H => match H with end)) as K. split.
  - apply Forall_forall. intros a Ha. now apply K.
  - intros a Ha. now apply K.
Qed.
Theorem saved_run o args w paths cs : Forall2 (saved_as w) paths cs -> Forall arg_plain args ->
  (forall q, In (GFind q) args -> Forall (fun c => prints c q) cs) ->
  run o args paths w = run_loaded o args (combine paths (map Ok cs)).
Proof.
  intros Hs Hp Hf. unfold QueryRun.run, QueryRun.run_loaded. destruct (make_job obj_str show_other args) as [l|e] eqn:E; [|reflexivity].
  destruct (job_of args l E Hp) as [Hl Hq].
  induction Hs as [|p c paths cs (Ht & Ho & Hk & indent & s & Hd & Hg) _ IH]; [reflexivity|]. cbn [map combine QueryRun.run_files].
  rewrite IH by (intros q Hin; specialize (Hf q Hin); now inversion Hf). clear IH.
  destruct (TextRunProofs.text_kept c indent Ht Ho Hk) as (s' & c' & Hd' & Hld & Hc). assert (s' = s) by congruence. subst s'.
  assert (El : load_file w p = Ok c') by (unfold QueryRun.load_file; rewrite Hg; apply Hld).
  assert (Ec : run_corpus c' l = run_corpus c l).
  { unfold QueryRun.run_corpus. rewrite (agenda_same c c' l); auto. intros a Ha Hfa. specialize (Hf _ (Hq a Ha Hfa)). now inversion Hf. }
  unfold QueryRun.run_file. rewrite El, Ec. reflexivity.
Qed.
End Query.
