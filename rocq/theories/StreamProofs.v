(* Proofs about reading and exporting igt by igt. *)
From Verif Require Import PyStr SpecRef Ref Model SpecModel XmlStd Xml SpecXml XmlText Value Latex Files SpecImport Stream SpecStream ExportRun.
From Verif Require Import PyStrFacts LoadProofs.
From Verif Require XmlProofs SchemaErrProofs TextRunProofs SameProofs ImportRunProofs.

Lemma lazily_ok {A B} (f : A -> res B) l ys : lazily f l None = (ys, None) <-> traverse f l = Ok ys.
Proof.
  revert ys. induction l as [|x l IH]; intros ys; cbn [lazily traverse]; [split; intros E; assert (ys = []) by congruence; now subst|].
  destruct (f x) as [y|e]; cbn [bind]; [|split; discriminate]. destruct (lazily f l None) as [zs [e|]] eqn:E.
  - split; [discriminate|]. destruct (traverse f l) as [us|] eqn:Et; cbn [bind]; [|discriminate]. pose proof (proj2 (IH us) eq_refl). congruence.
  - rewrite (proj1 (IH zs) eq_refl). cbn [bind]. split; intros Ey; congruence.
Qed.
Lemma lazily_end {A B} (f : A -> res B) l ys x : lazily f l (Some x) <> (ys, None).
Proof. revert ys. induction l as [|y l IH]; intros ys; cbn [lazily]; [discriminate|]. destruct (f y); [|discriminate]. destruct (lazily f l (Some x)) as [zs [e|]] eqn:E; [discriminate|]. now destruct (IH zs). Qed.
Lemma iter_iff tag stop evs : iter_elements tag stop evs = (let (l, b) := iter_lazily tag stop evs in if b then Some l else None).
Proof.
  induction evs as [|e evs IH]; [reflexivity|]. cbn [iter_elements iter_lazily]. destruct (stop e); [reflexivity|]. rewrite IH. destruct (iter_lazily tag stop evs) as [l b].
  destruct e as [p|p]; [now destruct b|]. destruct (str_eqb (p_tag p) tag), b; reflexivity.
Qed.

Section StreamProofs.
Context {U : Unicode}.

Lemma distinct_container gs : distinct gs -> new_container (fun g => a_id (g_attrs g)) gs = Ok gs.
Proof. intros H. unfold new_container. rewrite XmlProofs.check_ids_ok; [reflexivity|exact H|easy]. Qed.
Lemma container_distinct gs gs' : new_container (fun g => a_id (g_attrs g)) gs = Ok gs' -> gs' = gs /\ distinct gs.
Proof. unfold new_container. intros E. inv_bind E. destruct x. assert (gs' = gs) by congruence. split; [easy|]. now apply (check_ids_sound _ []). Qed.
Lemma corpus_open p igts c : decode_xigtcorpus p igts = Ok c <->
  exists c0, open_corpus p = Ok c0 /\ c0 = {| c_attrs := c_attrs c; c_md := c_md c; c_igts := [] |} /\ traverse decode_igt igts = Ok (c_igts c) /\ distinct (c_igts c).
Proof.
  unfold decode_xigtcorpus, open_corpus. destruct (expect_tag _ p) as [ns|]; cbn [bind]; [|split; [discriminate|intros (? & H & _); discriminate]].
  destruct (decode_metadatas p) as [ms|]; cbn [bind]; [|split; [discriminate|intros (? & H & _); discriminate]].
  destruct (decode_attrs _ _ _ _ p) as [a|]; cbn [bind]; [|split; [discriminate|intros (? & H & _); discriminate]]. split.
  - intros E. inv_bind E. inv_bind E. apply container_distinct in E1 as [-> Hd]. assert (c = {| c_attrs := a; c_md := ms; c_igts := x |}) by congruence. subst c. cbn [c_attrs c_md c_igts].
    eexists. split; [reflexivity|]. split; [reflexivity|]. now split.
  - intros (c0 & E0 & E1 & Et & Hd). rewrite Et. cbn [bind]. rewrite (distinct_container _ Hd). cbn [bind]. destruct c as [ca cm ci]. cbn [c_attrs c_md c_igts] in *. assert (a = ca /\ ms = cm) as [-> ->] by (split; congruence). reflexivity.
Qed.
(* whatever is loaded comes igt by igt, and conversely if no id is there twice *)
Theorem decode_iff ahead p c : decode ahead p = Ok c <-> exists st, decode_stream ahead p = Ok st /\ gives st c /\ distinct (st_igts st).
Proof.
  unfold decode, decode_with, decode_stream, gives. destruct (skip_to _ (events p)) as [[e rest]|]; [|split; [discriminate|intros (? & H & _); discriminate]].
  set (seen := view _ _ _ _). destruct e as [q|q].
  - set (r := if igt_in_meta p then _ else _). rewrite iter_iff. destruct (iter_lazily _ _ r) as [igts b]. destruct b.
    + rewrite corpus_open. split.
      * intros (c0 & E0 & Ec & Et & Hd). rewrite E0. cbn [bind]. apply lazily_ok in Et. rewrite Et. eexists. split; [reflexivity|]. cbn [st_corpus st_igts st_end]. now subst c0.
      * intros (st & E & (E1 & E2 & E3) & Hd). destruct (open_corpus seen) as [c0|]; [|discriminate]. cbn [bind] in E. destruct (lazily _ _ None) as [gs x] eqn:El. exists c0.
        assert (st = {| st_corpus := c0; st_igts := gs; st_end := x |}) by congruence. subst st. cbn [st_corpus st_igts st_end] in *. subst x. apply lazily_ok in El. subst gs. now subst c0.
    + split; [discriminate|]. intros (st & E & (E1 & E2 & E3) & Hd). destruct (open_corpus seen) as [c0|]; [|discriminate]. cbn [bind] in E. destruct (lazily _ _ (Some RuntimeError)) as [gs x] eqn:El.
      assert (st = {| st_corpus := c0; st_igts := gs; st_end := x |}) by congruence. subst st. cbn [st_end] in E3. subst x. now apply lazily_end in El.
  - rewrite corpus_open. split.
    + intros (c0 & E0 & Ec & Et & Hd). rewrite E0. cbn [bind]. rewrite Et. cbn [bind]. eexists. split; [reflexivity|]. cbn [st_corpus st_igts st_end]. now subst c0.
    + intros (st & E & (E1 & E2 & E3) & Hd). destruct (open_corpus seen) as [c0|]; [|discriminate]. cbn [bind] in E. destruct (traverse _ _) as [gs|]; [|discriminate]. cbn [bind] in E. exists c0.
      assert (st = {| st_corpus := c0; st_igts := gs; st_end := None |}) by congruence. subst st. cbn [st_corpus st_igts st_end] in *. subst gs. now subst c0.
Qed.
(* if an id is there twice it is not loaded *)
Theorem decode_twice ahead p st : decode_stream ahead p = Ok st -> st_end st = None -> ~ distinct (st_igts st) -> decode ahead p = Err XigtError.
Proof.
  intros E Hn Hd. unfold decode, decode_with. unfold decode_stream in E. destruct (skip_to _ (events p)) as [[e rest]|]; [|discriminate].
  set (seen := view _ _ _ _) in *.
  assert (Hc : forall c0 igts gs, open_corpus seen = Ok c0 -> traverse decode_igt igts = Ok gs -> ~ distinct gs -> decode_xigtcorpus seen igts = Err XigtError).
  { intros c0 igts gs E0 Et Hx. unfold decode_xigtcorpus. unfold open_corpus in E0. destruct (expect_tag _ seen); [|discriminate]. cbn [bind] in *. destruct (decode_metadatas seen); [|discriminate]. cbn [bind] in *.
    destruct (decode_attrs _ _ _ _ seen); [|discriminate]. cbn [bind] in *. rewrite Et. cbn [bind]. destruct (new_container _ gs) as [gs'|x] eqn:Ec; [now apply container_distinct in Ec|].
    cbn [bind]. now apply SchemaErrProofs.container_err in Ec as ->. }
  destruct e as [q|q].
  - set (r := if igt_in_meta p then _ else _) in *. rewrite iter_iff. destruct (iter_lazily _ _ r) as [igts b]. destruct (open_corpus seen) as [c0|] eqn:E0; [|discriminate]. cbn [bind] in E.
    destruct (lazily _ _ _) as [gs x] eqn:El in E. assert (st = {| st_corpus := c0; st_igts := gs; st_end := x |}) by congruence. subst st. cbn [st_end st_igts] in *. subst x.
    destruct b; [|now apply lazily_end in El]. apply lazily_ok in El. now apply (Hc c0 _ gs).
  - destruct (open_corpus seen) as [c0|] eqn:E0; [|discriminate]. cbn [bind] in E. destruct (traverse _ _) as [gs|] eqn:Et; [|discriminate]. cbn [bind] in E.
    assert (st = {| st_corpus := c0; st_igts := gs; st_end := None |}) by congruence. subst st. now apply (Hc c0 _ gs).
Qed.

Variable before : str -> option stream.
Theorem load_iff ahead s c : loads ahead s = Ok c <-> exists st, load_stream before ahead s = Ok st /\ gives st c /\ distinct (st_igts st).
Proof.
  unfold loads, load_stream. destruct (parse_text s) as [e|x]; cbn [bind].
  - destruct (resolve [] e) as [p|x]; cbn [bind]; [apply decode_iff|]. split; [discriminate|]. intros (st & E & (_ & _ & H) & _). destruct (before s) as [st0|]; [|discriminate].
    assert (st = {| st_corpus := st_corpus st0; st_igts := st_igts st0; st_end := Some x |}) by congruence. subst st. discriminate.
  - split; [discriminate|]. intros (st & E & (_ & _ & H) & _). destruct (before s) as [st0|]; [|discriminate].
    assert (st = {| st_corpus := st_corpus st0; st_igts := st_igts st0; st_end := Some x |}) by congruence. subst st. discriminate.
Qed.
Theorem load_twice ahead s st : load_stream before ahead s = Ok st -> st_end st = None -> ~ distinct (st_igts st) -> loads ahead s = Err XigtError.
Proof.
  unfold loads, load_stream. intros E Hn Hd.
  assert (Hb : forall x, match before s with None => Err x | Some st => Ok {| st_corpus := st_corpus st; st_igts := st_igts st; st_end := Some x |} end = Ok st -> False).
  { intros x Hx. destruct (before s) as [st0|]; [|discriminate]. assert (st = {| st_corpus := st_corpus st0; st_igts := st_igts st0; st_end := Some x |}) by congruence. subst st. discriminate. }
  destruct (parse_text s) as [e|x]; cbn [bind] in *; [|now destruct (Hb x)]. destruct (resolve [] e) as [p|x]; cbn [bind] in *; [|now destruct (Hb x)]. now apply (decode_twice ahead p st).
Qed.

(* ---------- export ---------- *)

Context (lower : str -> str) (item_sub tier_sub : str -> str -> res str) (fuel : nat).
Variable ahead : str -> nat.
Notation export_file := (export_file lower item_sub tier_sub fuel).
Notation export_corpus := (export_corpus lower item_sub tier_sub fuel).
Notation export_igts := (export_igts lower item_sub tier_sub fuel).
Notation export_stream := (export_stream lower item_sub tier_sub fuel).
Notation run_export := (run_export lower item_sub tier_sub fuel before ahead).

Lemma igts_none types gs : export_igts types gs None = export_corpus types gs.
Proof. induction gs as [|g gs IH]; [reflexivity|]. cbn [ExportRun.export_igts Latex.export_corpus]. now rewrite IH. Qed.
Lemma igts_some types gs x : match export_corpus types gs with
  | (rest, None) => exists a, rest = a ++ footer ++ newline /\ export_igts types gs (Some x) = (a, Some x)
  | (rest, Some e) => export_igts types gs (Some x) = (rest, Some e)
  end.
Proof.
  induction gs as [|g gs IH]; [exists []; split; reflexivity|]. cbn [ExportRun.export_igts Latex.export_corpus]. destruct (export_igt _ _ _ _ types g) as [s|e]; [|reflexivity].
  destruct (export_corpus types gs) as [rest [e|]].
  - now rewrite IH.
  - destruct IH as (a & -> & E). rewrite E. exists (s ++ newline ++ newline ++ a). split; [|reflexivity]. now rewrite !app_assoc.
Qed.
(* the whole document, *)
Theorem stream_whole types st : st_end st = None -> export_stream types st = export_file types (st_igts st).
Proof. intros E. unfold ExportRun.export_stream, Latex.export_file. now rewrite E, igts_none. Qed.
(* or what is before its end, *)
Theorem stream_cut types st x t : st_end st = Some x -> export_file types (st_igts st) = (t, None) ->
  exists a, t = a ++ footer ++ newline /\ export_stream types st = (a, Some x).
Proof.
  unfold ExportRun.export_stream, Latex.export_file. intros Ex E. rewrite Ex. pose proof (igts_some types (st_igts st) x) as H. destruct (export_corpus types (st_igts st)) as [rest [e|]]; [discriminate|].
  destruct H as (a & -> & Ea). rewrite Ea. exists (header ++ newline ++ a). split; [|reflexivity]. assert (t = header ++ newline ++ a ++ footer ++ newline) by congruence. subst t. now rewrite !app_assoc.
Qed.
(* or what is before an igt that cannot be exported *)
Theorem stream_fails types st t e : export_file types (st_igts st) = (t, Some e) -> export_stream types st = (t, Some e).
Proof.
  unfold ExportRun.export_stream, Latex.export_file. intros E. destruct (st_end st) as [x|]; [|now rewrite igts_none].
  pose proof (igts_some types (st_igts st) x) as H. destruct (export_corpus types (st_igts st)) as [rest [e'|]]; [|discriminate]. now rewrite H.
Qed.

Lemma put_written w p t : writable w p -> exists w', put_text w p t = Some w' /\ only_changed (eq p) w w' /\ dget (d_files w') p = Some t.
Proof.
  intros (H1 & H2 & H3). unfold put_text. destruct p as [|c p]; [easy|]. rewrite H2, H3. cbn [andb negb]. eexists. split; [reflexivity|]. split; [split; [reflexivity|]|]; cbn [d_files].
  - intros q Hq. rewrite ImportRunProofs.get_set. destruct (str_eqb_spec q (c :: p)); [now destruct Hq|reflexivity].
  - rewrite ImportRunProofs.get_set. now rewrite str_eqb_refl.
Qed.
Lemma put_not w p t : put_text w p t = None <-> ~ writable w p.
Proof.
  unfold put_text, writable. destruct p as [|c p]; [split; [intros _ [H _]; now destruct H|easy]|]. destruct (has_dir w (c :: p)); [|split; [intros _ (_ & H & _); discriminate|easy]].
  destruct (is_dir w (c :: p)); cbn [andb negb]; split; [intros _ (_ & _ & H); discriminate|easy|discriminate|]. intros H. destruct H. split; [discriminate|]. now split.
Qed.
(* everything that may happen *)
Theorem run_cases types infile outfile w r w' : infile <> outfile -> run_export types infile outfile w = (r, w') ->
  (w' = w /\ ((dget (d_files w) infile = None /\ r = Err OSError)
     \/ (exists s x, dget (d_files w) infile = Some s /\ load_stream before (ahead s) s = Err x /\ r = Err x)
     \/ (exists s st, dget (d_files w) infile = Some s /\ load_stream before (ahead s) s = Ok st /\ ~ writable w outfile /\ r = Err OSError)))
  \/ exists s st t e, dget (d_files w) infile = Some s /\ load_stream before (ahead s) s = Ok st /\ writable w outfile
     /\ export_stream types st = (t, e) /\ r = outcome e /\ only_changed (eq outfile) w w' /\ dget (d_files w') outfile = Some t.
Proof.
  intros Hne. unfold ExportRun.run_export. destruct (dget (d_files w) infile) as [s|]; [|intros E; left; split; [congruence|left; split; [easy|congruence]]].
  destruct (load_stream before (ahead s) s) as [st|x] eqn:El; [|intros E; left; split; [congruence|right; left; exists s, x; repeat split; congruence]].
  destruct (export_stream types st) as [t e] eqn:Ex. destruct (put_text w outfile t) as [w1|] eqn:Ep; intros E.
  - right. exists s, st, t, e. assert (Hw : writable w outfile).
    { unfold put_text in Ep. destruct outfile as [|c p]; [discriminate|]. unfold writable. destruct (has_dir w (c :: p)); [|discriminate]. destruct (is_dir w (c :: p)); [discriminate|]. split; [discriminate|]. now split. }
    destruct (put_written w outfile t Hw) as (w2 & E2 & H1 & H2). assert (w1 = w2) by congruence. assert (w' = w1) by congruence. subst. split; [easy|]. split; [easy|]. split; [easy|]. split; [easy|].
    split; [unfold outcome; congruence|]. now split.
  - left. split; [congruence|]. right. right. exists s, st. split; [easy|]. split; [easy|]. split; [now apply (put_not w outfile t)|congruence].
Qed.
(* a document that can be loaded *)
Theorem run_loaded types infile outfile w s c t e : infile <> outfile -> dget (d_files w) infile = Some s -> loads (ahead s) s = Ok c -> writable w outfile -> export_file types (c_igts c) = (t, e) ->
  exists w', run_export types infile outfile w = (outcome e, w') /\ only_changed (eq outfile) w w' /\ dget (d_files w') outfile = Some t.
Proof.
  intros Hne. intros Hi Hl Hw He. unfold ExportRun.run_export. rewrite Hi. apply load_iff in Hl as (st & -> & (_ & Eg & En) & _). rewrite (stream_whole types st En), Eg, He.
  destruct (put_written w outfile t Hw) as (w' & -> & H). exists w'. now split.
Qed.
(* a corpus that was saved *)
Theorem run_saved types infile outfile w c indent s t e : infile <> outfile -> tree_ok [] (corpus_tree c) -> corpus_ok c -> corpus_kept c -> dumps c indent = Ok s ->
  dget (d_files w) infile = Some s -> writable w outfile -> export_file types (c_igts c) = (t, e) ->
  exists w', run_export types infile outfile w = (outcome e, w') /\ only_changed (eq outfile) w w' /\ dget (d_files w') outfile = Some t.
Proof.
  intros Hne. intros Ht Ho Hk Hd Hi Hw He. destruct (TextRunProofs.text_kept c indent Ht Ho Hk) as (s' & c' & Hd' & Hl & (_ & _ & Hg)). assert (s' = s) by congruence. subst s'.
  apply (run_loaded types infile outfile w s c' t e Hne Hi (Hl _) Hw). rewrite <- He. symmetry. now apply SameProofs.export_file_same.
Qed.
End StreamProofs.
