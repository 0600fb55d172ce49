(* Property C78: reading igt by igt and exporting to LaTeX as a whole. *)
From Verif Require Import PyStr SpecRef Ref Model SpecModel XmlStd Xml SpecXml XmlText Value Latex Files SpecImport Stream SpecStream ExportRun.
From Verif Require SameProofs StreamProofs LatexExamples XmlExamples StreamExamples.
Import LatexExamples StreamExamples.

(* C78.  A text is loaded as a corpus exactly if it is read igt by igt without error, as
   the same igts, and no two of them have the same id; *)
Theorem C78_load : forall (U : Unicode) before ahead s c,
  loads ahead s = Ok c <-> exists st, load_stream before ahead s = Ok st /\ gives st c /\ distinct (st_igts st).
Proof. exact @StreamProofs.load_iff. Qed.
Print Assumptions C78_load.
(* if two have, it is not loaded. *)
Theorem C78_twice : forall (U : Unicode) before ahead s st,
  load_stream before ahead s = Ok st -> st_end st = None -> ~ distinct (st_igts st) -> loads ahead s = Err XigtError.
Proof. exact @StreamProofs.load_twice. Qed.
Print Assumptions C78_twice.

(* Corpora that are the same have the same values and are exported as the same LaTeX. *)
Theorem C78_same_value : forall (U : Unicode) fuel g g', same_igt g g' -> forall t t' i i' ras, same_tier t t' -> same_item i i' ->
  value fuel (Some g) (Some t) i ras = value fuel (Some g') (Some t') i' ras.
Proof. exact @SameProofs.value_same. Qed.
Print Assumptions C78_same_value.
Theorem C78_same : forall (U : Unicode) lower item_sub tier_sub fuel types gs gs', Forall2 same_igt gs gs' ->
  export_file lower item_sub tier_sub fuel types gs = export_file lower item_sub tier_sub fuel types gs'.
Proof. exact @SameProofs.export_file_same. Qed.
Print Assumptions C78_same.

(* What is written: the whole document, *)
Theorem C78_whole : forall (U : Unicode) lower item_sub tier_sub fuel types st, st_end st = None ->
  export_stream lower item_sub tier_sub fuel types st = export_file lower item_sub tier_sub fuel types (st_igts st).
Proof. exact @StreamProofs.stream_whole. Qed.
Print Assumptions C78_whole.
(* all but its end, if reading fails, *)
Theorem C78_cut : forall (U : Unicode) lower item_sub tier_sub fuel types st x t, st_end st = Some x ->
  export_file lower item_sub tier_sub fuel types (st_igts st) = (t, None) ->
  exists a, t = a ++ footer ++ newline /\ export_stream lower item_sub tier_sub fuel types st = (a, Some x).
Proof. exact @StreamProofs.stream_cut. Qed.
Print Assumptions C78_cut.
(* or what C68 says, if an igt cannot be exported. *)
Theorem C78_fails : forall (U : Unicode) lower item_sub tier_sub fuel types st t e,
  export_file lower item_sub tier_sub fuel types (st_igts st) = (t, Some e) ->
  export_stream lower item_sub tier_sub fuel types st = (t, Some e).
Proof. exact @StreamProofs.stream_fails. Qed.
Print Assumptions C78_fails.

(* What a run may do: nothing, if the input is not there, cannot be loaded, or the output
   cannot be written; or it writes the output and nothing else. *)
Theorem C78_run : forall (U : Unicode) before lower item_sub tier_sub fuel ahead types infile outfile w r w', infile <> outfile ->
  run_export lower item_sub tier_sub fuel before ahead types infile outfile w = (r, w') ->
  (w' = w /\ ((dget (d_files w) infile = None /\ r = Err OSError)
     \/ (exists s x, dget (d_files w) infile = Some s /\ load_stream before (ahead s) s = Err x /\ r = Err x)
     \/ (exists s st, dget (d_files w) infile = Some s /\ load_stream before (ahead s) s = Ok st /\ ~ writable w outfile /\ r = Err OSError)))
  \/ exists s st t e, dget (d_files w) infile = Some s /\ load_stream before (ahead s) s = Ok st /\ writable w outfile
     /\ export_stream lower item_sub tier_sub fuel types st = (t, e) /\ r = outcome e /\ only_changed (eq outfile) w w' /\ dget (d_files w') outfile = Some t.
Proof. exact @StreamProofs.run_cases. Qed.
Print Assumptions C78_run.
(* A document that can be loaded is exported as its corpus is, *)
Theorem C78_loaded : forall (U : Unicode) before lower item_sub tier_sub fuel ahead types infile outfile w s c t e, infile <> outfile ->
  dget (d_files w) infile = Some s -> loads (ahead s) s = Ok c -> writable w outfile ->
  export_file lower item_sub tier_sub fuel types (c_igts c) = (t, e) ->
  exists w', run_export lower item_sub tier_sub fuel before ahead types infile outfile w = (outcome e, w')
    /\ only_changed (eq outfile) w w' /\ dget (d_files w') outfile = Some t.
Proof. exact @StreamProofs.run_loaded. Qed.
Print Assumptions C78_loaded.
(* and a corpus is exported from the file it was saved to as it is from memory. *)
Theorem C78_saved : forall (U : Unicode) before lower item_sub tier_sub fuel ahead types infile outfile w c indent s t e, infile <> outfile ->
  tree_ok [] (corpus_tree c) -> corpus_ok c -> corpus_kept c -> dumps c indent = Ok s ->
  dget (d_files w) infile = Some s -> writable w outfile -> export_file lower item_sub tier_sub fuel types (c_igts c) = (t, e) ->
  exists w', run_export lower item_sub tier_sub fuel before ahead types infile outfile w = (outcome e, w')
    /\ only_changed (eq outfile) w w' /\ dget (d_files w') outfile = Some t.
Proof. exact @StreamProofs.run_saved. Qed.
Print Assumptions C78_saved.

Example C78_example : export (L "a.xml") (L "d/out.tex") disk0
    = (Ok tt, {| d_dirs := d_dirs disk0; d_files := dset (d_files disk0) (L "d/out.tex") (fst (whole [ex; other])) |})
  /\ snd (whole [ex; other]) = None.
Proof. exact export_example. Qed.
Example C78_cut_example : exists st a, @load_stream ascii_unicode none 8 twice_tier = Ok st /\ st_end st = Some XigtError /\ length (st_igts st) = 1
  /\ fst (whole (st_igts st)) = a ++ footer ++ newline
  /\ export (L "b.xml") (L "d/out.tex") disk0 = (Err XigtError, {| d_dirs := d_dirs disk0; d_files := dset (d_files disk0) (L "d/out.tex") a |}).
Proof. exact cut_example. Qed.
Example C78_twice_example : export (L "c.xml") (L "d/out.tex") disk0
    = (Ok tt, {| d_dirs := d_dirs disk0; d_files := dset (d_files disk0) (L "d/out.tex") (fst (whole [ex; ex])) |})
  /\ @loads ascii_unicode 8 twice_igt = Err XigtError.
Proof. exact twice_example. Qed.
Example C78_unread_example : export (L "bad.xml") (L "d/out.tex") disk0 = (Err ParseError, disk0) /\ export (L "none.xml") (L "d/out.tex") disk0 = (Err OSError, disk0)
  /\ export (L "a.xml") (L "d") disk0 = (Err OSError, disk0) /\ export (L "a.xml") (L "e/out.tex") disk0 = (Err OSError, disk0).
Proof. exact unread_example. Qed.
Example C78_saved_example : tree_ok [] (corpus_tree XmlExamples.xc) /\ @corpus_ok ascii_unicode XmlExamples.xc /\ @corpus_kept ascii_unicode XmlExamples.xc
  /\ writable disk0 (L "d/out.tex") /\ exists s, @dumps ascii_unicode XmlExamples.xc (Some 2) = Ok s
  /\ (exists c, @loads ascii_unicode 8 s = Ok c) /\ fst (@export_file ascii_unicode lower_ascii keep keep 10 types (c_igts XmlExamples.xc)) <> [].
Proof. exact (conj XmlExamples.xc_tree_ok (conj (proj1 (@XmlExamples.xc_ok ascii_unicode)) (conj (proj2 (@XmlExamples.xc_ok ascii_unicode)) (conj writable_example xc_saved)))). Qed.
