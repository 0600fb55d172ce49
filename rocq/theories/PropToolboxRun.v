(* Property C83: importing Toolbox files, from the bytes to the file that is written. *)
From Verif Require Import PyStr SpecRef Ref Model Value SpecModel XmlStd Xml SpecXml XmlText Toolbox SpecToolbox SpecToolboxDoc Files SpecImport ToolboxRun SpecToolboxRun.
From Verif Require ToolboxExamples ToolboxRunProofs ToolboxRunExamples.
Import ToolboxExamples ToolboxRunExamples.

(* C83.  Bytes whose lines can be decoded, and whose records are clean and have
   different keys, are imported: the output alone is written, and loading it gives the
   igts of the records.  Full statement: without the conditions on records and keys;
   see the refutation. *)
Theorem C83_imports_partial : forall (U : Unicode) lower isalpha decode records json_load infile outfile config w o al s ls ds rs gs,
  configured json_load w config o -> tb_alignments o = Ok al ->
  dget (d_files w) infile = Some s -> writable w outfile -> infile <> outfile ->
  lines_of s ls -> Forall2 (fun l d => respace_decode decode l = Ok d) ls ds -> records al ds = (rs, None) ->
  options_clean o -> Forall record_clean rs -> toolbox_igts lower isalpha o rs = Ok gs -> NoDup (some_ids (map igt_id gs)) ->
  exists w' t c, tb_run lower isalpha decode records json_load infile outfile config w = (Ok tt, w')
    /\ only_changed (eq outfile) w w' /\ dget (d_files w') outfile = Some t
    /\ (forall ahead, loads ahead t = Ok c) /\ same_corpus (back_corpus (corpus_of gs)) c.
Proof. exact @ToolboxRunProofs.run_imports. Qed.
Print Assumptions C83_imports_partial.
Example C83_imports_meets : configured json w0 None default_options
  /\ tb_alignments default_options = Ok [(L "\m", L "\t"); (L "\g", L "\m"); (L "\p", L "\m")]
  /\ dget (d_files w0) (L "a.txt") = Some good /\ writable w0 (L "out/a.xml")
  /\ (exists ls, lines_of good ls /\ length ls = 6 /\ Forall2 (fun l d => respace_decode utf8 l = Ok d) ls good_text)
  /\ (exists rs, toy [(L "\m", L "\t"); (L "\g", L "\m"); (L "\p", L "\m")] good_text = (rs, None) /\ Forall record_clean rs
      /\ exists gs, @toolbox_igts ascii_unicode id_lower alpha default_options rs = Ok gs
         /\ map igt_id gs = [Some (L "igt1"); Some (L "igt2")] /\ NoDup (some_ids (map igt_id gs)))
  /\ options_clean default_options.
Proof.
  split; [exact (default_configured w0)|]. split; [exact default_aligned|]. split; [reflexivity|]. split; [exact out_writable|].
  split; [eexists; split; [exact good_lines|]; split; [reflexivity|exact good_decoded]|].
  split; [eexists; split; [exact good_records|]; split; [exact good_clean|exact good_igts]|exact default_clean].
Qed.
Example C83_imports_example : run (L "a.txt") (L "out/a.xml") None w0
  = (Ok tt, {| d_dirs := d_dirs w0; d_files := d_files w0 ++ [(L "out/a.xml", text_of default_options good)] |})
  /\ firstn 30 (text_of default_options good) = L "<xigt-corpus>" ++ nl ++ L "  <igt id=" ++ [34%N] ++ L "igt1" ++ [34%N].
Proof. exact run_good. Qed.

(* Whatever the bytes are, only the output is written: with what was imported or, if
   there was an error, with nothing. *)
Theorem C83_file : forall (U : Unicode) lower isalpha decode records json_load infile outfile config w o al s,
  configured json_load w config o -> tb_alignments o = Ok al ->
  dget (d_files w) infile = Some s -> writable w outfile -> infile <> outfile ->
  exists w', only_changed (eq outfile) w w'
    /\ ((exists t, import_bytes lower isalpha decode records o al s = Ok t
           /\ tb_run lower isalpha decode records json_load infile outfile config w = (Ok tt, w') /\ dget (d_files w') outfile = Some t)
        \/ exists x, import_bytes lower isalpha decode records o al s = Err x
           /\ tb_run lower isalpha decode records json_load infile outfile config w = (Err x, w') /\ dget (d_files w') outfile = Some []).
Proof. exact @ToolboxRunProofs.run_file. Qed.
Print Assumptions C83_file.
(* What is imported was decoded line by line, and is the igts of the records. *)
Theorem C83_sound : forall (U : Unicode) lower isalpha decode records o al s t, import_bytes lower isalpha decode records o al s = Ok t ->
  exists ls ds rs gs, lines_of s ls /\ Forall2 (fun l d => respace_decode decode l = Ok d) ls ds /\ records al ds = (rs, None)
    /\ toolbox_igts lower isalpha o rs = Ok gs /\ dumps (corpus_of gs) (Some 2) = Ok t.
Proof. exact @ToolboxRunProofs.bytes_sound. Qed.
Print Assumptions C83_sound.
(* The first line that cannot be decoded stops the import; *)
Theorem C83_undecodable : forall (U : Unicode) lower isalpha decode records o al s a l b ds x,
  lines_of s (a ++ l :: b) -> Forall2 (fun l d => respace_decode decode l = Ok d) a ds -> respace_decode decode l = Err x ->
  import_bytes lower isalpha decode records o al s = Err x.
Proof. exact @ToolboxRunProofs.bytes_undecoded. Qed.
Print Assumptions C83_undecodable.
(* so does an igt that cannot be made, or what the package raises; *)
Theorem C83_raises : forall (U : Unicode) lower isalpha decode records o al s ls ds rs e x,
  lines_of s ls -> Forall2 (fun l d => respace_decode decode l = Ok d) ls ds -> records al ds = (rs, e) ->
  toolbox_igts lower isalpha o rs = Err x -> import_bytes lower isalpha decode records o al s = Err x.
Proof. exact @ToolboxRunProofs.bytes_records. Qed.
Print Assumptions C83_raises.
Theorem C83_ends : forall (U : Unicode) lower isalpha decode records o al s ls ds rs gs x,
  lines_of s ls -> Forall2 (fun l d => respace_decode decode l = Ok d) ls ds -> records al ds = (rs, Some x) ->
  toolbox_igts lower isalpha o rs = Ok gs -> import_bytes lower isalpha decode records o al s = Err x.
Proof. exact @ToolboxRunProofs.bytes_ends. Qed.
Print Assumptions C83_ends.
(* a text in UTF-8 can be decoded. *)
Theorem C83_text : forall texts, Forall (Forall scalar) texts -> Forall (fun t => ~ In 10%N t) texts ->
  lines_of (List.concat (map (fun t => utf8_encode t ++ [10%N]) texts)) (map (fun t => utf8_encode t ++ [10%N]) texts)
  /\ exists ds, Forall2 (fun l d => respace_decode utf8 l = Ok d) (map (fun t => utf8_encode t ++ [10%N]) texts) ds.
Proof. exact ToolboxRunProofs.texts_decoded. Qed.
Print Assumptions C83_text.
(* The lines are there exactly once. *)
Theorem C83_lines : forall s ls, lines_of s ls <-> ls = byte_lines s.
Proof. exact ToolboxRunProofs.lines_iff. Qed.
Print Assumptions C83_lines.
(* Options that are not given are those of the documentation. *)
Theorem C83_defaults : forall f o, options_for f o <-> o = with_defaults f.
Proof. exact ToolboxRunProofs.options_iff. Qed.
Print Assumptions C83_defaults.

(* Nothing happens if an aligned tier has no marker, *)
Theorem C83_unmarked : forall (U : Unicode) lower isalpha decode records json_load infile outfile config w o t1 t2,
  configured json_load w config o -> aligns o t1 t2 -> (forall m, ~ marks o m t1) \/ (forall m, ~ marks o m t2) ->
  tb_run lower isalpha decode records json_load infile outfile config w = (Err KeyError, w).
Proof. exact @ToolboxRunProofs.run_unmarked. Qed.
Print Assumptions C83_unmarked.
(* if there is no input, or nowhere to write, *)
Theorem C83_missing : forall (U : Unicode) lower isalpha decode records json_load infile outfile config w o al,
  configured json_load w config o -> tb_alignments o = Ok al -> dget (d_files w) infile = None \/ ~ writable w outfile ->
  tb_run lower isalpha decode records json_load infile outfile config w = (Err OSError, w).
Proof. exact @ToolboxRunProofs.run_missing. Qed.
Print Assumptions C83_missing.
(* and if the configuration is not there, or cannot be read. *)
Theorem C83_no_config : forall (U : Unicode) lower isalpha decode records json_load infile outfile p w,
  dget (d_files w) p = None -> tb_run lower isalpha decode records json_load infile outfile (Some p) w = (Err OSError, w).
Proof. exact @ToolboxRunProofs.run_unconfigured. Qed.
Print Assumptions C83_no_config.
Theorem C83_bad_config : forall (U : Unicode) lower isalpha decode records json_load infile outfile p w s x,
  dget (d_files w) p = Some s -> json_load s = Err x ->
  tb_run lower isalpha decode records json_load infile outfile (Some p) w = (Err x, w).
Proof. exact @ToolboxRunProofs.run_misconfigured. Qed.
Print Assumptions C83_bad_config.
Example C83_unmarked_meets : configured json w0 (Some (L "c1")) (with_defaults unmarked)
  /\ aligns (with_defaults unmarked) (L "m") (L "w") /\ forall m, ~ marks (with_defaults unmarked) m (L "w").
Proof. exact unmarked_configured. Qed.
Example C83_stops_example :
  run (L "c.txt") (L "out/a.xml") None w0 = (Err ValueError, {| d_dirs := d_dirs w0; d_files := d_files w0 ++ [(L "out/a.xml", [])] |})
  /\ run (L "d.txt") (L "out/a.xml") None w0 = (Err TypeError, {| d_dirs := d_dirs w0; d_files := d_files w0 ++ [(L "out/a.xml", [])] |})
  /\ run (L "e.txt") (L "a.txt") None w0 = (Err AssertionError, {| d_dirs := d_dirs w0; d_files := dset (d_files w0) (L "a.txt") [] |})
  /\ run (L "none") (L "a.txt") None w0 = (Err OSError, w0)
  /\ run (L "a.txt") (L "no/a.xml") None w0 = (Err OSError, w0)
  /\ run (L "a.txt") (L "out/a.xml") (Some (L "none")) w0 = (Err OSError, w0)
  /\ run (L "a.txt") (L "out/a.xml") (Some (L "c3")) w0 = (Err ValueError, w0)
  /\ run (L "a.txt") (L "out/a.xml") (Some (L "c1")) w0 = (Err KeyError, w0).
Proof. exact run_bad. Qed.
Example C83_config_example : run (L "a.txt") (L "out/a.xml") (Some (L "c2")) w0
  = (Ok tt, {| d_dirs := d_dirs w0; d_files := d_files w0 ++ [(L "out/a.xml", text_of (with_defaults other_marker) good)] |})
  /\ firstn 30 (text_of (with_defaults other_marker) good) = L "<xigt-corpus>" ++ nl ++ L "  <igt id=" ++ [34%N] ++ L "a" ++ [34%N] ++ L " co".
Proof. exact run_other. Qed.

(* Records with the same key are imported without error, and what is written cannot
   be loaded. *)
Theorem C83_keys_refuted : exists w' t, run (L "b.txt") (L "out/b.xml") None w0 = (Ok tt, w') /\ dget (d_files w') (L "out/b.xml") = Some t
  /\ forall ahead, @loads ascii_unicode ahead t = Err XigtError.
Proof. exact twice_refuted. Qed.
Print Assumptions C83_keys_refuted.
(* A file that is imported onto itself is emptied before it is read, *)
Theorem C83_itself : forall (U : Unicode) lower isalpha decode records json_load p config w o al s,
  configured json_load w config o -> tb_alignments o = Ok al -> dget (d_files w) p = Some s -> writable w p ->
  exists r w', tb_run lower isalpha decode records json_load p p config w = (r, w') /\ only_changed (eq p) w w'
    /\ (dget (d_files w') p = Some [] \/ exists t, import_bytes lower isalpha decode records o al [] = Ok t /\ dget (d_files w') p = Some t).
Proof. exact @ToolboxRunProofs.run_itself. Qed.
Print Assumptions C83_itself.
(* so that neither its content nor what should be imported is there then. *)
Theorem C83_itself_refuted : exists w' t, conv default_options good = Ok t /\ run (L "a.txt") (L "a.txt") None w0 = (Ok tt, w')
  /\ dget (d_files w') (L "a.txt") <> Some good /\ dget (d_files w') (L "a.txt") <> Some t.
Proof. exact itself_refuted. Qed.
Print Assumptions C83_itself_refuted.
