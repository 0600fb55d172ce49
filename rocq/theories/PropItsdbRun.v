(* Property C85: exporting to an [incr tsdb()] profile as a whole. *)
From Verif Require Import PyStr SpecRef Ref Model SpecModel XmlStd Xml SpecXml XmlText Itsdb SpecItsdb Files SpecImport Stream SpecStream ItsdbRun SpecItsdbRun.
From Verif Require ItsdbRunProofs ItsdbRunExamples ItsdbExamples XmlExamples.
Import ItsdbRunExamples.

(* C85.  If there is a Relations file the profile is made with it, of the rows of what could
   be read and exported, and the error that ended this, if any. *)
Theorem C85_made : forall (U : Unicode) (V : Type) (ev : str -> igt -> res V) json_load make_skeleton before ahead logonroot infile out config w f s st p rows e,
  options_of json_load w config f -> dget (d_files w) infile = Some s -> load_stream before (ahead s) s = Ok st ->
  found logonroot w f p -> exported ev (prepare_config (r_config f)) st rows e ->
  it_run ev json_load make_skeleton before ahead logonroot infile out config w = make_skeleton out p (rows, e) w.
Proof. exact @ItsdbRunProofs.run_made. Qed.
Print Assumptions C85_made.
(* There are always such rows, and they are the ones that are given; *)
Theorem C85_rows : forall (V : Type) (ev : str -> igt -> res V) c st rows e,
  rows_from ev 0 (st_igts st) (st_end st) c = (rows, e) <-> exported ev c st rows e.
Proof. exact @ItsdbRunProofs.rows_exported. Qed.
Print Assumptions C85_rows.
Theorem C85_some_rows : forall (V : Type) (ev : str -> igt -> res V) c st, exists rows e, exported ev c st rows e.
Proof. exact @ItsdbRunProofs.rows_total. Qed.
Print Assumptions C85_some_rows.
(* and there is at most one Relations file. *)
Theorem C85_one : forall logonroot f w p q, found logonroot w f p -> found logonroot w f q -> p = q.
Proof. exact ItsdbRunProofs.found_one. Qed.
Print Assumptions C85_one.
(* A document that can be loaded is exported as its corpus is (C59-C61), *)
Theorem C85_loaded : forall (U : Unicode) (V : Type) (ev : str -> igt -> res V) json_load make_skeleton before ahead logonroot infile out config w f s c p rows c',
  options_of json_load w config f -> dget (d_files w) infile = Some s -> loads (ahead s) s = Ok c ->
  found logonroot w f p -> xigt_export ev true (c_igts c) (r_config f) = Ok (c', Some rows) ->
  it_run ev json_load make_skeleton before ahead logonroot infile out config w = make_skeleton out p (rows, None) w.
Proof. exact @ItsdbRunProofs.run_loaded. Qed.
Print Assumptions C85_loaded.
(* and a corpus from the file it was saved to as it is from memory, if the cells do not tell apart what is equal. *)
Theorem C85_saved : forall (U : Unicode) (V : Type) (ev : str -> igt -> res V) json_load make_skeleton before ahead logonroot infile out config w f s c indent p rows c',
  (forall e g g', same_igt g g' -> ev e g = ev e g') ->
  tree_ok [] (corpus_tree c) -> corpus_ok c -> corpus_kept c -> dumps c indent = Ok s ->
  options_of json_load w config f -> dget (d_files w) infile = Some s -> found logonroot w f p ->
  xigt_export ev true (c_igts c) (r_config f) = Ok (c', Some rows) ->
  it_run ev json_load make_skeleton before ahead logonroot infile out config w = make_skeleton out p (rows, None) w.
Proof. exact @ItsdbRunProofs.run_saved. Qed.
Print Assumptions C85_saved.
Example C85_made_example : run None (L "a.xml") (L "out") (Some (L "c1")) w0 = (Ok tt, profile (L "R") item_text)
  /\ run root (L "a.xml") (L "out") (Some (L "c2")) w0 = (Ok tt, profile (L "S") item_text)
  /\ run (Some (L "/logon/")) (L "a.xml") (L "out") (Some (L "c2")) w0 = (Ok tt, profile (L "S") item_text).
Proof. exact made. Qed.
Example C85_made_meets : options_of json w0 (Some (L "c2")) {| r_config := ItsdbExamples.config1; r_relations := None |}
  /\ found root w0 {| r_config := ItsdbExamples.config1; r_relations := None |} std
  /\ exists st, @load_stream ascii_unicode none 8 twice = Ok st /\ exported ItsdbExamples.ev1 (prepare_config ItsdbExamples.config1) st
       [[(L "i-id", Number 5%Z); (L "i-comment", Value (L "1")); (L "i-length", Value (L "1"))]] (Some XigtError).
Proof. exact (conj options2 (conj found2 exported2)). Qed.
Example C85_cut_example : run None (L "b.xml") (L "out") (Some (L "c1")) w0
  = (Err XigtError, {| d_dirs := [L "out"]; d_files := d_files w0 ++ [(L "out/relations", L "R")] |}).
Proof. exact cut. Qed.
Example C85_saved_meets : (forall e g g', same_igt g g' -> ev_id e g = ev_id e g')
  /\ tree_ok [] (corpus_tree XmlExamples.xc) /\ @corpus_ok ascii_unicode XmlExamples.xc /\ @corpus_kept ascii_unicode XmlExamples.xc
  /\ exists c' rows, xigt_export ev_id true (c_igts XmlExamples.xc) ItsdbExamples.config1 = Ok (c', Some rows) /\ rows <> [].
Proof.
  exact (conj ev_id_same (conj XmlExamples.xc_tree_ok (conj (proj1 (@XmlExamples.xc_ok ascii_unicode)) (conj (proj2 (@XmlExamples.xc_ok ascii_unicode)) saved_rows)))).
Qed.

(* If there is none nothing is done, and that is no error. *)
Theorem C85_silent : forall (U : Unicode) (V : Type) (ev : str -> igt -> res V) json_load make_skeleton before ahead logonroot infile out config w f s st,
  options_of json_load w config f -> dget (d_files w) infile = Some s -> load_stream before (ahead s) s = Ok st ->
  (forall p, ~ found logonroot w f p) -> it_run ev json_load make_skeleton before ahead logonroot infile out config w = (Ok tt, w).
Proof. exact @ItsdbRunProofs.run_silent. Qed.
Print Assumptions C85_silent.
(* Nothing is done, and it is one, if the input is missing or cannot be loaded, *)
Theorem C85_unread : forall (U : Unicode) (V : Type) (ev : str -> igt -> res V) json_load make_skeleton before ahead logonroot infile out config w f,
  options_of json_load w config f ->
  (dget (d_files w) infile = None -> it_run ev json_load make_skeleton before ahead logonroot infile out config w = (Err OSError, w))
  /\ forall s x, dget (d_files w) infile = Some s -> load_stream before (ahead s) s = Err x ->
       it_run ev json_load make_skeleton before ahead logonroot infile out config w = (Err x, w).
Proof. exact @ItsdbRunProofs.run_unread. Qed.
Print Assumptions C85_unread.
(* or the configuration is. *)
Theorem C85_unconfigured : forall (U : Unicode) (V : Type) (ev : str -> igt -> res V) json_load make_skeleton before ahead logonroot infile out p w, p <> [] ->
  (dget (d_files w) p = None -> it_run ev json_load make_skeleton before ahead logonroot infile out (Some p) w = (Err OSError, w))
  /\ forall s x, dget (d_files w) p = Some s -> json_load s = Err x ->
       it_run ev json_load make_skeleton before ahead logonroot infile out (Some p) w = (Err x, w).
Proof. exact @ItsdbRunProofs.run_unconfigured. Qed.
Print Assumptions C85_unconfigured.
Example C85_silent_example : run None (L "a.xml") (L "out") (Some (L "c2")) w0 = (Ok tt, w0) /\ run root (L "a.xml") (L "out") (Some (L "c3")) w0 = (Ok tt, w0)
  /\ run root (L "a.xml") (L "out") (Some (L "c4")) w0 = (Ok tt, w0) /\ run (Some (L "/other")) (L "a.xml") (L "out") (Some (L "c2")) w0 = (Ok tt, w0)
  /\ run None (L "a.xml") (L "out") (Some []) w0 = (Ok tt, w0).
Proof. exact silent. Qed.
Example C85_silent_meets : forall p, ~ found None w0 {| r_config := ItsdbExamples.config1; r_relations := None |} p.
Proof. exact not_found. Qed.
Example C85_raises_example : run None (L "bad.xml") (L "out") (Some (L "c2")) w0 = (Err ParseError, w0) /\ run root (L "none.xml") (L "out") None w0 = (Err OSError, w0)
  /\ run root (L "a.xml") (L "out") (Some (L "none")) w0 = (Err OSError, w0) /\ run root (L "a.xml") (L "out") (Some (L "c5")) w0 = (Err ValueError, w0)
  /\ run root (L "a.xml") (L "out") None w0 = (Err AttributeError, {| d_dirs := [L "out"]; d_files := d_files w0 ++ [(L "out/relations", L "S")] |}).
Proof. exact raised. Qed.
(* A run that raises nothing need not have exported anything, and a Relations file that is
   configured but missing is not made up for by the default one. *)
Theorem C85_fallback_refuted : exists f p s c c' rows, found root w0 {| r_config := r_config f; r_relations := None |} p
  /\ options_of json w0 (Some (L "c3")) f /\ dget (d_files w0) (L "a.xml") = Some s /\ @loads ascii_unicode 8 s = Ok c
  /\ xigt_export ItsdbExamples.ev1 true (c_igts c) (r_config f) = Ok (c', Some rows) /\ rows <> [] /\ run root (L "a.xml") (L "out") (Some (L "c3")) w0 = (Ok tt, w0).
Proof. exact fallback_refuted. Qed.
Print Assumptions C85_fallback_refuted.
