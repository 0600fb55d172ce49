(* Property C67: what xigt-validate writes. *)
From Verif Require Import PyStr Ref SpecRef Model ModelExamples Value SpecValue ValueExamples Validate SpecValidate Report SpecReport.
From Verif Require ReportProofs ValidateExamples.
Import ValidateExamples.

(* Printing a report writes, for each of its places in document order, nothing
   if nothing at or below the place is at the level or above, and otherwise its
   heading and its records at the level or above. *)
Theorem C67_lines : forall (color : bool) (m : Z) (r : report) (depth : nat) (out : list line), proper depth r ->
  (print_report color m depth (filter_empty_reports (Some m) r) = (out, None) <-> shown color m depth r out).
Proof. exact ReportProofs.print_iff. Qed.
Print Assumptions C67_lines.
(* the reports of validation can be printed *)
Theorem C67_proper : forall (U : Unicode) (fuel : nat) ci gs e n idset r,
  validate_corpus fuel ci gs e n idset = Ok r -> proper 0 r.
Proof. exact @ReportProofs.corpus_proper. Qed.
Print Assumptions C67_proper.
(* at level 40 only the errors and what leads to them; at level 30 the warnings too *)
Example C67_errors : print_report false 40 0 (filter_empty_reports (Some 40%Z) v_report)
  = ([Printed (L "corpus 0 (id: ""c"")");
      Printed (L " igt 0 (id: ""i1"")");
      Printed (L "  tier 1 (id: ""w"")");
      Logged (L "   * Reference attributes on <item> elements MUST be specified on their <tier> as well. The following are not: alignment");
      Printed (L "   item 2 (id: ""w3"")");
      Logged (L "    * The ""segmentation"" alignment expression MUST select available <item> ids from the aligned <tier> (""p""). The following are unavailable: p2");
      Printed (L "   item 4 (id: ""p1"")");
      Logged (L "    * The given id for each <item> MUST be unique within its <igt>.");
      Printed (L "  tier 2 (id: ""g"")");
      Logged (L "   * The reference attribute ""alignment"" MUST select an available <tier> id.");
      Printed (L "  tier 3 (id: ""w"")");
      Logged (L "   * The given id for each <tier> MUST be unique within its <igt>.");
      Printed (L " igt 1 (id: ""i1"")");
      Logged (L "  * The given id for each <igt> MUST be unique within its <xigt-corpus>.")], None).
Proof. vm_compute. reflexivity. Qed.

(* The report has a place for every element of the corpus and for nothing else,
   with its id and position. *)
Theorem C67_mirrors : forall (U : Unicode) (fuel : nat) ci gs e n idset r, validate_corpus fuel ci gs e n idset = Ok r ->
  report_is r [] ci n /\ (forall i, report_at r [i] <> None <-> i < length gs)
  /\ (forall i g, nth_error gs i = Some g -> report_is r [i] (igt_id g) i /\ forall j, report_at r [i; j] <> None <-> j < length (g_tiers g))
  /\ (forall i j g t, tier_at gs i j g t -> report_is r [i; j] (tier_id t) j /\ forall k, report_at r [i; j; k] <> None <-> k < length (t_items t))
  /\ (forall i j k g t it, item_at gs i j k g t it -> report_is r [i; j; k] (item_id it) k /\ forall m, report_at r [i; j; k; m] = None).
Proof. exact @ReportProofs.mirrors. Qed.
Print Assumptions C67_mirrors.

(* The records of each place, exactly and in order. *)
Theorem C67_corpus : forall (U : Unicode) (fuel : nat) ci gs e n idset r l,
  validate_corpus fuel ci gs e n idset = Ok r -> records_at r [] l ->
  exists a u, l = a ++ u /\ exactly (no_value ci) (needs 20 (L "an id") (L "MAY") (L "<xigt-corpus>")) a
  /\ exactly (exists i, i <> [] /\ ci = Some i /\ In i idset) (not_unique (L "<xigt-corpus>") (L "collection")) u.
Proof. exact @ReportProofs.corpus_records. Qed.
Print Assumptions C67_corpus.
Theorem C67_igt : forall (U : Unicode) (fuel : nat) ci gs e n idset r i g l,
  validate_corpus fuel ci gs e n idset = Ok r -> nth_error gs i = Some g -> records_at r [i] l ->
  exists a u, l = a ++ u /\ exactly (no_value (igt_id g)) (needs 30 (L "an id") (L "SHOULD") (L "<igt>")) a
  /\ exactly (repeats igt_id gs i) (not_unique (L "<igt>") (L "<xigt-corpus>")) u.
Proof. exact @ReportProofs.igt_exact. Qed.
Print Assumptions C67_igt.
Theorem C67_tier : forall (U : Unicode) (fuel : nat) ci gs e n idset r i j g t l,
  validate_corpus fuel ci gs e n idset = Ok r -> tier_at gs i j g t -> records_at r [i; j] l ->
  exists a b c x y z u lst, l = a ++ b ++ c ++ x ++ y ++ z ++ u
  /\ exactly (no_value (tier_id t)) (needs 30 (L "an id") (L "SHOULD") (L "<tier>")) a
  /\ exactly (no_value (a_type (t_attrs t))) (needs 30 (L "a type") (L "SHOULD") (L "<tier>")) b
  /\ picks (lacks t) [L "alignment"; L "content"; L "segmentation"] lst /\ exactly (exists ra, lacks t ra) (unspecified lst) c
  /\ exactly (no_tier g t (L "alignment")) (no_such_tier (L "alignment")) x
  /\ exactly (no_tier g t (L "segmentation")) (no_such_tier (L "segmentation")) y
  /\ exactly (no_tier g t (L "content")) (no_such_tier (L "content")) z
  /\ exactly (repeats tier_id (g_tiers g) j) (not_unique (L "<tier>") (L "<igt>")) u.
Proof. exact @ReportProofs.tier_exact. Qed.
Print Assumptions C67_tier.
(* An item: the middle part is about its references (C34), and empty unless the
   item and its tier both refer. *)
Theorem C67_item : forall (U : Unicode) (fuel : nat) ci gs e n idset r i j k g t it l,
  validate_corpus fuel ci gs e n idset = Ok r -> item_at gs i j k g t it -> records_at r [i; j; k] l ->
  exists a b u v, l = a ++ b ++ u ++ v
  /\ exactly (no_value (item_id it)) (needs 30 (L "an id") (L "SHOULD") (L "<item>")) a
  /\ (forall x, In x b -> exists ra, refattr ra /\ attr (it_attrs it) ra <> None /\ attr (t_attrs t) ra <> None)
  /\ exactly (repeats item_id (t_items t) k) (not_unique (L "<item>") (L "<tier>")) u
  /\ exactly (repeats item_id (flat_map t_items (g_tiers g)) (length (flat_map t_items (firstn j (g_tiers g))) + k))
       (not_unique (L "<item>") (L "<igt>")) v.
Proof. exact @ReportProofs.item_exact. Qed.
Print Assumptions C67_item.
(* a nameless corpus with a nameless igt, whose tier has a reference to nowhere and one only its item has *)
Definition nameless (l : list (str * str)) : attrs := {| a_id := None; a_type := None; a_dict := l; a_ns := None; a_nsmap := None |}.
Definition bare : igt := {| g_attrs := nameless []; g_md := []; g_tiers :=
  [{| t_attrs := nameless [(L "content", L "x")]; t_md := []; t_items := [{| it_attrs := nameless [(L "alignment", L "a1")]; it_text := None |}] |}] |}.
Example C67_records : @validate_corpus ascii_unicode 5 None [bare] None 3 [] = Ok
  (Report [needs 20 (L "an id") (L "MAY") (L "<xigt-corpus>")]
    [Report [needs 30 (L "an id") (L "SHOULD") (L "<igt>")]
      [Report [needs 30 (L "an id") (L "SHOULD") (L "<tier>"); needs 30 (L "a type") (L "SHOULD") (L "<tier>");
               unspecified [L "alignment"]; no_such_tier (L "content")]
        [Report [needs 30 (L "an id") (L "SHOULD") (L "<item>")] [] None 0] None 0] None 0] None 3).
Proof. vm_compute. reflexivity. Qed.

(* A run writes what each file shows, one after the other; the verdict is that
   of C33. *)
Theorem C67_run : forall (U : Unicode) (fuel : nat) (color : bool) (m : Z) (l : list (str * file)) out b,
  run_all color m fuel l = (out, Ok b) ->
  exists outs bs, ran fuel color m 0 [] l outs bs /\ out = concat outs /\ b = forallb (fun b => b) bs.
Proof. exact @ReportProofs.run_ran. Qed.
Print Assumptions C67_run.
(* an exception in a file leaves what the earlier files showed *)
Theorem C67_failed : forall (U : Unicode) (fuel : nat) (color : bool) (m : Z) (l : list (str * file)) out e,
  run_all color m fuel l = (out, Err e) ->
  exists l1 x l2 outs bs, l = l1 ++ x :: l2 /\ ran fuel color m 0 [] l1 outs bs /\ out = concat outs
  /\ fails fuel (length l1) (given_ids (map snd l1)) (snd x) e.
Proof. exact @ReportProofs.run_failed. Qed.
Print Assumptions C67_failed.
Theorem C67_verdict : forall (U : Unicode) (fuel : nat) (color : bool) (m : Z) (l : list (str * file)),
  snd (run_all color m fuel l) = run fuel m (map snd l).
Proof. exact @ReportProofs.run_verdict_same. Qed.
Print Assumptions C67_verdict.
(* silence means that everything was read and passed *)
Theorem C67_silent : forall (U : Unicode) (fuel : nat) (color : bool) (m : Z) (l : list (str * file)) out b,
  run_all color m fuel l = (out, Ok b) ->
  (out = [] <-> b = true /\ forall name, ~ In (name, Unparsable) l).
Proof. exact @ReportProofs.run_silent. Qed.
Print Assumptions C67_silent.
Definition e1 : str := [27%N] ++ L "[1m".
Definition e0 : str := [27%N] ++ L "[0m".
Example C67_three_files : @run_all true 30 ascii_unicode 5
  [(L "a.xml", Loaded (Some (L "c")) [] None); (L "b.xml", Unparsable);
   (L "c.xml", Loaded (Some (L "c")) [mk_igt [] []] None); (L "d.xml", Loaded None [mk_igt (L "i") []] (Some KeyError))]
  = ([Printed (L "Corpus 1 (b.xml) failed to load. First verify that the XML file is valid by doing a schema validation.");
      Printed (e1 ++ L "corpus 2 (id: ""c"")" ++ e0);
      Logged ([27%N] ++ L "[31m * The given id for each <xigt-corpus> MUST be unique within its collection." ++ e0);
      Printed (e1 ++ L " igt 0 " ++ e0);
      Logged ([27%N] ++ L "[33m  * Each <igt> SHOULD specify an id." ++ e0)], Err KeyError).
Proof. vm_compute. reflexivity. Qed.
Example C67_quiet : @run_all false 40 ascii_unicode 5 [(L "a.xml", Loaded (Some (L "c")) [mk_igt (L "i") []] None)] = ([], Ok true).
Proof. vm_compute. reflexivity. Qed.
