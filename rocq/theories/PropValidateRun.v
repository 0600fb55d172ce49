(* Property C79: validation of files. *)
From Verif Require Import PyStr SpecRef Ref Model SpecModel XmlStd Xml SpecXml XmlText Value Validate SpecValidate Report Files Stream ValidateRun SpecValidateRun.
From Verif Require ValidateRunProofs XmlExamples StreamExamples ValidateRunExamples.
Import StreamExamples ValidateRunExamples.

(* C79.  Corpora that are the same have the same report. *)
Theorem C79_same : forall (U : Unicode) (fuel : nat) ci gs gs' e n idset, Forall2 same_igt gs gs' ->
  validate_corpus fuel ci gs e n idset = validate_corpus fuel ci gs' e n idset.
Proof. exact @ValidateRunProofs.validate_same. Qed.
Print Assumptions C79_same.
(* So what is written and the verdict for files that corpora were saved to are those
   for the corpora in memory. *)
Theorem C79_saved : forall (U : Unicode) (color : bool) (m : Z) (fuel : nat) before ahead w paths cs, Forall2 (saved_as w) paths cs ->
  run_validate color m fuel before ahead paths w = run_all color m fuel (map (fun pc => in_memory (fst pc) (snd pc)) (combine paths cs)).
Proof. exact @ValidateRunProofs.saved_run. Qed.
Print Assumptions C79_saved.
(* If errors count, a run passes exactly if every file is there, and is either not XML
   or is loaded as a corpus without records at the level: what passes can be loaded. *)
Theorem C79_passes : forall (U : Unicode) (color : bool) (m : Z) (fuel : nat) before ahead paths w, (m <= 40)%Z ->
  (snd (run_validate color m fuel before ahead paths w) = Ok true <->
   forall k p, nth_error paths k = Some p -> exists s, dget (d_files w) p = Some s
     /\ (load_stream before (ahead s) s = Err ParseError
         \/ exists c r, loads (ahead s) s = Ok c
            /\ validate_corpus fuel (a_id (c_attrs c)) (c_igts c) None k (given_ids (map (load_file before ahead w) (firstn k paths))) = Ok r /\ all_below m r)).
Proof. exact @ValidateRunProofs.passes_iff. Qed.
Print Assumptions C79_passes.
(* If they do not count, what passes need not be loaded. *)
Theorem C79_critical_refuted : exists s, snd (validate_ 50 [L "c.xml"]) = Ok true
  /\ dget (d_files disk1) (L "c.xml") = Some s /\ @loads ascii_unicode 8 s = Err XigtError.
Proof. exact (ex_intro _ twice_igt (conj critical (conj eq_refl (proj1 (proj2 (proj2 verdicts)))))). Qed.
Print Assumptions C79_critical_refuted.

Example C79_example : snd (validate_ 40 [L "e.xml"; L "b.xml"]) = Ok true
  /\ snd (validate_ 40 [L "b.xml"; L "c.xml"]) = Ok false /\ @loads ascii_unicode 8 twice_igt = Err XigtError
  /\ snd (validate_ 40 [L "b.xml"; L "d.xml"]) = Err XigtError /\ @loads ascii_unicode 8 twice_tier = Err XigtError
  /\ validate_ 40 [L "e.xml"; L "f.xml"] = ([Printed (load_failed 0 (L "e.xml"))], Err OSError)
  /\ snd (validate_ 40 [L "e.xml"]) = Ok true.
Proof. exact verdicts. Qed.
Example C79_saved_example : Forall2 (@saved_as ascii_unicode disk1) [L "a.xml"; L "a.xml"] [XmlExamples.xc; XmlExamples.xc]
  /\ snd (validate_ 40 [L "a.xml"; L "a.xml"]) = Ok false.
Proof. exact saved_twice. Qed.
