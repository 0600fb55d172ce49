(* Examples for validation of files. *)
From Verif Require Import PyStr SpecRef Ref Model SpecModel XmlStd Xml SpecXml XmlText Value Validate SpecValidate Report Files Stream ValidateRun SpecValidateRun.
From Verif Require LatexExamples XmlExamples StreamExamples.
Import LatexExamples StreamExamples.

Definition text_of (c : corpus) : str := match @dumps ascii_unicode c (Some 2) with Ok s => s | Err _ => [] end.
Definition disk1 : disk := {| d_dirs := []; d_files :=
  [(L "a.xml", text_of XmlExamples.xc); (L "b.xml", saved [ex; other]); (L "c.xml", twice_igt); (L "d.xml", twice_tier); (L "e.xml", L "<a>")] |}.
Definition validate_ (m : Z) (paths : list str) := @run_validate ascii_unicode false m 10 none (fun _ => 8) paths disk1.

Lemma verdicts : snd (validate_ 40 [L "e.xml"; L "b.xml"]) = Ok true
  /\ snd (validate_ 40 [L "b.xml"; L "c.xml"]) = Ok false /\ @loads ascii_unicode 8 twice_igt = Err XigtError
  /\ snd (validate_ 40 [L "b.xml"; L "d.xml"]) = Err XigtError /\ @loads ascii_unicode 8 twice_tier = Err XigtError
  /\ validate_ 40 [L "e.xml"; L "f.xml"] = ([Printed (load_failed 0 (L "e.xml"))], Err OSError)
  /\ snd (validate_ 40 [L "e.xml"]) = Ok true.
Proof. repeat match goal with |- _ /\ _ => split end; vm_compute; reflexivity. Qed.
(* igts with one id pass if only what is worse than an error counts *)
Lemma critical : snd (validate_ 50 [L "c.xml"]) = Ok true.
Proof. vm_compute; reflexivity. Qed.
Lemma saved_twice : Forall2 (@saved_as ascii_unicode disk1) [L "a.xml"; L "a.xml"] [XmlExamples.xc; XmlExamples.xc]
  /\ snd (validate_ 40 [L "a.xml"; L "a.xml"]) = Ok false.
Proof.
  split; [|vm_compute; reflexivity].
  assert (H : @saved_as ascii_unicode disk1 (L "a.xml") XmlExamples.xc); [|exact (Forall2_cons _ _ H (Forall2_cons _ _ H (Forall2_nil _)))].
  split; [exact XmlExamples.xc_tree_ok|]. split; [exact (proj1 (@XmlExamples.xc_ok ascii_unicode))|]. split; [exact (proj2 (@XmlExamples.xc_ok ascii_unicode))|].
  exists (Some 2). eexists. split; [vm_compute; reflexivity|]. vm_compute. reflexivity.
Qed.
