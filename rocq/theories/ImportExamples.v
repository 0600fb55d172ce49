(* Examples for importing files and directories. *)
From Coq Require Import Permutation.
From Verif Require Import PyStr SpecRef Ref Model SpecModel XmlStd Xml XmlText Odin SpecOdin Files ImportRun SpecImport SpecPartition.
From Verif Require OdinExamples ImportRunProofs.
Import OdinExamples.

Local Notation AU := ascii_unicode.
(* a toy for odintxt: the first character tells which blocks a text has *)
Definition bad_block : block := block_with (L "igt1") [] [[(L "line", L "1"); (L "tag", L "L")]].
Definition toy (s : str) : list block * option exn :=
  match s with
  | c :: _ => if N.eqb c (Ch "1") then ([b1; b2], None) else if N.eqb c (Ch "2") then ([b2], None)
              else if N.eqb c (Ch "!") then ([bad_block], None) else ([b2], Some ValueError)
  | [] => ([], None)
  end.
Definition conv : str -> res str := @import_text AU (fun s => s) toy opts.
Definition run := @xigt_import AU (fun s => s) toy opts.
Definition w0 : disk := {| d_dirs := [L "in"; L "in/sub"]; d_files :=
  [(L "in/a.txt", L "1 first"); (L "in/b.txt", L "2 second"); (L "in/.c.txt", L "1"); (L "in/notes", L "x"); (L "in/sub/d.txt", L "2"); (L "a.txt", L "2")] |}.
(* two files are imported into a directory that is made; the rest is left alone *)
Definition text_of (s : str) : str := match conv s with Ok t => t | Err _ => [] end.
Lemma dir_example : run (@rev str) (L ".txt") (L "in/") (L "out") w0
  = (Ok tt, {| d_dirs := L "out" :: d_dirs w0; d_files := d_files w0 ++ [(L "out/b.xml", text_of (L "2")); (L "out/a.xml", text_of (L "1"))] |})
  /\ text_of (L "1") <> text_of (L "2") /\ firstn 12 (text_of (L "2")) = L "<xigt-corpus".
Proof. split; [now vm_compute|]. split; [|now vm_compute]. vm_compute. discriminate. Qed.
(* the conditions of the theorem about directories *)
Lemma dir_meets : (forall l : list str, Permutation (rev l) l) /\ is_file w0 (L "in/") = false /\ is_dir w0 (L "in/") = true /\ is_file w0 (L "out") = false
  /\ not_output (L ".txt") /\ make_dir w0 (L "out") = Some {| d_dirs := L "out" :: d_dirs w0; d_files := d_files w0 |}.
Proof.
  split; [intros l; apply Permutation_sym, Permutation_rev|]. split; [now vm_compute|]. split; [now vm_compute|]. split; [now vm_compute|]. split; [|now vm_compute].
  intros a b H. apply (f_equal (@rev N)) in H. rewrite !rev_app_distr in H. vm_compute in H. discriminate.
Qed.
(* a file that cannot be imported stops the import; its output is left empty *)
Definition w1 : disk := {| d_dirs := [L "in"; L "out"]; d_files :=
  [(L "in/a.txt", L "2"); (L "in/b.txt", L "! bad"); (L "in/c.txt", L "2"); (L "out/c.xml", L "old")] |}.
Lemma stop_example : run (fun l => l) (L ".txt") (L "in") (L "out/") w1
  = (Err KeyError, {| d_dirs := d_dirs w1; d_files := [(L "in/a.txt", L "2"); (L "in/b.txt", L "! bad"); (L "in/c.txt", L "2"); (L "out/c.xml", L "old");
       (L "out/a.xml", text_of (L "2")); (L "out/b.xml", [])] |})
  /\ run (@rev str) (L ".txt") (L "in") (L "out/") w1
  = (Err KeyError, {| d_dirs := d_dirs w1; d_files := [(L "in/a.txt", L "2"); (L "in/b.txt", L "! bad"); (L "in/c.txt", L "2"); (L "out/c.xml", text_of (L "2"));
       (L "out/b.xml", [])] |}).
Proof. split; now vm_compute. Qed.
(* files; a text that ends badly *)
Lemma file_example : run (fun l => l) (L ".txt") (L "a.txt") (L "a.xml") w0 = (Ok tt, {| d_dirs := d_dirs w0; d_files := d_files w0 ++ [(L "a.xml", text_of (L "2"))] |})
  /\ run (fun l => l) (L ".txt") (L "in/notes") (L "a.xml") w0 = (Err ValueError, {| d_dirs := d_dirs w0; d_files := d_files w0 ++ [(L "a.xml", [])] |})
  /\ run (fun l => l) (L ".txt") (L "a.txt") (L "no/a.xml") w0 = (Err OSError, w0)
  /\ run (fun l => l) (L ".txt") (L "a.txt") (L "in") w0 = (Err XigtImportError, w0)
  /\ run (fun l => l) (L ".txt") (L "in") (L "a.txt") w0 = (Err XigtImportError, w0)
  /\ run (fun l => l) (L ".txt") (L "in") (L "no/out") w0 = (Err XigtImportError, w0)
  /\ run (fun l => l) (L ".txt") (L "none") (L "out") w0 = (Err XigtImportError, w0).
Proof. repeat match goal with |- _ /\ _ => split end; now vm_compute. Qed.
(* what is imported is lost if it is imported onto itself, *)
Lemma itself_refuted : exists w p s w' t, dget (d_files w) p = Some s /\ conv s = Ok t /\ run (fun l => l) (L ".txt") p p w = (Ok tt, w')
  /\ dget (d_files w') p <> Some s /\ dget (d_files w') p <> Some t.
Proof.
  exists w0, (L "a.txt"), (L "2"), {| d_dirs := d_dirs w0; d_files := dset (d_files w0) (L "a.txt") (text_of []) |}, (text_of (L "2")).
  split; [now vm_compute|]. split; [now vm_compute|]. split; [now vm_compute|]. split; vm_compute; discriminate.
Qed.
(* so also all in a directory, if the suffix is that of the outputs *)
Lemma same_dir_refuted : exists w d n p s w' t, wanted w d (L ".xml") n p /\ dget (d_files w) p = Some s /\ conv s = Ok t
  /\ run (fun l => l) (L ".xml") d d w = (Ok tt, w') /\ dget (d_files w') p <> Some s /\ dget (d_files w') p <> Some t.
Proof.
  exists {| d_dirs := [L "in"]; d_files := [(L "in/a.xml", L "2")] |}, (L "in"), (L "a.xml"), (L "in/a.xml"), (L "2"),
    {| d_dirs := [L "in"]; d_files := [(L "in/a.xml", text_of [])] |}, (text_of (L "2")).
  split; [|split; [now vm_compute|]; split; [now vm_compute|]; split; [now vm_compute|]; split; vm_compute; discriminate].
  split. { exists (L "in"). split; [now apply PartRunProofs.trimmed_names|]. split; [easy|]. split; [discriminate|]. intros H. vm_compute in H. intuition discriminate. }
  split; [left; now left|]. split; [now exists (L "a")|]. intros r H. discriminate.
Qed.
