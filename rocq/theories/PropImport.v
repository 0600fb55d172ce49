(* Property C77: importing ODIN files and directories. *)
From Coq Require Import Permutation.
From Verif Require Import PyStr SpecRef Ref Model SpecModel XmlStd Xml SpecXml XmlText Odin SpecOdin SpecPartition Files ImportRun SpecImport.
From Verif Require PartitionRun ImportRunProofs ImportReadProofs OdinExamples ImportExamples.
Import OdinExamples ImportExamples.

(* C77.  A directory is imported, in whatever order its entries are listed: the output
   directory is made if need be; nothing but the outputs is written; either all entries
   with the suffix are imported, or one fails, and then its error is raised and each of
   the others is either imported or left as it was. *)
Theorem C77_directory : forall (U : Unicode) title odin_blocks o order suffix inpath outpath w r w',
  (forall l, Permutation (order l) l) ->
  is_file w inpath = false -> is_dir w inpath = true -> is_file w outpath = false ->
  PartitionRun.trimmed_dir inpath <> PartitionRun.trimmed_dir outpath \/ not_output suffix ->
  xigt_import title odin_blocks o order suffix inpath outpath w = (r, w') ->
  (r = Err XigtImportError /\ w' = w /\ path_exists w outpath = false /\ make_dir w outpath = None)
  \/ exists w1, prepared w outpath w1
     /\ only_changed (fun q => exists n p, wanted w1 inpath suffix n p /\ goes_to outpath suffix n q) w1 w'
     /\ ((r = Ok tt /\ forall n p q, wanted w1 inpath suffix n p -> goes_to outpath suffix n q ->
            can_be (import_text title odin_blocks o) w1 p q /\ brought (import_text title odin_blocks o) w1 w' p q)
         \/ exists x n p q, r = Err x /\ wanted w1 inpath suffix n p /\ goes_to outpath suffix n q /\ stopped (import_text title odin_blocks o) w1 w' p q x
            /\ forall n' p' q', n' <> n -> wanted w1 inpath suffix n' p' -> goes_to outpath suffix n' q' ->
                 brought (import_text title odin_blocks o) w1 w' p' q' \/ dget (d_files w') q' = dget (d_files w1) q').
Proof. exact @ImportRunProofs.import_dir. Qed.
Print Assumptions C77_directory.
(* If all can be imported, all are. *)
Theorem C77_directory_all : forall (U : Unicode) title odin_blocks o order suffix inpath outpath w w1,
  (forall l, Permutation (order l) l) ->
  is_file w inpath = false -> is_dir w inpath = true -> is_file w outpath = false ->
  PartitionRun.trimmed_dir inpath <> PartitionRun.trimmed_dir outpath \/ not_output suffix ->
  (path_exists w outpath = true /\ w1 = w) \/ (path_exists w outpath = false /\ make_dir w outpath = Some w1) ->
  (forall n p q, wanted w1 inpath suffix n p -> goes_to outpath suffix n q -> can_be (import_text title odin_blocks o) w1 p q) ->
  exists w', xigt_import title odin_blocks o order suffix inpath outpath w = (Ok tt, w')
    /\ only_changed (fun q => exists n p, wanted w1 inpath suffix n p /\ goes_to outpath suffix n q) w1 w'
    /\ forall n p q, wanted w1 inpath suffix n p -> goes_to outpath suffix n q -> brought (import_text title odin_blocks o) w1 w' p q.
Proof. exact @ImportRunProofs.import_dir_ok. Qed.
Print Assumptions C77_directory_all.
Example C77_directory_meets : (forall l : list str, Permutation (rev l) l) /\ is_file w0 (L "in/") = false /\ is_dir w0 (L "in/") = true /\ is_file w0 (L "out") = false
  /\ not_output (L ".txt") /\ make_dir w0 (L "out") = Some {| d_dirs := L "out" :: d_dirs w0; d_files := d_files w0 |}.
Proof. exact dir_meets. Qed.
Example C77_directory_example : run (@rev str) (L ".txt") (L "in/") (L "out") w0
  = (Ok tt, {| d_dirs := L "out" :: d_dirs w0; d_files := d_files w0 ++ [(L "out/b.xml", text_of (L "2")); (L "out/a.xml", text_of (L "1"))] |})
  /\ text_of (L "1") <> text_of (L "2") /\ firstn 12 (text_of (L "2")) = L "<xigt-corpus".
Proof. exact dir_example. Qed.
Example C77_stopped_example : run (fun l => l) (L ".txt") (L "in") (L "out/") w1
  = (Err KeyError, {| d_dirs := d_dirs w1; d_files := [(L "in/a.txt", L "2"); (L "in/b.txt", L "! bad"); (L "in/c.txt", L "2"); (L "out/c.xml", L "old");
       (L "out/a.xml", text_of (L "2")); (L "out/b.xml", [])] |})
  /\ run (@rev str) (L ".txt") (L "in") (L "out/") w1
  = (Err KeyError, {| d_dirs := d_dirs w1; d_files := [(L "in/a.txt", L "2"); (L "in/b.txt", L "! bad"); (L "in/c.txt", L "2"); (L "out/c.xml", text_of (L "2"));
       (L "out/b.xml", [])] |}).
Proof. exact stop_example. Qed.

(* Where directories are and can be made, and where files can be written. *)
Theorem C77_is_dir : forall w p, is_dir w p = true <-> directory w p.
Proof. exact ImportRunProofs.directory_iff. Qed.
Print Assumptions C77_is_dir.
Theorem C77_has_dir : forall w p, has_dir w p = true <-> placed w p.
Proof. exact ImportRunProofs.placed_iff. Qed.
Print Assumptions C77_has_dir.
Theorem C77_make_dir : forall w d w1, make_dir w d = Some w1 <->
  exists b, names d b /\ b <> [] /\ placed w b /\ dget (d_files w) b = None /\ ~ In b (d_dirs w) /\ w1 = {| d_dirs := b :: d_dirs w; d_files := d_files w |}.
Proof. exact ImportRunProofs.made_iff. Qed.
Print Assumptions C77_make_dir.
Theorem C77_write : forall w p s w1, put_text w p s = Some w1 <->
  p <> [] /\ placed w p /\ ~ directory w p /\ w1 = {| d_dirs := d_dirs w; d_files := dset (d_files w) p s |}.
Proof. exact ImportRunProofs.put_iff. Qed.
Print Assumptions C77_write.

(* A file is imported: only the output is written, with what was imported or, if there
   was an error, with nothing. *)
Theorem C77_file : forall (U : Unicode) title odin_blocks o order suffix infile outfile w s r w',
  dget (d_files w) infile = Some s -> is_dir w outfile = false -> infile <> outfile ->
  xigt_import title odin_blocks o order suffix infile outfile w = (r, w') ->
  (r = Err OSError /\ w' = w /\ ~ writable w outfile)
  \/ only_changed (eq outfile) w w' /\ ((exists t, import_text title odin_blocks o s = Ok t /\ r = Ok tt /\ dget (d_files w') outfile = Some t)
      \/ exists x, import_text title odin_blocks o s = Err x /\ r = Err x /\ dget (d_files w') outfile = Some []).
Proof. exact @ImportRunProofs.import_one. Qed.
Print Assumptions C77_file.
(* Neither files nor directories: nothing happens. *)
Theorem C77_neither : forall (U : Unicode) title odin_blocks o order suffix inpath outpath w,
  is_file w inpath && negb (is_dir w outpath) = false -> is_dir w inpath && negb (is_file w outpath) = false ->
  xigt_import title odin_blocks o order suffix inpath outpath w = (Err XigtImportError, w).
Proof. exact @ImportRunProofs.import_neither. Qed.
Print Assumptions C77_neither.
Example C77_file_example : run (fun l => l) (L ".txt") (L "a.txt") (L "a.xml") w0 = (Ok tt, {| d_dirs := d_dirs w0; d_files := d_files w0 ++ [(L "a.xml", text_of (L "2"))] |})
  /\ run (fun l => l) (L ".txt") (L "in/notes") (L "a.xml") w0 = (Err ValueError, {| d_dirs := d_dirs w0; d_files := d_files w0 ++ [(L "a.xml", [])] |})
  /\ run (fun l => l) (L ".txt") (L "a.txt") (L "no/a.xml") w0 = (Err OSError, w0)
  /\ run (fun l => l) (L ".txt") (L "a.txt") (L "in") w0 = (Err XigtImportError, w0)
  /\ run (fun l => l) (L ".txt") (L "in") (L "a.txt") w0 = (Err XigtImportError, w0)
  /\ run (fun l => l) (L ".txt") (L "in") (L "no/out") w0 = (Err XigtImportError, w0)
  /\ run (fun l => l) (L ".txt") (L "none") (L "out") w0 = (Err XigtImportError, w0).
Proof. exact file_example. Qed.

(* What is written can be loaded, and gives the igts of the blocks. *)
Theorem C77_reads : forall (U : Unicode) title odin_blocks o s bs, odin_blocks s = (bs, None) ->
  Forall block_ok bs -> Forall (block_clean title o) bs ->
  legal (o_replacement o) -> no_return (o_replacement o) -> NoDup (some_ids (map b_igt_id bs)) ->
  exists c t c', odin_corpus title bs o = Ok c /\ Forall2 (block_igt o) bs (c_igts c)
    /\ import_text title odin_blocks o s = Ok t /\ (forall ahead, loads ahead t = Ok c') /\ same_corpus (back_corpus c) c'.
Proof. exact @ImportReadProofs.import_reads. Qed.
Print Assumptions C77_reads.
Example C77_reads_example : toy (L "1 first") = ([b1; b2], None) /\ Forall (@block_ok ascii_unicode) [b1; b2]
  /\ Forall (@block_clean ascii_unicode (fun s => s) opts) [b1; b2]
  /\ legal (o_replacement opts) /\ no_return (o_replacement opts) /\ NoDup (some_ids (map b_igt_id [b1; b2])).
Proof.
  split; [reflexivity|]. split; [exact (Forall_cons _ b1_ok (Forall_cons _ b2_ok (Forall_nil _)))|].
  split; [exact (Forall_cons _ b1_clean (Forall_cons _ b2_clean (Forall_nil _)))|].
  split; [exact (proj1 opts_fine)|]. split; [exact (proj2 opts_fine)|].
  constructor; [now intros [H|[]]|]. constructor; [easy|constructor].
Qed.
(* What odintxt raises, or making an igt, is raised. *)
Theorem C77_raises : forall (U : Unicode) title odin_blocks o s bs e x, odin_blocks s = (bs, e) ->
  odin_corpus title bs o = Err x -> import_text title odin_blocks o s = Err x.
Proof. exact @ImportReadProofs.import_fails. Qed.
Print Assumptions C77_raises.
Theorem C77_ends : forall (U : Unicode) title odin_blocks o s bs x, odin_blocks s = (bs, Some x) ->
  exists y, import_text title odin_blocks o s = Err y /\ (y = x \/ odin_corpus title bs o = Err y).
Proof. exact @ImportReadProofs.import_ends. Qed.
Print Assumptions C77_ends.

(* A file that is imported onto itself is emptied before it is read, *)
Theorem C77_itself : forall (U : Unicode) title odin_blocks o order suffix p w s, dget (d_files w) p = Some s -> writable w p ->
  exists r w', xigt_import title odin_blocks o order suffix p p w = (r, w')
    /\ (dget (d_files w') p = Some [] \/ exists t, import_text title odin_blocks o [] = Ok t /\ dget (d_files w') p = Some t).
Proof. exact @ImportRunProofs.import_itself. Qed.
Print Assumptions C77_itself.
(* so that neither its content nor what should be imported is there then; *)
Theorem C77_itself_refuted : exists w p s w' t, dget (d_files w) p = Some s /\ conv s = Ok t /\ run (fun l => l) (L ".txt") p p w = (Ok tt, w')
  /\ dget (d_files w') p <> Some s /\ dget (d_files w') p <> Some t.
Proof. exact itself_refuted. Qed.
Print Assumptions C77_itself_refuted.
(* the same happens to a directory that is imported into itself, if the suffix is .xml. *)
Theorem C77_same_directory_refuted : exists w d n p s w' t, wanted w d (L ".xml") n p /\ dget (d_files w) p = Some s /\ conv s = Ok t
  /\ run (fun l => l) (L ".xml") d d w = (Ok tt, w') /\ dget (d_files w') p <> Some s /\ dget (d_files w') p <> Some t.
Proof. exact same_dir_refuted. Qed.
Print Assumptions C77_same_directory_refuted.
