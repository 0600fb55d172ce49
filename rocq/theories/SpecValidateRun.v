(* Specification of validation of files: what was saved. *)
From Verif Require Import PyStr Ref Model XmlStd Xml SpecXml XmlText Value Validate Files.

Section SpecValidateRun.
Context {U : Unicode}.
(* the file holds the corpus as it was saved *)
Definition saved_as (w : disk) (p : str) (c : corpus) : Prop :=
  tree_ok [] (corpus_tree c) /\ corpus_ok c /\ corpus_kept c /\ exists indent s, dumps c indent = Ok s /\ dget (d_files w) p = Some s.
Definition in_memory (p : str) (c : corpus) : str * file := (p, Loaded (a_id (c_attrs c)) (c_igts c) None).
End SpecValidateRun.
