(* Property C73: documents and the schema, schema/xigt-structure.rnc. *)
From Verif Require Import PyStr SpecRef Ref Model SpecModel XmlStd Xml SpecXml SpecReload Schema SpecSchema.
From Verif Require Import Attr Index Scripts SpecScripts Path Command SpecCommand PartitionRun SpecPartition.
From Verif Require SchemaProofs SchemaErrProofs SchemaRunProofs SchemaExamples PartExamples.
Import SchemaExamples.

(* A valid document can be read if ids are distinct among siblings and the names in
   metadata are such as Python takes for names; what is read is what is written. *)
Theorem C73_reads : forall (U : Unicode) (X : XsdWord) e p, reread [] e = Ok p -> valid_corpus p -> readable_kids p ->
  exists c, (forall ahead, xml_load ahead e = Ok c) /\ corpus_read p c.
Proof. exact @SchemaProofs.valid_reads. Qed.
Print Assumptions C73_reads.
(* If a valid document can be read at all, that is what is read. *)
Theorem C73_read_as : forall (U : Unicode) (X : XsdWord) ahead e p c, tidy_document e -> reread [] e = Ok p -> valid_corpus p ->
  xml_load ahead e = Ok c -> corpus_read p c.
Proof. exact @SchemaProofs.loaded_read. Qed.
Print Assumptions C73_read_as.
(* It can be read exactly if ids are distinct and names are such; with ids that are not
   it fails with XigtError, with names that are not with ValueError. *)
Theorem C73_reads_exactly : forall (U : Unicode) (X : XsdWord) ahead e p, tidy_document e -> reread [] e = Ok p -> valid_corpus p ->
  ((exists c, xml_load ahead e = Ok c) <-> ids_apart p /\ names_read p).
Proof. exact @SchemaErrProofs.reads_exactly. Qed.
Print Assumptions C73_reads_exactly.
Theorem C73_fails : forall (U : Unicode) (X : XsdWord) ahead e p x, tidy_document e -> reread [] e = Ok p -> valid_corpus p -> xml_load ahead e = Err x ->
  x = XigtError /\ ~ ids_apart p \/ x = ValueError /\ ~ names_read p.
Proof. exact @SchemaErrProofs.reads_fails. Qed.
Print Assumptions C73_fails.
(* C73_reads_refuted below has what becomes of these two. *)
Example C73_fails_example :
  (tidy_document doc_dup /\ exists p, reread [] doc_dup = Ok p /\ @valid_corpus ascii_unicode ascii_words p)
  /\ (tidy_document doc_dot /\ exists p, reread [] doc_dot = Ok p /\ @valid_corpus ascii_unicode ascii_words p).
Proof. exact err_docs. Qed.
Example C73_example : tidy_document doc_valid
  /\ (exists p, reread [] doc_valid = Ok p /\ @valid_corpus ascii_unicode ascii_words p /\ @readable_kids ascii_unicode p)
  /\ exists c, (forall ahead, @xml_load ascii_unicode ahead doc_valid = Ok c) /\ length (c_igts c) = 2.
Proof. exact (conj (proj1 valid_doc) (conj (proj2 valid_doc) valid_loads)). Qed.

(* Which corpora are written as valid documents. *)
Theorem C73_written : forall (U : Unicode) (X : XsdWord) c indent, tree_ok [] (corpus_tree c) -> admitted xml_space c ->
  exists e, xml_dump c indent = Ok e /\ schema_valid e.
Proof. exact @SchemaProofs.written. Qed.
Print Assumptions C73_written.
Theorem C73_written_only : forall (U : Unicode) (X : XsdWord) c indent e, tree_ok [] (corpus_tree c) -> xml_dump c indent = Ok e -> schema_valid e ->
  admitted blank_text c.
Proof. exact @SchemaProofs.written_only. Qed.
Print Assumptions C73_written_only.
(* What is read from a valid document is written as a valid document. *)
Theorem C73_stays : forall (U : Unicode) (X : XsdWord) ahead e c indent, tidy_document e -> schema_valid e -> xml_load ahead e = Ok c ->
  exists e', xml_dump c indent = Ok e' /\ schema_valid e'.
Proof. exact @SchemaProofs.stays_valid. Qed.
Print Assumptions C73_stays.
(* So do xigt sort and xigt partition. *)
Theorem C73_sort : forall (U : Unicode) (X : XsdWord) ix vfuel fuel ahead o e e', tidy_document e -> schema_valid e ->
  sort_document ix vfuel fuel ahead o e = Ok e' -> schema_valid e'.
Proof. exact @SchemaRunProofs.sort_valid. Qed.
Print Assumptions C73_sort.
Theorem C73_partition : forall (U : Unicode) (X : XsdWord) ix vfuel ahead outdir default_key path fns w w',
  let key := key_by ix vfuel path in let load := read_file ahead (files w) in let file := out_path outdir default_key in
  tidy_inputs w fns -> (forall fn e, In fn fns -> dget (files w) fn = Some e -> schema_valid e) ->
  (forall k, occurs key load fns k -> ~ In (file k) fns) ->
  (forall k k', occurs key load fns k -> occurs key load fns k' -> file k = file k' -> k = k') ->
  run_partition ix vfuel ahead outdir default_key path fns w = (Ok tt, w') ->
  forall k, occurs key load fns k -> exists e, dget (files w') (file k) = Some e /\ schema_valid e.
Proof. exact @SchemaRunProofs.partition_valid. Qed.
Print Assumptions C73_partition.
Example C73_sort_example : forall ix vfuel, exists e',
  (forall ahead, @sort_document ascii_unicode ix vfuel 9 ahead o_keys doc_valid = Ok e') /\ @schema_valid ascii_unicode ascii_words e' /\ e' <> doc_valid.
Proof. exact sort_example. Qed.
Example C73_partition_example : forall ix vfuel, tidy_inputs w_valid [L "a.xml"]
  /\ (forall fn e, In fn [L "a.xml"] -> dget (files w_valid) fn = Some e -> @schema_valid ascii_unicode ascii_words e)
  /\ exists w' e1 e2, @run_partition ascii_unicode ix vfuel PartExamples.lazy_parser (L "out") (L "---") (Some (L "@note")) [L "a.xml"] w_valid = (Ok tt, w')
     /\ dget (files w') (L "out/n.xml") = Some e1 /\ @schema_valid ascii_unicode ascii_words e1
     /\ dget (files w') (L "out/---.xml") = Some e2 /\ @schema_valid ascii_unicode ascii_words e2.
Proof. exact partition_example. Qed.

(* Valid ids are such as can be given to an object (C01). *)
Theorem C73_ids : forall (X : XsdWord) s, matches id_pattern s -> accepted_id s.
Proof. exact @SchemaProofs.id_pattern_accepted. Qed.
Print Assumptions C73_ids.
(* The pattern of alignment expressions describes ids with slices of digits,
   separated by single commas and plus signs. *)
Theorem C73_expr : forall (U : Unicode) (X : XsdWord) s, matches algnexpr_pattern s <-> exists e, plain_expr (matches id_pattern) e /\ s = show e.
Proof. exact @SchemaProofs.algnexpr_spec. Qed.
Print Assumptions C73_expr.
(* Expressions over ids such as xigt/ref.py finds are valid, if the word characters
   of Python are word characters of XML Schema; they are well-formed and their
   bounds are integers, so C07 to C12 apply to them. *)
Theorem C73_expr_valid : forall (U : Unicode) (X : XsdWord) e, wide_table -> plain_expr id_shape e -> matches algnexpr_pattern (show e).
Proof. exact @SchemaRunProofs.plain_valid. Qed.
Print Assumptions C73_expr_valid.
Theorem C73_expr_read : forall (U : Unicode) e, plain_expr id_shape e -> wf1 e /\ bounds_ok e /\ ids (show e) = map sl_id e.
Proof. exact @SchemaRunProofs.plain_read. Qed.
Print Assumptions C73_expr_read.
Example C73_expr_example : @plain_expr ascii_unicode (@id_shape ascii_unicode) m2_expr /\ show m2_expr = L "w1[4:5]+w2[0:2,2:6]"
  /\ @wide_table ascii_unicode ascii_words.
Proof. exact expr_plain. Qed.

(* ---------- what does not hold ---------- *)

(* In XML Schema + is a word character: a valid id can be taken for two. *)
Theorem C73_id_refuted : @schema_valid ascii_unicode ascii_words doc_plus /\ (exists c, forall ahead, @xml_load ascii_unicode ahead doc_plus = Ok c)
  /\ @matches (@id_pattern ascii_words) (L "a+b") /\ @ids ascii_unicode (L "a+b") = [L "a"; L "b"].
Proof. exact plus_refuted. Qed.
Print Assumptions C73_id_refuted.
(* Valid documents that cannot be read: one id twice, a middle dot in a name, an igt
   in metadata. *)
Theorem C73_reads_refuted : (@schema_valid ascii_unicode ascii_words doc_dup /\ forall ahead, @xml_load ascii_unicode ahead doc_dup = Err XigtError)
  /\ (@schema_valid ascii_unicode ascii_words doc_dot /\ forall ahead, @xml_load ascii_unicode ahead doc_dot = Err ValueError)
  /\ (@schema_valid ascii_unicode ascii_words doc_in_meta /\ exists x, @xml_load ascii_unicode 0 doc_in_meta = Err x).
Proof. exact (conj dup_refuted (conj dot_refuted in_meta_refuted)). Qed.
Print Assumptions C73_reads_refuted.
(* Ids and text after elements in metadata are lost. *)
Theorem C73_lost_refuted : exists e e', tidy_document e /\ @schema_valid ascii_unicode ascii_words e /\ @schema_valid ascii_unicode ascii_words e' /\ ~ e = e'
  /\ exists c, (forall ahead, @xml_load ascii_unicode ahead e = Ok c) /\ forall ahead, @xml_load ascii_unicode ahead e' = Ok c.
Proof. exact lost_refuted. Qed.
Print Assumptions C73_lost_refuted.
(* What can be saved and loaded need not be valid: an igt without id. *)
Theorem C73_written_refuted : exists c e, tidy_document doc_invalid /\ (forall ahead, @xml_load ascii_unicode ahead doc_invalid = Ok c)
  /\ @xml_dump ascii_unicode c (Some 2) = Ok e /\ (forall ahead, @xml_load ascii_unicode ahead e = Ok c) /\ ~ @schema_valid ascii_unicode ascii_words e.
Proof. exact invalid_refuted. Qed.
Print Assumptions C73_written_refuted.
