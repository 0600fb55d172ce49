(* Properties of the XML codec (C23, C24). *)
From Verif Require Import PyStr SpecRef Model SpecModel XmlStd Xml SpecXml.
From Verif Require XmlProofs XmlExamples.

(* ---------- C23 ---------- *)

(* what loads(dumps(c, indent=...)) gives, for any nesting and any indent:
   everything but a few texts and attributes, see back_corpus *)
Theorem C23_reads_back : forall (U : Unicode) (c : corpus) (indent : option nat),
  tree_ok [] (corpus_tree c) -> corpus_ok c ->
  exists e c', xml_dump c indent = Ok e /\ (forall ahead, xml_load ahead e = Ok c') /\ same_corpus (back_corpus c) c'.
Proof. intros U. exact XmlProofs.xml_reads_back. Qed.
Print Assumptions C23_reads_back.

(* The full statement is without the hypothesis corpus_kept and with less in
   corpus_ok; it is refuted below. *)
Theorem C23_round_trip_partial : forall (U : Unicode) (c : corpus) (indent : option nat),
  tree_ok [] (corpus_tree c) -> corpus_ok c -> corpus_kept c ->
  exists e c', xml_dump c indent = Ok e /\ (forall ahead, xml_load ahead e = Ok c') /\ same_corpus c c'.
Proof. intros U. exact XmlProofs.xml_round_trip. Qed.
Print Assumptions C23_round_trip_partial.

Example C23_example : forall U : Unicode,
  tree_ok [] (corpus_tree XmlExamples.xc) /\ corpus_ok XmlExamples.xc /\ corpus_kept XmlExamples.xc.
Proof. intros U. split; [exact XmlExamples.xc_tree_ok|exact XmlExamples.xc_ok]. Qed.

(* lost: the text '' of an item *)
Theorem C23_empty_text_refuted : forall U : Unicode, exists c e c', tree_ok [] (corpus_tree c) /\ corpus_ok c
  /\ xml_dump c None = Ok e /\ (forall ahead, xml_load ahead e = Ok c') /\ ~ same_corpus c c'.
Proof. intros U. exact XmlExamples.c23_empty_text. Qed.
Print Assumptions C23_empty_text_refuted.
(* carriage returns in text *)
Theorem C23_carriage_return_refuted : forall U : Unicode, exists c e c', corpus_ok c
  /\ xml_dump c None = Ok e /\ (forall ahead, xml_load ahead e = Ok c') /\ ~ same_corpus c c'.
Proof. intros U. exact XmlExamples.c23_return_text. Qed.
Print Assumptions C23_carriage_return_refuted.
(* the type of a corpus *)
Theorem C23_corpus_type_refuted : forall U : Unicode, exists c e c', tree_ok [] (corpus_tree c) /\ corpus_ok c
  /\ xml_dump c None = Ok e /\ (forall ahead, xml_load ahead e = Ok c') /\ ~ same_corpus c c'.
Proof. intros U. exact XmlExamples.c23_corpus_type. Qed.
Print Assumptions C23_corpus_type_refuted.
(* white space as the text of a Meta *)
Theorem C23_blank_meta_refuted : forall U : Unicode, exists c e c', tree_ok [] (corpus_tree c) /\ corpus_ok c
  /\ xml_dump c None = Ok e /\ (forall ahead, xml_load ahead e = Ok c') /\ ~ same_corpus c c'.
Proof. intros U. exact XmlExamples.c23_blank_meta. Qed.
Print Assumptions C23_blank_meta_refuted.
(* an attribute "id" of a MetaChild *)
Theorem C23_child_id_refuted : forall U : Unicode, exists c e c', tree_ok [] (corpus_tree c) /\ corpus_ok c
  /\ xml_dump c None = Ok e /\ (forall ahead, xml_load ahead e = Ok c') /\ ~ same_corpus c c'.
Proof. intros U. exact XmlExamples.c23_child_id. Qed.
Print Assumptions C23_child_id_refuted.
(* a tier in a namespace *)
Theorem C23_tier_namespace_refuted : forall U : Unicode, exists c e c', tree_ok [] (corpus_tree c) /\ corpus_kept c
  /\ xml_dump c None = Ok e /\ (forall ahead, xml_load ahead e = Ok c') /\ ~ same_corpus c c'.
Proof. intros U. exact XmlExamples.c23_ns_tier. Qed.
Print Assumptions C23_tier_namespace_refuted.

(* ---------- C24 ---------- *)

(* The document can be read, and every tag and attribute in it has, in the
   scope it is written in, the namespace and name of the object's; objects may
   have their own nsmap or inherit it, in any mixture. *)
Theorem C24_names_resolve : forall (U : Unicode) (c : corpus) (indent : option nat),
  tree_ok [] (corpus_tree c) ->
  exists e p, xml_dump c indent = Ok e /\ reread [] e = Ok p /\ mirrors (corpus_tree c) p.
Proof. intros U. exact XmlProofs.dump_mirrors. Qed.
Print Assumptions C24_names_resolve.

Example C24_example : forall U : Unicode,
  match xml_dump XmlExamples.xc (Some 2) with
  | Ok e => XmlExamples.all_decls e = [L "xigt-corpus xmlns:dc"; L "meta xmlns:my"; L "meta xmlns:my"]
  | Err _ => False
  end.
Proof. intros U. exact XmlExamples.c24_example. Qed.

(* outside the hypotheses: a namespace known only to the default set *)
Theorem C24_default_set_refuted : forall U : Unicode, exists c e, xml_dump c None = Ok e /\ reread [] e = Err ParseError
  /\ a_dict (c_attrs c) = [(in_ns XmlExamples.DC_URI (L "title"), L "x")] /\ a_nsmap (c_attrs c) = None.
Proof. intros U. exact XmlExamples.c24_fallback. Qed.
Print Assumptions C24_default_set_refuted.
(* the empty prefix *)
Theorem C24_empty_prefix_refuted : forall U : Unicode, exists c e, xml_dump c None = Ok e /\ reread [] e = Err ParseError
  /\ a_nsmap (c_attrs c) = Some [([], XmlExamples.MY_URI)] /\ a_ns (c_attrs c) = Some XmlExamples.MY_URI.
Proof. intros U. exact XmlExamples.c24_empty_prefix. Qed.
Print Assumptions C24_empty_prefix_refuted.
