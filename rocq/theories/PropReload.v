(* Properties of saving what was loaded (C62). *)
From Verif Require Import PyStr SpecRef Model SpecModel XmlStd Xml SpecXml SpecReload.
From Verif Require ReloadProofs ReloadExamples.

(* Whatever document is loaded, saving the corpus succeeds and what is saved
   loads as the very same corpus: attributes in the same order, prefixes,
   texts.  Any depth of metadata, unknown elements in between, prefixes bound
   anew; however far ahead the parser reads each time.  The full statement is
   without tidy_document; it is refuted below (but for igts inside a meta:
   these cannot be loaded in the first place, see C63). *)
Theorem C62_reload_partial : forall (U : Unicode) (ahead : nat) (e : xelem) (c : corpus) (indent : option nat),
  tidy_document e -> xml_load ahead e = Ok c ->
  exists e', xml_dump c indent = Ok e' /\ forall ahead', xml_load ahead' e' = Ok c.
Proof. intros U. exact ReloadProofs.reload. Qed.
Print Assumptions C62_reload_partial.

(* So the second save writes what the first one wrote. *)
Theorem C62_settles_partial : forall (U : Unicode) (ahead ahead1 : nat) (e : xelem) (c : corpus) (indent : option nat) (e1 : xelem) (c1 : corpus),
  tidy_document e -> xml_load ahead e = Ok c -> xml_dump c indent = Ok e1 -> xml_load ahead1 e1 = Ok c1 ->
  forall indent', xml_dump c1 indent' = xml_dump c indent'.
Proof. intros U. exact ReloadProofs.settles. Qed.
Print Assumptions C62_settles_partial.

Example C62_example : forall U : Unicode, tidy_document ReloadExamples.doc1
  /\ exists c e', (forall ahead, xml_load ahead ReloadExamples.doc1 = Ok c) /\ length (c_igts c) = 2
     /\ xml_dump c (Some 2) = Ok e' /\ e' <> ReloadExamples.doc1.
Proof. intros U. split; [exact ReloadExamples.doc1_tidy|exact ReloadExamples.doc1_loads]. Qed.

(* a default namespace on an element inside a meta: the saved file cannot be read *)
Theorem C62_default_namespace_refuted : forall U : Unicode,
  exists e c e', (forall ahead, xml_load ahead e = Ok c) /\ xml_dump c None = Ok e'
  /\ forall ahead, xml_load ahead e' = Err ParseError.
Proof. intros U. exact ReloadExamples.default_refuted. Qed.
Print Assumptions C62_default_namespace_refuted.
(* an element xml:note inside a meta: it loses its namespace *)
Theorem C62_xml_element_refuted : forall U : Unicode,
  exists e c e' c', (forall ahead, xml_load ahead e = Ok c) /\ xml_dump c None = Ok e'
  /\ (forall ahead, xml_load ahead e' = Ok c') /\ ~ same_corpus c c'.
Proof. intros U. exact ReloadExamples.xml_refuted. Qed.
Print Assumptions C62_xml_element_refuted.
(* a closing brace in the name of a namespace: KeyError when saving *)
Theorem C62_brace_refuted : forall U : Unicode, exists e c, (forall ahead, xml_load ahead e = Ok c) /\ xml_dump c None = Err KeyError.
Proof. intros U. exact ReloadExamples.brace_refuted. Qed.
Print Assumptions C62_brace_refuted.
