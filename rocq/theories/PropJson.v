(* Properties C25 and C51: the JSON codec, and what loading guarantees. *)
From Verif Require Import PyStr Ref SpecRef Model SpecModel XmlStd Xml SpecXml Json SpecJson SpecLoad.
From Verif Require JsonProofs JsonExamples LoadProofs XmlExamples.

(* ---------- C25 ---------- *)

(* Every corpus in jcorpus is written and reads back equal.  Missing from the
   full claim: corpora whose attributes are in a declared namespace, with a type
   on the corpus, with empty item texts, types or namespaces, or with MetaChild
   namespaces that are taken for prefixes; for those see the refutations. *)
Theorem C25_round_trip_partial : forall (U : Unicode) (c : corpus), jcorpus c ->
  exists j c', json_encode c = Ok j /\ json_decode j = Ok c' /\ same_corpus c c'.
Proof. intros U. exact JsonProofs.json_round_trip. Qed.
Print Assumptions C25_round_trip_partial.
Example C25_example : forall U : Unicode, jcorpus JsonExamples.jc.
Proof. intros U. exact JsonExamples.jc_ok. Qed.

(* attributes in a declared namespace come back under another name *)
Theorem C25_attribute_refuted : forall U : Unicode, exists c j c', json_encode c = Ok j /\ json_decode j = Ok c'
  /\ a_dict (c_attrs c) = [(in_ns XmlExamples.MY_URI (L "k"), L "v")] /\ a_dict (c_attrs c') = [(L "my:k", L "v")].
Proof. intros U. exact JsonExamples.c25_attribute. Qed.
Print Assumptions C25_attribute_refuted.
Theorem C25_corpus_type_refuted : forall U : Unicode, exists c j c', json_encode c = Ok j /\ json_decode j = Ok c'
  /\ a_type (c_attrs c) = Some (L "t") /\ a_type (c_attrs c') = None.
Proof. intros U. exact JsonExamples.c25_corpus_type. Qed.
Print Assumptions C25_corpus_type_refuted.
Theorem C25_empty_text_refuted : forall U : Unicode, exists c j c', c = XmlExamples.one_item (Some [])
  /\ json_encode c = Ok j /\ json_decode j = Ok c' /\ ~ same_corpus c c'.
Proof. intros U. exact JsonExamples.c25_empty_text. Qed.
Print Assumptions C25_empty_text_refuted.
Theorem C25_namespace_refuted : forall U : Unicode, exists c j c', json_encode c = Ok j /\ json_decode j = Ok c'
  /\ ~ same_corpus c c'.
Proof. intros U. exact JsonExamples.c25_namespace. Qed.
Print Assumptions C25_namespace_refuted.

(* ---------- C51 ---------- *)

(* Whatever document is loaded, ids of the members of each container are of the
   required form and distinct, and MetaChild names begin with a letter. *)
Theorem C51_xml_load : forall (U : Unicode) (ahead : nat) (e : xelem) (c : corpus), xml_load ahead e = Ok c -> corpus_fine c.
Proof. intros U. exact LoadProofs.xml_load_fine. Qed.
Print Assumptions C51_xml_load.
Theorem C51_json_load : forall (U : Unicode) (j : json) (c : corpus), json_decode j = Ok c -> corpus_fine c.
Proof. intros U. exact LoadProofs.json_decode_fine. Qed.
Print Assumptions C51_json_load.
(* no document gives a corpus with two igts of the same id *)
Example C51_example : forall (U : Unicode) c, (exists ahead e, xml_load ahead e = Ok c) ->
  c_igts c <> [ {| g_attrs := XmlExamples.with_id (L "i"); g_md := []; g_tiers := [] |};
                {| g_attrs := XmlExamples.with_id (L "i"); g_md := []; g_tiers := [] |}].
Proof. intros U. exact JsonExamples.c51_example. Qed.
Example C51_loads : forall U : Unicode, exists e c, (forall ahead, xml_load ahead e = Ok c) /\ c_igts c <> [].
Proof. intros U. exact JsonExamples.c51_loads. Qed.
