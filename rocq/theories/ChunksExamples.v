(* Concrete documents for reading a file in pieces. *)
From Verif Require Import PyStr PyStrFacts SpecRef Model SpecModel XmlStd Xml SpecXml SpecReload SpecChunks ChunksProofs ReloadExamples.

Definition an_igt (i : str) (kids : list xelem) : xelem := XElem (L "igt") [(L "id", i)] None None kids.
Definition a_note (t : str) : xelem := in_meta [] (XElem (L "note") [] (Some t) None []).

(* metadata, then igts, one of them in a section with metadata of its own *)
Definition doc_chunks : xelem :=
  doc_of [(L "id", L "x")]
    [a_note (L "one"); XElem (L "section") [] None None [an_igt (L "i1") [a_note (L "two")]; a_note (L "three")]; an_igt (L "i2") []].
Lemma doc_chunks_first : metadata_first doc_chunks.
Proof. apply firstb_ok. reflexivity. Qed.

Section ChunksExamples.
Context {U : Unicode}.

Lemma doc_chunks_loads : exists c, xml_load 0 doc_chunks = Ok c /\ length (c_igts c) = 2 /\ length (c_md c) = 1.
Proof. eexists. split; [vm_compute; reflexivity|]. split; reflexivity. Qed.
(* metadata after an igt: lost, or an error *)
Definition doc_late : xelem := doc_of [] [an_igt (L "i1") []; a_note (L "late")].
Lemma late_refuted : exists e c, xml_load 0 e = Ok c /\ c_md c = [] /\ xml_load 2 e = Err AttributeError.
Proof. exists doc_late. eexists. split; [vm_compute; reflexivity|]. split; [reflexivity|]. vm_compute. reflexivity. Qed.
(* an element igt in metadata: an error, always *)
Definition doc_igt : xelem := doc_of [] [in_meta [] (an_igt (L "x") []); an_igt (L "i1") []].
Lemma igt_error n : xml_load n doc_igt = Err AttributeError.
Proof. do 8 (destruct n as [|n]; [vm_compute; reflexivity|]). vm_compute. reflexivity. Qed.
Definition doc_igt2 : xelem := doc_of [] [an_igt (L "i1") [in_meta [] (an_igt (L "x") [])]].
Lemma igt_error2 n : xml_load n doc_igt2 = Err AttributeError.
Proof. rewrite (chunks n 0); [vm_compute; reflexivity|]. apply firstb_ok. reflexivity. Qed.
(* an element xigt-corpus in metadata: the igts are lost, or an error *)
Definition doc_corpus : xelem := doc_of [] [in_meta [] (XElem (L "xigt-corpus") [] None None []); an_igt (L "i1") []].
Lemma corpus_lost : exists c, xml_load 0 doc_corpus = Ok c /\ c_igts c = [] /\ xml_load 3 doc_corpus = Err AttributeError.
Proof. eexists. split; [vm_compute; reflexivity|]. split; [reflexivity|]. vm_compute. reflexivity. Qed.

End ChunksExamples.
