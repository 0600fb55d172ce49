(* Properties of reading a file in pieces (C63). *)
From Verif Require Import PyStr SpecRef Model SpecModel XmlStd Xml SpecXml SpecReload SpecChunks.
From Verif Require ChunksProofs ChunksExamples.

(* Two loads of the same document that succeed give the same corpus, however far
   ahead the parser had read when the metadata was taken.  Any document. *)
Theorem C63_agree : forall (U : Unicode) (a b : nat) (e : xelem) (x y : corpus),
  xml_load a e = Ok x -> xml_load b e = Ok y -> x = y.
Proof. intros U. exact ChunksProofs.loads_agree. Qed.
Print Assumptions C63_agree.
(* What loads from large pieces loads from smaller ones. *)
Theorem C63_smaller : forall (U : Unicode) (a b : nat) (e : xelem) (x : corpus),
  b <= a -> xml_load a e = Ok x -> xml_load b e = Ok x.
Proof. intros U. exact ChunksProofs.smaller_pieces. Qed.
Print Assumptions C63_smaller.
(* With the metadata in front, the outcome is the same, errors included.  The
   full statement is without metadata_first; it is refuted below. *)
Theorem C63_chunks_partial : forall (U : Unicode) (a b : nat) (e : xelem), metadata_first e -> xml_load a e = xml_load b e.
Proof. intros U. exact ChunksProofs.chunks. Qed.
Print Assumptions C63_chunks_partial.

Example C63_example : forall U : Unicode, metadata_first ChunksExamples.doc_chunks
  /\ exists c, xml_load 0 ChunksExamples.doc_chunks = Ok c /\ length (c_igts c) = 2 /\ length (c_md c) = 1.
Proof. intros U. split; [exact ChunksExamples.doc_chunks_first|exact ChunksExamples.doc_chunks_loads]. Qed.

(* metadata after the first igt: dropped, or AttributeError *)
Theorem C63_late_metadata_refuted : forall U : Unicode,
  exists e c, xml_load 0 e = Ok c /\ c_md c = [] /\ xml_load 2 e = Err AttributeError.
Proof. intros U. exact ChunksExamples.late_refuted. Qed.
Print Assumptions C63_late_metadata_refuted.
(* an element xigt-corpus inside a meta: the igts are dropped, or AttributeError *)
Theorem C63_corpus_in_meta_refuted : forall U : Unicode,
  exists c, xml_load 0 ChunksExamples.doc_corpus = Ok c /\ c_igts c = [] /\ xml_load 3 ChunksExamples.doc_corpus = Err AttributeError.
Proof. intros U. exact ChunksExamples.corpus_lost. Qed.
Print Assumptions C63_corpus_in_meta_refuted.
(* an element igt inside a meta cannot be loaded, be the meta of the corpus or of an igt *)
Theorem C63_igt_in_meta : forall (U : Unicode) (n : nat),
  xml_load n ChunksExamples.doc_igt = Err AttributeError /\ xml_load n ChunksExamples.doc_igt2 = Err AttributeError.
Proof. intros U n. split; [exact (ChunksExamples.igt_error n)|exact (ChunksExamples.igt_error2 n)]. Qed.
Print Assumptions C63_igt_in_meta.
