(* Concrete documents for saving what was loaded. *)
From Verif Require Import PyStr PyStrFacts SpecRef Model SpecModel XmlStd Xml SpecXml XmlExamples SpecReload.
From Verif Require Import SpecChunks ChunksProofs.
From Verif Require XmlProofs.

Definition doc_of (d : dict str) (kids : list xelem) : xelem := XElem (L "xigt-corpus") d None None kids.
Definition in_meta (d : dict str) (kid : xelem) : xelem :=
  XElem (L "metadata") [] None None [XElem (L "meta") d None None [kid]].

(* prefixes on three levels (one bound anew), xml:lang, carriage returns, an
   element nobody reads, an igt inside it *)
Definition doc1 : xelem :=
  doc_of [(L "xmlns:dc", DC_URI); (L "type", L "t"); (L "xml:lang", L "en")]
    [in_meta [(L "xmlns:my", MY_URI); (L "xmlns:dc", L "urn:other")]
       (XElem (L "dc:title") [(L "my:lang", L "a<b"); (L "id", L "gone")] (Some [Ch "a"; 13%N; 10%N; Ch "b"]) None [XElem (L "b") [] (Some (L " ")) None []]);
     XElem (L "section") [(L "xmlns:s", L "urn:s")] (Some (L "text")) None
       [XElem (L "igt") [(L "id", L "i1")] None None
          [XElem (L "tier") [(L "dc:source", L "x"); (L "id", L "w"); (L "type", L "words")] None None
             [XElem (L "item") [(L "id", L "w1")] (Some []) None []; XElem (L "item") [(L "xml:lang", L "de")] (Some (L " b ")) None []]]];
     XElem (L "igt") [] None (Some [13%N]) []].

(* checking tidiness *)
Definition decl_fine (kv : str * str) : bool :=
  negb (str_eqb (fst kv) XMLNS) && negb (startswith (L "xmlns:") (fst kv) && existsb (N.eqb (Ch "}")) (snd kv)).
Fixpoint tidyb (e : xelem) : bool :=
  match e with
  | XElem tag d _ _ kids => forallb decl_fine d && negb (startswith (L "xml:") tag)
      && (negb (str_eqb tag (L "meta")) || forallb no_igtb kids) && forallb tidyb kids
  end.
Lemma tidyb_ok e : tidyb e = true -> tidy e.
Proof.
  induction e as [tag d text tail kids IH] using XmlProofs.xelem_rec'. cbn [tidyb]. intros H.
  apply andb_prop in H as [H Hk]. apply andb_prop in H as [H Hm]. apply andb_prop in H as [Hd Hx].
  rewrite forallb_forall in Hd, Hk. constructor.
  - intros v Hin. specialize (Hd _ Hin). unfold decl_fine in Hd. cbn [fst] in Hd. now rewrite str_eqb_refl in Hd.
  - intros p v Hin Hb. specialize (Hd _ Hin). unfold decl_fine in Hd. apply andb_prop in Hd as [_ Hd]. cbn [fst snd] in Hd.
    rewrite XmlProofs.startswith_refl in Hd. assert (X : existsb (N.eqb (Ch "}")) v = true); [|now rewrite X in Hd].
    apply existsb_exists. exists (Ch "}"). split; [easy|]. apply N.eqb_refl.
  - intros n ->. now rewrite XmlProofs.startswith_refl in Hx.
  - intros ->. rewrite str_eqb_refl in Hm. cbn in Hm. apply Forall_forall. rewrite forallb_forall in Hm. intros k Hin. now apply no_igtb_ok, Hm.
  - rewrite Forall_forall in *. auto.
Qed.

Lemma doc1_tidy : tidy_document doc1.
Proof. split; [apply tidyb_ok|]; reflexivity. Qed.

Section ReloadExamples.
Context {U : Unicode}.

Lemma doc1_loads : exists c e', (forall ahead, xml_load ahead doc1 = Ok c) /\ length (c_igts c) = 2 /\ xml_dump c (Some 2) = Ok e' /\ e' <> doc1.
Proof. do 2 eexists. split; [apply load_any; vm_compute; reflexivity|]. split; [reflexivity|]. split; [vm_compute; reflexivity|]. discriminate. Qed.

(* a default namespace in metadata: what is saved cannot be read *)
Definition doc_default : xelem := doc_of [] [in_meta [] (XElem (L "title") [(XMLNS, DC_URI)] (Some (L "x")) None [])].
Lemma default_refuted : exists e c e', (forall ahead, xml_load ahead e = Ok c) /\ xml_dump c None = Ok e' /\ forall ahead, xml_load ahead e' = Err ParseError.
Proof. exists doc_default. do 2 eexists. split; [apply load_any; vm_compute; reflexivity|].
  split; [vm_compute; reflexivity|]. intros ahead. vm_compute. reflexivity. Qed.
(* an element in the namespace of xml:lang loses it *)
Definition doc_xml : xelem := doc_of [] [in_meta [] (XElem (L "xml:note") [] (Some (L "x")) None [])].
Lemma xml_refuted : exists e c e' c', (forall ahead, xml_load ahead e = Ok c) /\ xml_dump c None = Ok e' /\ (forall ahead, xml_load ahead e' = Ok c') /\ ~ same_corpus c c'.
Proof.
  exists doc_xml. do 3 eexists. split; [apply load_any; vm_compute; reflexivity|]. split; [vm_compute; reflexivity|].
  split; [apply load_any; vm_compute; reflexivity|]. intros (_ & H & _).
  inversion_clear H as [|? ? ? ? H1 _]. destruct H1 as [_ H]. cbn in H. inversion_clear H as [|? ? ? ? H1 _].
  destruct H1 as (_ & _ & H). cbn in H. inversion_clear H as [|? ? ? ? H1 _]. inversion_clear H1 as [? ? ? ? ? ? (_ & _ & Hns & _) _]. discriminate.
Qed.
(* a closing brace in the name of a namespace: KeyError *)
Definition doc_brace : xelem :=
  doc_of [(L "xmlns:b", L "urn:a}b")] [XElem (L "igt") [(L "b:n", L "x")] None None []].
Lemma brace_refuted : exists e c, (forall ahead, xml_load ahead e = Ok c) /\ xml_dump c None = Err KeyError.
Proof. exists doc_brace. eexists. split; [apply load_any; vm_compute; reflexivity|]. vm_compute. reflexivity. Qed.

End ReloadExamples.
