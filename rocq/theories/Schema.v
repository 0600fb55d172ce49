(* The schema of documents, schema/xigt-structure.rnc, as a predicate on what the
   parser delivers.  Definitions only.

   A RELAX NG schema: declarations of namespaces are not attributes, the order of
   attributes does not matter, and white space between elements is ignored where no
   text is allowed.  Names in the schema are in no namespace. *)
From Verif Require Import PyStr Model XmlStd.

(* ---------- patterns of XML Schema ---------- *)

(* regular expressions, matched against the whole string *)
Inductive pat := PChr (f : N -> bool) | PSeq (p q : pat) | POpt (p : pat) | PStar (p : pat).
Inductive matches : pat -> str -> Prop :=
| M_chr f c : f c = true -> matches (PChr f) [c]
| M_seq p q s t : matches p s -> matches q t -> matches (PSeq p q) (s ++ t)
| M_none p : matches (POpt p) []
| M_some p s : matches p s -> matches (POpt p) s
| M_stop p : matches (PStar p) []
| M_more p s t : matches p s -> matches (PStar p) t -> matches (PStar p) (s ++ t).
Definition PPlus (p : pat) : pat := PSeq p (PStar p).
Definition PLit (c : N) : pat := PChr (N.eqb c).

(* \w of XML Schema: all but punctuation, separators and other; in ASCII letters,
   digits and the symbols $+<=>^`|~.  For other code points it is a parameter. *)
Class XsdWord := { xsd_hi : N -> bool }.
Definition xsd_word {X : XsdWord} (c : N) : bool :=
  if N.ltb c 128 then in_range 48 57 c || in_range 65 90 c || in_range 97 122 c || existsb (N.eqb c) (L "$+<=>^`|~")
  else xsd_hi c.

Definition p_tail (p : pelem) : option str := let 'PElem _ _ _ _ t _ := p in t.

Section Schema.
Context {U : Unicode} {X : XsdWord}.

(* Id and Ref, lines 4-5: [a-zA-Z][\-_.\w]* *)
Definition id_tail (c : N) : bool := existsb (N.eqb c) (L "-_.") || xsd_word c.
Definition id_pattern : pat := PSeq (PChr is_letter) (PStar (PChr id_tail)).
(* AlgnExpr, lines 6-8, made of \d+:\d+ and Id; \d are the decimal digits, as in Python *)
Definition digits_pattern : pat := PPlus (PChr is_digit).
Definition span_pattern : pat := PSeq digits_pattern (PSeq (PLit (Ch ":")) digits_pattern).
Definition sep_pattern : pat := PChr (fun c => N.eqb c (Ch ",") || N.eqb c (Ch "+")).
Definition range_pattern : pat :=
  PSeq (PLit (Ch "[")) (PSeq span_pattern (PSeq (PStar (PSeq sep_pattern span_pattern)) (PLit (Ch "]")))).
Definition selection_pattern : pat := PSeq id_pattern (POpt range_pattern).
Definition algnexpr_pattern : pat := PSeq selection_pattern (PStar (PSeq sep_pattern selection_pattern)).

(* ---------- attributes ---------- *)

Definition REFS : list str := [ALIGNMENT; CONTENT; SEGMENTATION].
(* IdAttr, line 13 *)
Definition has_id (d : dict str) : Prop := exists i, dget d ID = Some i /\ matches id_pattern i.
(* IdAttr? *)
Definition may_have_id (d : dict str) : Prop := forall i, dget d ID = Some i -> matches id_pattern i.
(* RefAttrs, lines 15-17 *)
Definition ref_attrs (d : dict str) : Prop :=
  (forall k v, In k REFS -> dget d k = Some v -> matches algnexpr_pattern v)
  /\ (dget d SEGMENTATION = None \/ dget d ALIGNMENT = None /\ dget d CONTENT = None).
(* AnyAttr without RefAttrs, line 18 *)
Definition no_refs (d : dict str) : Prop := forall k, In k REFS -> dget d k = None.

(* ---------- elements ---------- *)

(* nothing but white space around the children *)
Definition xml_space (t : option str) : Prop := forall s c, t = Some s -> In c s -> In c [9; 10; 13; 32]%N.
Definition only_elements (p : pelem) : Prop := xml_space (p_text p) /\ Forall (fun k => xml_space (p_tail k)) (p_kids p).

(* Meta, lines 38-49; the elements below are arbitrary *)
Definition valid_meta (p : pelem) : Prop :=
  p_tag p = L "meta" /\ may_have_id (p_attrib p) /\ no_refs (p_attrib p) /\ (p_kids p = [] \/ only_elements p).
(* Metadata, lines 31-36 *)
Definition valid_metadata (p : pelem) : Prop :=
  p_tag p = L "metadata" /\ may_have_id (p_attrib p) /\ no_refs (p_attrib p) /\ only_elements p
  /\ Forall valid_meta (p_kids p).
(* Item, lines 68-74 *)
Definition valid_item (p : pelem) : Prop :=
  p_tag p = L "item" /\ has_id (p_attrib p) /\ ref_attrs (p_attrib p) /\ p_kids p = [].
(* Tier, lines 59-66 *)
Definition valid_tier (p : pelem) : Prop :=
  p_tag p = L "tier" /\ has_id (p_attrib p) /\ dget (p_attrib p) TYPE <> None /\ ref_attrs (p_attrib p) /\ only_elements p
  /\ exists ms is_, p_kids p = ms ++ is_ /\ Forall valid_metadata ms /\ Forall valid_item is_.
(* Igt, lines 51-57 *)
Definition valid_igt (p : pelem) : Prop :=
  p_tag p = L "igt" /\ has_id (p_attrib p) /\ no_refs (p_attrib p) /\ only_elements p
  /\ exists ms ts, p_kids p = ms ++ ts /\ Forall valid_metadata ms /\ Forall valid_tier ts.
(* XigtCorpus, lines 23-29 *)
Definition valid_corpus (p : pelem) : Prop :=
  p_tag p = L "xigt-corpus" /\ may_have_id (p_attrib p) /\ (forall k, In k (map fst (p_attrib p)) -> k = ID \/ k = TYPE)
  /\ only_elements p
  /\ exists ms gs, p_kids p = ms ++ gs /\ Forall valid_metadata ms /\ Forall valid_igt gs.

(* a document *)
Definition schema_valid (e : xelem) : Prop := exists p, reread [] e = Ok p /\ valid_corpus p.

End Schema.
