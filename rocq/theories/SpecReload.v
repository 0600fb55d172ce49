(* Specification of saving what was loaded: the documents that settle. *)
From Verif Require Import PyStr XmlStd.

(* no element below is an igt or a corpus *)
Inductive no_igt : xelem -> Prop :=
| No_igt tag d text tail kids : tag <> L "igt" -> tag <> L "xigt-corpus" -> Forall no_igt kids ->
    no_igt (XElem tag d text tail kids).

(* namespaces are bound to prefixes, their names have no closing brace, elements
   are not in the namespace of xml:lang, and the contents of meta elements are
   not confused with igts *)
Inductive tidy : xelem -> Prop :=
| Tidy tag d text tail kids :
    (forall v, ~ In (XMLNS, v) d) -> (forall p v, In (L "xmlns:" ++ p, v) d -> ~ In (Ch "}") v) ->
    (forall n, tag <> L "xml:" ++ n) -> (tag = L "meta" -> Forall no_igt kids) -> Forall tidy kids ->
    tidy (XElem tag d text tail kids).

Definition x_tag (e : xelem) : str := let 'XElem t _ _ _ _ := e in t.
Definition tidy_document (e : xelem) : Prop := tidy e /\ x_tag e = L "xigt-corpus".
