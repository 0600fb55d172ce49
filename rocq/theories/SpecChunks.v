(* Specification of reading a file in pieces: documents whose metadata comes
   before the first igt. *)
From Verif Require Import PyStr XmlStd SpecReload.

Definition x_kids (e : xelem) : list xelem := let 'XElem _ _ _ _ k := e in k.
Inductive no_corpus : xelem -> Prop :=
| No_corpus tag d text tail kids : tag <> L "xigt-corpus" -> Forall no_corpus kids -> no_corpus (XElem tag d text tail kids).
Definition metadata_first (e : xelem) : Prop := exists pre post,
  x_kids e = pre ++ post /\ Forall no_igt pre /\ Forall (fun k => x_tag k <> L "metadata" /\ no_corpus k) post.
