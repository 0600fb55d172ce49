From Verif Require Import PyStr SpecScripts SpecAttrOrder AttrOrder QName SpecQName.
From Verif Require AttrOrderProofs SortScriptProofs.

Definition plain (s : str) : qname := new_qname s None false.
Definition keyed (s : str) : qname := new_qname s None true.
Lemma compared : qname_op CLt (keyed (L "type")) (OName (keyed (L "alignment"))) = Ok true
  /\ qname_op CLt (plain (L "type")) (OName (plain (L "alignment"))) = Ok false
  /\ qname_op CLe (keyed (L "id")) (OText (L "id")) = Ok true
  /\ qname_op CGt (keyed (L "a")) (OText (L "xmlns:z")) = Ok true
  /\ qname_op CGe (keyed (L "Zeta")) (OText (L "zeta")) = Ok false
  /\ qname_op CEq (plain (L "{http://purl.org/dc/elements/1.1/}subject")) (OName (new_qname (L "http://purl.org/dc/elements/1.1/") (Some (L "subject")) true)) = Ok true
  /\ qname_op CNe (plain (L "tier")) (OText (L "igt")) = Ok true
  /\ qname_op CNe (plain (L "tier")) OOther = Ok true
  /\ qname_cmp (keyed (L "content")) (L "alignment") = 1%Z.
Proof. repeat split. Qed.
(* a name with the sort key and one without *)
Lemma mixed_refuted : exists p q, q_text p <> q_text q /\ qname_op CLt p (OName q) = Ok true /\ qname_op CLt q (OName p) = Ok true.
Proof. exists (plain (L "alignment")), (keyed (L "id")). repeat split. discriminate. Qed.
(* nothing else can be asked whether it is an attribute's name *)
Lemma other_refuted : qname_op CEq (keyed (L "id")) OOther = Err AttributeError.
Proof. reflexivity. Qed.
