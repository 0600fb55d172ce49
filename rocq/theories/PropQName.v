(* Property C87: comparisons of names. *)
From Verif Require Import PyStr SpecScripts SpecAttrOrder Xml QName SpecQName.
From Verif Require QNameProofs QNameExamples.
Import QNameExamples.

(* Names are put together so that they can be taken apart. *)
Theorem C87_made : forall u t k, ~ In (Ch "}") u -> t <> [] -> qname_split (q_text (new_qname u (Some t) k)) = Ok (Some u, t).
Proof. exact QNameProofs.new_split. Qed.
Print Assumptions C87_made.
Theorem C87_plain : forall s k, (forall r, s <> Ch "{" :: r) -> qname_split (q_text (new_qname s None k)) = Ok (None, s).
Proof. exact QNameProofs.new_plain. Qed.
Print Assumptions C87_plain.
Example C87_made_example : qname_split (q_text (new_qname (L "http://purl.org/dc/elements/1.1/") (Some (L "subject")) false)) = Ok (Some (L "http://purl.org/dc/elements/1.1/"), L "subject").
Proof. reflexivity. Qed.
(* C87.  The comparisons of names are those of their order, *)
Theorem C87_says : forall op p q, exists b, qname_op op p (OName q) = Ok b
  /\ (b = true <-> says op (name_before (q_sortkey p)) (q_text p) (q_text q)).
Proof. exact QNameProofs.op_says. Qed.
Print Assumptions C87_says.
(* whether the other is a name or its text. *)
Theorem C87_text : forall op p q, qname_op op p (OName q) = qname_op op p (OText (q_text q)).
Proof. exact QNameProofs.op_text. Qed.
Print Assumptions C87_text.
(* The order is total, strict and transitive, with and without the sort key. *)
Theorem C87_total : forall k a b, name_before k a b \/ a = b \/ name_before k b a.
Proof. exact QNameProofs.before_total. Qed.
Print Assumptions C87_total.
Theorem C87_strict : forall k a b, name_before k a b -> a <> b /\ ~ name_before k b a.
Proof. exact QNameProofs.before_once. Qed.
Print Assumptions C87_strict.
Theorem C87_transitive : forall k a b c, name_before k a b -> name_before k b c -> name_before k a c.
Proof. exact QNameProofs.before_trans. Qed.
Print Assumptions C87_transitive.
(* The sides can be swapped, if both names have the sort key or neither has, *)
Theorem C87_swapped : forall op p q, q_sortkey p = q_sortkey q -> qname_op op p (OName q) = qname_op (swapped op) q (OName p).
Proof. exact QNameProofs.op_swapped. Qed.
Print Assumptions C87_swapped.
(* not otherwise: each of two names can be before the other. *)
Theorem C87_mixed_refuted : exists p q, q_text p <> q_text q /\ qname_op CLt p (OName q) = Ok true /\ qname_op CLt q (OName p) = Ok true.
Proof. exact mixed_refuted. Qed.
Print Assumptions C87_mixed_refuted.
(* Equal names have the same hash. *)
Theorem C87_hash : forall h p q, qname_op CEq p (OName q) = Ok true -> qname_hash h p = qname_hash h q.
Proof. exact QNameProofs.op_hash. Qed.
Print Assumptions C87_hash.
(* The comparison in three ways is that of the same order. *)
Theorem C87_cmp : forall p s, let before := name_before (q_sortkey p) in
  (qname_cmp p s = (-1)%Z <-> before (q_text p) s) /\ (qname_cmp p s = 0%Z <-> q_text p = s) /\ (qname_cmp p s = 1%Z <-> before s (q_text p)).
Proof. exact QNameProofs.cmp_says. Qed.
Print Assumptions C87_cmp.
(* What is neither a name nor a text differs from names without the sort key; others cannot be asked. *)
Theorem C87_other : forall op p, qname_op op p OOther =
  if q_sortkey p then Err AttributeError else match op with CEq => Ok false | CNe => Ok true | _ => Err TypeError end.
Proof. exact QNameProofs.op_other. Qed.
Print Assumptions C87_other.
Theorem C87_other_refuted : qname_op CEq (keyed (L "id")) OOther = Err AttributeError.
Proof. exact other_refuted. Qed.
Print Assumptions C87_other_refuted.
Example C87_example : qname_op CLt (keyed (L "type")) (OName (keyed (L "alignment"))) = Ok true
  /\ qname_op CLt (plain (L "type")) (OName (plain (L "alignment"))) = Ok false
  /\ qname_op CLe (keyed (L "id")) (OText (L "id")) = Ok true
  /\ qname_op CGt (keyed (L "a")) (OText (L "xmlns:z")) = Ok true
  /\ qname_op CGe (keyed (L "Zeta")) (OText (L "zeta")) = Ok false
  /\ qname_op CEq (plain (L "{http://purl.org/dc/elements/1.1/}subject")) (OName (new_qname (L "http://purl.org/dc/elements/1.1/") (Some (L "subject")) true)) = Ok true
  /\ qname_op CNe (plain (L "tier")) (OText (L "igt")) = Ok true
  /\ qname_op CNe (plain (L "tier")) OOther = Ok true
  /\ qname_cmp (keyed (L "content")) (L "alignment") = 1%Z.
Proof. exact compared. Qed.
