From Verif Require Import PyStr PyStrFacts SpecScripts SpecAttrOrder AttrOrder Xml QName SpecQName.
From Verif Require Import SortScriptProofs AttrOrderProofs.

Lemma tuple_lt_op r : forall a b, tuple_op CLt a b r = tuple_lt a b r.
Proof. induction a as [|x a IH]; intros [|y b]; cbn; try easy. now rewrite IH. Qed.
Lemma tuple_gt r : forall a b, tuple_op CGt a b r = tuple_op CLt b a r.
Proof. induction a as [|x a IH]; intros [|y b]; cbn; try easy. rewrite IH. now destruct x, y. Qed.
Lemma tuple_le r : forall a b, length a = length b -> tuple_op CLe a b (negb r) = negb (tuple_op CLt b a r).
Proof. induction a as [|x a IH]; intros [|y b] H; cbn in *; try easy. injection H as H. rewrite (IH _ H). now destruct x, y. Qed.
Lemma tuple_ge r : forall a b, tuple_op CGe a b (negb r) = negb (tuple_op CLt a b r).
Proof. induction a as [|x a IH]; intros [|y b]; cbn in *; try easy. rewrite IH. now destruct x, y. Qed.
Lemma tuple_same op r : forall a, tuple_op op a a r = r.
Proof. induction a as [|x a IH]; cbn; [easy|]. now rewrite Bool.eqb_reflx. Qed.
Lemma tuple_eq : forall a b, tuple_op CEq a b false = false.
Proof. induction a as [|x a IH]; intros [|y b]; cbn; try easy. rewrite IH. now destruct x, y. Qed.
Lemma tuple_ne : forall a b, tuple_op CNe a b true = true.
Proof. induction a as [|x a IH]; intros [|y b]; cbn; try easy. rewrite IH. now destruct x, y. Qed.
Lemma key_lt a b : key_op CLt (attr_key a) (attr_key b) = qname_lt a b.
Proof. apply tuple_lt_op. Qed.
Lemma key_gt a b : key_op CGt (attr_key a) (attr_key b) = qname_lt b a.
Proof. unfold key_op. rewrite tuple_gt. apply tuple_lt_op. Qed.
Lemma key_le a b : key_op CLe (attr_key a) (attr_key b) = negb (qname_lt b a).
Proof. unfold key_op. cbn [str_op]. rewrite tuple_le by easy. unfold qname_lt. now rewrite tuple_lt_op. Qed.
Lemma key_ge a b : key_op CGe (attr_key a) (attr_key b) = negb (qname_lt a b).
Proof. unfold key_op. cbn [str_op]. rewrite tuple_ge by easy. unfold qname_lt. now rewrite tuple_lt_op. Qed.
Lemma key_eq a b : key_op CEq (attr_key a) (attr_key b) = str_eqb a b.
Proof.
  unfold key_op. cbn [str_op]. replace (snd (attr_key a)) with a by easy. replace (snd (attr_key b)) with b by easy.
  destruct (str_eqb_spec a b) as [->|N]; [apply tuple_same|apply tuple_eq].
Qed.
Lemma key_ne a b : key_op CNe (attr_key a) (attr_key b) = negb (str_eqb a b).
Proof.
  unfold key_op. cbn [str_op]. replace (snd (attr_key a)) with a by easy. replace (snd (attr_key b)) with b by easy.
  destruct (str_eqb_spec a b) as [->|N]; cbn [negb]; [apply tuple_same|apply tuple_ne].
Qed.

Definition ltk (k : bool) : str -> str -> bool := if k then qname_lt else str_ltb.
Lemma ltk_spec k a b : ltk k a b = true <-> name_before k a b.
Proof. destruct k; cbn; [symmetry; apply before_spec|apply str_ltb_spec]. Qed.
Lemma ltk_asym k a b : ltk k a b = true -> ltk k b a = false.
Proof.
  destruct k; cbn; [apply lt_asym|]. intros K. destruct (str_ltb b a) eqn:E; [|easy].
  pose proof (str_ltb_trans _ _ _ K E) as X. now rewrite str_ltb_irrefl in X.
Qed.
Lemma ltk_total k a b : ltk k a b = true \/ a = b \/ ltk k b a = true.
Proof. destruct k; [apply lt_total|apply str_trichotomy]. Qed.
Lemma ltk_irrefl k a : ltk k a a = false.
Proof. destruct (ltk k a a) eqn:E; [|easy]. pose proof (ltk_asym _ _ _ E). congruence. Qed.
Lemma ltk_trans k a b c : ltk k a b = true -> ltk k b c = true -> ltk k a c = true.
Proof. destruct k; [apply lt_trans|apply str_ltb_trans]. Qed.
Lemma compare_ltk op k a b : compare_text op k a b =
  match op with CLt => ltk k a b | CLe => negb (ltk k b a) | CGt => ltk k b a | CGe => negb (ltk k a b) | CEq => str_eqb a b | CNe => negb (str_eqb a b) end.
Proof. destruct k; [|now destruct op]. destruct op; [apply key_lt|apply key_le|apply key_gt|apply key_ge|apply key_eq|apply key_ne]. Qed.
Lemma negb_ltk k a b : negb (ltk k b a) = true <-> name_before k a b \/ a = b.
Proof.
  rewrite negb_true_iff. split.
  - intros H. destruct (ltk_total k a b) as [X|[X|X]]; [left; now apply ltk_spec|now right|congruence].
  - intros [H| ->]; [apply ltk_asym; now apply ltk_spec|apply ltk_irrefl].
Qed.
Lemma compare_says op k a b : compare_text op k a b = true <-> says op (name_before k) a b.
Proof.
  rewrite compare_ltk. destruct op; cbn [says]; [apply ltk_spec|apply negb_ltk|apply ltk_spec| | |].
  - rewrite negb_ltk. split; intros [H|H]; auto.
  - destruct (str_eqb_spec a b); easy.
  - destruct (str_eqb_spec a b); easy.
Qed.

(* what the comparisons say *)
Theorem op_says op p q : exists b, qname_op op p (OName q) = Ok b /\ (b = true <-> says op (name_before (q_sortkey p)) (q_text p) (q_text q)).
Proof. eexists. split; [reflexivity|]. apply compare_says. Qed.
Theorem op_text op p q : qname_op op p (OName q) = qname_op op p (OText (q_text q)).
Proof. reflexivity. Qed.
(* the order *)
Theorem before_total k a b : name_before k a b \/ a = b \/ name_before k b a.
Proof. rewrite <- !ltk_spec. apply ltk_total. Qed.
Theorem before_once k a b : name_before k a b -> a <> b /\ ~ name_before k b a.
Proof.
  rewrite <- !ltk_spec. intros H. split; [intros ->; rewrite ltk_irrefl in H; easy|]. intros H'. apply ltk_asym in H'. congruence.
Qed.
Theorem before_trans k a b c : name_before k a b -> name_before k b c -> name_before k a c.
Proof. rewrite <- !ltk_spec. apply ltk_trans. Qed.
(* the sides can be swapped *)
Theorem op_swapped op p q : q_sortkey p = q_sortkey q -> qname_op op p (OName q) = qname_op (swapped op) q (OName p).
Proof.
  intros H. cbn [qname_op]. rewrite !compare_ltk, H. destruct op; cbn [swapped]; try reflexivity.
  - f_equal. apply str_eqb_sym.
  - do 2 f_equal. apply str_eqb_sym.
Qed.
Theorem op_hash h p q : qname_op CEq p (OName q) = Ok true -> qname_hash h p = qname_hash h q.
Proof.
  intros H. cbn [qname_op] in H. rewrite compare_ltk in H. unfold qname_hash. destruct (str_eqb_spec (q_text p) (q_text q)) as [->|]; easy.
Qed.
Theorem cmp_says p s : let before := name_before (q_sortkey p) in
  (qname_cmp p s = (-1)%Z <-> before (q_text p) s) /\ (qname_cmp p s = 0%Z <-> q_text p = s) /\ (qname_cmp p s = 1%Z <-> before s (q_text p)).
Proof.
  cbv zeta. unfold qname_cmp. rewrite !compare_ltk, <- !ltk_spec. set (k := q_sortkey p). set (a := q_text p).
  destruct (ltk_total k a s) as [X|[X|X]].
  - rewrite X, (ltk_asym _ _ _ X). repeat split; try easy. intros <-. now rewrite ltk_irrefl in X.
  - rewrite X, ltk_irrefl. repeat split; easy.
  - rewrite X, (ltk_asym _ _ _ X). repeat split; try easy. intros <-. now rewrite ltk_irrefl in X.
Qed.
Theorem op_other op p : qname_op op p OOther =
  if q_sortkey p then Err AttributeError else match op with CEq => Ok false | CNe => Ok true | _ => Err TypeError end.
Proof. reflexivity. Qed.
(* a name made of a URI and a tag can be taken apart *)
Lemma split1_at c u t : ~ In c u -> split1 c (u ++ c :: t) = Some (u, t).
Proof.
  induction u as [|x u IH]; intros H; cbn; [now rewrite N.eqb_refl|].
  destruct (N.eqb_spec x c) as [->|_]; [elim H; now left|]. rewrite IH; [easy|]. intros K. apply H. now right.
Qed.
Theorem new_split u t k : ~ In (Ch "}") u -> t <> [] -> qname_split (q_text (new_qname u (Some t) k)) = Ok (Some u, t).
Proof.
  intros Hu Ht. destruct t as [|c t]; [easy|]. cbn [new_qname q_text name_text].
  change (L "{" ++ u ++ L "}" ++ c :: t) with (Ch "{" :: u ++ Ch "}" :: c :: t). cbn [qname_split]. rewrite N.eqb_refl.
  now rewrite split1_at.
Qed.
Theorem new_plain s k : (forall r, s <> Ch "{" :: r) -> qname_split (q_text (new_qname s None k)) = Ok (None, s).
Proof.
  intros H. cbn [new_qname q_text name_text]. destruct s as [|c r]; [easy|]. cbn [qname_split].
  destruct (N.eqb_spec c (Ch "{")) as [->|_]; [now elim (H r)|easy].
Qed.
