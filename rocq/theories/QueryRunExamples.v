(* Examples for paths over equal objects and for xigt query over files. *)
From Verif Require Import PyStr PyStrFacts SpecRef Ref Model SpecModel XmlStd Xml SpecXml XmlText Index Files SpecValidateRun.
From Verif Require Path SpecPathSame XmlExamples LatexExamples StreamExamples ValidateRunExamples.
From Verif Require Import Scripts Format SpecFormat QueryRun SpecQueryRun.
Import ValidateRunExamples.
Local Existing Instance ascii_unicode.

Definition addr (n : nat) : str := L "<object at " ++ dec_nat n ++ L ">".
Definition no_other (v : fval) (r : str) (c : option N) (s : str) : res str := Err AttributeError.
Definition numbered (v : Path.pval) : nat := 7.
Definition opts : qopts := {| q_heading := None; q_basename := true |}.
Definition query (args : list arg) (paths : list str) : list str * option exn :=
  run addr no_other numbered 10 (fun _ => 8) opts args paths disk1.

(* ids are found in the first file, the second does not exist: its heading is printed *)
Lemma until_missing : query [GFind (L "igt//item/@id"); GCount (L "igt/tier")] [L "a.xml"; L "d/f.xml"; L "a.xml"]
  = ([L "a.xml:"; L "  igt//item/@id" ++ [9%N] ++ L "w1"; L "  igt//item/@id" ++ [9%N] ++ L "w2"; L " 1" ++ [9%N] ++ L "igt/tier" ++ [9%N]; []; L "f.xml:"], Some OSError).
Proof. vm_compute. reflexivity. Qed.
(* what was printed before an exception stays: the first find is printed, the unique of objects raises *)
Lemma kept_lines : query [GFind (L "igt/@id"); GUnique (L "igt")] [L "a.xml"; L "a.xml"]
  = ([L "a.xml:"; L "  igt/@id" ++ [9%N] ++ L "i1"], Some TypeError).
Proof. vm_compute. reflexivity. Qed.
Lemma nothing_asked : query [] [L "a.xml"] = ([], Some AttributeError) /\ query [GDesc (L "x")] [L "a.xml"] = ([], Some NameError).
Proof. split; vm_compute; reflexivity. Qed.
(* tiers by the ids of their items *)
Definition asked : list arg := [GTally (L "igt/tier") (L "item/@id"); GFind (L "igt/tier/@type")].
Lemma asked_plain : Forall arg_plain asked.
Proof.
  repeat constructor; try (left; vm_compute; intuition congruence); try (right; vm_compute; intuition congruence); vm_compute; intuition congruence.
Qed.
Lemma saved_query : Forall2 (saved_as disk1) [L "a.xml"; L "a.xml"] [XmlExamples.xc; XmlExamples.xc] /\ Forall arg_plain asked
  /\ (forall q, In (GFind q) asked -> Forall (fun c => forall l, findall 10 (root c) q = Ok l -> Forall printable l) [XmlExamples.xc; XmlExamples.xc])
  /\ fst (query asked [L "a.xml"; L "a.xml"]) = let one := [L "a.xml:"; L "  igt/tier/@type" ++ [9%N] ++ L "words"; L " 1" ++ [9%N] ++ L "igt/tier" ++ [9%N] ++ L "item/@id" ++ [9%N] ++ L "w1, w2"; []] in one ++ one.
Proof.
  split; [exact (proj1 saved_twice)|]. split; [exact asked_plain|]. split.
  - intros q [H|[H|[]]]; [discriminate|]. injection H as <-.
    assert (K : forall l, findall 10 (root XmlExamples.xc) (L "igt/tier/@type") = Ok l -> Forall printable l).
    { intros l H. assert (E : findall 10 (root XmlExamples.xc) (L "igt/tier/@type") = Ok [Path.VStr (L "words")]) by (vm_compute; reflexivity).
      rewrite E in H. injection H as <-. repeat constructor. }
    exact (Forall_cons _ K (Forall_cons _ K (Forall_nil _))).
  - vm_compute. reflexivity.
Qed.

(* equal corpora with attributes in another order, or other prefixes *)
Definition with_attrs (d : dict str) : corpus :=
  {| c_attrs := {| a_id := None; a_type := None; a_dict := d; a_ns := None; a_nsmap := None |}; c_md := []; c_igts := [] |}.
Definition ab : dict str := [(L "a", L "1"); (L "b", L "2")].
Definition ba : dict str := [(L "b", L "2"); (L "a", L "1")].
Lemma ab_ba k : dget ab k = dget ba k.
Proof.
  assert (E : forall x y (u v : str), dget [(x, u); (y, v)] k = if str_eqb k x then Some u else if str_eqb k y then Some v else None) by reflexivity.
  unfold ab, ba. rewrite !E. destruct (str_eqb k (L "a")) eqn:Ea, (str_eqb k (L "b")) eqn:Eb; try reflexivity.
  apply str_eqb_eq in Ea. subst k. discriminate.
Qed.
Lemma order_shows : same_corpus (with_attrs ab) (with_attrs ba)
  /\ findall 10 (root (with_attrs ab)) (L "@*") = Ok [Path.VStr (L "1"); Path.VStr (L "2")]
  /\ findall 10 (root (with_attrs ba)) (L "@*") = Ok [Path.VStr (L "2"); Path.VStr (L "1")]
  /\ findall 10 (root (with_attrs ab)) (L "@b") = findall 10 (root (with_attrs ba)) (L "@b").
Proof.
  split; [|vm_compute; auto]. split; [|repeat constructor]. repeat split. exact ab_ba.
Qed.
Definition with_prefix (p : str) : corpus :=
  {| c_attrs := {| a_id := None; a_type := None; a_dict := []; a_ns := None; a_nsmap := Some [(p, XmlExamples.DC_URI)] |};
     c_md := []; c_igts := [{| g_attrs := {| a_id := Some (L "i"); a_type := None; a_dict := []; a_ns := Some XmlExamples.DC_URI; a_nsmap := None |}; g_md := []; g_tiers := [] |}] |}.
Lemma prefix_shows : same_corpus (with_prefix (L "dc")) (with_prefix (L "d"))
  /\ findall 10 (root (with_prefix (L "dc"))) (L "dc:igt/@id") = Ok [Path.VStr (L "i")]
  /\ findall 10 (root (with_prefix (L "d"))) (L "dc:igt/@id") = Ok []
  /\ findall 10 (root (with_prefix (L "d"))) (L "igt/@id") = Ok [Path.VStr (L "i")].
Proof.
  split; [|vm_compute; auto]. repeat split; repeat constructor; cbn; auto.
Qed.
