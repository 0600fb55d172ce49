(* Examples for substitutions. *)
From Verif Require Import PyStr Regex Substitute SpecSubstitute.
From Verif Require SubstituteProofs.

(* a compiler for some expressions *)
Definition any : re := RChr (fun c => negb (N.eqb c 10)).
Definition compile (s : str) : res re :=
  match dget_ str_eqb
    [(L "words", RStr (L "words")); (L "glosses|pos", RAlt (RStr (L "glosses")) (RStr (L "pos"))); (L "words$", RSeq (RStr (L "words")) REol);
     (L "a*", RStar true (RLit "a")); (L "(a)|b", RAlt (RGroup 1 (RLit "a")) (RLit "b")); (L "(-)(.)", RSeq (RGroup 1 (RLit "-")) (RGroup 2 any));
     (L "^x|x$", RAlt (RSeq RBol (RLit "x")) (RSeq (RLit "x") REol)); (L "aa", RStr (L "aa")); (L "b", RStr (L "b"))] s with
  | Some r => Ok r
  | None => Err ValueError
  end.
(* and two functions *)
Definition evaluate (args body : str) : res (rmatched -> res str) :=
  if str_eqb args (L "m") then
    if str_eqb body (L "m.group(0)*2") then Ok (fun m => Ok (capd 0 m ++ capd 0 m))
    else if str_eqb body (L "1") then Ok (fun _ => Err TypeError) else Err NameError
  else Err ValueError.
Definition run := sub compile evaluate.
Definition with_re (rx t s : str) : res str := do r <- compile rx; sub_template r t s.

(* what Python gives for these *)
Lemma subs : with_re (L "a*") (L "-") (L "baac") = Ok (L "-b-" ++ L "-c-") /\ with_re (L "(a)|b") (L "[\1]") (L "ab") = Ok (L "[a][]")
  /\ with_re (L "(-)(.)") (L "\2\g<1>\\") (L "a-b-" ++ L "-") = Ok (L "ab-\" ++ L "-" ++ L "-\")
  /\ with_re (L "^x|x$") (L "y") (L "xxx") = Ok (L "yxy")
  /\ with_re (L "(a)|b") (L "\101\01\.\n") (L "a") = Ok (L "A" ++ [1%N] ++ L "\." ++ [10%N]).
Proof. repeat match goal with |- _ /\ _ => split end; now vm_compute. Qed.
Lemma bad_templates : with_re (L "a*") (L "\1") (L "b") = Err ValueError /\ with_re (L "aa") (L "\q") (L "b") = Err ValueError
  /\ with_re (L "aa") (L "\") (L "b") = Err ValueError /\ with_re (L "(a)|b") (L "\10") (L "b") = Err ValueError
  /\ with_re (L "(a)|b") (L "\400") (L "b") = Err ValueError /\ with_re (L "(a)|b") (L "\g<2>") (L "b") = Err ValueError
  /\ with_re (L "(a)|b") (L "\g1") (L "b") = Err ValueError.
Proof. repeat match goal with |- _ /\ _ => split end; now vm_compute. Qed.
Lemma aaa : replaced (L "aa") (L "b") (L "aaaxaa") (L "baxb").
Proof. apply SubstituteProofs.sub_text; [discriminate|now vm_compute]. Qed.
Definition config : substitutions :=
  [(L "glosses|pos", [(L "(-)(.)", Template (L "\1[\2]")); (L "b", Lambda (L "m") (L "m.group(0)*2"))]);
   (L "words", [(L "aa", Template (L "b")); (L "b", Template (L "c")); (L "?", Neither)])].
Lemma by_type : run (L "aab-b") (L "glosses") config = Ok (L "aabb-[bb]") /\ run (L "aab-b") (L "words") config = Ok (L "cc-c")
  /\ run (L "aab-b") (L "phrases") config = Ok (L "aab-b").
Proof. repeat match goal with |- _ /\ _ => split end; now vm_compute. Qed.
Lemma raised : run (L "x") (L "words") [(L "?", [])] = Err ValueError /\ run (L "x") (L "words") [(L "words", [(L "?", Template (L "y"))])] = Err ValueError
  /\ run (L "x") (L "words") [(L "words", [(L "?", Lambda (L "m") (L "x"))])] = Err NameError
  /\ run (L "b") (L "words") [(L "words", [(L "b", Lambda (L "m") (L "1"))])] = Err TypeError
  /\ run (L "x") (L "words") [(L "words", [(L "b", Lambda (L "m") (L "1"))])] = Ok (L "x").
Proof. repeat match goal with |- _ /\ _ => split end; now vm_compute. Qed.
(* the order matters, *)
Lemma order_refuted : exists s ty p q, run s ty [(L "words", [p; q])] <> run s ty [(L "words", [q; p])].
Proof. exists (L "aa"), (L "words"), (L "aa", Template (L "b")), (L "b", Template (L "c")). vm_compute. discriminate. Qed.
(* and the expression for types has to match the beginning only *)
Lemma type_refuted : exists s ty rx r ps, compile rx = Ok r /\ r = RStr (L "words") /\ ty <> L "words" /\ run s ty [(rx, ps)] <> Ok s.
Proof.
  exists (L "aa"), (L "words-normalized"), (L "words"), (RStr (L "words")), [(L "aa", Template (L "b"))].
  split; [now vm_compute|]. split; [easy|]. split; [discriminate|]. vm_compute. discriminate.
Qed.
Lemma numbers : template 12 (L "\12\123\128\08\377") = Ok [Grp 12; Lit 83%N; Grp 12; Lit (Ch "8"); Lit 0%N; Lit (Ch "8"); Lit 255%N]
  /\ template 12 (L "\99") = Err ValueError.
Proof. vm_compute. split; reflexivity. Qed.
