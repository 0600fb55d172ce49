(* Property C84: the substitutions that a configuration of the exporters asks for. *)
From Verif Require Import PyStr Regex Substitute SpecSubstitute Latex.
From Verif Require SubstituteProofs SubstituteExamples.
Import SubstituteExamples.

(* C84.  Replacing the matches that are found is one scan from left to right; *)
Theorem C84_scan : forall r f s out, sub_with r f s = Ok out <-> scanned (RGroup 0 r) f false 0 s out.
Proof. exact SubstituteProofs.sub_scanned. Qed.
Print Assumptions C84_scan.
Theorem C84_template : forall r t s out, sub_template r t s = Ok out <->
  exists ps, template (group_count r) t = Ok ps /\ scanned (RGroup 0 r) (fun m => Ok (expand ps m)) false 0 s out.
Proof. exact SubstituteProofs.template_scanned. Qed.
Print Assumptions C84_template.
(* with a template it fails exactly if the template is bad, whether there is a match or not. *)
Theorem C84_fails : forall r t s x, sub_template r t s = Err x <-> template (group_count r) t = Err x.
Proof. exact SubstituteProofs.template_fails. Qed.
Print Assumptions C84_fails.
Example C84_scan_example : with_re (L "a*") (L "-") (L "baac") = Ok (L "-b-" ++ L "-c-") /\ with_re (L "(a)|b") (L "[\1]") (L "ab") = Ok (L "[a][]")
  /\ with_re (L "(-)(.)") (L "\2\g<1>\\") (L "a-b-" ++ L "-") = Ok (L "ab-\" ++ L "-" ++ L "-\")
  /\ with_re (L "^x|x$") (L "y") (L "xxx") = Ok (L "yxy")
  /\ with_re (L "(a)|b") (L "\101\01\.\n") (L "a") = Ok (L "A" ++ [1%N] ++ L "\." ++ [10%N]).
Proof. exact subs. Qed.
Example C84_fails_example : with_re (L "a*") (L "\1") (L "b") = Err ValueError /\ with_re (L "aa") (L "\q") (L "b") = Err ValueError
  /\ with_re (L "aa") (L "\") (L "b") = Err ValueError /\ with_re (L "(a)|b") (L "\10") (L "b") = Err ValueError
  /\ with_re (L "(a)|b") (L "\400") (L "b") = Err ValueError /\ with_re (L "(a)|b") (L "\g<2>") (L "b") = Err ValueError
  /\ with_re (L "(a)|b") (L "\g1") (L "b") = Err ValueError.
Proof. exact bad_templates. Qed.

(* A text for a text: every occurrence is replaced, from left to right; *)
Theorem C84_text : forall p t s out, p <> [] -> sub_template (RStr p) (quoted t) s = Ok out <-> replaced p t s out.
Proof. exact SubstituteProofs.sub_text. Qed.
Print Assumptions C84_text.
(* for a character this is str.replace, with which the LaTeX exporter escapes. *)
Theorem C84_char : forall c t s, sub_template (RStr [c]) (quoted t) s = Ok (replace_char c t s).
Proof. exact SubstituteProofs.sub_char. Qed.
Print Assumptions C84_char.
(* A text is written as a template by doubling backslashes, *)
Theorem C84_quoted : forall ng t, template ng (quoted t) = Ok (map Lit t).
Proof. exact SubstituteProofs.quoted_means. Qed.
Print Assumptions C84_quoted.
Theorem C84_plain : forall t, ~ In (Ch "\") t -> quoted t = t.
Proof. exact SubstituteProofs.plain_quoted. Qed.
Print Assumptions C84_plain.
(* a group by its number, *)
Theorem C84_group : forall ng n, template ng (L "\g<" ++ dec_nat n ++ L ">") = if ng <? n then Err ValueError else Ok [Grp n].
Proof. exact SubstituteProofs.template_group. Qed.
Print Assumptions C84_group.
(* and replacing each match by itself changes nothing, *)
Theorem C84_same : forall r s, sub_template r (L "\g<0>") s = Ok s.
Proof. exact SubstituteProofs.sub_same. Qed.
Print Assumptions C84_same.
(* nor does an expression that never matches. *)
Theorem C84_nowhere : forall r f s, (forall pos t, match_at false (RGroup 0 r) pos t = None) -> sub_with r f s = Ok s.
Proof. exact SubstituteProofs.sub_nowhere. Qed.
Print Assumptions C84_nowhere.
(* In general a template is read token by token, *)
Theorem C84_says : forall ng t ps, template ng t = Ok ps <-> says ng t ps.
Proof. exact SubstituteProofs.template_means. Qed.
(* and one that cannot be raises re.error. *)
Theorem C84_bad : forall ng t x, template ng t = Err x -> x = ValueError.
Proof. exact SubstituteProofs.template_bad. Qed.
Print Assumptions C84_says.
Print Assumptions C84_bad.
(* What its parts stand for in a match; a group that did not take part is empty. *)
Theorem C84_expand : forall m, expand [] m = [] /\ (forall c ps, expand (Lit c :: ps) m = c :: expand ps m)
  /\ (forall n v ps, cap n m = Some v -> expand (Grp n :: ps) m = v ++ expand ps m) /\ forall n ps, cap n m = None -> expand (Grp n :: ps) m = expand ps m.
Proof. exact SubstituteProofs.expand_parts. Qed.
Print Assumptions C84_expand.
Example C84_says_example : template 12 (L "\12\123\128\08\377") = Ok [Grp 12; Lit 83%N; Grp 12; Lit (Ch "8"); Lit 0%N; Lit (Ch "8"); Lit 255%N]
  /\ template 12 (L "\99") = Err ValueError.
Proof. exact numbers. Qed.
Example C84_text_example : replaced (L "aa") (L "b") (L "aaaxaa") (L "baxb").
Proof. exact aaa. Qed.

(* The substitutions for a type are done in order, each on what the ones before it gave; *)
Theorem C84_order : forall compile evaluate ty a s b, sub compile evaluate s ty (a ++ b) = do s' <- sub compile evaluate s ty a; sub compile evaluate s' ty b.
Proof. exact SubstituteProofs.sub_app. Qed.
Print Assumptions C84_order.
Theorem C84_patterns : forall compile evaluate a s b, sub_all compile evaluate (a ++ b) s = do s' <- sub_all compile evaluate a s; sub_all compile evaluate b s'.
Proof. exact SubstituteProofs.all_app. Qed.
Print Assumptions C84_patterns.
(* without any the text stays as it is; *)
Theorem C84_nothing : forall compile evaluate s ty, sub compile evaluate s ty [] = Ok s.
Proof. exact SubstituteProofs.sub_nothing. Qed.
Print Assumptions C84_nothing.
(* those for other types are passed over, those for the type done; *)
Theorem C84_other : forall compile evaluate s ty rx r ps, compile rx = Ok r -> re_match r ty = None -> sub compile evaluate s ty [(rx, ps)] = Ok s.
Proof. exact SubstituteProofs.sub_other. Qed.
Print Assumptions C84_other.
Theorem C84_these : forall compile evaluate s ty rx r ps m, compile rx = Ok r -> re_match r ty = Some m ->
  sub compile evaluate s ty [(rx, ps)] = sub_all compile evaluate ps s.
Proof. exact SubstituteProofs.sub_these. Qed.
Print Assumptions C84_these.
(* a pattern has a template, a function, or something else, which is passed over. *)
Theorem C84_one : forall compile evaluate s rx r t, compile rx = Ok r -> sub_all compile evaluate [(rx, Template t)] s = sub_template r t s.
Proof. exact SubstituteProofs.all_one. Qed.
Print Assumptions C84_one.
Theorem C84_function : forall compile evaluate s rx r a b f, compile rx = Ok r -> evaluate a b = Ok f ->
  sub_all compile evaluate [(rx, Lambda a b)] s = sub_with r f s.
Proof. exact SubstituteProofs.all_lambda. Qed.
Print Assumptions C84_function.
Theorem C84_neither : forall compile evaluate s rx, sub_all compile evaluate [(rx, Neither)] s = Ok s.
Proof. exact SubstituteProofs.all_neither. Qed.
Print Assumptions C84_neither.
(* A function that cannot be made raises first, then an expression that cannot be compiled. *)
Theorem C84_raises : forall compile evaluate s rx x, (forall a b, evaluate a b = Err x -> sub_all compile evaluate [(rx, Lambda a b)] s = Err x)
  /\ (compile rx = Err x -> (forall t, sub_all compile evaluate [(rx, Template t)] s = Err x)
     /\ forall a b f, evaluate a b = Ok f -> sub_all compile evaluate [(rx, Lambda a b)] s = Err x).
Proof. exact SubstituteProofs.all_raises. Qed.
Print Assumptions C84_raises.
Example C84_types_example : run (L "aab-b") (L "glosses") config = Ok (L "aabb-[bb]") /\ run (L "aab-b") (L "words") config = Ok (L "cc-c")
  /\ run (L "aab-b") (L "phrases") config = Ok (L "aab-b").
Proof. exact by_type. Qed.
Example C84_raises_example : run (L "x") (L "words") [(L "?", [])] = Err ValueError /\ run (L "x") (L "words") [(L "words", [(L "?", Template (L "y"))])] = Err ValueError
  /\ run (L "x") (L "words") [(L "words", [(L "?", Lambda (L "m") (L "x"))])] = Err NameError
  /\ run (L "b") (L "words") [(L "words", [(L "b", Lambda (L "m") (L "1"))])] = Err TypeError
  /\ run (L "x") (L "words") [(L "words", [(L "b", Lambda (L "m") (L "1"))])] = Ok (L "x").
Proof. exact raised. Qed.
(* The order of substitutions does matter, *)
Theorem C84_order_refuted : exists s ty p q, run s ty [(L "words", [p; q])] <> run s ty [(L "words", [q; p])].
Proof. exact order_refuted. Qed.
Print Assumptions C84_order_refuted.
(* and an expression that is the name of a type is also used for longer ones. *)
Theorem C84_type_refuted : exists s ty rx r ps, compile rx = Ok r /\ r = RStr (L "words") /\ ty <> L "words" /\ run s ty [(rx, ps)] <> Ok s.
Proof. exact type_refuted. Qed.
Print Assumptions C84_type_refuted.
