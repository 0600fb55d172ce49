(* C66: xigt query shows each result with the description asked for. *)
From Verif Require Import PyStr Ref SpecRef Scripts Format SpecFormat FormatProofs.

(* the two passes over a description (first the query and the subquery, later
   the match) give what the description stands for, with every field replaced by
   its value: if what the first pass fills in has no braces *)
Theorem C66_description :
  forall (U : Unicode) (obj_str : nat -> str) (show_other : fval -> str -> option N -> str -> res str)
         (q sq : str) (m : fval) (ps : list part) (x : str),
  Forall part_ok ps -> tame obj_str show_other q sq ps ->
  ((do d <- safe_format obj_str show_other (given q sq) (written ps);
    str_format obj_str show_other [(L "match", m)] d) = Ok x
   <-> stands_for obj_str show_other q sq m ps x).
Proof. exact @two_passes. Qed.
Print Assumptions C66_description.

(* the lines of a run: those of each find in the order asked for, then the
   counts of the other actions in a column aligned to the right *)
Theorem C66_output :
  forall (U : Unicode) (obj_str : nat -> str) (show_other : fval -> str -> option N -> str -> res str)
         (findall : str -> res (list pyval)) (findsub : pyval -> str -> res (list pyval))
         (ts : list task) (lines : list str),
  ts <> [] -> Forall (task_ok obj_str show_other) ts ->
  (query_run obj_str show_other findall findsub (flat_map args_of ts) = Ok lines <->
   Forall (ready obj_str show_other) ts /\
   exists outs col, Forall2 (task_output obj_str show_other findall findsub) ts outs
   /\ column (concat (map snd outs)) col
   /\ lines = concat (map fst outs) ++ col ++ [[]]).
Proof. exact @run_output. Qed.
Print Assumptions C66_output.

(* descriptions with plain fields and paths without braces meet the conditions,
   and then only a path that cannot be evaluated stops the run *)
Theorem C66_plain :
  forall (obj_str : nat -> str) (show_other : fval -> str -> option N -> str -> res str) (t : task),
  plain_task t -> task_ok obj_str show_other t /\ ready obj_str show_other t.
Proof. exact plain_task_ok. Qed.
Print Assumptions C66_plain.

Theorem C66_plain_runs :
  forall (U : Unicode) (obj_str : nat -> str) (show_other : fval -> str -> option N -> str -> res str)
         (findall : str -> res (list pyval)) (findsub : pyval -> str -> res (list pyval)) (ts : list task),
  ts <> [] -> Forall plain_task ts ->
  ((exists lines, query_run obj_str show_other findall findsub (flat_map args_of ts) = Ok lines)
   <-> Forall (answered findall findsub) ts).
Proof. exact @plain_runs. Qed.
Print Assumptions C66_plain_runs.

(* ---------- examples ---------- *)

Local Existing Instance ascii_unicode.
Definition no_str (n : nat) : str := L "<object>".
Definition no_other (v : fval) (r : str) (c : option N) (s : str) : res str := Err AttributeError.
Definition ids (p : str) : res (list pyval) :=
  if str_eqb p (L "igt/@id") then Ok [VStr (L "i1"); VStr (L "i2"); VStr (L "i1")]
  else if str_eqb p (L "igt") then Ok [VObj 0; VObj 1; VObj 2] else Ok [].
Definition langs (m : pyval) (p : str) : res (list pyval) :=
  Ok (match m with VObj 1 => [VStr (L "de"); VStr (L "en")] | _ => [VStr (L "de")] end).

Definition t_find : task :=
  {| t_action := Find; t_query := L "igt/@id"; t_sub := []; t_desc := Some [Text (L "id "); Field Match [] None []] |}.
Definition t_unique : task := {| t_action := Unique; t_query := L "igt/@id"; t_sub := []; t_desc := None |}.
Definition t_tally : task := {| t_action := Tally; t_query := L "igt"; t_sub := L "tier/@lang"; t_desc := None |}.

Lemma no_braces_dec s : forallb (fun c => negb (is_brace c)) s = true -> no_braces s.
Proof.
  intros H. rewrite forallb_forall in H. split; intros Q; apply H in Q; cbn in Q; discriminate.
Qed.
Example C66_example_plain : Forall plain_task [t_unique; t_find; t_tally].
Proof.
  apply Forall_cons; [|apply Forall_cons; [|apply Forall_cons; [|constructor]]].
  - split; [apply default_ok|]. split; [apply default_plain|]. split; [now apply no_braces_dec|]. split; [now apply no_braces_dec|easy].
  - split; [|split; [|split; [now apply no_braces_dec|split; [now apply no_braces_dec|easy]]]].
    + apply Forall_cons; [exact I|]. apply Forall_cons; [|constructor]. split; [constructor|]. split; [easy|now apply no_braces_dec].
    + apply Forall_cons; [exact I|]. apply Forall_cons; [|constructor]. cbn. auto.
  - split; [apply default_ok|]. split; [apply default_plain|]. split; [now apply no_braces_dec|]. split; [now apply no_braces_dec|easy].
Qed.
(* three tasks: the line of find comes first although it was asked for second *)
Example C66_example_output :
  query_run no_str no_other ids langs (flat_map args_of [t_unique; t_find; t_tally])
  = Ok [L "  id i1"; L "  id i2"; L "  id i1";
        L " 2" ++ TAB ++ L "igt/@id" ++ TAB;
        L " 2" ++ TAB ++ L "igt" ++ TAB ++ L "tier/@lang" ++ TAB ++ L "de";
        L " 1" ++ TAB ++ L "igt" ++ TAB ++ L "tier/@lang" ++ TAB ++ L "de, en"; []].
Proof. vm_compute. reflexivity. Qed.
(* a count of two digits makes the other wait: aligned to the right *)
Example C66_example_column : column [(7, L "x"); (12, L "y")] [L "  7" ++ TAB ++ L "x"; L " 12" ++ TAB ++ L "y"].
Proof. apply column_print. vm_compute. reflexivity. Qed.

(* braces in the text of a description: written four times *)
Example C66_example_braces :
  written [Text (L "{x} "); Field Match [] None []] = L "{{{{x}}}} {match}"
  /\ str_format no_str no_other [(L "match", FVal (VStr (L "i1")))] (L "{{x}} {match}") = Ok (L "{x} i1").
Proof. vm_compute. auto. Qed.

(* ---------- what does not hold ---------- *)

(* a path with a brace: the default description of its task stops the run *)
Theorem C66_brace_refuted :
  exists q, query_run no_str no_other ids langs [GFind (L "igt/@id"); GCount q] = Err KeyError
  /\ q = L "igt[@id=""{x}""]".
Proof. exists (L "igt[@id=""{x}""]"). split; [vm_compute; reflexivity|reflexivity]. Qed.
Print Assumptions C66_brace_refuted.
(* or the text between the braces is read as a field *)
Theorem C66_brace_match_refuted :
  query_run no_str no_other ids langs [GCount (L "igt[@id=""{match}""]")]
  = Ok [L " 0" ++ TAB ++ L "igt[@id=""""]" ++ TAB; []].
Proof. vm_compute. reflexivity. Qed.
Print Assumptions C66_brace_match_refuted.
(* an escaped brace does not survive the second pass: {{x}} is read as a field *)
Theorem C66_escape_refuted :
  str_format no_str no_other [(L "match", FVal (VStr (L "i1")))] (L "{{x}} {match}") = Ok (L "{x} i1")
  /\ query_run no_str no_other ids langs [GFind (L "igt/@id"); GDesc (L "{{x}} {match}")] = Err KeyError
  /\ query_run no_str no_other ids langs [GFind (L "igt/@id"); GDesc (L "{{{{x}}}} {match}")]
     = Ok [L "  {x} i1"; L "  {x} i2"; L "  {x} i1"; []].
Proof. vm_compute. auto. Qed.
Print Assumptions C66_escape_refuted.
(* a positional field is refused at once, an unknown name only when there is a match *)
Theorem C66_unknown_refuted :
  query_run no_str no_other ids langs [GFind (L "nothing"); GDesc (L "{}")] = Err IndexError
  /\ query_run no_str no_other ids langs [GFind (L "nothing"); GDesc (L "{mach}")] = Ok [[]]
  /\ query_run no_str no_other ids langs [GFind (L "igt/@id"); GDesc (L "{mach}")] = Err KeyError.
Proof. vm_compute. auto. Qed.
Print Assumptions C66_unknown_refuted.
(* nothing asked for is an error, not an empty answer *)
Theorem C66_nothing_refuted : query_run no_str no_other ids langs [] = Err AttributeError.
Proof. reflexivity. Qed.
Print Assumptions C66_nothing_refuted.
(* two descriptions for one action: the last is taken *)
Example C66_last_description :
  query_run no_str no_other ids langs [GCount (L "igt"); GDesc (L "a"); GDesc (L "b {query}")]
  = Ok [L " 3" ++ TAB ++ L "b igt"; []].
Proof. vm_compute. reflexivity. Qed.

(* a result that is None, and what is left to the objects: attributes, conversions, format specs *)
Definition some (p : str) : res (list pyval) := Ok [VNone; VObj 3].
Definition other (v : fval) (r : str) (c : option N) (s : str) : res str :=
  Ok (L "<" ++ r ++ L "|" ++ match c with Some c => [c] | None => [] end ++ L "|" ++ s ++ L ">").
Example C66_fields :
  query_run no_str other some langs [GFind (L "q"); GDesc (L "{match} {match!s} {match.id} {match!r} {match:>8}")]
  = Ok [L "  None None <.id||> <|r|> <||>8>";
        L "  <object> <object> <.id||> <|r|> <||>8>"; []].
Proof. vm_compute. reflexivity. Qed.
(* descriptions that are no format strings, specs nested too deeply, a description for no action *)
Example C66_raises :
  Forall (fun d => query_run no_str other some langs [GFind (L "q"); GDesc (L d)] = Err ValueError)
    ["{"; "}"; "{match"; "{match!"; "{match!s"; "{match:"; "{match!sx}"; "{match}}"; "{query:{query:{query:{query}}}}"]%string
  /\ query_run no_str other some langs [GFind (L "{match:{match:{match}}}"); GDesc (L "{query}")] = Err ValueError
  /\ query_run no_str other some langs [GDesc (L "{match}"); GFind (L "q")] = Err NameError.
Proof. split; [|vm_compute; auto]. repeat (constructor; [vm_compute; reflexivity|]). constructor. Qed.
(* a match in the format spec of a match: taken for an unknown name *)
Theorem C66_nested_refuted :
  str_format no_str other [(L "match", FVal VNone)] (L "{match:{match}}") = Ok (L "<||None>")
  /\ query_run no_str other some langs [GFind (L "q"); GDesc (L "{match:{match}}")] = Err KeyError.
Proof. vm_compute. auto. Qed.
Print Assumptions C66_nested_refuted.
