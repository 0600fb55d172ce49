(* C81: xigt query over files; paths over equal objects. *)
From Verif Require Import PyStr Ref SpecRef Model SpecModel XmlStd Xml SpecXml XmlText Value Index Files SpecValidateRun.
From Verif Require Path SpecPathSame PathSameProofs.
From Verif Require Import Scripts Format SpecFormat QueryRun SpecQueryRun QueryRunProofs QueryRunExamples.

(* paths without prefixes and without @* give equal results, or raise the same, on
   equal objects: neither the order of attributes nor prefixes matter *)
Theorem C81_paths :
  forall (U : Unicode) (vfuel : nat) (v v' : Path.pval) (p : str),
  SpecPathSame.plain_path p -> SpecPathSame.same_val v v' ->
  SpecPathSame.same_results (findall vfuel v p) (findall vfuel v' p).
Proof. exact @findall_same. Qed.
Print Assumptions C81_paths.

(* other paths do not: @* shows the order, prefixes show the declarations *)
Theorem C81_star_refuted :
  same_corpus (with_attrs ab) (with_attrs ba)
  /\ @findall ascii_unicode 10 (root (with_attrs ab)) (L "@*") = Ok [Path.VStr (L "1"); Path.VStr (L "2")]
  /\ @findall ascii_unicode 10 (root (with_attrs ba)) (L "@*") = Ok [Path.VStr (L "2"); Path.VStr (L "1")]
  /\ @findall ascii_unicode 10 (root (with_attrs ab)) (L "@b") = @findall ascii_unicode 10 (root (with_attrs ba)) (L "@b").
Proof. exact order_shows. Qed.
Print Assumptions C81_star_refuted.
Theorem C81_prefix_refuted :
  same_corpus (with_prefix (L "dc")) (with_prefix (L "d"))
  /\ @findall ascii_unicode 10 (root (with_prefix (L "dc"))) (L "dc:igt/@id") = Ok [Path.VStr (L "i")]
  /\ @findall ascii_unicode 10 (root (with_prefix (L "d"))) (L "dc:igt/@id") = Ok []
  /\ @findall ascii_unicode 10 (root (with_prefix (L "d"))) (L "igt/@id") = Ok [Path.VStr (L "i")].
Proof. exact prefix_shows. Qed.
Print Assumptions C81_prefix_refuted.

Section Run.
Context {U : Unicode}.
Context (obj_str : nat -> str) (show_other : fval -> str -> option N -> str -> res str) (num : Path.pval -> nat) (vfuel : nat) (ahead : str -> nat).
Notation run := (run obj_str show_other num vfuel ahead).

(* the files one after the other, until one raises: what was printed before stays *)
Theorem C81_order :
  forall (o : qopts) (args : list arg) (ps1 ps2 : list str) (w : disk),
  (exists l, make_job obj_str show_other args = Ok l) ->
  first_then (run o args ps1 w) (run o args ps2 w) (run o args (ps1 ++ ps2) w).
Proof. exact (run_order obj_str show_other num vfuel ahead). Qed.
(* descriptions that cannot be formatted raise before anything is printed or read *)
Theorem C81_arguments :
  forall (o : qopts) (args : list arg) (ps : list str) (w : disk) (e : exn),
  make_job obj_str show_other args = Err e -> run o args ps w = ([], Some e).
Proof. exact (bad_args obj_str show_other num vfuel ahead). Qed.
(* the heading of a file that cannot be read is printed, nothing else *)
Theorem C81_unreadable :
  forall (o : qopts) (args : list arg) (p : str) (w : disk) (l : list agendum) (h : str) (e : exn),
  make_job obj_str show_other args = Ok l -> heading obj_str show_other o p = Ok h -> load_file ahead w p = Err e ->
  run o args [p] w = ([h], Some e).
Proof. exact (unreadable obj_str show_other num vfuel ahead). Qed.
Theorem C81_missing :
  forall (o : qopts) (args : list arg) (p : str) (w : disk) (l : list agendum) (h : str),
  make_job obj_str show_other args = Ok l -> heading obj_str show_other o p = Ok h -> dget (d_files w) p = None ->
  run o args [p] w = ([h], Some OSError).
Proof. exact (missing_file obj_str show_other num vfuel ahead). Qed.
(* no other file is read *)
Theorem C81_reads :
  forall (o : qopts) (args : list arg) (ps : list str) (w w' : disk),
  (forall p, In p ps -> dget (d_files w) p = dget (d_files w') p) -> run o args ps w = run o args ps w'.
Proof. exact (reads_only obj_str show_other num vfuel ahead). Qed.

(* a file that can be read: its heading and the lines of C66, or the exception of C66 *)
Theorem C81_file :
  forall (o : qopts) (args : list arg) (p : str) (w : disk) (h : str) (c : corpus) (findsub : pyval -> str -> res (list pyval)),
  (forall v q, findsub (of_pval num v) q = found num vfuel v q) ->
  heading obj_str show_other o p = Ok h -> load_file ahead w p = Ok c ->
  match query_run obj_str show_other (found num vfuel (root c)) findsub args with
  | Ok lines => run o args [p] w = (h :: lines, None)
  | Err e => snd (run o args [p] w) = Some e
  end.
Proof. exact (one_file obj_str show_other num vfuel ahead). Qed.
Theorem C81_heading :
  forall (p : str) (b : bool),
  heading obj_str show_other {| q_heading := None; q_basename := b |} p = Ok ((if b then basename p else p) ++ L ":").
Proof. exact (default_heading obj_str show_other). Qed.
Theorem C81_basename :
  forall d n : str, ~ In (Ch "/") n -> basename n = n /\ basename (d ++ Ch "/" :: n) = n.
Proof. exact basename_of. Qed.

(* count prints how many results the path has, find prints each result in order *)
Theorem C81_count :
  forall (p : str) (w : disk) (b : bool) (c : corpus) (q : str) (ms : list Path.pval),
  no_braces q -> load_file ahead w p = Ok c -> findall vfuel (root c) q = Ok ms ->
  run {| q_heading := None; q_basename := b |} [GCount q] [p] w
  = ([(if b then basename p else p) ++ L ":"; L " " ++ dec_nat (length ms) ++ [9%N] ++ q ++ [9%N]; []], None).
Proof. exact (count_run obj_str show_other num vfuel ahead). Qed.
Theorem C81_find :
  forall (p : str) (w : disk) (b : bool) (c : corpus) (q : str) (ms : list Path.pval),
  no_braces q -> load_file ahead w p = Ok c -> findall vfuel (root c) q = Ok ms ->
  run {| q_heading := None; q_basename := b |} [GFind q] [p] w
  = (((if b then basename p else p) ++ L ":") :: map (fun m => L "  " ++ q ++ [9%N] ++ printed obj_str num m) ms ++ [[]], None).
Proof. exact (find_run obj_str show_other num vfuel ahead). Qed.
(* what was found is printed also if an action after it raises *)
Theorem C81_until :
  forall (p : str) (w : disk) (b : bool) (c : corpus) (q q' : str) (ms : list Path.pval) (e : exn),
  no_braces q -> load_file ahead w p = Ok c -> findall vfuel (root c) q = Ok ms -> findall vfuel (root c) q' = Err e ->
  run {| q_heading := None; q_basename := b |} [GFind q; GCount q'] [p] w
  = (((if b then basename p else p) ++ L ":") :: map (fun m => L "  " ++ q ++ [9%N] ++ printed obj_str num m) ms, Some e).
Proof. exact (find_until obj_str show_other num vfuel ahead). Qed.

(* saved corpora: the same output as for the corpora in memory, if finds give strings *)
Theorem C81_saved :
  forall (o : qopts) (args : list arg) (w : disk) (paths : list str) (cs : list corpus),
  Forall2 (saved_as w) paths cs -> Forall arg_plain args ->
  (forall q, In (GFind q) args -> Forall (fun c => forall l, findall vfuel (root c) q = Ok l -> Forall printable l) cs) ->
  run o args paths w = run_loaded obj_str show_other num vfuel o args (combine paths (map Ok cs)).
Proof. exact (saved_run obj_str show_other num vfuel ahead). Qed.
End Run.
Print Assumptions C81_order.
Print Assumptions C81_arguments.
Print Assumptions C81_unreadable.
Print Assumptions C81_missing.
Print Assumptions C81_reads.
Print Assumptions C81_file.
Print Assumptions C81_heading.
Print Assumptions C81_basename.
Print Assumptions C81_count.
Print Assumptions C81_find.
Print Assumptions C81_until.
Print Assumptions C81_saved.

(* ---------- examples ---------- *)

Example C81_example_order : query [GFind (L "igt//item/@id"); GCount (L "igt/tier")] [L "a.xml"; L "d/f.xml"; L "a.xml"]
  = ([L "a.xml:"; L "  igt//item/@id" ++ [9%N] ++ L "w1"; L "  igt//item/@id" ++ [9%N] ++ L "w2"; L " 1" ++ [9%N] ++ L "igt/tier" ++ [9%N]; []; L "f.xml:"], Some OSError).
Proof. exact until_missing. Qed.
Example C81_example_kept : query [GFind (L "igt/@id"); GUnique (L "igt")] [L "a.xml"; L "a.xml"]
  = ([L "a.xml:"; L "  igt/@id" ++ [9%N] ++ L "i1"], Some TypeError).
Proof. exact kept_lines. Qed.
Example C81_example_arguments : query [] [L "a.xml"] = ([], Some AttributeError) /\ query [GDesc (L "x")] [L "a.xml"] = ([], Some NameError).
Proof. exact nothing_asked. Qed.
Example C81_example_saved : Forall2 (@saved_as ascii_unicode ValidateRunExamples.disk1) [L "a.xml"; L "a.xml"] [XmlExamples.xc; XmlExamples.xc] /\ Forall arg_plain asked
  /\ (forall q, In (GFind q) asked -> Forall (fun c => forall l, @findall ascii_unicode 10 (root c) q = Ok l -> Forall printable l) [XmlExamples.xc; XmlExamples.xc])
  /\ fst (query asked [L "a.xml"; L "a.xml"]) = let one := [L "a.xml:"; L "  igt/tier/@type" ++ [9%N] ++ L "words"; L " 1" ++ [9%N] ++ L "igt/tier" ++ [9%N] ++ L "item/@id" ++ [9%N] ++ L "w1, w2"; []] in one ++ one.
Proof. exact saved_query. Qed.
