(* Model of xigt query over files: run of xigt/scripts/xigt_query.py, lines 54-64, with
   process_agenda and the patterns (lines 97-137) over the paths of Path.v, what is
   printed before an exception included.  Definitions only.

   Simplifications: those of Format.v, Path.v and Files.v; [num] gives the objects of
   the model the numbers that Format.v takes them for. *)
From Verif Require Import PyStr Ref Model XmlStd Xml XmlText Index Files.
From Verif Require Path.
From Verif Require Import Scripts Format.

(* os.path.basename, line 58: what is after the last slash *)
Fixpoint basename (p : str) : str :=
  match p with
  | [] => []
  | c :: p' => if existsb (N.eqb (Ch "/")) p then basename p' else p
  end.

Section QueryRun.
Context {U : Unicode}.
Context (obj_str : nat -> str) (show_other : fval -> str -> option N -> str -> res str).
Variable num : Path.pval -> nat.
Variable vfuel : nat.
Variable ahead : str -> nat.

Definition of_pval (v : Path.pval) : pyval :=
  match v with Path.VStr s => VStr s | Path.VNone => VNone | _ => VObj (num v) end.
(* xp.findall; the indices are those of the constructor of Igt *)
Definition findall (v : Path.pval) (q : str) : res (list Path.pval) := Path.findall construct_index vfuel v q.
Definition root (c : corpus) : Path.pval := Path.VNode {| Path.n_obj := PCorpus c; Path.n_up := [] |}.
Definition found (v : Path.pval) (q : str) : res (list pyval) := do l <- findall v q; Ok (map of_pval l).

(* the loop of find_pattern, lines 113-115 *)
Fixpoint print_all (a : agendum) (ms : list pyval) : list str * option exn :=
  match ms with
  | [] => ([], None)
  | m :: ms =>
    match fill obj_str show_other a (FVal m) with
    | Err e => ([], Some e)
    | Ok x => let '(p, e) := print_all a ms in ((L "  " ++ x) :: p, e)
    end
  end.
Definition run_find (c : corpus) (a : agendum) : list str * option exn :=
  match found (root c) (a_query a) with Err e => ([], Some e) | Ok ms => print_all a ms end.
(* tally_pattern, lines 118-127 *)
Definition run_tally (c : corpus) (a : agendum) : res (list (nat * str)) :=
  do n <- tally (fun m => found m (a_sub a)) (findall (root c) (a_query a));
  mapM (fun '(g, n) => do x <- fill obj_str show_other a (FTuple g); Ok (n, x)) n.
(* process_agenda, lines 97-110: what is printed meanwhile, and the results *)
Definition run_counts (c : corpus) (a : agendum) : res (list (nat * str)) :=
  match a_action a with
  | Unique => unique_pattern obj_str show_other (found (root c)) a
  | Count => count_pattern obj_str show_other (found (root c)) a
  | _ => run_tally c a
  end.
Fixpoint run_agenda (c : corpus) (agenda : list agendum) : list str * res (list (nat * str)) :=
  match agenda with
  | [] => ([], Ok [])
  | a :: agenda =>
    match a_action a with
    | Find => match run_find c a with
              | (p, Some e) => (p, Err e)
              | (p, None) => let '(p', r) := run_agenda c agenda in (p ++ p', r)
              end
    | _ => match run_counts c a with
           | Err e => ([], Err e)
           | Ok r => let '(p, r') := run_agenda c agenda in (p, do x <- r'; Ok (r ++ x))
           end
    end
  end.
(* lines 60-64: after the heading *)
Definition run_corpus (c : corpus) (agenda : list agendum) : list str * option exn :=
  match run_agenda c agenda with
  | (p, Err e) => (p, Some e)
  | (p, Ok r) => (p ++ print_results r ++ [[]], None)
  end.

(* -D and --basename; a job has no description of its own, lines 68-71 *)
Record qopts := { q_heading : option str; q_basename : bool }.
Definition heading (o : qopts) (p : str) : res str :=
  let d := match q_heading o with Some (c :: d) => c :: d | _ => L "{filename}:" end in
  str_format obj_str show_other [(L "filename", FVal (VStr (if q_basename o then basename p else p)))] d.
(* the loop of run over the files and what loading them gives, lines 57-64 *)
Definition run_file (o : qopts) (agenda : list agendum) (p : str) (r : res corpus) : list str * option exn :=
  match heading o p with
  | Err e => ([], Some e)
  | Ok h => match r with
            | Err e => ([h], Some e)
            | Ok c => let '(l, e) := run_corpus c agenda in (h :: l, e)
            end
  end.
Fixpoint run_files (o : qopts) (agenda : list agendum) (fs : list (str * res corpus)) : list str * option exn :=
  match fs with
  | [] => ([], None)
  | (p, r) :: fs =>
    match run_file o agenda p r with
    | (l, Some e) => (l, Some e)
    | (l, None) => let '(l', e) := run_files o agenda fs in (l ++ l', e)
    end
  end.
(* xigtxml.load(infile) *)
Definition load_file (w : disk) (p : str) : res corpus :=
  match dget (d_files w) p with None => Err OSError | Some s => loads (ahead s) s end.
Definition run_loaded (o : qopts) (args : list arg) (fs : list (str * res corpus)) : list str * option exn :=
  match make_job obj_str show_other args with
  | Err e => ([], Some e)
  | Ok agenda => run_files o agenda fs
  end.
(* run, lines 54-64: the lines printed, and how it ends *)
Definition run (o : qopts) (args : list arg) (paths : list str) (w : disk) : list str * option exn :=
  run_loaded o args (map (fun p => (p, load_file w p)) paths).
End QueryRun.
