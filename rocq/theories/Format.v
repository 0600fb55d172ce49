(* Model of xigt/scripts/xigt_query.py: the descriptions (SafeFormatter, lines
   15-45), the agenda (make_job, process_agenda, the patterns, print_results,
   lines 54-144), and of the format strings of Python they rest on.
   Definitions only.  Paths are parameters: what findall gives. *)
From Verif Require Import PyStr Ref Scripts.

(* ---------- format strings ---------- *)

(* a replacement field: {name!conv:spec} *)
Record field := { f_name : str; f_conv : option N; f_spec : str }.
(* what string.Formatter.parse and str.format see: characters and fields (the
   limits of the literal chunks play no part) *)
Inductive tok := TLit (c : N) | TField (f : field).

Definition LBRACE : N := 123.  (* { *)
Definition RBRACE : N := 125.  (* } *)
Definition is_brace (c : N) : bool := N.eqb c LBRACE || N.eqb c RBRACE.

(* the field name: up to the first } : or ! outside square brackets; gives the
   name, the character that ends it, and what follows *)
Fixpoint scan_name (inside : bool) (s : str) : res (str * N * str) :=
  match s with
  | [] => Err ValueError
  | c :: s =>
    if inside then do (n, t, r) <- scan_name (negb (N.eqb c 93)) s; Ok (c :: n, t, r)
    else if N.eqb c LBRACE then Err ValueError
    else if N.eqb c RBRACE || N.eqb c 58 || N.eqb c 33 then Ok ([], c, s)
    else do (n, t, r) <- scan_name (N.eqb c 91) s; Ok (c :: n, t, r)
  end.
(* the format spec: up to the brace that closes the field *)
Fixpoint scan_spec (open : nat) (s : str) : res (str * str) :=
  match s with
  | [] => Err ValueError
  | c :: s =>
    if N.eqb c LBRACE then do (n, r) <- scan_spec (S open) s; Ok (c :: n, r)
    else if N.eqb c RBRACE
    then match open with
         | O => Ok ([], s)
         | S open => do (n, r) <- scan_spec open s; Ok (c :: n, r)
         end
    else do (n, r) <- scan_spec open s; Ok (c :: n, r)
  end.
Definition parse_field (s : str) : res (field * str) :=
  do (n, t, r) <- scan_name false s;
  if N.eqb t RBRACE then Ok ({| f_name := n; f_conv := None; f_spec := [] |}, r)
  else if N.eqb t 58 then do (sp, r) <- scan_spec 0 r; Ok ({| f_name := n; f_conv := None; f_spec := sp |}, r)
  else match r with
       | c :: d :: r =>
         if N.eqb d RBRACE then Ok ({| f_name := n; f_conv := Some c; f_spec := [] |}, r)
         else if N.eqb d 58 then do (sp, r) <- scan_spec 0 r; Ok ({| f_name := n; f_conv := Some c; f_spec := sp |}, r)
         else Err ValueError
       | _ => Err ValueError
       end.
(* the parts of the string, and whether it ends in a ValueError instead *)
Fixpoint parse_ (fuel : nat) (s : str) : list tok * bool :=
  match fuel, s with
  | O, _ | _, [] => ([], false)
  | S fuel, c :: s =>
    if is_brace c
    then match s with
         | [] => ([], true)
         | d :: s' =>
           if N.eqb d c then let '(ts, bad) := parse_ fuel s' in (TLit c :: ts, bad)
           else if N.eqb c RBRACE then ([], true)
           else match parse_field s with
                | Ok (f, r) => let '(ts, bad) := parse_ fuel r in (TField f :: ts, bad)
                | Err _ => ([], true)
                end
         end
    else let '(ts, bad) := parse_ fuel s in (TLit c :: ts, bad)
  end.
Definition parse (s : str) : list tok * bool := parse_ (S (length s)) s.

(* name.split('[')[0].split('.')[0], and the rest: attributes and subscripts *)
Definition stops (c : N) : bool := N.eqb c 91 || N.eqb c 46.
Fixpoint first_part (n : str) : str :=
  match n with [] => [] | c :: n => if stops c then [] else c :: first_part n end.
Fixpoint rest_part (n : str) : str :=
  match n with [] => [] | c :: n' => if stops c then n else rest_part n' end.

Section Format.
Context {U : Unicode}.

(* what can be filled in: a result of a path, or the tuple of results of a
   subquery (CSTuple, lines 48-51) *)
Inductive fval := FVal (v : pyval) | FTuple (l : list pyval).
(* str() of an object of the model, and every formatting other than plain str():
   attributes and subscripts of values, !r, !a, format specs *)
Context (obj_str : nat -> str) (show_other : fval -> str -> option N -> str -> res str).
Definition val_str (v : pyval) : str :=
  match v with VNone => L "None" | VStr s => s | VObj n => obj_str n end.
Definition fval_str (v : fval) : str :=
  match v with FVal v => val_str v | FTuple l => join (L ", ") (map val_str l) end.
Definition plain_conv (c : option N) : bool := match c with None => true | Some c => N.eqb c 115 end.
(* get the attribute or element, convert, format.  {x} without a spec is str(x):
   format(x, '') of str, None, tuples and objects alike.  Simplification: the
   attribute is looked up after the spec was expanded. *)
Definition show (v : fval) (rest : str) (conv : option N) (spec : str) : res str :=
  match rest, spec with
  | [], [] => if plain_conv conv then Ok (fval_str v) else show_other v rest conv spec
  | _, _ => show_other v rest conv spec
  end.

(* the first part of a field name: no positional arguments are ever passed *)
Definition positional (fp : str) : bool := forallb is_digit fp.   (* also the empty name *)
Definition env := dict fval.
Definition lookup (e : env) (fp : str) : res fval :=
  if positional fp then Err IndexError
  else match dget e fp with Some v => Ok v | None => Err KeyError end.

(* the fields replaced one after the other *)
Fixpoint fill_toks (expand : str -> res str) (e : env) (ts : list tok) : res str :=
  match ts with
  | [] => Ok []
  | TLit c :: ts => do r <- fill_toks expand e ts; Ok (c :: r)
  | TField f :: ts =>
    do v <- lookup e (first_part (f_name f));
    do sp <- expand (f_spec f);
    do x <- show v (rest_part (f_name f)) (f_conv f) sp;
    do r <- fill_toks expand e ts; Ok (x ++ r)
  end.
(* string.Formatter.vformat (always expands the spec, three levels) and
   str.format (expands a spec that has a brace, two levels) *)
Fixpoint build (always : bool) (levels : nat) (e : env) (s : str) : res str :=
  match levels with
  | O => Err ValueError
  | S levels =>
    let '(ts, bad) := parse s in
    do r <- fill_toks (fun sp => if always || char_in LBRACE sp then build always levels e sp else Ok sp) e ts;
    if bad then Err ValueError else Ok r
  end.
Definition formatter_vformat (e : env) (s : str) : res str := build true 3 e s.
Definition str_format (e : env) (s : str) : res str := build false 2 e s.

(* SafeFormatter.vformat, lines 16-43.  Simplification: isdigit() is taken to be
   "all decimal digits". *)
Definition retok (e : env) (t : tok) : str :=
  match t with
  | TLit c => if is_brace c then [c; c] else [c]
  | TField f =>
    let conv := match f_conv f with Some c => [33%N; c] | None => [] end in
    let spec := match f_spec f with [] => [] | sp => 58%N :: sp end in
    let fp := first_part (f_name f) in
    if positional fp || dmem e fp
    then [LBRACE] ++ f_name f ++ conv ++ spec ++ [RBRACE]
    else [LBRACE; LBRACE] ++ f_name f ++ conv ++ spec ++ [RBRACE; RBRACE]
  end.
Definition safe_format (e : env) (s : str) : res str :=
  let '(ts, bad) := parse s in
  if bad then Err ValueError else formatter_vformat e (flat_map (retok e) ts).

(* ---------- the agenda ---------- *)

(* the arguments of the command in order, AgendaAction, lines 146-150 *)
Inductive arg := GFind (q : str) | GTally (q sq : str) | GUnique (q : str) | GCount (q : str) | GDesc (d : str).
Inductive action := Find | Tally | Unique | Count.
Record agendum := { a_action : action; a_query : str; a_sub : str; a_desc : str }.

Definition given (q sq : str) : env := [(L "query", FVal (VStr q)); (L "subquery", FVal (VStr sq))].
Definition DESC1 : str := L "{query}" ++ [9%N] ++ L "{match!s}".
Definition DESC2 : str := L "{query}" ++ [9%N] ++ L "{subquery}" ++ [9%N] ++ L "{match!s}".

Definition new_agendum (a : action) (q sq desc : str) : res agendum :=
  do d <- safe_format (given q sq) desc; Ok {| a_action := a; a_query := q; a_sub := sq; a_desc := d |}.
(* the loop of make_job, lines 74-94; the agenda is kept in reverse.  A
   description without an action before it: query is not defined (main rejects
   that, lines 196-197) *)
Fixpoint make_agenda (done : list agendum) (args : list arg) : res (list agendum) :=
  match args with
  | [] => Ok (rev done)
  | GDesc d :: args =>
    match done with
    | [] => Err NameError
    | a :: done =>
      do d <- safe_format (given (a_query a) (a_sub a)) d;
      make_agenda ({| a_action := a_action a; a_query := a_query a; a_sub := a_sub a; a_desc := d |} :: done) args
    end
  | GFind q :: args => do a <- new_agendum Find q [] DESC1; make_agenda (a :: done) args
  | GUnique q :: args => do a <- new_agendum Unique q [] DESC1; make_agenda (a :: done) args
  | GCount q :: args => do a <- new_agendum Count q [] DESC1; make_agenda (a :: done) args
  | GTally q sq :: args => do a <- new_agendum Tally q sq DESC2; make_agenda (a :: done) args
  end.
(* make_job: the namespace has no attribute agenda if no action was given *)
Definition make_job (args : list arg) : res (list agendum) :=
  match args with [] => Err AttributeError | _ => make_agenda [] args end.

(* findall(xc, path) and findall(match, path) *)
Context (findall : str -> res (list pyval)) (findsub : pyval -> str -> res (list pyval)).
Definition fill (a : agendum) (v : fval) : res str := str_format [(L "match", v)] (a_desc a).

(* find_pattern, lines 113-115: lines printed *)
Definition find_pattern (a : agendum) : res (list str) :=
  do ms <- findall (a_query a); mapM (fun m => do x <- fill a (FVal m); Ok (L "  " ++ x)) ms.
(* tally_pattern, unique_pattern, count_pattern, lines 118-137: counts with
   their descriptions *)
Definition tally_pattern (a : agendum) : res (list (nat * str)) :=
  do c <- tally (fun m => findsub m (a_sub a)) (findall (a_query a));
  mapM (fun '(g, n) => do x <- fill a (FTuple g); Ok (n, x)) c.
Definition unique_pattern (a : agendum) : res (list (nat * str)) :=
  do n <- unique (findall (a_query a)); do x <- fill a (FVal (VStr [])); Ok [(n, x)].
Definition count_pattern (a : agendum) : res (list (nat * str)) :=
  do n <- count (findall (a_query a)); do x <- fill a (FVal (VStr [])); Ok [(n, x)].
(* process_agenda, lines 97-110: what is printed meanwhile, and the results.
   Simplification: after an exception nothing is kept of what was printed. *)
Fixpoint process_agenda (agenda : list agendum) : res (list str * list (nat * str)) :=
  match agenda with
  | [] => Ok ([], [])
  | a :: agenda =>
    do (p, r) <- match a_action a with
                 | Find => do p <- find_pattern a; Ok (p, [])
                 | Tally => do r <- tally_pattern a; Ok ([], r)
                 | Unique => do r <- unique_pattern a; Ok ([], r)
                 | Count => do r <- count_pattern a; Ok ([], r)
                 end;
    do (p', r') <- process_agenda agenda; Ok (p ++ p', r ++ r')
  end.
(* str.rjust *)
Definition rjust (w : nat) (s : str) : str := repeat 32%N (w - length s) ++ s.
(* print_results, lines 140-144 *)
Definition max_len (rs : list (nat * str)) : nat := fold_right Nat.max 0 (map (fun r => length (dec_nat (fst r))) rs).
Definition print_results (rs : list (nat * str)) : list str :=
  map (fun '(n, d) => [32%N] ++ rjust (max_len rs) (dec_nat n) ++ [9%N] ++ d) rs.
(* the body of the loop of run, lines 59-64: the lines after the heading *)
Definition query_file (agenda : list agendum) : res (list str) :=
  do (p, r) <- process_agenda agenda; Ok (p ++ print_results r ++ [[]]).
(* run, lines 54-64, for one file: the lines after the heading *)
Definition query_run (args : list arg) : res (list str) :=
  do agenda <- make_job args; query_file agenda.
End Format.
