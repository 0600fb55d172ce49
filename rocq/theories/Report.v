(* Model of the output of xigt/scripts/xigt_validate.py, lines 332-416.
   Definitions only. *)
From Verif Require Import PyStr Ref Model Value Validate.

(* what the user sees, in order: print() writes to stdout, the root logger to
   stderr, one line each *)
Inductive line := Printed (s : str) | Logged (s : str).
(* what was written, and the exception that ended it *)
Definition output := (list line * option exn)%type.
Definition andthen (a b : output) : output :=
  match snd a with Some _ => a | None => (fst a ++ fst b, snd b) end.
Definition writes (ls : list line) : output := (ls, None).
Definition raises (e : exn) : output := ([], Some e).

(* line 14 *)
Definition datalevels : list str := [L "corpus"; L "igt"; L "tier"; L "item"].
(* lines 345-360 *)
Definition ESC : str := [27%N].
Definition RESET_SEQ : str := ESC ++ L "[0m".
Definition COLOR_SEQ (n : nat) : str := ESC ++ L "[3" ++ dec_nat n ++ L "m".
Definition BOLD_SEQ : str := ESC ++ L "[1m".
Definition colors (level : Z) : option str :=
  if (level =? 10)%Z then Some (COLOR_SEQ 4) else if (level =? 20)%Z then Some (COLOR_SEQ 7)
  else if (level =? 30)%Z then Some (COLOR_SEQ 3) else if (level =? 40)%Z then Some (COLOR_SEQ 1)
  else if (level =? 50)%Z then Some (COLOR_SEQ 5) else None.
Definition spaces (n : nat) : str := repeat (Ch " ") n.

(* format_heading, lines 362-374 *)
Definition format_heading (color : bool) (nest : nat) (index : nat) (rid : option str) : res str :=
  match nth_error datalevels nest with
  | None => Err IndexError
  | Some dl =>
    let id := match rid with None | Some [] => [] | Some i => L "(id: """ ++ i ++ L """)" end in
    let h := spaces nest ++ dl ++ L " " ++ dec_nat index ++ L " " ++ id in
    Ok (if color then BOLD_SEQ ++ h ++ RESET_SEQ else h)
  end.
(* format_message, lines 376-386: the colour is looked up in any case *)
Definition format_message (color : bool) (nest : nat) (r : record) : res str :=
  match colors (rec_level r) with
  | None => Err KeyError
  | Some c =>
    let m := spaces nest ++ L " * " ++ rec_msg r in
    Ok (if color then c ++ m ++ RESET_SEQ else m)
  end.

Section Print.
Variables (color : bool) (minlevel : Z).
(* lines 337-339: the root logger drops what is below its level *)
Fixpoint print_records (nest : nat) (l : list record) : output :=
  match l with
  | [] => writes []
  | r :: l =>
    match format_message color nest r with
    | Err e => raises e
    | Ok msg => andthen (writes (if (minlevel <=? rec_level r)%Z then [Logged msg] else [])) (print_records nest l)
    end
  end.
(* print_report, lines 334-341 *)
Fixpoint print_report (nest : nat) (r : freport) : output :=
  match r with
  | FEmpty => writes []
  | FReport recs kids i n =>
    if report_is_empty None r then writes [] else
    match format_heading color nest n i with
    | Err e => raises e
    | Ok h =>
      andthen (writes [Printed h]) (andthen (print_records nest recs)
        ((fix go l := match l with [] => writes [] | k :: l => andthen (print_report (S nest) k) (go l) end) kids))
    end
  end.

Context {U : Unicode}.
Variable fuel : nat.
(* run, lines 389-416, over the files with their names: what is written, and
   the verdicts so far *)
Definition load_failed (n : nat) (name : str) : str :=
  L "Corpus " ++ dec_nat n ++ L " (" ++ name
  ++ L ") failed to load. First verify that the XML file is valid by doing a schema validation.".
Fixpoint run_output (n : nat) (idset : list str) (l : list (str * file)) : output * list bool :=
  match l with
  | [] => (writes [], [])
  | (name, Unparsable) :: l =>
    let (o, bs) := run_output (S n) idset l in (andthen (writes [Printed (load_failed n name)]) o, bs)
  | (_, Unreadable e) :: _ => (raises e, [])
  | (_, Loaded ci igts end_) :: l =>
    match validate_corpus fuel ci igts end_ n idset with
    | Err e => (raises e, [])
    | Ok r =>
      let r := filter_empty_reports (Some minlevel) r in
      let p := if report_is_empty None r then writes [] else print_report 0 r in
      let (o, bs) := run_output (S n) (add_id idset ci) l in (andthen p o, report_is_empty None r :: bs)
    end
  end.
Definition run_all (l : list (str * file)) : list line * res bool :=
  let (o, bs) := run_output 0 [] l in
  (fst o, match snd o with Some e => Err e | None => Ok (forallb (fun b => b) bs) end).
End Print.
