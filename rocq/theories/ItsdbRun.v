(* Model of xigt export to an [incr tsdb()] profile as a whole: xigt/scripts/xigt_export.py
   lines 7-19 and xigt/exporters/itsdb.py lines 22-73.  Definitions only.

   Parameters: what Python gives for a cell expression, what json.load gives for the text of
   a configuration, and delphin's make_skeleton, which gets the path of the profile, the
   path of the Relations file, and the rows with the exception that they end with, if any.
   Simplifications: those of Files.v, Stream.v and Itsdb.v; relations is a text or null;
   make_skeleton reads the rows to their end (if not, less of the input is read). *)
From Verif Require Import PyStr Ref Model XmlStd Xml XmlText Itsdb Files Stream.

(* the options that are used, lines 34-49; relations may be missing, null or a path *)
Record it_config := { r_config : config; r_relations : option (option str) }.
Definition no_options : it_config := {| r_config := no_config; r_relations := None |}.
(* os.path.join(a, b), for b without a slash in front *)
Definition path_join (a b : str) : str :=
  match a with [] => b | _ => if endswith (L "/") a then a ++ b else a ++ L "/" ++ b end.
(* lines 39-42 *)
Definition default_relations (root : str) : str := path_join root (L "lingo/lkb/src/tsdb/skeletons/english/Relations").

Section ItsdbRun.
Context {U : Unicode} {V : Type}.
Variable ev : str -> igt -> res V.
Variable json_load : str -> res it_config.
Variable make_skeleton : str -> str -> list (dict (cell V)) * option exn -> disk -> res unit * disk.
Variable before : str -> option stream.
Variable ahead : str -> nat.
(* LOGONROOT of the environment *)
Variable logonroot : option str.

(* export_corpus, lines 54-61, as a generator over a corpus in mode transient *)
Fixpoint rows_from (i : nat) (gs : list igt) (end_ : option exn) (c : config) : list (dict (cell V)) * option exn :=
  match gs with
  | [] => ([], end_)
  | g :: gs =>
    match export_igt ev g (or_else (cf_start c) 0 + Z.of_nat i * or_else (cf_skip c) 0)%Z c with
    | Err x => ([], Some x)
    | Ok row => let (rows, x) := rows_from (S i) gs end_ c in (row :: rows, x)
    end
  end.
(* config.get('relations') after lines 38-46 *)
Definition relations_of (w : disk) (f : it_config) : option str :=
  match r_relations f with
  | Some r => r
  | None =>
    match logonroot with
    | Some root => if is_file w (default_relations root) then Some (default_relations root) else None
    | None => None
    end
  end.
(* xigt_export, lines 22-31 *)
Definition it_export (f : it_config) (st : stream) (outpath : str) (w : disk) : res unit * disk :=
  let c := prepare_config (r_config f) in
  match relations_of w f with
  | None | Some [] => (Ok tt, w)
  | Some p => if is_file w p then make_skeleton outpath p (rows_from 0 (st_igts st) (st_end st) c) w else (Ok tt, w)
  end.
(* run, xigt_export.py lines 7-19; an empty path counts as no configuration *)
Definition it_open (f : it_config) (infile outpath : str) (w : disk) : res unit * disk :=
  match dget (d_files w) infile with
  | None => (Err OSError, w)
  | Some s => match load_stream before (ahead s) s with Err x => (Err x, w) | Ok st => it_export f st outpath w end
  end.
Definition it_run (infile outpath : str) (config : option str) (w : disk) : res unit * disk :=
  match config with
  | None | Some [] => it_open no_options infile outpath w
  | Some p =>
    match dget (d_files w) p with
    | None => (Err OSError, w)
    | Some s => match json_load s with Err x => (Err x, w) | Ok f => it_open f infile outpath w end
    end
  end.
End ItsdbRun.
