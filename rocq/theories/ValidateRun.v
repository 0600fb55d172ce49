(* Model of xigt validate over files: xigt/scripts/xigt_validate.py lines 389-416 with
   what is opened and loaded.  Definitions only.

   Simplifications: those of Files.v, Stream.v, Validate.v and Report.v. *)
From Verif Require Import PyStr Ref Model XmlStd Xml XmlText Value Validate Report Files Stream.

Section ValidateRun.
Context {U : Unicode}.
Variables (color : bool) (minlevel : Z) (fuel : nat).
Variable before : str -> option stream.
Variable ahead : str -> nat.

(* lines 394-397: ParseError is caught, other errors are not *)
Definition load_file (w : disk) (p : str) : file :=
  match dget (d_files w) p with
  | None => Unreadable OSError
  | Some s =>
    match load_stream before (ahead s) s with
    | Err ParseError => Unparsable
    | Err x => Unreadable x
    | Ok st => Loaded (a_id (c_attrs (st_corpus st))) (st_igts st) (st_end st)
    end
  end.
Definition run_validate (paths : list str) (w : disk) : list line * res bool :=
  run_all color minlevel fuel (map (fun p => (p, load_file w p)) paths).
End ValidateRun.
