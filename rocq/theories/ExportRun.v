(* Model of xigt export to LaTeX as a whole: xigt/scripts/xigt_export.py lines 7-19 and
   xigt/exporters/latex.py lines 39-46 and 66-70.  Definitions only.

   Simplifications: those of Files.v, Stream.v and Latex.v; the configuration is given
   by [types], [item_sub] and [tier_sub] of Latex.v.  The input is not the output (else
   it would be emptied after its first block was read). *)
From Verif Require Import PyStr Ref Model XmlStd Xml XmlText Value Latex Files Stream.

Section ExportRun.
Context {U : Unicode}.
Context (lower : str -> str) (item_sub tier_sub : str -> str -> res str) (fuel : nat).
Variable before : str -> option stream.
Variable ahead : str -> nat.

(* export_corpus, latex.py:66-70, over a corpus in mode transient *)
Fixpoint export_igts (types : list str) (gs : list igt) (end_ : option exn) : str * option exn :=
  match gs with
  | [] => match end_ with None => (footer ++ newline, None) | Some x => ([], Some x) end
  | g :: gs =>
    match export_igt lower item_sub tier_sub fuel types g with
    | Err e => ([], Some e)
    | Ok s => let (rest, e) := export_igts types gs end_ in (s ++ newline ++ newline ++ rest, e)
    end
  end.
(* xigt_export, latex.py:39-46: what is in the file when it is closed, and the exception *)
Definition export_stream (types : list str) (st : stream) : str * option exn :=
  let (rest, e) := export_igts types (st_igts st) (st_end st) in (header ++ newline ++ rest, e).
(* run, xigt_export.py:7-19: the output is opened when the corpus was loaded *)
Definition run_export (types : list str) (infile outfile : str) (w : disk) : res unit * disk :=
  match dget (d_files w) infile with
  | None => (Err OSError, w)
  | Some s =>
    match load_stream before (ahead s) s with
    | Err x => (Err x, w)
    | Ok st =>
      let (t, e) := export_stream types st in
      match put_text w outfile t with
      | None => (Err OSError, w)
      | Some w' => (match e with None => Ok tt | Some x => Err x end, w')
      end
    end
  end.
End ExportRun.
