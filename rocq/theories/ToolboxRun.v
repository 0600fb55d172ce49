(* Model of importing a Toolbox file as a whole, xigt/importers/toolbox.py lines 110-132,
   and of the command that runs it, xigt/scripts/xigt_import.py lines 7-19, for
   the format toolbox.  Definitions only.

   What the package toolbox gives for decoded lines is a parameter: the records with
   their aligned fields, and the exception it ends with, if any; so is what
   json.load gives for the text of a configuration.  Simplifications, besides those of
   Files.v and Toolbox.v: of the input file the disk has the bytes, of the others
   the text; the options have the types shown in the comment at the top of
   toolbox.py; of several errors that one import would run into the first in the order
   of decoding, making igts, reading records, building elements is raised. *)
From Verif Require Import PyStr Ref Model XmlStd Xml XmlText Toolbox SpecToolboxDoc Files.

(* the options that are given, lines 112-120 *)
Record tb_config := {
  f_tier_map : option (dict str); f_phrase : option (option (str * str)); f_types : option (dict (option str * bool));
  f_alignments : option (dict (str * str)); f_attribute_map : option (dict str); f_markers : option (list str) }.
Definition no_config : tb_config :=
  {| f_tier_map := None; f_phrase := None; f_types := None; f_alignments := None; f_attribute_map := None; f_markers := None |}.
(* options.setdefault, lines 114-119 *)
Definition setdefault {A} (given : option A) (default : A) : A := match given with Some x => x | None => default end.
Definition with_defaults (f : tb_config) : tb_options :=
  {| o_tier_map := setdefault (f_tier_map f) (o_tier_map default_options);
     o_phrase := setdefault (f_phrase f) (o_phrase default_options);
     o_types := setdefault (f_types f) (o_types default_options);
     o_alignments := setdefault (f_alignments f) (o_alignments default_options);
     o_attribute_map := setdefault (f_attribute_map f) (o_attribute_map default_options);
     o_markers := setdefault (f_markers f) (o_markers default_options) |}.

(* the lines of a file opened in binary mode, line 126 *)
Fixpoint byte_lines (s : list N) : list (list N) :=
  match s with
  | [] => []
  | c :: s =>
    if N.eqb c 10 then [c] :: byte_lines s
    else match byte_lines s with [] => [[c]] | l :: ls => (c :: l) :: ls end
  end.

Section ToolboxRun.
Context {U : Unicode}.
Variable lower : str -> str.
Variable isalpha : char -> bool.
Variable decode : list N -> res str.
(* toolbox.read_toolbox_file, toolbox.records and toolbox.align_fields, with the
   alignments of markers *)
Variable records : dict str -> list str -> list record * option exn.
Variable json_load : str -> res tb_config.

(* lines 126-130: what is written for the bytes of the input; xigtxml.dump with encoding
   utf-8 writes no XML declaration *)
Definition import_bytes (o : tb_options) (al : dict str) (s : list N) : res str :=
  do ls <- mapM (respace_decode decode) (byte_lines s);
  let (rs, e) := records al ls in
  do gs <- toolbox_igts lower isalpha o rs;
  match e with Some x => Err x | None => dumps (corpus_of gs) (Some 2) end.
(* xigt_import, lines 110-130: the alignments are made before any file is opened; the
   output is opened, and emptied, before the input is read *)
Definition tb_import (f : tb_config) (infile outfile : str) (w : disk) : res unit * disk :=
  let o := with_defaults f in
  match tb_alignments o with
  | Err x => (Err x, w)
  | Ok al =>
    if is_file w infile then
      match put_text w outfile [] with
      | None => (Err OSError, w)
      | Some w1 =>
        match dget (d_files w1) infile with
        | None => (Err OSError, w1)
        | Some s =>
          match import_bytes o al s with
          | Err x => (Err x, w1)
          | Ok t => match put_text w1 outfile t with Some w2 => (Ok tt, w2) | None => (Err OSError, w1) end
          end
        end
      end
    else (Err OSError, w)
  end.
(* run, xigt_import.py lines 7-19 *)
Definition tb_run (infile outfile : str) (config : option str) (w : disk) : res unit * disk :=
  match config with
  | None => tb_import no_config infile outfile w
  | Some p =>
    match dget (d_files w) p with
    | None => (Err OSError, w)
    | Some s => match json_load s with Ok f => tb_import f infile outfile w | Err x => (Err x, w) end
    end
  end.
End ToolboxRun.
