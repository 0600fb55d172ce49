(* Model of importing from ODIN as a whole, xigt/importers/odin.py lines 48-97.
   Definitions only.

   What odintxt.odin_blocks (another package) gives for a text is a parameter: the
   blocks, and the exception it ends with, if any.  Simplifications, besides those of
   Files.v and Odin.v: the suffix of input files consists of letters, digits, dots,
   hyphens and underscores (as a regular expression its dots match any character,
   but a name that ends with it is matched there and only there); the path of the
   input directory has no characters that are special to glob; of several errors
   that one import would run into the first in the order of reading, making igts,
   building elements is raised. *)
From Verif Require Import PyStr Ref Model XmlStd Xml XmlText Odin Files.

Section ImportRun.
Context {U : Unicode}.
Variable title : str -> str.
Variable odin_blocks : str -> list block * option exn.
Variable o : options.

(* lines 81-87: what is written for a text; xigtxml.dump with encoding utf-8
   writes no XML declaration *)
Definition import_text (s : str) : res str :=
  let (bs, e) := odin_blocks s in
  do c <- odin_corpus title bs o;
  match e with Some x => Err x | None => dumps c (Some 2) end.
(* _xigt_import, lines 79-87: the output is opened, and emptied, before the input is
   read *)
Definition import_file (infile outfile : str) (w : disk) : res unit * disk :=
  if is_file w infile then
    match put_text w outfile [] with
    | None => (Err OSError, w)
    | Some w1 =>
      match dget (d_files w1) infile with
      | None => (Err OSError, w1)
      | Some s =>
        match import_text s with
        | Err x => (Err x, w1)
        | Ok t => match put_text w1 outfile t with Some w2 => (Ok tt, w2) | None => (Err OSError, w1) end
        end
      end
    end
  else (Err OSError, w).
(* glob.glob, lines 69-70: names that begin with a dot are not matched by the star *)
Definition hidden (n : str) : bool := match n with c :: _ => N.eqb c (Ch ".") | [] => true end.
Definition matches (suffix n : str) : bool := negb (hidden n) && endswith suffix n.
(* line 71 *)
Definition out_name (suffix n : str) : str := firstn (length n - length suffix) n ++ L ".xml".
Fixpoint import_all (suffix inpath outpath : str) (names : list str) (w : disk) : res unit * disk :=
  match names with
  | [] => (Ok tt, w)
  | n :: names =>
    match import_file (path_in inpath n) (path_in outpath (out_name suffix n)) w with
    | (Ok _, w') => import_all suffix inpath outpath names w'
    | r => r
    end
  end.
(* xigt_import, lines 48-76, and prepare_outdir, lines 90-97; [order] is that in
   which the directory is listed *)
Definition xigt_import (order : list str -> list str) (suffix inpath outpath : str) (w : disk) : res unit * disk :=
  if is_file w inpath && negb (is_dir w outpath) then import_file inpath outpath w
  else if is_dir w inpath && negb (is_file w outpath) then
    match (if path_exists w outpath then Some w else make_dir w outpath) with
    | None => (Err XigtImportError, w)
    | Some w1 => import_all suffix inpath outpath (order (filter (matches suffix) (names_in w1 inpath))) w1
    end
  else (Err XigtImportError, w).
End ImportRun.
