(* Directories and text files, as the importers use them.  Definitions only.

   Simplifications: a path names one file (no links, no . and ..); slashes at the
   end of a directory do not matter; directories can be listed and written to, and
   files can be read, so that the only reasons for OSError are what is missing or
   of the other kind.  What is in a file is the text that it is decoded to. *)
From Verif Require Import PyStr Ref Model.
From Verif Require PartitionRun.

Record disk := { d_dirs : list str; d_files : dict str }.

(* os.path.isfile, os.path.isdir, os.path.exists *)
Definition is_file (w : disk) (p : str) : bool := match dget (d_files w) p with Some _ => true | None => false end.
Definition is_dir (w : disk) (p : str) : bool :=
  match p, PartitionRun.trimmed_dir p with
  | [], _ => false
  | _, [] => true
  | _, b => existsb (str_eqb b) (d_dirs w)
  end.
Definition path_exists (w : disk) (p : str) : bool := is_file w p || is_dir w p.
(* the directory that a path is in, if it is named *)
Definition has_dir (w : disk) (p : str) : bool :=
  match PartitionRun.dir_of p with
  | None => true
  | Some d => match PartitionRun.trimmed_dir d with [] => true | b => existsb (str_eqb b) (d_dirs w) end
  end.
(* os.mkdir: None for OSError *)
Definition make_dir (w : disk) (p : str) : option disk :=
  let b := PartitionRun.trimmed_dir p in
  match b with
  | [] => None
  | _ => if has_dir w b && negb (path_exists w b) then Some {| d_dirs := b :: d_dirs w; d_files := d_files w |} else None
  end.
(* open(p, 'w') and what is written until it is closed: None for OSError *)
Definition put_text (w : disk) (p s : str) : option disk :=
  match p with
  | [] => None
  | _ => if has_dir w p && negb (is_dir w p) then Some {| d_dirs := d_dirs w; d_files := dset (d_files w) p s |} else None
  end.
(* os.path.join(d, n), slashes at the end of d taken for one *)
Definition path_in (d n : str) : str := PartitionRun.trimmed_dir d ++ Ch "/" :: n.
(* os.listdir: the names in a directory *)
Definition name_in (d p : str) : list str :=
  let b := PartitionRun.trimmed_dir d ++ L "/" in
  if startswith b p then let n := skipn (length b) p in
    match n with [] => [] | _ => if existsb (N.eqb (Ch "/")) n then [] else [n] end
  else [].
Definition names_in (w : disk) (d : str) : list str := flat_map (name_in d) (map fst (d_files w) ++ d_dirs w).
