(* Model of xigt sort and xigt partition over text files: run of
   xigt/scripts/xigt_sort.py, lines 11-33, and of xigt/scripts/xigt_partition.py,
   lines 12-58.  Definitions only.

   Simplifications: those of Command.v, PartitionRun.v, XmlText.v and Files.v.  dump
   writes UTF-8 (xigtxml.py:63-73), which has no declaration in front, so that the
   text is that of dumps; what is printed is the text and a newline.  A file that
   was opened for reading can be written to. *)
From Verif Require Import PyStr Ref Model Index XmlStd Xml XmlText SortTiers Scripts Path Command PartitionRun.
From Verif Require Files.

Section CommandText.
Context {U : Unicode}.
Variable ix : igt -> index.
Variable vfuel : nat.
(* how far the parser is ahead, by text (Xml.v, decode_with) *)
Variable ahead : str -> nat.

(* ---------- sort ---------- *)

(* lines 12-33: the text that is written *)
Definition sort_text (fuel n : nat) (o : sort_opts) (s : str) : res str :=
  do c <- loads n s;
  do c' <- sort_corpus fuel (args_of ix vfuel o c) c;
  dumps c' (Some 2).
(* run: what is printed, or the exception, and the files afterwards.  As in
   Command.v, if writing fails the file is cut off. *)
Definition run_sort_text (fuel : nat) (o : sort_opts) (in_place : bool) (fn : str) (w : Files.disk) : res str * Files.disk :=
  let save s := {| Files.d_dirs := Files.d_dirs w; Files.d_files := dset (Files.d_files w) fn s |} in
  match dget (Files.d_files w) fn with
  | None => (Err OSError, w)
  | Some s =>
    match (do c <- loads (ahead s) s; sort_corpus fuel (args_of ix vfuel o c) c) with
    | Err x => (Err x, w)
    | Ok c' =>
      match dumps c' (Some 2) with
      | Ok t => if in_place then (Ok [], save t) else (Ok (t ++ [10%N]), w)
      | Err x => (Err x, if in_place then save [] else w)
      end
    end
  end.

(* ---------- partition ---------- *)

(* xigtxml.load(fn, mode='transient'), xigtxml.py:51-54 *)
Definition text_open (n : nat) (s : str) : res (list member) :=
  do e <- parse_text s; do p <- resolve [] e; decode_with open_corpus n p.
Definition read_text_file (fs : dict str) (fn : str) : res (list member) :=
  match dget fs fn with Some s => text_open (ahead s) s | None => Err OSError end.

Variables (outdir default_key : str) (path : option str).
(* create_outdir, lines 28-37; None for sys.exit *)
Definition create_outdir (w : Files.disk) : option Files.disk :=
  if Files.is_dir w outdir then None else Files.make_dir w outdir.
(* the loop of run, lines 20-26, with write, lines 48-58 *)
Fixpoint write_texts (idx : pindex) (w : Files.disk) : res unit * Files.disk :=
  match idx with
  | [] => (Ok tt, w)
  | (k, d) :: idx =>
    match (do l <- write (read_text_file (Files.d_files w)) member_id d; dumps (new_corpus (map snd l)) (Some 2)) with
    | Err x => (Err x, w)
    | Ok t => match Files.put_text w (out_path outdir default_key k) t with
              | Some w' => write_texts idx w'
              | None => (Err OSError, w)
              end
    end
  end.
(* run, lines 12-26 *)
Definition run_partition_text (infiles : list str) (w : Files.disk) : res unit * Files.disk :=
  match create_outdir w with
  | None => (Err SystemExit, w)
  | Some w1 =>
    match index_files (key_by ix vfuel path) (read_text_file (Files.d_files w1)) infiles [] with
    | Err x => (Err x, w1)
    | Ok idx => write_texts idx w1
    end
  end.

End CommandText.
