(* Model of xigt partition as a whole, xigt/scripts/xigt_partition.py: the
   directory, the files read and written, the keys found by a path.  Definitions
   only.

   Simplifications: [ix] and [vfuel] are those of Path.v.  Paths name the same file
   exactly if they are the same string (no links, no . and ..; but for slashes at
   the end of a directory).  Directories can be written to.  All igts of a file are
   read before the first key is looked up; Python looks up a key after each igt, so
   if a key and a later igt fail, the exception is another.  A path that climbs to
   the corpus sees it without igts; in Python it would take the igts that follow
   from the generator. *)
From Verif Require Import PyStr Ref Model Index XmlStd Xml Scripts Path Command.

(* ---------- reading in mode transient ---------- *)

(* an igt and its corpus, which has no members (xigt/model.py:101-107) *)
Definition member : Type := corpus * igt.
Definition member_id (m : member) : option str := a_id (g_attrs (snd m)).

(* ---------- files ---------- *)

Record world := { dirs : list str; files : dict xelem }.
(* without slashes at the end *)
Definition trimmed_dir (d : str) : str := rev ((fix go (s : str) := match s with c :: s' => if N.eqb c (Ch "/") then go s' else s | [] => [] end) (rev d)).
(* what is before the last slash *)
Fixpoint dir_of (p : str) : option str :=
  match p with
  | [] => None
  | c :: p => match dir_of p with
              | Some d => Some (c :: d)
              | None => if N.eqb c (Ch "/") then Some [] else None
              end
  end.
(* os.path.isdir; the root is one *)
Definition is_dir (w : world) (d : str) : bool :=
  match d, trimmed_dir d with
  | [], _ => false
  | _, [] => true
  | _, b => existsb (str_eqb b) (dirs w)
  end.
(* the directory of a path exists; without slash it is the working directory *)
Definition has_dir (w : world) (p : str) : bool :=
  match dir_of p with
  | None => true
  | Some d => match trimmed_dir d with [] => true | b => existsb (str_eqb b) (dirs w) end
  end.
(* os.mkdir: None for OSError *)
Definition mkdir (w : world) (d : str) : option world :=
  if is_dir w d then None
  else match trimmed_dir d with
       | [] => None
       | b => if has_dir w b && negb (existsb (str_eqb b) (map fst (files w)))
              then Some {| dirs := b :: dirs w; files := files w |} else None
       end.
(* open(p, 'w') and what is written *)
Definition put (w : world) (p : str) (e : xelem) : option world :=
  if has_dir w p && negb (is_dir w p) then Some {| dirs := dirs w; files := dset (files w) p e |} else None.

Section PartitionRun.
Context {U : Unicode}.
Variable ix : igt -> index.
Variable vfuel : nat.
(* how far the parser is ahead, by document (Xml.v, decode_with) *)
Variable ahead : xelem -> nat.

(* decode_xigtcorpus, xigtxml.py:237-251, and the constructor, xigt/model.py:77-81:
   the igts are not added to the corpus, so their ids are not compared *)
Definition open_corpus (p : pelem) (igts : list pelem) : res (list member) :=
  do ns <- expect_tag (L "xigt-corpus") p;
  do ms <- decode_metadatas p;
  do a <- decode_attrs (pget ID p) None [ID] ns p;
  do gs <- traverse decode_igt igts;
  Ok (map (pair {| c_attrs := a; c_md := ms; c_igts := [] |}) gs).
(* xigtxml.load(fn, mode='transient') *)
Definition xml_open (n : nat) (e : xelem) : res (list member) :=
  do p <- reread [] e; decode_with open_corpus n p.
Definition read_file (fs : dict xelem) (fn : str) : res (list member) :=
  match dget fs fn with Some e => xml_open (ahead e) e | None => Err OSError end.

(* idx_key = xp.find(igt, by), lines 42-43, as a key of a dictionary: None and
   strings; other objects have no hash.  Without --key-path the path is None, which
   has no endswith (xigtpath.py:55). *)
Definition key_found (v : option pval) : res (option str) :=
  match v with
  | None | Some VNone => Ok None
  | Some (VStr s) => Ok (Some s)
  | Some _ => Err TypeError
  end.
Definition key_by (path : option str) (m : member) : res (option str) :=
  match path with
  | Some p => do v <- find ix vfuel (VNode (igt_in (fst m) (snd m))) p; key_found v
  | None => Err AttributeError
  end.

(* write, lines 48-58: the new corpus *)
Definition new_corpus (l : list igt) : corpus :=
  {| c_attrs := {| a_id := None; a_type := None; a_dict := []; a_ns := None;
                   a_nsmap := match l with [] => None | g :: _ => Some (eff (g_attrs g) []) end |};
     c_md := []; c_igts := l |}.

Variables (outdir default_key : str) (path : option str).
(* the loop of run, lines 20-26, with the outcome and the files afterwards *)
Fixpoint write_files (idx : pindex) (w : world) : res unit * world :=
  match idx with
  | [] => (Ok tt, w)
  | (k, d) :: idx =>
    match (do l <- write (read_file (files w)) member_id d; xml_dump (new_corpus (map snd l)) (Some 2)) with
    | Err x => (Err x, w)
    | Ok e => match put w (out_path outdir default_key k) e with
              | Some w' => write_files idx w'
              | None => (Err OSError, w)
              end
    end
  end.
(* run, lines 12-37 *)
Definition run_partition (infiles : list str) (w : world) : res unit * world :=
  match mkdir w outdir with
  | None => (Err SystemExit, w)
  | Some w1 =>
    match index_files (key_by path) (read_file (files w1)) infiles [] with
    | Err x => (Err x, w1)
    | Ok idx => write_files idx w1
    end
  end.

End PartitionRun.
