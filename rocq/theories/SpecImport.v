(* Specification of importing files and directories. *)
From Verif Require Import PyStr SpecPartition Files.

(* what is in a directory, by name: [p] is [n] in directory [d] *)
Definition entry (d n p : str) : Prop := exists b, names d b /\ p = b ++ L "/" ++ n /\ n <> [] /\ no_slash n.
(* the entries that are imported: those with the suffix, but for hidden ones *)
Definition wanted (w : disk) (d suffix n p : str) : Prop :=
  entry d n p /\ (In p (map fst (d_files w)) \/ In p (d_dirs w))
  /\ (exists stem, n = stem ++ suffix) /\ forall r, n <> Ch "." :: r.
(* where it goes: the suffix is replaced *)
Definition goes_to (outdir suffix n q : str) : Prop := exists stem, n = stem ++ suffix /\ entry outdir (stem ++ L ".xml") q.
(* no name with the suffix is one of an output *)
Definition not_output (suffix : str) : Prop := forall a b, a ++ suffix <> b ++ L ".xml".
(* nothing else has changed *)
Definition only_changed (P : str -> Prop) (w w' : disk) : Prop :=
  d_dirs w' = d_dirs w /\ forall p, ~ P p -> dget (d_files w') p = dget (d_files w) p.
(* a file is read, converted and written *)
Definition brought (conv : str -> res str) (w w' : disk) (p q : str) : Prop :=
  exists s t, dget (d_files w) p = Some s /\ conv s = Ok t /\ dget (d_files w') q = Some t.
(* it can be *)
Definition can_be (conv : str -> res str) (w : disk) (p q : str) : Prop :=
  exists s t, dget (d_files w) p = Some s /\ conv s = Ok t /\ is_dir w q = false.
(* it cannot, and what is left then *)
Definition stopped (conv : str -> res str) (w w' : disk) (p q : str) (x : exn) : Prop :=
  (x = OSError /\ (dget (d_files w) p = None \/ is_dir w q = true))
  \/ exists s, dget (d_files w) p = Some s /\ conv s = Err x /\ is_dir w q = false /\ dget (d_files w') q = Some [].
(* the output directory exists, or is made *)
Definition prepared (w : disk) (outdir : str) (w1 : disk) : Prop :=
  (path_exists w outdir = true /\ w1 = w)
  \/ (path_exists w outdir = false /\ exists b, names outdir b /\ w1 = {| d_dirs := b :: d_dirs w; d_files := d_files w |}).
(* a file can be written there *)
Definition writable (w : disk) (p : str) : Prop := p <> [] /\ has_dir w p = true /\ is_dir w p = false.

(* the directory that a path is in is the working directory, the root or a known one *)
Definition placed (w : disk) (p : str) : Prop :=
  no_slash p \/ exists d n b, p = d ++ L "/" ++ n /\ no_slash n /\ names d b /\ (b = [] \/ In b (d_dirs w)).
(* a path is one of a directory *)
Definition directory (w : disk) (p : str) : Prop := p <> [] /\ exists b, names p b /\ (b = [] \/ In b (d_dirs w)).
