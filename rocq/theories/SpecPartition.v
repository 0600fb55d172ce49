(* What xigt partition is for: files by key, each with the igts of that key. *)
From Verif Require Import PyStr Model SpecModel XmlStd Xml SpecReload Scripts SpecScripts Path PartitionRun.

(* a document that holds these igts and nothing else *)
Definition holds {U : Unicode} (e : xelem) (gs : list igt) : Prop :=
  exists c, (forall n, xml_load n e = Ok c) /\ c_md c = [] /\ a_id (c_attrs c) = None /\ a_type (c_attrs c) = None
    /\ a_dict (c_attrs c) = [] /\ a_ns (c_attrs c) = None /\ Forall2 same_igt gs (c_igts c).
(* the same, and the prefixes of namespaces are also the same *)
Definition holds_exactly {U : Unicode} (e : xelem) (gs : list igt) : Prop :=
  exists c, (forall n, xml_load n e = Ok c) /\ c_md c = [] /\ a_id (c_attrs c) = None /\ a_type (c_attrs c) = None
    /\ a_dict (c_attrs c) = [] /\ a_ns (c_attrs c) = None /\ c_igts c = gs.
Definition same_prefixes (gs : list igt) : Prop := forall g g', In g gs -> In g' gs -> a_nsmap (g_attrs g) = a_nsmap (g_attrs g').

(* the key of an igt: the text that is found first; none if nothing is found, or a
   missing attribute *)
Definition key_is {U : Unicode} ix vfuel (path : str) (m : member) (k : option str) : Prop :=
  let found := find ix vfuel (VNode {| n_obj := PIgt (snd m); n_up := [PCorpus (fst m)] |}) path in
  match k with
  | Some s => found = Ok (Some (VStr s))
  | None => found = Ok None \/ found = Ok (Some VNone)
  end.

(* the corpus without its igts *)
Definition emptied (c : corpus) : corpus := {| c_attrs := c_attrs c; c_md := c_md c; c_igts := [] |}.

(* a plain file name *)
Definition no_slash (s : str) : Prop := ~ In (Ch "/") s.

(* a file can be created or replaced there *)
Definition openable (w : world) (p : str) : Prop := has_dir w p = true /\ is_dir w p = false.
(* files and directories are in directories *)
Definition closed (w : world) : Prop := forall p, In p (dirs w) \/ In p (map fst (files w)) -> has_dir w p = true.
Definition tidy_inputs (w : world) (fns : list str) : Prop := forall fn e, In fn fns -> dget (files w) fn = Some e -> tidy_document e.

(* the name of a directory without slashes at its end *)
Definition names (d b : str) : Prop := exists s, d = b ++ s /\ Forall (eq (Ch "/")) s /\ ~ exists t, b = t ++ L "/".
(* the directory above is the working directory, the root, or a known one *)
Definition above (w : world) (p : str) : Prop :=
  no_slash p \/ exists d n b, p = d ++ L "/" ++ n /\ no_slash n /\ names d b /\ (b = [] \/ In b (dirs w)).
