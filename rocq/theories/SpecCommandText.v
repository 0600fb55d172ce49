(* Specification of xigt sort and xigt partition over text files. *)
From Verif Require Import PyStr Ref SpecRef Model SpecModel XmlStd Xml SpecXml SpecReload XmlText SpecXmlText.
From Verif Require Files PartitionRun.

Section SpecCommandText.
Context {U : Unicode}.
(* a text that can be saved after it was read: well-formed, with the names of C69
   and without carriage returns *)
Definition tidy_text (s : str) : Prop := exists e, parse_text s = Ok e /\ no_cr e /\ tidy_document e.
Definition tidy_texts (w : Files.disk) (fns : list str) : Prop := forall fn s, In fn fns -> dget (Files.d_files w) fn = Some s -> tidy_text s.
(* a text that holds these igts and nothing else, however it is read *)
Definition text_holds (s : str) (gs : list igt) : Prop :=
  exists c, (forall n, loads n s = Ok c) /\ c_md c = [] /\ a_id (c_attrs c) = None /\ a_type (c_attrs c) = None
    /\ a_dict (c_attrs c) = [] /\ a_ns (c_attrs c) = None /\ Forall2 same_igt gs (c_igts c).
Definition text_holds_exactly (s : str) (gs : list igt) : Prop :=
  exists c, (forall n, loads n s = Ok c) /\ c_md c = [] /\ a_id (c_attrs c) = None /\ a_type (c_attrs c) = None
    /\ a_dict (c_attrs c) = [] /\ a_ns (c_attrs c) = None /\ c_igts c = gs.
End SpecCommandText.
(* the disk after the text of one file was replaced *)
Definition replaced (w w' : Files.disk) (fn s : str) : Prop :=
  Files.d_dirs w' = Files.d_dirs w /\ dget (Files.d_files w') fn = Some s
  /\ map fst (Files.d_files w') = map fst (Files.d_files w)
  /\ forall p, p <> fn -> dget (Files.d_files w') p = dget (Files.d_files w) p.
(* open(p, 'w') succeeds *)
Definition can_write (w : Files.disk) (p : str) : Prop := p <> [] /\ Files.has_dir w p = true /\ Files.is_dir w p = false.
