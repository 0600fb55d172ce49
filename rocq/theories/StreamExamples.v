(* Examples for reading and exporting igt by igt. *)
From Verif Require Import PyStr SpecRef Ref Model SpecModel XmlStd Xml SpecXml XmlText Value Latex Files SpecImport Stream SpecStream ExportRun.
From Verif Require LatexExamples XmlExamples.
Import LatexExamples.

Definition keep (ty s : str) : res str := Ok s.
Definition none (s : str) : option stream := None.
Definition types := default_tier_types.
Definition whole := @export_file ascii_unicode lower_ascii keep keep 10 types.
Definition export := @run_export ascii_unicode lower_ascii keep keep 10 none (fun _ => 8) types.
Definition bare : attrs := {| a_id := None; a_type := None; a_dict := []; a_ns := None; a_nsmap := None |}.
Definition other : igt := {| g_attrs := at0 (L "i2") None []; g_md := []; g_tiers := [tw; tt_] |}.
Definition ec (gs : list igt) : corpus := {| c_attrs := bare; c_md := []; c_igts := gs |}.
Definition saved (gs : list igt) : str := match @dumps ascii_unicode (ec gs) (Some 2) with Ok s => s | Err _ => [] end.
(* the second tier of this igt has the id of the first *)
Definition twice_tier : str := L "<xigt-corpus><igt id=""i2""><tier id=""w"" type=""words""><item id=""w1"">a</item></tier></igt><igt id=""i3""><tier id=""a""/><tier id=""a""/></igt></xigt-corpus>".
(* two igts have the same id *)
Definition twice_igt : str := saved [ex; ex].
Definition disk0 : disk := {| d_dirs := [L "d"]; d_files :=
  [(L "a.xml", saved [ex; other]); (L "b.xml", twice_tier); (L "c.xml", twice_igt); (L "bad.xml", L "<xigt-corpus><igt>"); (L "d/out.tex", L "old")] |}.

Lemma export_example : export (L "a.xml") (L "d/out.tex") disk0 = (Ok tt, {| d_dirs := d_dirs disk0; d_files := dset (d_files disk0) (L "d/out.tex") (fst (whole [ex; other])) |})
  /\ snd (whole [ex; other]) = None.
Proof. split; vm_compute; reflexivity. Qed.
(* reading fails at the second igt: the first is exported, and there is no end *)
Lemma cut_example : exists st a, @load_stream ascii_unicode none 8 twice_tier = Ok st /\ st_end st = Some XigtError /\ length (st_igts st) = 1
  /\ fst (whole (st_igts st)) = a ++ footer ++ newline
  /\ export (L "b.xml") (L "d/out.tex") disk0 = (Err XigtError, {| d_dirs := d_dirs disk0; d_files := dset (d_files disk0) (L "d/out.tex") a |}).
Proof.
  destruct (@load_stream ascii_unicode none 8 twice_tier) as [st|] eqn:E; [|vm_compute in E; discriminate]. exists st.
  exists (header ++ newline ++ L "%" ++ newline ++ L "% cannot export IGT i2" ++ newline ++ L "%" ++ newline ++ newline).
  split; [reflexivity|]. vm_compute in E. injection E as <-. repeat match goal with |- _ /\ _ => split end; vm_compute; reflexivity.
Qed.
(* two igts with one id are exported, but not loaded *)
Lemma twice_example : export (L "c.xml") (L "d/out.tex") disk0 = (Ok tt, {| d_dirs := d_dirs disk0; d_files := dset (d_files disk0) (L "d/out.tex") (fst (whole [ex; ex])) |})
  /\ @loads ascii_unicode 8 twice_igt = Err XigtError.
Proof. split; vm_compute; reflexivity. Qed.
(* nothing is written *)
Lemma unread_example : export (L "bad.xml") (L "d/out.tex") disk0 = (Err ParseError, disk0) /\ export (L "none.xml") (L "d/out.tex") disk0 = (Err OSError, disk0)
  /\ export (L "a.xml") (L "d") disk0 = (Err OSError, disk0) /\ export (L "a.xml") (L "e/out.tex") disk0 = (Err OSError, disk0).
Proof. repeat match goal with |- _ /\ _ => split end; vm_compute; reflexivity. Qed.
Lemma writable_example : writable disk0 (L "d/out.tex").
Proof. split; [discriminate|]. split; vm_compute; reflexivity. Qed.
Lemma xc_saved : exists s, @dumps ascii_unicode XmlExamples.xc (Some 2) = Ok s
  /\ (exists c, @loads ascii_unicode 8 s = Ok c) /\ fst (@export_file ascii_unicode lower_ascii keep keep 10 types (c_igts XmlExamples.xc)) <> [].
Proof. eexists. split; [vm_compute; reflexivity|]. split; [eexists; vm_compute; reflexivity|discriminate]. Qed.
