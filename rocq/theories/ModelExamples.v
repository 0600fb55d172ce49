(* Concrete model objects for the examples, and counterexamples. *)
From Verif Require Import PyStr Model SpecModel.

Definition no_attrs : attrs := {| a_id := None; a_type := None; a_dict := []; a_ns := None; a_nsmap := None |}.
Definition with_id (i : str) : attrs :=
  {| a_id := Some i; a_type := None; a_dict := []; a_ns := None; a_nsmap := None |}.
Definition mk_item (i t : str) : item := {| it_attrs := with_id i; it_text := Some t |}.
(* two corpora that differ in attribute order and prefixes only *)
Definition attrs1 : attrs :=
  {| a_id := Some (L "t"); a_type := Some (L "words"); a_dict := [(L "x", L "1"); (L "y", L "2")];
     a_ns := None; a_nsmap := Some [(L "p", L "http://p")] |}.
Definition attrs2 : attrs :=
  {| a_id := Some (L "t"); a_type := Some (L "words"); a_dict := [(L "y", L "2"); (L "x", L "1")];
     a_ns := None; a_nsmap := None |}.
Definition md1 : metadata :=
  {| md_attrs := no_attrs;
     md_metas := [{| me_attrs := attrs1; me_text := None;
                     me_kids := [MChild (L "k") no_attrs (Some (L "v")) [MChild (L "z") no_attrs None []]] |}] |}.
Definition corpus_with (a : attrs) : corpus :=
  {| c_attrs := no_attrs; c_md := [md1];
     c_igts := [{| g_attrs := with_id (L "i1"); g_md := [];
                   g_tiers := [{| t_attrs := a; t_md := [md1]; t_items := [mk_item (L "w1") (L "ein")] |}] |}] |}.
Definition text_item (t : str) : item := {| it_attrs := no_attrs; it_text := Some t |}.
Definition text_meta (t : str) : meta := {| me_attrs := no_attrs; me_text := Some t; me_kids := [] |}.
Definition empty_tier (a : attrs) : tier := {| t_attrs := a; t_md := []; t_items := [] |}.

(* proves wf_obj of a concrete object *)
Ltac wf_concrete :=
  vm_compute;
  repeat match goal with
  | |- _ /\ _ => split
  | |- Forall _ _ => constructor
  | |- wf_child _ => constructor
  | |- NoDup _ => constructor
  | |- ~ _ => intuition discriminate
  | |- _ -> False => intuition discriminate
  | |- forall m, None = Some m -> _ => discriminate
  | |- forall m, Some _ = Some m -> _ => intros ? [= <-]
  | |- _ => progress vm_compute
  end.

Lemma c07_symmetry_refuted : exists a b : obj,
  wf_obj a /\ wf_obj b /\ obj_eqb a b = true /\ obj_eqb b a = false.
Proof.
  exists (PItem (text_item (L "x"))), (PMeta (text_meta (L "x"))).
  split; [wf_concrete|]. split; [wf_concrete|]. repeat split; vm_compute; reflexivity.
Qed.

Lemma c07_meta_child_refuted : exists a b : obj,
  wf_obj a /\ wf_obj b /\ members_of a = members_of b /\ obj_eqb a b = true /\ obj_eqb b a = false.
Proof.
  exists (PMeta (text_meta (L "x"))), (PChild (MChild (L "n") no_attrs (Some (L "x")) [])).
  split; [wf_concrete|]. split; [wf_concrete|]. repeat split; vm_compute; reflexivity.
Qed.

Lemma c07_not_equal_refuted : exists a b : obj,
  wf_obj a /\ wf_obj b /\ same_class a b /\ obj_eqb a b = false /\ obj_neb a b = false.
Proof.
  exists (PTier (empty_tier (with_id (L "a")))), (PTier (empty_tier attrs2)).
  split; [wf_concrete|]. split; [wf_concrete|]. repeat split; vm_compute; reflexivity.
Qed.
