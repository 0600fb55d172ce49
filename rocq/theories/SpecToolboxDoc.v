(* Specification of the alignments handed to the package toolbox, and of records
   whose import can be read again.  No proofs here. *)
From Verif Require Import PyStr Model SpecXml SpecOdin Toolbox.

(* ---------- alignments of markers ---------- *)

(* the tier is given as interlinear; m is a marker for the tier *)
Definition is_interlinear (o : tb_options) (t : str) : Prop := exists ty, dget (o_types o) t = Some (ty, true).
Definition marks (o : tb_options) (m t : str) : Prop := In (m, t) (o_tier_map o).
(* the options align the interlinear tier t1 with the interlinear tier t2 *)
Definition aligns (o : tb_options) (t1 t2 : str) : Prop :=
  is_interlinear o t1 /\ is_interlinear o t2 /\ exists ra, In (t1, (ra, t2)) (o_alignments o).
(* the keys of each dict are distinct, as those of any dict are *)
Definition dicts (o : tb_options) : Prop :=
  NoDup (map fst (o_tier_map o)) /\ NoDup (map fst (o_types o)) /\ NoDup (map fst (o_alignments o)).

(* ---------- what can be read again ---------- *)

(* the corpus that is written *)
Definition corpus_of (gs : list igt) : corpus :=
  {| c_attrs := {| a_id := None; a_type := None; a_dict := []; a_ns := None; a_nsmap := None |}; c_md := []; c_igts := gs |}.
(* the options name attributes that can be written, and have legal characters *)
Definition options_clean (o : tb_options) : Prop :=
  (forall m t, In (m, t) (o_tier_map o) -> legal t)
  /\ (forall src pid, o_phrase o = Some (src, pid) -> legal pid)
  /\ (forall t ty b, In (t, (Some ty, b)) (o_types o) -> legal ty)
  /\ (forall t ra t', In (t, (ra, t')) (o_alignments o) -> plain_key ra)
  /\ (forall m a, In (m, a) (o_attribute_map o) -> plain_key a).
(* so has the record, and there is no carriage return in its tokens *)
Definition record_clean (r : record) : Prop :=
  (forall m v, In (m, Some v) (r_data r ++ r_context r) -> legal v)
  /\ forall m aln p toks tok, In (m, aln) (r_fields r) -> In (p, Some toks) aln -> In tok toks -> legal tok /\ no_return tok.
