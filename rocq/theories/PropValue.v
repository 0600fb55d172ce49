(* Property theorems about item values: C13, C14. *)
From Verif Require Import PyStr SpecRef Model ModelExamples Value SpecValue ValueProofs ValueExamples.

(* ---------- C13 ---------- *)

Theorem C13_text : forall (U : Unicode) (g : option igt) (t : option tier) (it : item) (s : str) (refattrs : list str),
  it_text it = Some s -> forall n, value (S n) g t it refattrs = Ok (Some s).
Proof. exact @value_text. Qed.
Print Assumptions C13_text.

Theorem C13_no_reference : forall (U : Unicode) (g : option igt) (t : option tier) (it : item),
  it_text it = None ->
  attr (it_attrs it) (L "content") = None -> attr (it_attrs it) (L "segmentation") = None ->
  forall n, value (S n) g t it [L "content"; L "segmentation"] = Ok None.
Proof. exact @value_none. Qed.
Print Assumptions C13_no_reference.

(* content, or else segmentation, is resolved against the tier that the item's
   tier names for it, with the values of that tier's items *)
Theorem C13_reference : forall (U : Unicode) (g : igt) (t : tier) (it : item) (ra rid : str) (rt : tier)
    (x : expr) (rho : str -> option (res (option str))),
  first_ref it ra -> attr (it_attrs it) ra = Some (show x) -> wf_loose x ->
  attr (t_attrs t) ra = Some rid -> the_member tier_id (g_tiers g) rid rt ->
  env_of g rt (expr_ids x) rho ->
  evaluates g t it (do s <- expr_text rho x; Ok (Some s)).
Proof. exact @value_resolves. Qed.
Print Assumptions C13_reference.

Theorem C13_missing_tier : forall (U : Unicode) (g : igt) (t : tier) (it : item) (ra e : str),
  first_ref it ra -> attr (it_attrs it) ra = Some e ->
  (attr (t_attrs t) ra = None -> evaluates g t it (Err KeyError))
  /\ (forall rid, attr (t_attrs t) ra = Some rid -> no_member tier_id (g_tiers g) rid -> py_int rid = None ->
        evaluates g t it (Err XigtStructureError)).
Proof. exact @value_missing_tier. Qed.
Print Assumptions C13_missing_tier.

(* resolve_ref called for an item: each thing it needs, in this order *)
Theorem C13_resolve_raises : forall (U : Unicode) (rec : tier -> item -> res (option str)) (g : igt) (og : option igt)
    (t : tier) (ot : option tier) (it : item) (ra e rid : str),
  (attr (it_attrs it) ra = None -> resolve_ref rec og ot it ra = Err KeyError)
  /\ (attr (it_attrs it) ra = Some e -> resolve_ref rec og None it ra = Err XigtStructureError
      /\ (attr (t_attrs t) ra = None -> resolve_ref rec og (Some t) it ra = Err KeyError)
      /\ (attr (t_attrs t) ra = Some rid -> resolve_ref rec None (Some t) it ra = Err XigtStructureError
          /\ (no_member tier_id (g_tiers g) rid -> py_int rid = None ->
              resolve_ref rec (Some g) (Some t) it ra = Err XigtStructureError))).
Proof. exact @resolve_ref_raises. Qed.
Print Assumptions C13_resolve_raises.

Theorem C13_unique : forall (U : Unicode) (g : igt) (t : tier) (it : item) (r r' : res (option str)),
  evaluates g t it r -> evaluates g t it r' -> r = r'.
Proof. exact @evaluates_det. Qed.
Print Assumptions C13_unique.

Theorem C13_terminates : forall (U : Unicode) (g : igt) (t : tier) (it : item),
  Acc (fun q p => follows g p q) (t, it) -> exists r, evaluates g t it r.
Proof. exact @value_terminates. Qed.
Print Assumptions C13_terminates.

Theorem C13_acyclic_tiers : forall (U : Unicode) (g : igt) (rank : tier -> nat),
  (forall t ra rid rt, In t (g_tiers g) -> (ra = L "content" \/ ra = L "segmentation") ->
     attr (t_attrs t) ra = Some rid -> names_tier g rid rt -> rank rt < rank t) ->
  forall t it, In t (g_tiers g) -> exists r, evaluates g t it r.
Proof. exact @acyclic_tiers. Qed.
Print Assumptions C13_acyclic_tiers.

(* and only then: items whose references stay in a set of references never end *)
Theorem C13_cycles_overflow : forall (U : Unicode) (g : igt) (P : tier -> item -> Prop),
  (forall t it, P t it -> exists ra x sl rid rt it',
     first_ref it ra /\ attr (it_attrs it) ra = Some (show (sl :: x)) /\ wf_loose (sl :: x)
     /\ attr (t_attrs t) ra = Some rid /\ the_member tier_id (g_tiers g) rid rt
     /\ the_member item_id (t_items rt) (sl_id sl) it' /\ P rt it') ->
  forall t it, P t it -> overflows g t it.
Proof. exact @value_cycle. Qed.
Print Assumptions C13_cycles_overflow.

Theorem C13_orphan : forall (U : Unicode) (g : option igt) (t : tier) (it : item) (ra e : str) (n : nat),
  first_ref it ra -> attr (it_attrs it) ra = Some e ->
  value (S n) g None it [L "content"; L "segmentation"] = Err XigtStructureError
  /\ (attr (t_attrs t) ra <> None ->
      value (S n) None (Some t) it [L "content"; L "segmentation"] = Err XigtStructureError).
Proof. exact @value_orphan. Qed.
Print Assumptions C13_orphan.

Example C13_example : forall U : Unicode,
  (* m2 has no text, and its content comes first *)
  first_ref m2 (L "content") /\ attr (it_attrs m2) (L "content") = Some (show m2_expr) /\ wf_loose m2_expr
  /\ attr (t_attrs tm) (L "content") = Some (L "p") /\ the_member tier_id (g_tiers sample_igt) (L "p") tp
  /\ env_of sample_igt tp (expr_ids m2_expr) (fun _ => Some (Ok (Some (L "abcdefgh"))))
  /\ evaluates sample_igt tm m2 (Ok (Some (L "a h")))
  (* the tiers are acyclic *)
  /\ (forall t ra rid rt, In t (g_tiers sample_igt) -> (ra = L "content" \/ ra = L "segmentation") ->
     attr (t_attrs t) ra = Some rid -> names_tier sample_igt rid rt -> sample_rank rt < sample_rank t)
  (* an item that is its own content *)
  /\ overflows loop_igt loop_tier loop_item.
Proof. exact @c13_example. Qed.

(* ---------- C14 ---------- *)

Theorem C14_nested_segmentation : forall (U : Unicode) (g : igt) (base : str) (t : tier) (it : item) (lo hi : nat),
  segment g base t it lo hi -> evaluates g t it (Ok (Some (substring lo hi base))).
Proof. exact @segments. Qed.
Print Assumptions C14_nested_segmentation.

Example C14_example : forall U : Unicode,
  segment sample_igt (L "abcdefgh") tm m1 (0 + 1 + 1) (Nat.min (0 + 1 + 9) (Nat.min (0 + 6) 8))
  /\ substring 2 6 (L "abcdefgh") = L "cdef".
Proof. exact @c14_example. Qed.
