(* Specification: paths over equal objects.  Equal objects (SpecModel.v) may differ in
   the order of attributes and in namespace prefixes. *)
From Verif Require Import PyStr Model SpecModel Path.

Definition same_node (n n' : pnode) : Prop := same_obj (n_obj n) (n_obj n') /\ Forall2 same_obj (n_up n) (n_up n').
Definition same_val (v v' : pval) : Prop :=
  match v, v' with
  | VNode n, VNode n' => same_node n n'
  | VStr s, VStr s' => s = s'
  | VNone, VNone => True
  | VList l, VList l' => Forall2 same_node l l'
  | _, _ => False
  end.
Definition same_results (r r' : res (list pval)) : Prop :=
  match r, r' with
  | Ok l, Ok l' => Forall2 same_val l l'
  | Err e, Err e' => e = e'
  | _, _ => False
  end.
(* paths that ask neither for prefixes nor for all attributes *)
Definition plain_path (p : str) : Prop := ~ In (Ch ":") p /\ (~ In (Ch "@") p \/ ~ In (Ch "*") p).
