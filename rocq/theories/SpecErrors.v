(* Vocabulary of PropErrors.v: the situations in which exceptions are raised. *)
From Verif Require Import PyStr Model Json Path.

(* objects with an attribute text; that of a Metadata is the list of its metas *)
Definition has_text (v : pval) : Prop :=
  match v with VNode n => match n_obj n with PItem _ | PMeta _ | PChild _ | PMetadata _ => True | _ => False end | _ => False end.
(* an igt, a tier in an igt, an item in a tier in an igt *)
Definition within_igt (v : pval) : Prop :=
  match v with
  | VNode n => match n_obj n, n_up n with
               | PIgt _, _ | PTier _, PIgt _ :: _ | PItem _, PTier _ :: PIgt _ :: _ => True
               | _, _ => False
               end
  | _ => False
  end.
(* the name of a tag: n, or n in a namespace *)
Definition tag_name (tag n : str) : Prop :=
  (tag = n /\ forall r, n <> L "{" ++ r) \/ exists u, tag = L "{" ++ u ++ L "}" ++ n /\ ~ In (Ch "}") u.
(* JSON objects of strings only, none of them where a list or an object is expected *)
Definition strings (d : dict json) : Prop := forall k v, dget d k = Some v -> exists s, v = JStr s.
Definition bare (d : dict json) : Prop :=
  strings d /\ Forall (fun k => dget d k = None)
    [L "namespaces"; L "attributes"; L "metadata"; L "metas"; L "children"; L "items"; L "tiers"; L "igts"].
