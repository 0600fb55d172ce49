(* Specification of xigt query over files. *)
From Verif Require Import PyStr Ref Model Format.
From Verif Require Path SpecPathSame.

(* the queries and subqueries asked for are plain paths *)
Definition arg_plain (a : arg) : Prop :=
  match a with
  | GFind q | GUnique q | GCount q => SpecPathSame.plain_path q
  | GTally q sq => SpecPathSame.plain_path q /\ SpecPathSame.plain_path sq
  | GDesc _ => True
  end.
(* a result that prints as what it holds, not as an object with its address *)
Definition printable (v : Path.pval) : Prop := match v with Path.VStr _ | Path.VNone => True | _ => False end.
(* how a result is printed: a text as it is, nothing as None, objects as they please *)
Definition printed (obj_str : nat -> str) (num : Path.pval -> nat) (v : Path.pval) : str :=
  match v with Path.VStr s => s | Path.VNone => L "None" | _ => obj_str (num v) end.
(* what is printed first by [a], then by [b] unless a raised *)
Definition first_then (a b x : list str * option exn) : Prop :=
  match snd a with Some _ => x = a | None => x = (fst a ++ fst b, snd b) end.
