(* Specification of the deprecated functions on alignment expressions: which
   expressions they understand and what they mean.  Syntax as in SpecRef.v. *)
From Verif Require Import PyStr SpecRef.

Section Old.
Context {U : Unicode}.

(* bounds are integers *)
Definition int_shape (s : str) : Prop :=
  exists sign t, s = sign ++ t /\ (sign = [] \/ sign = L "-") /\ t <> [] /\ Forall (fun c => is_digit c = true) t.
(* single '+' and ',' between selections and between spans *)
Definition plain_delim (first : bool) (d : str) : Prop := if first then d = [] else d = L "+" \/ d = L ",".
Fixpoint plain_spans (first : bool) (l : list span) : Prop :=
  match l with
  | [] => True
  | s :: l => plain_delim first (sp_delim s) /\ int_shape (sp_start s) /\ int_shape (sp_end s) /\ plain_spans false l
  end.
Fixpoint plain_sels (first : bool) (e : expr) : Prop :=
  match e with
  | [] => True
  | s :: e => plain_delim first (sl_delim s) /\ id_shape (sl_id s) /\ plain_spans true (sl_spans s) /\ plain_sels false e
  end.
Definition plain (e : expr) : Prop := plain_sels true e.

(* one element per delimiter, per bare id and per span *)
Inductive piece := PText (s : str) | PSpan (i : str) (a b : Z).
Definition sep_pieces (d : str) : list piece := match d with [] => [] | _ => [PText d] end.
Definition span_piece (i : str) (s : span) : res (list piece) :=
  do a <- bound (sp_start s); do b <- bound (sp_end s); Ok (sep_pieces (sp_delim s) ++ [PSpan i a b]).
Definition sel_pieces (s : sel) : res (list piece) :=
  do l <- match sl_spans s with
          | [] => Ok [PText (sl_id s)]
          | l => do x <- mapM (span_piece (sl_id s)) l; Ok (List.concat x)
          end;
  Ok (sep_pieces (sl_delim s) ++ l).
Definition expr_pieces (e : expr) : res (list piece) := do x <- mapM sel_pieces e; Ok (List.concat x).

(* the meaning with other separators between the selections (not the spans) *)
Definition sep (plus comma d : str) : str := if str_eqb d (L "+") then plus else if str_eqb d (L ",") then comma else [].
Definition text_with (env : str -> option (res (option str))) (plus comma : str) (e : expr) : res str :=
  do ts <- mapM (fun s => do t <- sel_text env {| sl_delim := []; sl_id := sl_id s; sl_spans := sl_spans s |};
                          Ok (sep plus comma (sl_delim s) ++ t)) e;
  Ok (List.concat ts).

(* the id is that of an item whose value is a string (or fails) *)
Definition has_value (env : str -> option (res (option str))) (i : str) : Prop :=
  exists r, env i = Some r /\ r <> Ok None.

End Old.
