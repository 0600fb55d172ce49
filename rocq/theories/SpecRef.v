(* Specification side for alignment expressions: an abstract syntax of
   expressions, its concrete syntax, and the meaning of each operation on it.
   Nothing here mentions the patterns or functions of xigt/ref.py. *)
From Verif Require Import PyStr.

(* one span [start:end], with the delimiter that precedes it inside the brackets *)
Record span := { sp_delim : str; sp_start : str; sp_end : str }.
(* one selection id[spans], with the delimiter that precedes it *)
Record sel := { sl_delim : str; sl_id : str; sl_spans : list span }.
Definition expr := list sel.

Definition show_span (s : span) : str := sp_delim s ++ sp_start s ++ L ":" ++ sp_end s.
Definition show_range (l : list span) : str := flat_map show_span l.
(* a selection without its leading delimiter *)
Definition show_sel (s : sel) : str :=
  sl_id s ++ match sl_spans s with [] => [] | l => L "[" ++ show_range l ++ L "]" end.
(* the concrete syntax of an expression *)
Definition show (e : expr) : str := flat_map (fun s => sl_delim s ++ show_sel s) e.

Section Wf.
Context {U : Unicode}.

(* id: an ASCII letter followed by word characters, '-' and '.' *)
Definition id_char (c : N) : Prop := c = Ch "-" \/ c = Ch "." \/ is_word c = true.
Definition ascii_letter (c : N) : Prop := (65 <= c <= 90 \/ 97 <= c <= 122)%N.
Definition id_shape (s : str) : Prop :=
  exists c t, s = c :: t /\ ascii_letter c /\ Forall id_char t.

(* slice bounds: optional minus, then digits (dots are tolerated by the syntax) *)
Definition num_shape (s : str) : Prop :=
  exists sign t, s = sign ++ t /\ (sign = [] \/ sign = L "-") /\ t <> []
    /\ Forall (fun c => c = Ch "." \/ is_digit c = true) t.

(* delimiter characters: not part of an id or number, not a bracket or line break *)
Definition delim_char (c : N) : Prop :=
  is_word c = false /\ ~ In c (L "-.:[]") /\ c <> 10%N.

(* [tight]: one-character delimiters between the spans inside brackets, as
   opposed to runs of delimiter characters *)
Definition wf_span (tight first : bool) (s : span) : Prop :=
  (if first then sp_delim s = []
   else sp_delim s <> [] /\ Forall delim_char (sp_delim s)
        /\ (tight = true -> length (sp_delim s) = 1))
  /\ num_shape (sp_start s) /\ num_shape (sp_end s).
Fixpoint wf_spans (tight first : bool) (l : list span) : Prop :=
  match l with [] => True | s :: l' => wf_span tight first s /\ wf_spans tight false l' end.

Definition wf_sel (tight first : bool) (s : sel) : Prop :=
  (if first then sl_delim s = [] else sl_delim s <> [] /\ Forall delim_char (sl_delim s))
  /\ id_shape (sl_id s) /\ wf_spans tight true (sl_spans s).
Fixpoint wf_sels (tight first : bool) (e : expr) : Prop :=
  match e with [] => True | s :: e' => wf_sel tight first s /\ wf_sels tight false e' end.

(* well-formed expressions: runs of delimiter characters between selections and spans *)
Definition wf_loose (e : expr) : Prop := wf_sels false true e.
(* ... one delimiter character between spans (what the documentation shows) *)
Definition wf (e : expr) : Prop := wf_sels true true e.
(* ... one delimiter character everywhere *)
Definition wf1 (e : expr) : Prop :=
  wf e /\ Forall (fun s => length (sl_delim s) <= 1) e.

(* the maximal id-shaped pieces of a string, in order: text without letters,
   an id that the following character does not continue, and so on *)
Inductive id_pieces : str -> list str -> Prop :=
| ip_nil s : Forall (fun c => ~ ascii_letter c) s -> id_pieces s []
| ip_cons g i r l :
    Forall (fun c => ~ ascii_letter c) g -> id_shape i ->
    match r with c :: _ => ~ id_char c | [] => True end ->
    id_pieces r l -> id_pieces (g ++ i ++ r) (i :: l).
End Wf.

(* ---------- meaning ---------- *)

(* ids in order *)
Definition expr_ids (e : expr) : list str := map sl_id e.

(* selections interleaved with delimiters *)
Definition expr_selections (keep : bool) (e : expr) : list str :=
  flat_map (fun s =>
    (if keep then match sl_delim s with [] => [] | d => [d] end else []) ++ [show_sel s]) e.

(* one span per selection: the inner delimiters move outside *)
Definition expand_sel (s : sel) : expr :=
  match sl_spans s with
  | [] => [s]
  | sp :: l =>
    {| sl_delim := sl_delim s; sl_id := sl_id s;
       sl_spans := [{| sp_delim := []; sp_start := sp_start sp; sp_end := sp_end sp |}] |}
    :: map (fun sp' => {| sl_delim := sp_delim sp'; sl_id := sl_id s;
             sl_spans := [{| sp_delim := []; sp_start := sp_start sp'; sp_end := sp_end sp' |}] |}) l
  end.
Definition expand_expr (e : expr) : expr := flat_map expand_sel e.

(* merge neighbouring selections with spans on the same id: the outer delimiter moves inside *)
Definition with_delim (d : str) (l : list span) : list span :=
  match l with
  | [] => []
  | sp :: l' => {| sp_delim := d ++ sp_delim sp; sp_start := sp_start sp; sp_end := sp_end sp |} :: l'
  end.
Fixpoint compress_expr (e : expr) : expr :=
  match e with
  | [] => []
  | s :: e' =>
    match compress_expr e' with
    | s' :: r =>
      match sl_spans s, sl_spans s' with
      | _ :: _, _ :: _ =>
        if str_eqb (sl_id s) (sl_id s')
        then {| sl_delim := sl_delim s; sl_id := sl_id s;
                sl_spans := sl_spans s ++ with_delim (sl_delim s') (sl_spans s') |} :: r
        else s :: s' :: r
      | _, _ => s :: s' :: r
      end
    | [] => [s]
    end
  end.

(* at most one span per selection *)
Definition expanded (e : expr) : Prop := Forall (fun s => length (sl_spans s) <= 1) e.
(* no two neighbouring selections with spans on the same id *)
Fixpoint compressed (e : expr) : Prop :=
  match e with
  | s :: ((s' :: _) as e') =>
    ~ (sl_spans s <> [] /\ sl_spans s' <> [] /\ sl_id s = sl_id s') /\ compressed e'
  | _ => True
  end.

(* ---------- denotation of an expression over an environment of values ---------- *)

Section Denote.
Context {U : Unicode}.
(* what an id denotes: no such item, or an item whose value is computed (and may fail) *)
Variable env : str -> option (res (option str)).

(* ',' joins with a space, '+' (and anything else) with nothing; a run of
   delimiter characters counts as its last one *)
Definition joiner (d : str) : str := if N.eqb (last d 0%N) (Ch ",") then L " " else [].

Definition bound (s : str) : res Z :=
  match py_int s with Some z => Ok z | None => Err ValueError end.

(* the characters at positions a <= p < b; a negative bound counts from the end *)
Definition from_start (n : nat) (z : Z) : Z := if (z <? 0)%Z then (Z.of_nat n + z)%Z else z.
Definition chars_between (a b : Z) (v : str) : str :=
  map snd (filter (fun pc => (from_start (length v) a <=? Z.of_nat (fst pc))%Z
                             && (Z.of_nat (fst pc) <? from_start (length v) b)%Z)
                  (combine (seq 0 (length v)) v)).

Definition span_text (v : str) (s : span) : res str :=
  do a <- bound (sp_start s); do b <- bound (sp_end s);
  Ok (joiner (sp_delim s) ++ chars_between a b v).

Definition sel_text (s : sel) : res str :=
  match env (sl_id s) with
  | None => Err XigtStructureError
  | Some v =>
    do v <- v;
    let v := match v with Some t => t | None => [] end in
    do body <- match sl_spans s with
               | [] => Ok v
               | l => do ts <- mapM (span_text v) l; Ok (List.concat ts)
               end;
    Ok (joiner (sl_delim s) ++ body)
  end.

Definition expr_text (e : expr) : res str :=
  do ts <- mapM sel_text e; Ok (List.concat ts).
End Denote.

(* every bound written in the expression is an integer *)
Definition bounds_ok {U : Unicode} (e : expr) : Prop :=
  Forall (fun s => Forall (fun sp => py_int (sp_start sp) <> None /\ py_int (sp_end sp) <> None)
                          (sl_spans s)) e.

(* an interpreter whose only digits, letters and spaces are the ASCII ones, for examples *)
Definition ascii_unicode : Unicode := {| hi := fun _ => UOther |}.
