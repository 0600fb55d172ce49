(* Specification vocabulary for the descriptions of xigt query: a description
   as the user thinks of it, how it is written, and what it stands for. *)
From Verif Require Import PyStr Ref Scripts Format.

Inductive which := Query | Subquery | Match.
(* .name or [key] after the name of a field *)
Inductive access := Attr (a : str) | Key (k : str).
Inductive part :=
| Text (s : str)
| Field (w : which) (l : list access) (conv : option N) (spec : str).

Definition which_name (w : which) : str :=
  match w with Query => L "query" | Subquery => L "subquery" | Match => L "match" end.
Definition access_text (a : access) : str :=
  match a with Attr a => L "." ++ a | Key k => L "[" ++ k ++ L "]" end.
(* { and } are written twice to stand for themselves; as the description is
   filled in twice, four times *)
Definition doubled (s : str) : str :=
  flat_map (fun c => if N.eqb c LBRACE || N.eqb c RBRACE then [c; c] else [c]) s.
Definition written_part (p : part) : str :=
  match p with
  | Text s => doubled (doubled s)
  | Field w l conv spec =>
    L "{" ++ which_name w ++ flat_map access_text l
    ++ match conv with Some c => L "!" ++ [c] | None => [] end
    ++ match spec with [] => [] | _ => L ":" ++ spec end ++ L "}"
  end.
Definition written (ps : list part) : str := flat_map written_part ps.

Definition no_braces (s : str) : Prop := ~ In LBRACE s /\ ~ In RBRACE s.
(* the characters { } : ! [ ] and . have a meaning inside a field *)
Definition access_ok (a : access) : Prop :=
  match a with
  | Attr a => forall c, In c a -> ~ In c (L "{}:![")
  | Key k => forall c, In c k -> ~ In c (L "{}]")
  end.
Definition part_ok (p : part) : Prop :=
  match p with
  | Text _ => True
  | Field _ l conv spec =>
    Forall access_ok l /\ (forall c, conv = Some c -> In c (L "sra")) /\ no_braces spec
  end.

Section Spec.
Context (obj_str : nat -> str) (show_other : fval -> str -> option N -> str -> res str).
(* each field stands for its value, everything else for itself *)
Definition value_of (q sq : str) (m : fval) (w : which) : fval :=
  match w with Query => FVal (VStr q) | Subquery => FVal (VStr sq) | Match => m end.
Definition part_value (q sq : str) (m : fval) (p : part) : res str :=
  match p with
  | Text s => Ok s
  | Field w l conv spec => show obj_str show_other (value_of q sq m w) (flat_map access_text l) conv spec
  end.
Definition stands_for (q sq : str) (m : fval) (ps : list part) (x : str) : Prop :=
  exists l, Forall2 (fun p y => part_value q sq m p = Ok y) ps l /\ x = concat l.
(* what the fields for the query and the subquery give has no braces *)
Definition tame (q sq : str) (ps : list part) : Prop :=
  forall w l conv spec x, In (Field w l conv spec) ps -> w <> Match ->
    show obj_str show_other (value_of q sq (FVal VNone) w) (flat_map access_text l) conv spec = Ok x -> no_braces x.
End Spec.
(* the plain fields {query}, {subquery!s}, {match} ... *)
Definition plain_part (p : part) : Prop :=
  match p with
  | Text _ => True
  | Field _ l conv spec => l = [] /\ (conv = None \/ conv = Some (Ch "s")) /\ spec = []
  end.

(* ---------- the command ---------- *)

(* what is asked for: an action, its paths, and possibly a description *)
Record task := { t_action : action; t_query : str; t_sub : str; t_desc : option (list part) }.
Definition TAB : str := [9%N].
Definition default_desc (a : action) : list part :=
  match a with
  | Tally => [Field Query [] None []; Text TAB; Field Subquery [] None []; Text TAB; Field Match [] (Some (Ch "s")) []]
  | _ => [Field Query [] None []; Text TAB; Field Match [] (Some (Ch "s")) []]
  end.
Definition desc_of (t : task) : list part :=
  match t_desc t with Some ps => ps | None => default_desc (t_action t) end.
Definition args_of (t : task) : list arg :=
  match t_action t with
  | Find => GFind (t_query t) | Unique => GUnique (t_query t) | Count => GCount (t_query t)
  | Tally => GTally (t_query t) (t_sub t)
  end :: match t_desc t with Some ps => [GDesc (written ps)] | None => [] end.

Section Command.
Context (obj_str : nat -> str) (show_other : fval -> str -> option N -> str -> res str).
Context (findall : str -> res (list pyval)) (findsub : pyval -> str -> res (list pyval)).

Definition task_ok (t : task) : Prop :=
  Forall part_ok (desc_of t) /\ tame obj_str show_other (t_query t) (t_sub t) (desc_of t)
  /\ (t_action t <> Tally -> t_sub t = []).
(* the fields for the query and the subquery can be shown at all *)
Definition ready (t : task) : Prop :=
  forall w l conv spec, In (Field w l conv spec) (desc_of t) -> w <> Match ->
    exists x, show obj_str show_other (value_of (t_query t) (t_sub t) (FVal VNone) w) (flat_map access_text l) conv spec = Ok x.
Definition shown (t : task) (m : fval) (x : str) : Prop :=
  stands_for obj_str show_other (t_query t) (t_sub t) m (desc_of t) x.
(* the lines printed for a task, and the counts with their descriptions *)
Definition task_output (t : task) (out : list str * list (nat * str)) : Prop :=
  match t_action t with
  | Find => exists ms, findall (t_query t) = Ok ms /\ snd out = []
      /\ Forall2 (fun m line => exists x, shown t (FVal m) x /\ line = L "  " ++ x) ms (fst out)
  | Tally => exists c, tally (fun m => findsub m (t_sub t)) (findall (t_query t)) = Ok c /\ fst out = []
      /\ Forall2 (fun gn nx => fst nx = snd gn /\ shown t (FTuple (fst gn)) (snd nx)) c (snd out)
  | Unique => exists n x, unique (findall (t_query t)) = Ok n /\ shown t (FVal (VStr [])) x /\ out = ([], [(n, x)])
  | Count => exists ms x, findall (t_query t) = Ok ms /\ shown t (FVal (VStr [])) x /\ out = ([], [(length ms, x)])
  end.
(* a task whose description only has plain fields, with paths without braces *)
Definition plain_task (t : task) : Prop :=
  Forall part_ok (desc_of t) /\ Forall plain_part (desc_of t)
  /\ no_braces (t_query t) /\ no_braces (t_sub t) /\ (t_action t <> Tally -> t_sub t = []).
(* its paths can be evaluated, and what is grouped can be compared *)
Definition answered (t : task) : Prop :=
  match t_action t with
  | Tally => exists c, tally (fun m => findsub m (t_sub t)) (findall (t_query t)) = Ok c
  | Unique => exists n, unique (findall (t_query t)) = Ok n
  | _ => exists ms, findall (t_query t) = Ok ms
  end.
End Command.

(* counts in a column, aligned to the right, as wide as the longest *)
Definition column (rs : list (nat * str)) (lines : list str) : Prop :=
  exists w, (forall n x, In (n, x) rs -> length (dec_nat n) <= w)
  /\ (rs <> [] -> exists n x, In (n, x) rs /\ length (dec_nat n) = w)
  /\ Forall2 (fun nx line => exists k, k + length (dec_nat (fst nx)) = w
        /\ line = L " " ++ repeat (Ch " ") k ++ dec_nat (fst nx) ++ TAB ++ snd nx) rs lines.
