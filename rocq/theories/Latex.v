(* Model of the LaTeX exporter, xigt/exporters/latex.py.  Definitions only.

   Simplifications: sub (exporters/util.py), which applies regular expressions
   and Python expressions given by the user, is a parameter; so is str.lower;
   tier_types is a list of strings; what export writes to its file is the text
   handed to print. *)
From Verif Require Import PyStr Ref Model Value.

Section Latex.
Context {U : Unicode}.

(* s.replace(c, r) for a one-character string c *)
Definition replace_char (c : char) (r s : str) : str :=
  flat_map (fun x => if N.eqb x c then r else [x]) s.

(* LATEX_CHARMAP, lines 16-27 *)
Definition latex_charmap : list (char * str) :=
  [ (Ch "\", L "\textbackslash"); (Ch "&", L "\&"); (Ch "%", L "\%"); (Ch "$", L "\$");
    (Ch "#", L "\#"); (Ch "_", L "\_"); (Ch "{", L "\{"); (Ch "}", L "\}");
    (Ch "~", L "\textasciitilde"); (Ch "^", L "\textasciicircum") ].

(* escape, lines 56-64 *)
Definition escape (s : str) : str :=
  fold_left (fun s cr => replace_char (fst cr) (snd cr) s) latex_charmap s.

(* ---------- the table ---------- *)

Section Trellis.
(* the items, with their id and item.alignment or item.segmentation *)
Context {A : Type} (idof : A -> option str) (expr : A -> option str).

(* a column is a list of rows, a row a list of items *)
Definition col := list (list A).
Definition agendum := (list str * list A)%type.

Definition list_str_eqb (a b : list str) : bool := seq_eqb str_eqb a b.

(* itertools.groupby with the key in the first component, lines 192-193 *)
Fixpoint groupby (l : list (list str * A)) : list agendum :=
  match l with
  | [] => []
  | (k, x) :: l' =>
    match groupby l' with
    | (k', xs) :: gs => if list_str_eqb k k' then (k, x :: xs) :: gs else (k, [x]) :: (k', xs) :: gs
    | [] => [(k, [x])]
    end
  end.

(* get_agenda, lines 188-194; ref.ids(None) is a TypeError *)
Definition agenda_entry (x : A) : res (list str * A) :=
  match expr x with Some e => Ok (ids e, x) | None => Err TypeError end.
Definition get_agenda (items : list A) : res (list agendum) :=
  do l <- mapM agenda_entry items; Ok (groupby l).

(* build_idxmap, lines 196-199: the pairs in the order of the comprehension;
   a later pair replaces an earlier one with the same key, so a look-up
   (idxmap[id], lines 147-148) starts at the end *)
Definition idxmap := list (option str * nat).
Fixpoint build_from (i : nat) (tr : list col) (depth : nat) : res idxmap :=
  match tr with
  | [] => Ok []
  | c :: tr' =>
    match nth_error c depth with
    | None => Err IndexError
    | Some row => do m <- build_from (S i) tr' depth; Ok (map (fun x => (idof x, i)) row ++ m)
    end
  end.
Definition build_idxmap (tr : list col) (depth : nat) : res idxmap := build_from 0 tr depth.
Definition idx_get (m : idxmap) (k : str) : res nat :=
  match find (fun p => opt_eqb str_eqb (fst p) (Some k)) (rev m) with
  | Some p => Ok (snd p)
  | None => Err KeyError
  end.

(* debug_display_trellis, lines 225-236, runs whatever the logging level.  It
   needs every item in the table to have an id, line 228, and every column to
   have a row, line 229. *)
Definition display_col (c : col) : res unit :=
  if forallb (fun row => forallb (fun x => match idof x with Some _ => true | None => false end) row) c
  then match c with [] => Err ValueError | _ :: _ => Ok tt end
  else Err TypeError.
Definition display (tr : list col) : res unit :=
  do _ <- mapM display_col tr; Ok tt.

(* l[n] = f(l[n]) for a non-negative n *)
Fixpoint update {B} (n : nat) (f : B -> res B) (l : list B) : res (list B) :=
  match l, n with
  | [], _ => Err IndexError
  | x :: l', 0 => do y <- f x; Ok (y :: l')
  | x :: l', S n' => do l'' <- update n' f l'; Ok (x :: l'')
  end.

(* trellis[idx].append([]) for idx in range(from, from + n) *)
Definition add_row (c : col) : res col := Ok (c ++ [[]]).
Fixpoint add_rows (from n : nat) (tr : list col) : res (list col) :=
  match n with
  | 0 => Ok tr
  | S n' => do tr' <- update from add_row tr; add_rows (S from) n' tr'
  end.

(* add_delayed, lines 201-211 *)
Definition insert {B} (l : list B) (pos : nat) (x : B) : list B := firstn pos l ++ x :: skipn pos l.
Fixpoint add_delayed (tr : list col) (delay : list agendum) (pos depth : nat) : list col * nat :=
  match delay with
  | [] => (tr, 0)
  | (_, xs) :: delay' =>
    let '(tr', num) := add_delayed (insert tr pos (repeat [] depth ++ [xs])) delay' pos depth in (tr', S num)
  end.

(* zip_longest with fill value [] and chaining, lines 218-220: row by row, the
   items of that row in each column *)
Definition zip_chain (cs : list col) : col :=
  map (fun k => List.concat (map (fun c => nth k c []) cs)) (seq 0 (list_max (map (@length (list A)) cs))).
(* merge_columns, lines 213-223 *)
Definition merge_columns (tr : list col) (s e : nat) : list col :=
  firstn s tr ++ [zip_chain (firstn (e - s) (skipn s tr))] ++ skipn e tr.

(* trellis[idx][depth].extend(items), line 172 *)
Definition extend_cell (tr : list col) (idx depth : nat) (xs : list A) : res (list col) :=
  update idx (update depth (fun row => Ok (row ++ xs))) tr.

(* the state of the loop of align_tier: the table, idx + 1 (idx begins at -1),
   the delayed agenda and the map *)
Record state := { s_tr : list col; s_next : nat; s_delay : list agendum; s_map : idxmap }.

(* one round of the loop, lines 137-174 *)
Definition step (depth : nat) (st : state) (ag : agendum) : res state :=
  let '(is, xs) := ag in
  do _ <- display (s_tr st);
  match is with
  | [] => Ok {| s_tr := s_tr st; s_next := s_next st; s_delay := s_delay st ++ [ag]; s_map := s_map st |}
  | i0 :: _ =>
    do start <- idx_get (s_map st) i0;
    do end_ <- idx_get (s_map st) (last is i0);
    do tr1 <- add_rows (s_next st) (S start - s_next st) (s_tr st);
    let next1 := Nat.max (s_next st) (S start) in
    let '(tr2, num) := add_delayed tr1 (s_delay st) start depth in
    do m2 <- match s_delay st with [] => Ok (s_map st) | _ => build_idxmap tr2 (depth - 1) end;
    let next2 := next1 + num in
    let start2 := start + num in
    let end2 := end_ + num in
    do (tr3, m3) <-
      (if Nat.eqb start2 end2 then Ok (tr2, m2)
       else let tr3 := merge_columns tr2 start2 (S end2) in
            do m3 <- build_idxmap tr3 (depth - 1);
            do _ <- display tr3;
            Ok (tr3, m3));
    do tr4 <- extend_cell tr3 (next2 - 1) depth xs;
    Ok {| s_tr := tr4; s_next := next2; s_delay := []; s_map := m3 |}
  end.
Fixpoint steps (depth : nat) (st : state) (ags : list agendum) : res state :=
  match ags with
  | [] => Ok st
  | ag :: ags' => do st' <- step depth st ag; steps depth st' ags'
  end.

(* align_tier, lines 131-186 *)
Definition align_tier (tr : list col) (items : list A) : res (list col) :=
  match tr with
  | [] => Err IndexError
  | c0 :: _ =>
    let depth := length c0 in
    do agenda <- get_agenda items;
    (* depth - 1 = -1 for an empty column is no column of this program *)
    do m <- build_idxmap tr (depth - 1);
    do st <- steps depth {| s_tr := tr; s_next := 0; s_delay := []; s_map := m |} agenda;
    let '(tr', _) := add_delayed (s_tr st) (s_delay st) (length (s_tr st)) depth in
    add_rows (s_next st) (length tr' - s_next st) tr'
  end.

(* group_alignments, lines 117-128 *)
Fixpoint align_tiers (tr : list col) (tiers : list (list A)) : res (list col) :=
  match tiers with
  | [] => Ok tr
  | t :: tiers' => do tr' <- align_tier tr t; align_tiers tr' tiers'
  end.
Definition group_alignments (tiers : list (list A)) : res (list col) :=
  match tiers with
  | [] => Err IndexError
  | t0 :: ts => align_tiers (map (fun x => [[x]]) t0) ts
  end.

End Trellis.

(* ---------- the text ---------- *)

(* item.alignment or item.segmentation, line 189 *)
Definition item_expr (i : item) : option str :=
  match dget (a_dict (it_attrs i)) ALIGNMENT with
  | Some (c :: e) => Some (c :: e)
  | _ => dget (a_dict (it_attrs i)) SEGMENTATION
  end.

(* an item together with its tier, i.e. item.tier *)
Definition titem := (tier * item)%type.
Definition tier_titems (t : tier) : list titem := map (fun i => (t, i)) (t_items t).
Definition group_tiers (tiers : list tier) : res (list (col (A := titem))) :=
  group_alignments (fun x => item_id (snd x)) (fun x => item_expr (snd x)) (map tier_titems tiers).

Section Export.
(* str.lower; sub(s, tier_type, item_subs); sub(s, tier_type, tier_subs); the
   recursion limit *)
Context (lower : str -> str) (item_sub tier_sub : str -> str -> res str) (fuel : nat).

(* item.get_content() or '{}', lines 98 and 109; Item.get_content,
   xigt/model.py:423-429 *)
Definition content_or (g : igt) (x : titem) : res str :=
  do v <- value fuel (Some g) (Some (fst x)) (snd x) value_refattrs;
  match v with Some (c :: s) => Ok (c :: s) | _ => Ok (L "{}") end.

(* lines 96-103 *)
Definition cell_text (g : igt) (ty : str) (items : list titem) : res str :=
  do toks <- mapM (fun x => do s <- content_or g x; item_sub ty (escape s)) items;
  Ok (L "{" ++ join (L " ") toks ++ L "}").
(* lines 91-104, for one i; a type is never None here, line 79 *)
Definition row_text (g : igt) (tiers : list tier) (cols : list (col (A := titem))) (i : nat) : res str :=
  match nth_error tiers i with
  | None => Err IndexError
  | Some t =>
    let ty := match a_type (t_attrs t) with Some ty => ty | None => [] end in
    do toks <- mapM (fun c => match nth_error c i with Some items => cell_text g ty items | None => Err IndexError end) cols;
    tier_sub ty (join (L " ") toks ++ L "\\")
  end.
(* lines 106-112 *)
Definition trans_text (g : igt) (t : tier) : res (list str) :=
  match a_type (t_attrs t), t_items t with
  | Some ty, i :: _ =>
    if str_eqb ty (L "translations") then
      do s <- content_or g (t, i);
      do s' <- tier_sub ty (escape s);
      Ok [L "\trans " ++ s']
    else Ok []
  | _, _ => Ok []
  end.

(* lines 76-80 *)
Definition chosen (tier_types : list str) (t : tier) : bool :=
  match a_type (t_attrs t) with
  | Some ty => existsb (str_eqb (lower ty)) tier_types
  | None => false
  end.
(* '{}'.format(igt.id) *)
Definition format_id (i : option str) : str := match i with Some s => s | None => L "None" end.
Definition newline : str := [10%N].

(* export_igt, lines 72-114; line 83 needs the ids of the tiers *)
Definition export_igt (tier_types : list str) (g : igt) : res str :=
  let tiers := filter (chosen tier_types) (g_tiers g) in
  if length tiers <? 2 then Ok (L "%" ++ newline ++ L "% cannot export IGT " ++ format_id (igt_id g) ++ newline ++ L "%")
  else
    if forallb (fun t => match tier_id t with Some _ => true | None => false end) tiers then
      do cols <- group_tiers tiers;
      match cols with
      | [] => Err IndexError
      | c0 :: _ =>
        do rows <- mapM (row_text g tiers cols) (seq 0 (length c0));
        do trans <- mapM (trans_text g) (g_tiers g);
        Ok (join newline
              ([L "\begin{exe}\small"; L "\ex\g" ++ repeat (Ch "l") (length tiers)]
               ++ rows ++ List.concat trans ++ [L "\end{exe}"]))
      end
    else Err TypeError.

(* xigt_export, lines 29-46, with export_corpus, lines 66-70, a generator: what
   is in the file in the end, and the exception that ended it (with closes the
   file) *)
Definition header : str := newline ++ L "\documentclass{article}" ++ newline ++ L "\usepackage{gb4e}" ++ newline ++ L "\begin{document}" ++ newline.
Definition footer : str := newline ++ L "\end{document}" ++ newline.
Fixpoint export_corpus (tier_types : list str) (gs : list igt) : str * option exn :=
  match gs with
  | [] => (footer ++ newline, None)
  | g :: gs' =>
    match export_igt tier_types g with
    | Err e => ([], Some e)
    | Ok s => let (rest, e) := export_corpus tier_types gs' in (s ++ newline ++ newline ++ rest, e)
    end
  end.
Definition export_file (tier_types : list str) (gs : list igt) : str * option exn :=
  let (rest, e) := export_corpus tier_types gs in (header ++ newline ++ rest, e).

End Export.
End Latex.

(* DEFAULT_TIER_TYPES, line 14 *)
Definition default_tier_types : list str := [L "words"; L "morphemes"; L "glosses"].
