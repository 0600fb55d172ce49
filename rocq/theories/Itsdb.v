(* Model of the [incr tsdb()] exporter, xigt/exporters/itsdb.py.  Definitions
   only.

   Simplifications: the numbers in the configuration are integers; whether a
   Relations file was found is given; delphin's make_skeleton (not part of the
   repository) is taken to read all rows, in order; logging is not modelled.
   What Python gives for the text of a cell expression is a parameter, except
   for the default one. *)
From Verif Require Import PyStr Model Value.

(* what a cell is made with: a text, or the closure made of one, line 50.  All
   the closures of a list share the variable mapper of the comprehension, which
   ends up as the last mapper of the list. *)
Inductive mapper := Text (e : str) | Closure (m : mapper).

Record config := { cf_start : option Z; cf_skip : option Z; cf_cells : option (list (str * mapper)) }.
Definition no_config : config := {| cf_start := None; cf_skip := None; cf_cells := None |}.

(* DEFAULT_CELLS, lines 13-20 *)
Definition default_input : str :=
  L "next(igt.select(type=""phrases""), [""""])[0] or "
  ++ L """ "".join(item.get_content() " ++ L "         for item in next(igt.select(type=""words""),[]))".
Definition default_cells : list (str * mapper) := [(L "i-input", Text default_input)].

(* setdefault *)
Definition or_else {A} (o : option A) (d : A) : A := match o with Some x => x | None => d end.

(* prepare_config, lines 33-52; the dict that was given is changed *)
Definition prepare_config (c : config) : config :=
  let cells := or_else (cf_cells c) default_cells in
  let mapper := match rev cells with (_, m) :: _ => m | [] => Text [] end in
  {| cf_start := Some (or_else (cf_start c) 0%Z); cf_skip := Some (or_else (cf_skip c) 10%Z);
     cf_cells := Some (map (fun kv => (fst kv, Closure mapper)) cells) |}.

Section Export.
Context {V : Type} (ev : str -> igt -> res V).

(* mapper(igt), line 68: a str cannot be called, and eval only takes a str *)
Definition call (m : mapper) (g : igt) : res V :=
  match m with
  | Closure (Text e) => ev e g
  | _ => Err TypeError
  end.

Inductive cell := Number (z : Z) | Value (v : V).

(* the loop of export_igt, lines 65-72 *)
Fixpoint cells_of (cells : list (str * mapper)) (g : igt) (row : dict cell) : res (dict cell) :=
  match cells with
  | [] => Ok row
  | (k, m) :: cells' => do v <- call m g; cells_of cells' g (dset row k (Value v))
  end.
(* export_igt, lines 63-73 *)
Definition export_igt (g : igt) (n : Z) (c : config) : res (dict cell) :=
  cells_of (or_else (cf_cells c) []) g [(L "i-id", Number n)].
(* export_corpus, lines 54-61, from the i-th igt *)
Fixpoint export_from (i : nat) (gs : list igt) (c : config) : res (list (dict cell)) :=
  match gs with
  | [] => Ok []
  | g :: gs' =>
    do x <- export_igt g (or_else (cf_start c) 0 + Z.of_nat i * or_else (cf_skip c) 0)%Z c;
    do l <- export_from (S i) gs' c;
    Ok (x :: l)
  end.
Definition export_corpus (gs : list igt) (c : config) : res (list (dict cell)) := export_from 0 gs c.
(* xigt_export, lines 22-31: the configuration afterwards, and the rows if there
   is a Relations file *)
Definition xigt_export (relations : bool) (gs : list igt) (c : config) : res (config * option (list (dict cell))) :=
  let c' := prepare_config c in
  if relations then do rows <- export_corpus gs c'; Ok (c', Some rows) else Ok (c', None).
End Export.
Arguments cell : clear implicits.
Arguments Number {V}.
Arguments Value {V}.

Section Default.
Context {U : Unicode} (fuel : nat).

(* what the default expression gives: an item or a string *)
Inductive input := Phrase (i : item) | Joined (s : str).

(* next(igt.select(type=...)); XigtContainerMixin.select, xigt/mixins.py:88-95 *)
Definition first_tier (ty : str) (g : igt) : option tier :=
  find (fun t => match a_type (t_attrs t) with Some x => str_eqb x ty | None => false end) (g_tiers g).
(* item.get_content(); str.join takes strings only *)
Definition word_text (g : igt) (t : tier) (i : item) : res str :=
  do v <- value fuel (Some g) (Some t) i value_refattrs;
  match v with Some s => Ok s | None => Err TypeError end.
(* the default expression, lines 15-18; an Item counts as true *)
Definition default_value (g : igt) : res input :=
  match first_tier (L "phrases") g with
  | Some t => match t_items t with i :: _ => Ok (Phrase i) | [] => Err IndexError end
  | None =>
    match first_tier (L "words") g with
    | Some t => do l <- mapM (word_text g t) (t_items t); Ok (Joined (join (L " ") l))
    | None => Ok (Joined [])
    end
  end.
End Default.
