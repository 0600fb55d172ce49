(* Model of XigtCorpus.__init__ and __iter__, xigt/model.py:69-115: the three
   loading modes.  Definitions only.

   A corpus is given with the iterators alive on it, as Python generators: the
   same corpus may be iterated by several of them, in any order of next()
   calls.  Members of the corpus are trees of Model.v; "the id is in _dict" is
   "a member has the id" (C03). *)
From Verif Require Import PyStr Ref Model Value.

Inductive mode := FULL | INCREMENTAL | TRANSIENT.

(* what is passed as igts: a generator (what remains of it, and the exception it
   ends with, if any), a list, or None *)
Inductive source := SGen (l : list igt) (e : option exn) | SList (l : list igt) | SNone.

Record xcorpus := { xc_mode : mode; xc_members : list igt; xc_source : source }.

(* append, xigt/mixins.py:103-107, 131-137; add() at 146-151 is the same *)
Definition has_id (l : list igt) (i : str) : bool := existsb (fun g => opt_eqb str_eqb (igt_id g) (Some i)) l.
Definition add (l : list igt) (g : igt) : res (list igt) :=
  match igt_id g with
  | Some i => if has_id l i then Err XigtError else Ok (l ++ [g])
  | None => Ok (l ++ [g])
  end.
Fixpoint extend (l : list igt) (gs : list igt) : res (list igt) :=
  match gs with
  | [] => Ok l
  | g :: gs => do l <- add l g; extend l gs
  end.

(* XigtCorpus.__init__, lines 77-81; igts or [] in mode FULL *)
Definition construct (m : mode) (src : source) : res xcorpus :=
  match m with
  | FULL =>
    do l <- match src with
            | SGen l e => do l' <- extend [] l; match e with Some e => Err e | None => Ok l' end
            | SList l => extend [] l
            | SNone => Ok []
            end;
    Ok {| xc_mode := FULL; xc_members := l; xc_source := SNone |}
  | _ => Ok {| xc_mode := m; xc_members := []; xc_source := src |}
  end.

(* A running __iter__: not started; iterating the member list (list iterators
   keep a position); iterating the source (a list source is iterated by
   position, a generator has no state of its own here); finished. *)
Inductive iter := INew | IMembers (n : nat) | ISource (n : nat) | IDone.

Inductive reply := Yield (g : igt) | Stop | Raise (e : exn).

(* one step of "for igt in self._generator", lines 100-107 *)
Definition fetch (src : source) (n : nat) : source * reply :=
  match src with
  | SGen (g :: l) e => (SGen l e, Yield g)
  | SGen [] (Some e) => (SGen [] None, Raise e)   (* a generator that raised is finished *)
  | SGen [] None => (src, Stop)
  | SList l => match nth_error l n with Some g => (src, Yield g) | None => (src, Stop) end
  | SNone => (src, Raise TypeError)
  end.
Definition next_source (x : xcorpus) (n : nat) : xcorpus * iter * reply :=
  let (src, r) := fetch (xc_source x) n in
  match r with
  | Yield g =>
    match xc_mode x with
    | INCREMENTAL =>
      match add (xc_members x) g with
      | Ok l => ({| xc_mode := xc_mode x; xc_members := l; xc_source := src |}, ISource (S n), Yield g)
      | Err e => ({| xc_mode := xc_mode x; xc_members := xc_members x; xc_source := src |}, IDone, Raise e)
      end
    | _ => ({| xc_mode := xc_mode x; xc_members := xc_members x; xc_source := src |}, ISource (S n), Yield g)
    end
  | Stop => ({| xc_mode := FULL; xc_members := xc_members x; xc_source := src |}, IDone, Stop)
  | Raise e => ({| xc_mode := xc_mode x; xc_members := xc_members x; xc_source := src |}, IDone, Raise e)
  end.
Definition next_members (x : xcorpus) (n : nat) : xcorpus * iter * reply :=
  match nth_error (xc_members x) n with
  | Some g => (x, IMembers (S n), Yield g)
  | None => (x, IDone, Stop)
  end.
(* next() on an iterator of the corpus, lines 95-107 *)
Definition next (x : xcorpus) (i : iter) : xcorpus * iter * reply :=
  match i with
  | INew => match xc_mode x with FULL => next_members x 0 | _ => next_source x 0 end
  | IMembers n => next_members x n
  | ISource n => next_source x n
  | IDone => (x, IDone, Stop)
  end.

(* a history: next() on numbered iterators; the iterator k is created (iter(xc))
   before its first next(), which is when its code starts to run *)
Definition iters := nat -> iter.
Fixpoint run (x : xcorpus) (its : iters) (h : list nat) : xcorpus * iters * list reply :=
  match h with
  | [] => (x, its, [])
  | k :: h =>
    let '(x', i, r) := next x (its k) in
    let '(x'', its', rs) := run x' (fun j => if Nat.eqb j k then i else its j) h in
    (x'', its', r :: rs)
  end.
