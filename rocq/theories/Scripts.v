(* Models of xigt/scripts/xigt_sort.py, xigt_partition.py and xigt_query.py.
   Definitions only.  What xigtpath.find and findall answer for an object is a
   parameter here (they are the subject of Path.v); so are files. *)
From Verif Require Import PyStr PySort Regex Ref Model Value SortTiers Xml Container.

(* ---------- sort ---------- *)

(* an element of a sort key: str or int *)
Inductive piece := PStr (s : str) | PInt (z : Z).

(* a == b and a < b for these *)
Definition piece_eqb (a b : piece) : bool :=
  match a, b with
  | PStr s, PStr t => str_eqb s t
  | PInt x, PInt y => Z.eqb x y
  | _, _ => false
  end.
Definition piece_lt (a b : piece) : res bool :=
  match a, b with
  | PStr s, PStr t => Ok (str_ltb s t)
  | PInt x, PInt y => Ok (Z.ltb x y)
  | _, _ => Err TypeError
  end.
(* list.__lt__: compare the first elements that differ, else the lengths *)
Fixpoint key_lt (a b : list piece) : res bool :=
  match a, b with
  | [], [] => Ok false
  | [], _ :: _ => Ok true
  | _ :: _, [] => Ok false
  | x :: a, y :: b => if piece_eqb x y then key_lt a b else piece_lt x y
  end.

Section SortKey.
Context {U : Unicode}.

(* re.split(pattern, s) for a pattern that is one group and matches no empty
   text: the texts between the matches, with the matches between them *)
Fixpoint split_at (last : nat) (rest : str) (l : list rmatched) : list str :=
  match l with
  | [] => [rest]
  | m :: l => firstn (r_start m - last) rest :: capd 1 m :: split_at (r_end m) (r_rest m) l
  end.
Definition digits_re : re := RGroup 1 (RPlus true (RChr is_digit)).
Definition split_digits (s : str) : list str := split_at 0 s (finditer digits_re s).

(* safe_int, xigt_sort.py:37-41 *)
Definition safe_int (s : str) : piece := match py_int s with Some z => PInt z | None => PStr s end.

(* make_sortkey, lines 35-45; find(x, sk) gives a string, None or raises
   (re.split on anything else is a TypeError) *)
Definition make_sortkey {A} (find : A -> str -> res (option str)) (sortkeys : list str) (x : A) : res (list piece) :=
  do l <- mapM (fun sk => do r <- find x sk;
                          Ok (map safe_int (split_digits (match r with Some s => s | None => [] end)))) sortkeys;
  Ok (concat l).
End SortKey.

(* list.sort(key=...): all keys are computed first.  Insertion sort with
   comparisons that may fail: when all keys can be compared the result is that
   of any stable sort.  (Which pairs are compared otherwise depends on the
   implementation; so does the order the list is left in after an exception.) *)
Section MSort.
Context {A : Type} (lt : A -> A -> res bool).
Fixpoint minsert (x : A) (l : list A) : res (list A) :=
  match l with
  | [] => Ok [x]
  | y :: l' => do b <- lt y x; if b then (do r <- minsert x l'; Ok (y :: r)) else Ok (x :: l)
  end.
Fixpoint msort (l : list A) : res (list A) :=
  match l with [] => Ok [] | x :: l' => do r <- msort l'; minsert x r end.
End MSort.
Definition sort_keyed {A} (key : A -> res (list piece)) (l : list A) : res (list A) :=
  do ks <- mapM (fun x => do k <- key x; Ok (k, x)) l;
  do s <- msort (fun a b => key_lt (fst a) (fst b)) ks;
  Ok (map snd s).

(* container.sort(key=...), inherited from list: the index of ids stays *)
Definition sort_container {B} (key : nat -> res (list piece)) (s : state (B := B)) (k : nat) : state (B := B) * outcome :=
  match sort_keyed key (c_items (conts s k)) with
  | Ok l => relist s k (fun _ => l)
  | Err e => (s, RExn e)
  end.

(* run, xigt_sort.py:11-33, between loading and printing.  An argument that is
   absent is None; the keys are functions of the igt, of the tier and its igt, of
   the item, its tier and its igt.  (Python empties the list while it computes the
   keys: a path that climbs to the container sees no members.  The igt and tier
   given are those before their members are sorted.) *)
Record sort_args := {
  by_igt : option (igt -> res (list piece));
  by_tier : option (igt -> tier -> res (list piece));
  by_deps : option (list str);
  by_item : option (igt -> tier -> item -> res (list piece)) }.
Definition at_ {A B} (x : A) (key : option (A -> B)) : option B := option_map (fun k => k x) key.
Definition sort_if {A} (key : option (A -> res (list piece))) (l : list A) : res (list A) :=
  match key with Some k => sort_keyed k l | None => Ok l end.
Definition with_items_ (t : tier) (l : list item) : tier := {| t_attrs := t_attrs t; t_md := t_md t; t_items := l |}.
Definition with_tiers_ (g : igt) (l : list tier) : igt := {| g_attrs := g_attrs g; g_md := g_md g; g_tiers := l |}.
Definition with_igts_ (c : corpus) (l : list igt) : corpus := {| c_attrs := c_attrs c; c_md := c_md c; c_igts := l |}.
Section SortRun.
Context {U : Unicode}.
(* sort_tiers; a loop that has not ended within the fuel (C21) appears as an
   error here, never as a result *)
Definition sort_tiers_by (fuel : nat) (g : igt) (refattrs : list str) : res (list tier) :=
  match sort_tiers fuel g refattrs with Some r => r | None => Err RuntimeError end.
Definition sort_corpus (fuel : nat) (a : sort_args) (c : corpus) : res corpus :=
  do gs <- sort_if (by_igt a) (c_igts c);
  do gs <- match by_tier a, by_deps a with
           | Some _, _ => mapM (fun g => do ts <- sort_if (at_ g (by_tier a)) (g_tiers g); Ok (with_tiers_ g ts)) gs
           | None, Some ras => mapM (fun g => do ts <- sort_tiers_by fuel g ras; Ok (with_tiers_ g ts)) gs
           | None, None => Ok gs
           end;
  do gs <- mapM (fun g => do ts <- mapM (fun t => do l <- sort_if (at_ t (at_ g (by_item a))) (t_items t); Ok (with_items_ t l)) (g_tiers g);
                          Ok (with_tiers_ g ts)) gs;
  Ok (with_igts_ c gs).
End SortRun.

(* ---------- partition ---------- *)

Definition keyeq := opt_eqb str_eqb.
(* defaultdict(lambda: defaultdict(set)), xigt_partition.py:15: key, file name,
   positions; a set of positions is a list here (only membership is used) *)
Definition pindex := list (option str * dict (list nat)).
(* idx[idx_key][fn].add(i), line 43 *)
Definition idx_add (idx : pindex) (k : option str) (fn : str) (i : nat) : pindex :=
  let d := match dget_ keyeq idx k with Some d => d | None => [] end in
  let l := match dget d fn with Some l => l | None => [] end in
  dset_ keyeq idx k (dset d fn (i :: l)).

Section Partition.
(* the igts (PartitionRun.v takes them with their corpus) and their ids; xp.find(igt,
   key_path) and reading a file *)
Context {M : Type}.
Variable key : M -> res (option str).
Variable load : str -> res (list M).
Variable idof : M -> option str.

(* index, lines 39-43 *)
Fixpoint index_igts (fn : str) (i : nat) (l : list M) (idx : pindex) : res pindex :=
  match l with
  | [] => Ok idx
  | g :: l => do k <- key g; index_igts fn (S i) l (idx_add idx k fn i)
  end.
Fixpoint index_files (fns : list str) (idx : pindex) : res pindex :=
  match fns with
  | [] => Ok idx
  | fn :: fns => do l <- load fn; do idx <- index_igts fn 0 l idx; index_files fns idx
  end.

(* normalize_key, lines 45-46 *)
Definition normalize_key (k : str) : str := map (fun c => if N.eqb c (Ch ":") then Ch "-" else c) k.
(* os.path.join *)
Definition path_join (d n : str) : str :=
  match n with
  | c :: _ => if N.eqb c (Ch "/") then n
              else if Nat.eqb (length d) 0 || endswith (L "/") d then d ++ n else d ++ L "/" ++ n
  | [] => if Nat.eqb (length d) 0 || endswith (L "/") d then d else d ++ L "/"
  end.

(* write, lines 48-58: the igts of the new corpus (of the files as read again).
   A duplicate id is an error. *)
Fixpoint chosen {M} (i : nat) (ixs : list nat) (l : list M) : list M :=
  match l with
  | [] => []
  | g :: l => if existsb (Nat.eqb i) ixs then g :: chosen (S i) ixs l else chosen (S i) ixs l
  end.
Fixpoint gather (d : dict (list nat)) : res (list M) :=
  match d with
  | [] => Ok []
  | (fn, ixs) :: d => do l <- load fn; do r <- gather d; Ok (chosen 0 ixs l ++ r)
  end.
Definition write (d : dict (list nat)) : res (list M) :=
  do l <- gather d; new_container idof l.

(* the loop of run, lines 20-26: files written, by name; a second file of the
   same name replaces the first *)
Variables (outdir default_key : str).
Definition out_path (k : option str) : str :=
  path_join outdir (normalize_key (match k with Some s => s | None => default_key end) ++ L ".xml").
Fixpoint write_all (idx : pindex) (out : dict (list M)) : res (dict (list M)) :=
  match idx with
  | [] => Ok out
  | (k, d) :: idx => do l <- write d; write_all idx (dset out (out_path k) l)
  end.
Definition partition (infiles : list str) : res (dict (list M)) :=
  do idx <- index_files infiles []; write_all idx [].
End Partition.

(* ---------- query ---------- *)

(* what findall returns: None (no such attribute), strings, and objects of the
   model, which define == without a hash and so cannot be counted *)
Inductive pyval := VNone | VStr (s : str) | VObj (n : nat).
Definition val_eqb (a b : pyval) : bool :=
  match a, b with
  | VNone, VNone => true
  | VStr s, VStr t => str_eqb s t
  | VObj n, VObj m => Nat.eqb n m
  | _, _ => false
  end.
Fixpoint group_eqb (a b : list pyval) : bool :=
  match a, b with
  | [], [] => true
  | x :: a, y :: b => val_eqb x y && group_eqb a b
  | _, _ => false
  end.
Definition hashable (l : list pyval) : bool := forallb (fun v => match v with VObj _ => false | _ => true end) l.

(* counts[group] += 1 *)
Definition counter := list (list pyval * nat).
Definition count1 (c : counter) (g : list pyval) : res counter :=
  if hashable g
  then Ok (dset_ group_eqb c g (S (match dget_ group_eqb c g with Some n => n | None => 0 end)))
  else Err TypeError.
(* most_common(): sorted by count, descending, stable *)
Definition most_common (c : counter) : counter := ssort (fun a b => Nat.ltb (snd b) (snd a)) c.
(* tally_pattern, xigt_query.py:119-127: the matches and what the subquery
   gives for each *)
Section Tally.
Context {M : Type} (sub : M -> res (list pyval)).
Fixpoint tally_loop (ms : list M) (c : counter) : res counter :=
  match ms with
  | [] => Ok c
  | m :: ms => do g <- sub m; do c <- count1 c g; tally_loop ms c
  end.
Definition tally (matches : res (list M)) : res counter :=
  do ms <- matches; do c <- tally_loop ms []; Ok (most_common c).
End Tally.
(* unique_pattern, lines 130-132, and count_pattern, lines 135-137 *)
Definition unique (matches : res (list pyval)) : res nat :=
  do ms <- matches; do c <- tally_loop (fun v => Ok [v]) ms []; Ok (length c).
Definition count (matches : res (list pyval)) : res nat := do ms <- matches; Ok (length ms).
