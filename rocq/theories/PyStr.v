(* Python built-ins used by xigt: strings as lists of code points, character
   classes, int(), slices, list indexing, dicts, exceptions.
   This file models the language, not the repository: it is part of the
   trusted base (see DESIGN.md).  No proofs here, see PyStrFacts.v. *)
From Coq Require Export String Ascii.
From Coq Require Export List Arith NArith ZArith Lia Bool.
Export ListNotations.
#[global] Close Scope string_scope.
#[global] Open Scope list_scope.
#[global] Open Scope nat_scope.

(* ---------- characters and strings ---------- *)

Notation char := N (only parsing).
Notation str := (list N) (only parsing).

(* string literals: L "abc" *)
Definition L (s : string) : str := map N_of_ascii (list_ascii_of_string s).
(* one-character literals: Ch "a" *)
Definition Ch (a : ascii) : char := N_of_ascii a.
Arguments L : simpl never.
Arguments Ch : simpl never.

Fixpoint str_eqb (a b : str) : bool :=
  match a, b with
  | [], [] => true
  | x :: a', y :: b' => N.eqb x y && str_eqb a' b'
  | _, _ => false
  end.

Definition opt_eqb {A} (eqb : A -> A -> bool) (a b : option A) : bool :=
  match a, b with
  | None, None => true
  | Some x, Some y => eqb x y
  | _, _ => false
  end.

(* str.__lt__: code point order *)
Fixpoint str_ltb (a b : str) : bool :=
  match a, b with
  | [], [] => false
  | [], _ :: _ => true
  | _ :: _, [] => false
  | x :: a', y :: b' => N.ltb x y || (N.eqb x y && str_ltb a' b')
  end.

(* Character classes.  A code point is a decimal digit (with its value), some
   other word character, a white space character, or none of these.  In
   Python's re and str these classes are: \d = str.isdecimal,
   \w = str.isalnum or "_" (contains \d), \s = str.isspace (disjoint from \w). *)
Inductive uclass := UDigit (v : N) | UWord | USpace | UOther.

(* The classes of the code points >= 128 are a parameter (the Unicode data
   base of the running interpreter); nothing is assumed about it. *)
Class Unicode := { hi : N -> uclass }.

Definition in_range (lo hi c : N) : bool := N.leb lo c && N.leb c hi.

(* The ASCII part: digits 0-9; letters and underscore; the white space
   characters \t \n \v \f \r, 0x1c-0x1f and space. *)
Definition ascii_class (c : N) : uclass :=
  if in_range 48 57 c then UDigit (c - 48)
  else if in_range 65 90 c || in_range 97 122 c || N.eqb c 95 then UWord
  else if in_range 9 13 c || in_range 28 32 c then USpace
  else UOther.

Section Classes.
Context {U : Unicode}.

Definition cclass (c : N) : uclass :=
  if N.ltb c 128 then ascii_class c else hi c.

Definition is_digit (c : N) : bool :=
  match cclass c with UDigit _ => true | _ => false end.
Definition is_word (c : N) : bool :=
  match cclass c with UDigit _ | UWord => true | _ => false end.
Definition is_space (c : N) : bool :=
  match cclass c with USpace => true | _ => false end.
Definition is_letter (c : N) : bool := in_range 65 90 c || in_range 97 122 c.  (* [a-zA-Z] *)

Definition digit_val (c : N) : option N :=
  match cclass c with UDigit v => Some v | _ => None end.

(* str.lstrip() / rstrip() / strip() without argument *)
Fixpoint lstrip (s : str) : str :=
  match s with
  | [] => []
  | c :: s' => if is_space c then lstrip s' else s
  end.
Definition rstrip (s : str) : str := rev (lstrip (rev s)).
Definition strip (s : str) : str := rstrip (lstrip s).

(* int(s) for a string: optional white space, optional sign, decimal digits
   with single underscores between digits.  None = ValueError.  (The limit on
   the number of digits of recent interpreters is not modelled.) *)
Fixpoint int_digits (acc : N) (need_digit : bool) (s : str) : option N :=
  match s with
  | [] => if need_digit then None else Some acc
  | c :: s' =>
    match digit_val c with
    | Some d => int_digits (acc * 10 + d) false s'
    | None => if N.eqb c 95 && negb need_digit then int_digits acc true s' else None
    end
  end.

Definition py_int (s : str) : option Z :=
  match strip s with
  | c :: s' =>
    if N.eqb c 45 then option_map (fun n => Z.opp (Z.of_N n)) (int_digits 0 true s')
    else if N.eqb c 43 then option_map Z.of_N (int_digits 0 true s')
    else option_map Z.of_N (int_digits 0 true (c :: s'))
  | [] => None
  end.
End Classes.

(* str.startswith *)
Fixpoint startswith (p s : str) : bool :=
  match p, s with
  | [], _ => true
  | x :: p', y :: s' => N.eqb x y && startswith p' s'
  | _ :: _, [] => false
  end.

Definition endswith (p s : str) : bool := startswith (rev p) (rev s).

(* "c in s" for a one-character string *)
Definition char_in (c : char) (s : str) : bool := existsb (N.eqb c) s.

(* s.split(c, 1) for a one-character separator known to occur: None if absent *)
Fixpoint split1 (c : char) (s : str) : option (str * str) :=
  match s with
  | [] => None
  | x :: s' =>
    if N.eqb x c then Some ([], s')
    else option_map (fun p => (x :: fst p, snd p)) (split1 c s')
  end.

(* sep.join(l) *)
Fixpoint join (sep : str) (l : list str) : str :=
  match l with
  | [] => []
  | [x] => x
  | x :: l' => x ++ sep ++ join sep l'
  end.

(* str(n) for a non-negative / arbitrary integer *)
Fixpoint dec_digits (fuel : nat) (n : N) : str :=
  match fuel with
  | 0 => []
  | S f => if N.ltb n 10 then [48 + n]%N
           else dec_digits f (n / 10) ++ [48 + n mod 10]%N
  end.
Definition dec_N (n : N) : str := dec_digits (S (N.to_nat (N.log2 n))) n.
Definition dec_nat (n : nat) : str := dec_N (N.of_nat n).
Definition dec_Z (z : Z) : str :=
  match z with Zneg p => 45%N :: dec_N (Npos p) | _ => dec_N (Z.to_N z) end.

(* ---------- sequences ---------- *)

(* normalise a slice bound: negative counts from the end, clamp to [0, len] *)
Definition slice_bound (len : nat) (i : Z) : nat :=
  if (i <? 0)%Z then Z.to_nat (i + Z.of_nat len) else Nat.min (Z.to_nat i) len.

(* l[a:b] (step 1); None = bound omitted *)
Definition py_slice {A} (a b : option Z) (l : list A) : list A :=
  let n := List.length l in
  let a' := match a with Some i => slice_bound n i | None => 0 end in
  let b' := match b with Some i => slice_bound n i | None => n end in
  firstn (b' - a') (skipn a' l).

(* the position denoted by an index in l[i]; None = IndexError *)
Definition py_index (len : nat) (i : Z) : option nat :=
  let j := if (i <? 0)%Z then (i + Z.of_nat len)%Z else i in
  if (0 <=? j)%Z && (j <? Z.of_nat len)%Z then Some (Z.to_nat j) else None.

(* ---------- dicts: association lists in insertion order ---------- *)

Section Dict.
Context {K A : Type} (keqb : K -> K -> bool).

Fixpoint dget_ (d : list (K * A)) (k : K) : option A :=
  match d with
  | [] => None
  | (k', v) :: d' => if keqb k k' then Some v else dget_ d' k
  end.

Fixpoint dset_ (d : list (K * A)) (k : K) (v : A) : list (K * A) :=
  match d with
  | [] => [(k, v)]
  | (k', v') :: d' => if keqb k k' then (k', v) :: d' else (k', v') :: dset_ d' k v
  end.

Fixpoint ddel_ (d : list (K * A)) (k : K) : list (K * A) :=
  match d with
  | [] => []
  | (k', v') :: d' => if keqb k k' then ddel_ d' k else (k', v') :: ddel_ d' k
  end.

(* dict(pairs) / d.update(pairs) *)
Definition dupdate_ (d : list (K * A)) (l : list (K * A)) : list (K * A) :=
  fold_left (fun d kv => dset_ d (fst kv) (snd kv)) l d.
End Dict.

Definition dict A := list (str * A).
Definition dget {A} (d : dict A) k := dget_ str_eqb d k.
Definition dset {A} (d : dict A) k v := dset_ str_eqb d k v.
Definition ddel {A} (d : dict A) k := ddel_ str_eqb d k.
Definition dupdate {A} (d l : dict A) := dupdate_ str_eqb d l.
Definition dmem {A} (d : dict A) k : bool := match dget d k with Some _ => true | None => false end.

(* dict.__eq__ on string-valued dicts: same length and every entry of the first in the second *)
Definition dict_eqb {A} (eqb : A -> A -> bool) (a b : dict A) : bool :=
  Nat.eqb (List.length a) (List.length b)
  && forallb (fun kv => opt_eqb eqb (Some (snd kv)) (dget b (fst kv))) a.

(* ---------- exceptions ---------- *)

Inductive exn :=
| KeyError | IndexError | ValueError | TypeError | AttributeError
| AssertionError | StopIteration | RecursionError | RuntimeError | ParseError
| XigtError | XigtStructureError | XigtLookupError | XigtPathError | XigtImportError
| NameError | OSError | SystemExit.

Inductive res (A : Type) := Ok (a : A) | Err (e : exn).
Arguments Ok {A} a. Arguments Err {A} e.

Definition bind {A B} (r : res A) (f : A -> res B) : res B :=
  match r with Ok a => f a | Err e => Err e end.
Notation "'do' x <- r ; k" := (bind r (fun x => k)) (at level 200, x pattern, r at level 100, k at level 200).

Fixpoint mapM {A B} (f : A -> res B) (l : list A) : res (list B) :=
  match l with
  | [] => Ok []
  | x :: l' => do y <- f x; do ys <- mapM f l'; Ok (y :: ys)
  end.

Definition is_ok {A} (r : res A) : bool := match r with Ok _ => true | Err _ => false end.

(* the reference attribute names, xigt/consts.py:3-7 *)
Definition ID := L "id".
Definition TYPE := L "type".
Definition ALIGNMENT := L "alignment".
Definition CONTENT := L "content".
Definition SEGMENTATION := L "segmentation".
