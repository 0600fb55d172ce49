(* A backtracking regular expression engine with the ordered-choice semantics
   of Python's re (sre): alternatives and repetition counts are tried in order,
   the first overall success wins.  Only what the repository's patterns use:
   character classes, ^, $ (without MULTILINE), sequence, alternation,
   greedy/lazy *, +, ?, capturing groups.  Language model, no proofs here.
   Simplification: an iteration of a repetition must consume input (all
   repeated bodies in the repository's patterns do). *)
From Verif Require Import PyStr.

Inductive re :=
| REps
| RChr (p : N -> bool)            (* one character of a class *)
| RBol                            (* ^ : start of the string *)
| REol                            (* $ : end, or before a final newline *)
| RSeq (a b : re)
| RAlt (a b : re)
| RStar (greedy : bool) (a : re)  (* a* / a*? *)
| RGroup (n : nat) (a : re).

Definition RPlus g a := RSeq a (RStar g a).
Definition ROpt a := RAlt a REps.   (* a? (greedy) *)
Definition RLit (c : ascii) := RChr (N.eqb (Ch c)).
Fixpoint RStr (s : str) : re :=
  match s with [] => REps | [c] => RChr (N.eqb c) | c :: s' => RSeq (RChr (N.eqb c)) (RStr s') end.

(* matcher state: position, rest of the input, captured groups (latest first) *)
Record mst := { m_pos : nat; m_rest : str; m_caps : list (nat * str) }.

Definition at_eol (s : str) : bool :=
  match s with [] => true | [c] => N.eqb c 10 | _ => false end.

Fixpoint rmatch {A} (r : re) (s : mst) (k : mst -> option A) {struct r} : option A :=
  match r with
  | REps => k s
  | RChr p =>
    match m_rest s with
    | c :: t => if p c then k {| m_pos := S (m_pos s); m_rest := t; m_caps := m_caps s |} else None
    | [] => None
    end
  | RBol => if Nat.eqb (m_pos s) 0 then k s else None
  | REol => if at_eol (m_rest s) then k s else None
  | RSeq a b => rmatch a s (fun s' => rmatch b s' k)
  | RAlt a b => match rmatch a s k with Some x => Some x | None => rmatch b s k end
  | RStar g a =>
    (fix loop (n : nat) (s : mst) {struct n} : option A :=
       match n with
       | 0 => k s
       | S n' =>
         let again := fun _ : unit => rmatch a s (fun s' =>
                        if Nat.ltb (List.length (m_rest s')) (List.length (m_rest s))
                        then loop n' s' else None) in
         if g then match again tt with Some x => Some x | None => k s end
         else match k s with Some x => Some x | None => again tt end
       end) (List.length (m_rest s)) s
  | RGroup i a =>
    rmatch a s (fun s' =>
      k {| m_pos := m_pos s'; m_rest := m_rest s';
           m_caps := (i, firstn (m_pos s' - m_pos s) (m_rest s)) :: m_caps s' |})
  end.

(* a successful match: start and end position, rest after it, groups *)
Record rmatched := { r_start : nat; r_end : nat; r_rest : str; r_caps : list (nat * str) }.

(* Pattern.match at a position; [adv] forbids an empty match *)
Definition match_at (adv : bool) (r : re) (pos : nat) (s : str) : option rmatched :=
  rmatch r {| m_pos := pos; m_rest := s; m_caps := [] |}
    (fun s' => if adv && Nat.eqb (m_pos s') pos then None
               else Some {| r_start := pos; r_end := m_pos s';
                            r_rest := m_rest s'; r_caps := m_caps s' |}).

(* Pattern.search from a position *)
Fixpoint search_from (adv : bool) (r : re) (pos : nat) (s : str) {struct s} : option rmatched :=
  match match_at adv r pos s with
  | Some m => Some m
  | None => match s with [] => None | _ :: s' => search_from false r (S pos) s' end
  end.

(* Pattern.finditer: after an empty match the next match starting at the same
   position must not be empty (Python >= 3.7) *)
Fixpoint finditer_ (fuel : nat) (adv : bool) (r : re) (pos : nat) (s : str) : list rmatched :=
  match fuel with
  | 0 => []
  | S f =>
    match search_from adv r pos s with
    | None => []
    | Some m => m :: finditer_ f (Nat.eqb (r_end m) (r_start m)) r (r_end m) (r_rest m)
    end
  end.

Definition finditer (r : re) (s : str) : list rmatched :=
  finditer_ (S (S (2 * List.length s))) false r 0 s.

(* group n of a match; an unmatched group is '' in findall *)
Definition cap (n : nat) (m : rmatched) : option str := dget_ Nat.eqb (r_caps m) n.
Definition capd (n : nat) (m : rmatched) : str := match cap n m with Some s => s | None => [] end.

(* Pattern.findall for patterns with groups 1..3, resp. without groups (the
   pattern is then wrapped in group 0) *)
Definition findall3 (r : re) (s : str) : list (str * str * str) :=
  map (fun m => (capd 1 m, capd 2 m, capd 3 m)) (finditer r s).
Definition findall0 (r : re) (s : str) : list str :=
  map (capd 0) (finditer (RGroup 0 r) s).
(* Pattern.match(s) from position 0 *)
Definition re_match (r : re) (s : str) : option rmatched := match_at false r 0 s.
