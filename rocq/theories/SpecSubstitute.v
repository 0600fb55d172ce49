(* Specification of substitutions.  No proofs here. *)
From Verif Require Import PyStr Regex Substitute.

(* scanning: where the expression matches its match is replaced, and scanning goes on
   behind it; where it does not the character is kept.  After an empty match the next
   one at the same place has to be longer ([adv]). *)
Inductive scanned (r : re) (f : rmatched -> res str) : bool -> nat -> str -> str -> Prop :=
| scan_end adv pos : match_at adv r pos [] = None -> scanned r f adv pos [] []
| scan_skip adv pos c s out : match_at adv r pos (c :: s) = None -> scanned r f false (S pos) s out -> scanned r f adv pos (c :: s) (c :: out)
| scan_match adv pos s m v out : match_at adv r pos s = Some m -> f m = Ok v ->
    scanned r f (Nat.eqb (r_end m) (r_start m)) (r_end m) (r_rest m) out -> scanned r f adv pos s (v ++ out).
(* every text p is replaced by t, from left to right *)
Inductive replaced (p t : str) : str -> str -> Prop :=
| rep_end : replaced p t [] []
| rep_here s out : replaced p t s out -> replaced p t (p ++ s) (t ++ out)
| rep_skip c s out : (forall s', c :: s <> p ++ s') -> replaced p t s out -> replaced p t (c :: s) (c :: out).
(* how a text is written as a template *)
Definition quoted (t : str) : str := flat_map (fun c => if N.eqb c (Ch "\") then [c; c] else [c]) t.

(* what a template says: its first token, and what comes behind it *)
Definition dec_digit (c : char) : Prop := (48 <= c <= 57)%N.
Definition oct_digit (c : char) : Prop := (48 <= c <= 55)%N.
Definition ascii_letter (c : char) : Prop := (65 <= c <= 90)%N \/ (97 <= c <= 122)%N.
Definition starts (P : char -> Prop) (s : str) : Prop := exists c r, s = c :: r /\ P c.
Definition val (c : char) : nat := N.to_nat (c - 48).
Inductive token (ng : nat) : str -> list part -> str -> Prop :=
| tok_char c s : c <> Ch "\" -> token ng (c :: s) [Lit c] s
(* \a and the like, and two backslashes *)
| tok_escape c e s : In (c, e) [(Ch "a", 7); (Ch "b", 8); (Ch "f", 12); (Ch "n", 10); (Ch "r", 13); (Ch "t", 9); (Ch "v", 11); (Ch "\", 92)]%N ->
    token ng (Ch "\" :: c :: s) [Lit e] s
(* a backslash before other punctuation stays *)
| tok_other c s : c <> Ch "\" -> ~ ascii_letter c -> ~ dec_digit c -> token ng (Ch "\" :: c :: s) [Lit (Ch "\"); Lit c] s
(* octal: three digits, or a zero and as many of two as there are *)
| tok_octal a b c s : a <> Ch "0" -> oct_digit a -> oct_digit b -> oct_digit c -> 64 * val a + 8 * val b + val c <= 255 ->
    token ng (Ch "\" :: a :: b :: c :: s) [Lit (N.of_nat (64 * val a + 8 * val b + val c))] s
| tok_zero2 a b s : oct_digit a -> oct_digit b -> token ng (Ch "\" :: Ch "0" :: a :: b :: s) [Lit (N.of_nat (8 * val a + val b))] s
| tok_zero1 a s : oct_digit a -> ~ starts oct_digit s -> token ng (Ch "\" :: Ch "0" :: a :: s) [Lit (N.of_nat (val a))] s
| tok_zero s : ~ starts oct_digit s -> token ng (Ch "\" :: Ch "0" :: s) [Lit 0%N] s
(* groups: one digit, or two that are not the first of three octal ones; or between < and > *)
| tok_group1 a s : a <> Ch "0" -> dec_digit a -> ~ starts dec_digit s -> val a <= ng -> token ng (Ch "\" :: a :: s) [Grp (val a)] s
| tok_group2 a b s : a <> Ch "0" -> dec_digit a -> dec_digit b -> ~ (oct_digit a /\ oct_digit b /\ starts oct_digit s) -> 10 * val a + val b <= ng ->
    token ng (Ch "\" :: a :: b :: s) [Grp (10 * val a + val b)] s
| tok_group n s : n <> [] -> Forall dec_digit n -> fold_left (fun v c => 10 * v + val c) n 0 <= ng ->
    token ng (Ch "\" :: Ch "g" :: Ch "<" :: n ++ Ch ">" :: s) [Grp (fold_left (fun v c => 10 * v + val c) n 0)] s.
Inductive says (ng : nat) : str -> list part -> Prop :=
| says_end : says ng [] []
| says_more s p r q : token ng s p r -> says ng r q -> says ng s (p ++ q).
