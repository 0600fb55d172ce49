(* Model of the substitutions that a configuration of the exporters can ask for,
   xigt/exporters/util.py lines 3-12, and of re.sub.  Definitions only.

   Parameters: the compiler of regular expressions, to those of Regex.v, and the
   evaluation of a lambda expression.  Simplifications, besides those of Regex.v:
   re.error is represented by ValueError; a group name in a template is a number in
   ASCII digits (the expressions of Regex.v have no named groups), and everything else
   is refused with ValueError. *)
From Verif Require Import PyStr Regex.

(* ---------- templates: parse_template of CPython's re._parser ---------- *)

Inductive part := Lit (c : char) | Grp (n : nat).
Definition backslash : char := Ch "\".
(* ESCAPES *)
Definition escapes : list (char * char) :=
  [(Ch "a", 7); (Ch "b", 8); (Ch "f", 12); (Ch "n", 10); (Ch "r", 13); (Ch "t", 9); (Ch "v", 11); (backslash, backslash)]%N.
Definition letter (c : char) : bool := in_range 65 90 c || in_range 97 122 c.
Definition octal (c : char) : bool := in_range 48 55 c.
Definition digit (c : char) : bool := in_range 48 57 c.
Definition dig (c : char) : nat := N.to_nat (c - 48).
(* addgroup *)
Definition group_ref (ng n : nat) : res part := if ng <? n then Err ValueError else Ok (Grp n).
Definition number (s : str) : nat := fold_left (fun n c => 10 * n + dig c) s 0.
(* name = s.getuntil('>'): the name, and what comes behind *)
Fixpoint until_gt (s : str) : option (str * str) :=
  match s with
  | [] => None
  | c :: s => if N.eqb c (Ch ">") then Some ([], s) else match until_gt s with Some (n, r) => Some (c :: n, r) | None => None end
  end.
(* \g<name> *)
Definition named (ng : nat) (s : str) : res (part * str) :=
  match s with
  | c :: s =>
    if N.eqb c (Ch "<") then
      match until_gt s with
      | Some (n, r) => match n with [] => Err ValueError | _ => if forallb digit n then do p <- group_ref ng (number n); Ok (p, r) else Err ValueError end
      | None => Err ValueError
      end
    else Err ValueError
  | [] => Err ValueError
  end.
(* chr(int(..., 8)) of up to three digits; the value is at most 0o377 *)
Definition oct (ds : list char) : res part :=
  let v := fold_left (fun n c => 8 * n + N.to_nat (c - 48)) ds 0 in
  if 255 <? v then Err ValueError else Ok (Lit (N.of_nat v)).
(* \0 and what follows: up to two octal digits more, of which the value is taken *)
Definition zero (s : str) : res (part * str) :=
  match s with
  | a :: b :: r => if octal a then if octal b then do p <- oct [a; b]; Ok (p, r) else do p <- oct [a]; Ok (p, b :: r) else Ok (Lit 0%N, s)
  | [a] => if octal a then do p <- oct [a]; Ok (p, []) else Ok (Lit 0%N, s)
  | [] => Ok (Lit 0%N, [])
  end.
(* \1 to \9 and what follows: an octal escape if there are three octal digits, else
   a group of one or two digits *)
Definition numbered (ng : nat) (c : char) (s : str) : res (part * str) :=
  match s with
  | a :: s' =>
    if digit a then
      match s' with
      | b :: r => if octal c && octal a && octal b then do p <- oct [c; a; b]; Ok (p, r) else do p <- group_ref ng (number [c; a]); Ok (p, s')
      | [] => do p <- group_ref ng (number [c; a]); Ok (p, s')
      end
    else do p <- group_ref ng (dig c); Ok (p, s)
  | [] => do p <- group_ref ng (dig c); Ok (p, s)
  end.
Fixpoint template_ (fuel ng : nat) (s : str) : res (list part) :=
  match fuel with
  | 0 => Ok []
  | S fuel =>
    match s with
    | [] => Ok []
    | c :: s =>
      if N.eqb c backslash then
        match s with
        | [] => Err ValueError
        | c :: s =>
          if N.eqb c (Ch "g") then do (p, s) <- named ng s; do l <- template_ fuel ng s; Ok (p :: l)
          else if N.eqb c (Ch "0") then do (p, s) <- zero s; do l <- template_ fuel ng s; Ok (p :: l)
          else if digit c then do (p, s) <- numbered ng c s; do l <- template_ fuel ng s; Ok (p :: l)
          else match dget_ N.eqb escapes c with
          | Some e => do l <- template_ fuel ng s; Ok (Lit e :: l)
          | None => if letter c then Err ValueError else do l <- template_ fuel ng s; Ok (Lit backslash :: Lit c :: l)
          end
        end
      else do l <- template_ fuel ng s; Ok (Lit c :: l)
    end
  end.
Definition template (ng : nat) (s : str) : res (list part) := template_ (S (length s)) ng s.

(* ---------- re.sub ---------- *)

(* the number of groups *)
Fixpoint group_count (r : re) : nat :=
  match r with
  | RSeq a b | RAlt a b => Nat.max (group_count a) (group_count b)
  | RStar _ a => group_count a
  | RGroup n a => Nat.max n (group_count a)
  | _ => 0
  end.
(* Match.expand: a group that did not take part is empty *)
Definition expand (ps : list part) (m : rmatched) : str :=
  flat_map (fun p => match p with Lit c => [c] | Grp n => capd n m end) ps.
(* Pattern.sub: the texts between the matches, and what replaces these *)
Fixpoint splice (f : rmatched -> res str) (last : nat) (rest : str) (l : list rmatched) : res str :=
  match l with
  | [] => Ok rest
  | m :: l => do v <- f m; do out <- splice f (r_end m) (r_rest m) l; Ok (firstn (r_start m - last) rest ++ v ++ out)
  end.
(* group 0 is the whole match *)
Definition sub_with (r : re) (f : rmatched -> res str) (s : str) : res str := splice f 0 s (finditer (RGroup 0 r) s).
Definition sub_template (r : re) (t : str) (s : str) : res str :=
  do ps <- template (group_count r) t; sub_with r (fun m => Ok (expand ps m)) s.

(* ---------- sub, xigt/exporters/util.py:3-12 ---------- *)

(* sub_pattern: a str, a list of two strs, or anything else *)
Inductive replacement := Template (t : str) | Lambda (args body : str) | Neither.
Definition substitutions := list (str * list (str * replacement)).
Section Sub.
Variable compile : str -> res re.
Variable evaluate : str -> str -> res (rmatched -> res str).
(* lines 8-11 *)
Definition sub_one (regex : str) (p : replacement) (s : str) : res str :=
  match p with
  | Template t => do r <- compile regex; sub_template r t s
  | Lambda args body => do f <- evaluate args body; do r <- compile regex; sub_with r f s
  | Neither => Ok s
  end.
Fixpoint sub_all (ps : list (str * replacement)) (s : str) : res str :=
  match ps with [] => Ok s | (regex, p) :: ps => do s <- sub_one regex p s; sub_all ps s end.
Fixpoint sub (s tier_type : str) (subs : substitutions) : res str :=
  match subs with
  | [] => Ok s
  | (tier_regex, ps) :: subs =>
    do r <- compile tier_regex;
    match re_match r tier_type with
    | None => sub s tier_type subs
    | Some _ => do s <- sub_all ps s; sub s tier_type subs
    end
  end.
End Sub.
