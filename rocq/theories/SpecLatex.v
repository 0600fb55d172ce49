(* Specification of the LaTeX exporter.  No proofs here. *)
From Verif Require Import PyStr Ref Model Value Latex.

(* ---------- escaping ---------- *)

(* how each special character is to be written *)
Inductive escapes : char -> str -> Prop :=
| esc_backslash : escapes (Ch "\") (L "\textbackslash")
| esc_tilde : escapes (Ch "~") (L "\textasciitilde")
| esc_caret : escapes (Ch "^") (L "\textasciicircum")
| esc_symbol c : In c (L "&%$#_{}") -> escapes c [Ch "\"; c]
| esc_other c : ~ In c (L "\~^&%$#_{}") -> escapes c [c].

(* How TeX reads plain text.  A backslash begins a control sequence: it takes
   all letters that follow, and then the blanks after them; if no letter
   follows, it takes one character.  The three control words of the exporter and
   the escaped characters print a character; of other control sequences nothing
   is known (None), nor of a special character that is not escaped. *)
Definition tex_blank (c : char) : bool := existsb (N.eqb c) [32; 9; 10; 13]%N.
Definition tex_special (c : char) : bool := char_in c (L "~^&%$#_{}").
Definition control_word (w : str) : option str :=
  if str_eqb w (L "textbackslash") then Some (L "\")
  else if str_eqb w (L "textasciitilde") then Some (L "~")
  else if str_eqb w (L "textasciicircum") then Some (L "^") else None.
Definition control_symbol (c : char) : option str :=
  if char_in c (L "&%$#_{}") then Some [c] else None.

Fixpoint take_while (p : char -> bool) (s : str) : str :=
  match s with c :: s' => if p c then c :: take_while p s' else [] | [] => [] end.
Fixpoint drop_while (p : char -> bool) (s : str) : str :=
  match s with c :: s' => if p c then drop_while p s' else s | [] => [] end.

(* [typesets letter s t]: TeX reads s as the text t *)
Inductive typesets (letter : char -> bool) : str -> str -> Prop :=
| ts_nil : typesets letter [] []
| ts_word s t p : letter (hd 0%N s) = true -> s <> [] ->
    control_word (take_while letter s) = Some p ->
    typesets letter (drop_while tex_blank (drop_while letter s)) t ->
    typesets letter (Ch "\" :: s) (p ++ t)
| ts_symbol c s t p : letter c = false -> control_symbol c = Some p -> typesets letter s t ->
    typesets letter (Ch "\" :: c :: s) (p ++ t)
| ts_char c s t : c <> Ch "\" -> tex_special c = false -> typesets letter s t ->
    typesets letter (c :: s) (c :: t).

(* the letters of TeX: at least the ASCII ones; no blank and no special character *)
Definition tex_letters (letter : char -> bool) : Prop :=
  (forall c, is_letter c = true -> letter c = true)
  /\ (forall c, tex_blank c = true \/ tex_special c = true \/ c = Ch "\" -> letter c = false).

(* a backslash, tilde or caret directly followed by a letter or a blank *)
Definition runs_on (letter : char -> bool) (s : str) : Prop :=
  exists a x y b, s = a ++ x :: y :: b /\ In x (L "\~^") /\ (letter y = true \/ tex_blank y = true).

(* ---------- the table ---------- *)

Section Table.
Context {U : Unicode} {A : Type} (idof : A -> option str) (expr : A -> option str).

(* x has a reference, but it names nothing *)
Definition unaligned (x : A) : Prop := exists e, expr x = Some e /\ ids e = [].
(* the first id x refers to is that of the item at position p of the tier above,
   the last that of the item at position q *)
Definition covers (above : list A) (x : A) (p q : nat) : Prop :=
  exists e i is a b, expr x = Some e /\ ids e = i :: is
    /\ nth_error above p = Some a /\ idof a = Some i
    /\ nth_error above q = Some b /\ idof b = Some (last is i).
(* The items of a tier are aligned in order with the tier above: the spans they
   cover begin ever later; unaligned items are only at the ends. *)
Definition ordered (above items : list A) : Prop :=
  exists pre mid post, items = pre ++ mid ++ post
  /\ Forall unaligned pre /\ Forall unaligned post
  /\ (forall x, In x mid -> exists p q, covers above x p q /\ p <= q)
  /\ (forall l x y r p q p' q', mid = l ++ x :: y :: r -> covers above x p q -> covers above y p' q' -> p <= p').
(* the same without saying where unaligned items may stand *)
Definition ordered_loosely (above items : list A) : Prop :=
  (forall x, In x items -> unaligned x \/ exists p q, covers above x p q /\ p <= q)
  /\ (forall m n x y p q p' q', m < n -> nth_error items m = Some x -> nth_error items n = Some y ->
        covers above x p q -> covers above y p' q' -> p <= p').
(* the items have ids, all different *)
Definition identified (items : list A) : Prop :=
  (forall x, In x items -> idof x <> None) /\ NoDup (map idof items).
(* every tier but the first is aligned in order with the one above it *)
Fixpoint ordered_stack (above : list A) (tiers : list (list A)) : Prop :=
  match tiers with
  | [] => True
  | t :: tiers' => identified t /\ ordered above t /\ ordered_stack t tiers'
  end.

(* the items in row k of a column; in row k of a table *)
Definition row (k : nat) (c : list (list A)) : list A := nth k c [].
Definition whole_row (k : nat) (cols : list (list (list A))) : list A := flat_map (row k) cols.
End Table.

Section Ends.
Context {U : Unicode} {A : Type} (expr : A -> option str).
(* the last item is aligned *)
Definition ends_aligned (items : list A) : Prop := forall l x, items = l ++ [x] -> ~ unaligned expr x.
End Ends.

(* ---------- the text ---------- *)

Section Text.
Context {U : Unicode}.
(* what is printed for an item; the substitutions for items and lines of a type of tier *)
Context (content : titem -> str) (isub tsub : str -> str -> str).

Definition type_of (t : tier) : str := match a_type (t_attrs t) with Some ty => ty | None => [] end.
Definition cell (ty : str) (items : list titem) : str :=
  L "{" ++ join (L " ") (map (fun x => isub ty (escape (content x))) items) ++ L "}".
(* a line for the tier t with n columns: the items of t, in order, divided among the columns *)
Definition line_for (n : nat) (t : tier) (l : str) : Prop :=
  exists parts, length parts = n /\ List.concat parts = map (fun i => (t, i)) (t_items t)
    /\ l = tsub (type_of t) (join (L " ") (map (cell (type_of t)) parts) ++ L "\\").
(* the lines for translation tiers *)
Definition trans_lines (t : tier) : list str :=
  match t_items t with
  | i :: _ => if opt_eqb str_eqb (a_type (t_attrs t)) (Some (L "translations"))
              then [L "\trans " ++ tsub (type_of t) (escape (content (t, i)))] else []
  | [] => []
  end.
(* the ids and references of items *)
Definition titem_id (x : titem) : option str := a_id (it_attrs (snd x)).
Definition titem_expr (x : titem) : option str := item_expr (snd x).
Definition titems (t : tier) : list titem := map (fun i => (t, i)) (t_items t).
End Text.
