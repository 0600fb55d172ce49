(* Names of elements and attributes that can be compared: _QName of
   xigt/codecs/xigtxml.py, lines 85-146.  Definitions only.

   Simplifications: a name has the sort key xigt_attrsort (as at lines 368-384) or
   none (line 187), no other; hash of texts is a parameter. *)
From Verif Require Import PyStr AttrOrder.

(* QName.__init__ of ElementTree, called at line 87: a URI is put in braces before the tag *)
Definition name_text (text_or_uri : str) (tag : option str) : str :=
  match tag with None | Some [] => text_or_uri | Some t => L "{" ++ text_or_uri ++ L "}" ++ t end.
(* __init__, lines 86-88 *)
Record qname := { q_text : str; q_sortkey : bool }.
Definition new_qname (text_or_uri : str) (tag : option str) (sortkey : bool) : qname := {| q_text := name_text text_or_uri tag; q_sortkey := sortkey |}.
(* __hash__, lines 89-90: QName.__hash__ is hash(self.text) *)
Definition qname_hash (h : str -> Z) (q : qname) : Z := h (q_text q).

(* what names are compared with: names, texts, and anything else (such as None) *)
Inductive operand := OName (q : qname) | OText (s : str) | OOther.
Inductive cmpop := CLt | CLe | CGt | CGe | CEq | CNe.
(* comparisons of texts *)
Definition str_op (op : cmpop) (a b : str) : bool :=
  match op with
  | CLt => str_ltb a b | CLe => negb (str_ltb b a) | CGt => str_ltb b a | CGe => negb (str_ltb a b)
  | CEq => str_eqb a b | CNe => negb (str_eqb a b)
  end.
(* of truth values, False < True *)
Definition bool_op (op : cmpop) (x y : bool) : bool :=
  match op with
  | CLt => negb x && y | CLe => negb x || y | CGt => x && negb y | CGe => x || negb y
  | CEq => Bool.eqb x y | CNe => negb (Bool.eqb x y)
  end.
(* of tuples: the first elements that differ are compared; here the truth values, then the text *)
Fixpoint tuple_op (op : cmpop) (a b : list bool) (rest : bool) : bool :=
  match a, b with
  | x :: a, y :: b => if Bool.eqb x y then tuple_op op a b rest else bool_op op x y
  | _, _ => rest
  end.
Definition key_op (op : cmpop) (a b : list bool * str) : bool := tuple_op op (fst a) (fst b) (str_op op (snd a) (snd b)).
(* __lt__ 91-97, __le__ 98-104, __gt__ 105-111, __ge__ 112-118, __eq__ 119-125, __ne__
   126-132, which differ in the operator only.  Of anything else xigt_attrsort calls
   startswith, which it does not have; texts are not ordered with it, and not equal to it. *)
Definition compare_text (op : cmpop) (sortkey : bool) (self other : str) : bool :=
  if sortkey then key_op op (attr_key self) (attr_key other) else str_op op self other.
Definition qname_op (op : cmpop) (self : qname) (other : operand) : res bool :=
  match other with
  | OName q => Ok (compare_text op (q_sortkey self) (q_text self) (q_text q))
  | OText s => Ok (compare_text op (q_sortkey self) (q_text self) s)
  | OOther =>
    if q_sortkey self then Err AttributeError
    else match op with CEq => Ok false | CNe => Ok true | _ => Err TypeError end
  end.
(* __cmp__, lines 134-146, of names and texts *)
Definition qname_cmp (self : qname) (other : str) : Z :=
  if compare_text CLt (q_sortkey self) (q_text self) other then (-1)%Z
  else if compare_text CGt (q_sortkey self) (q_text self) other then 1%Z else 0%Z.
