(* The order of attributes: xigt/codecs/xigtxml.py, lines 85-145 and 164-173.
   Definitions only.

   Until Python 3.7 ElementTree writes the attributes of an element sorted
   (sorted(elem.items())); the comparisons of _QName are there for it.  The keys
   of one element are distinct, so that values are never compared. *)
From Verif Require Import PyStr PySort XmlStd.

(* xigt_attrsort, lines 164-173: the tuple it returns, its six truth values first *)
Definition attr_key (a : str) : list bool * str :=
  ([negb (startswith (L "xmlns:") a); negb (str_eqb a (L "id")); negb (str_eqb a (L "type")); negb (str_eqb a (L "alignment"));
    negb (str_eqb a (L "content")); negb (str_eqb a (L "segmentation"))], a).
(* tuples: the first elements that differ decide; False < True *)
Fixpoint tuple_lt (a b : list bool) (rest : bool) : bool :=
  match a, b with
  | x :: a, y :: b => if Bool.eqb x y then tuple_lt a b rest else negb x && y
  | _, _ => rest
  end.
(* _QName.__lt__, lines 91-97, with sortkey = xigt_attrsort *)
Definition qname_lt (a b : str) : bool := tuple_lt (fst (attr_key a)) (fst (attr_key b)) (str_ltb (snd (attr_key a)) (snd (attr_key b))).
(* sorted(elem.items()) *)
Definition sorted_attrs (d : dict str) : dict str := ssort (fun a b => qname_lt (fst a) (fst b)) d.
Fixpoint sort_attrs (e : xelem) : xelem :=
  match e with XElem tag d text tail kids => XElem tag (sorted_attrs d) text tail (map sort_attrs kids) end.
