(* Model of the Xigt data model: xigt/model.py and xigt/metadata.py as trees.
   Definitions only.

   A tree is a snapshot of the object graph: a container is the list of its
   members (Container.v models the id index and how it is kept in step with the
   list), parents are given by position in the tree.  Attribute values are
   strings (simplification: Python allows any value). *)
From Verif Require Import PyStr.

(* XigtAttributeMixin, xigt/mixins.py:161-232: _nsmap None = inherited *)
Record attrs := { a_id : option str; a_type : option str; a_dict : dict str;
                  a_ns : option str; a_nsmap : option (dict str) }.

(* MetaChild, xigt/metadata.py:168-206 (id and type are None, line 173) *)
Inductive mchild := MChild (name : str) (at_ : attrs) (text : option str) (kids : list mchild).
(* Meta, xigt/metadata.py:131-165 *)
Record meta := { me_attrs : attrs; me_text : option str; me_kids : list mchild }.
(* Metadata, xigt/metadata.py:70-117 *)
Record metadata := { md_attrs : attrs; md_metas : list meta }.
(* Item, xigt/model.py:312-428 *)
Record item := { it_attrs : attrs; it_text : option str }.
(* Tier, xigt/model.py:243-309; t_md is XigtMetadataMixin._md *)
Record tier := { t_attrs : attrs; t_md : list metadata; t_items : list item }.
(* Igt, xigt/model.py:118-240 *)
Record igt := { g_attrs : attrs; g_md : list metadata; g_tiers : list tier }.
(* XigtCorpus, xigt/model.py:42-115, in mode FULL *)
Record corpus := { c_attrs : attrs; c_md : list metadata; c_igts : list igt }.

(* ---------- equality ---------- *)

(* all(a == b for a, b in zip(self, other)) with the length check,
   xigt/mixins.py:44-45 *)
Definition seq_eqb {A B} (eqb : A -> B -> bool) : list A -> list B -> bool :=
  fix go (a : list A) (b : list B) : bool :=
    match a, b with
    | [], [] => true
    | x :: a', y :: b' => eqb x y && go a' b'
    | _, _ => false
    end.

(* XigtAttributeMixin.__eq__, xigt/mixins.py:175-185 (nsmap is not compared) *)
Definition attrs_eqb (a b : attrs) : bool :=
  opt_eqb str_eqb (a_id a) (a_id b) && opt_eqb str_eqb (a_type a) (a_type b)
  && dict_eqb str_eqb (a_dict a) (a_dict b) && opt_eqb str_eqb (a_ns a) (a_ns b).

Definition text_eqb : option str -> option str -> bool := opt_eqb str_eqb.

(* MetaChild.__eq__, xigt/metadata.py:189-198 *)
Fixpoint mchild_eqb (a b : mchild) : bool :=
  match a, b with
  | MChild n at_ t k, MChild n' at' t' k' =>
    str_eqb n n' && text_eqb t t' && seq_eqb mchild_eqb k k' && attrs_eqb at_ at'
  end.
(* Meta.__eq__, xigt/metadata.py:149-157 *)
Definition meta_eqb (a b : meta) : bool :=
  text_eqb (me_text a) (me_text b) && seq_eqb mchild_eqb (me_kids a) (me_kids b)
  && attrs_eqb (me_attrs a) (me_attrs b).
(* Metadata.__eq__, xigt/metadata.py:105-109 *)
Definition metadata_eqb (a b : metadata) : bool :=
  seq_eqb meta_eqb (md_metas a) (md_metas b) && attrs_eqb (md_attrs a) (md_attrs b).
(* Item.__eq__, xigt/model.py:346-353 *)
Definition item_eqb (a b : item) : bool :=
  text_eqb (it_text a) (it_text b) && attrs_eqb (it_attrs a) (it_attrs b).
(* Tier.__eq__, Igt.__eq__, XigtCorpus.__eq__, xigt/model.py:278-283, 144-149, 88-93 *)
Definition tier_eqb (a b : tier) : bool :=
  seq_eqb metadata_eqb (t_md a) (t_md b) && seq_eqb item_eqb (t_items a) (t_items b)
  && attrs_eqb (t_attrs a) (t_attrs b).
Definition igt_eqb (a b : igt) : bool :=
  seq_eqb metadata_eqb (g_md a) (g_md b) && seq_eqb tier_eqb (g_tiers a) (g_tiers b)
  && attrs_eqb (g_attrs a) (g_attrs b).
Definition corpus_eqb (a b : corpus) : bool :=
  seq_eqb metadata_eqb (c_md a) (c_md b) && seq_eqb igt_eqb (c_igts a) (c_igts b)
  && attrs_eqb (c_attrs a) (c_attrs b).

(* any model object, for comparisons between classes *)
Inductive obj :=
| PItem (i : item) | PTier (t : tier) | PIgt (g : igt) | PCorpus (c : corpus)
| PMetadata (m : metadata) | PMeta (m : meta) | PChild (c : mchild).

(* what Item.__eq__ and Meta.__eq__ read from the other object: its text.
   None = no such attribute; Metadata.text (metadata.py:121-124) is a list and
   never equal to a string or None *)
Definition text_of (o : obj) : option (option str) :=
  match o with
  | PItem i => Some (it_text i)
  | PMeta m => Some (me_text m)
  | PChild (MChild _ _ t _) => Some t
  | _ => None
  end.
Definition attrs_of (o : obj) : attrs :=
  match o with
  | PItem i => it_attrs i | PTier t => t_attrs t | PIgt g => g_attrs g | PCorpus c => c_attrs c
  | PMetadata m => md_attrs m | PMeta m => me_attrs m | PChild (MChild _ a _ _) => a
  end.

(* a == b.  Tier, Igt, XigtCorpus and Metadata contain different classes, so
   they are equal to no object of another class (mixins.py:43); Meta and
   MetaChild both contain MetaChild; an Item compares text and attributes with
   whatever has them. *)
Definition obj_eqb (a b : obj) : bool :=
  match a, b with
  | PItem i, _ =>
    match text_of b with
    | Some t => text_eqb (it_text i) t && attrs_eqb (it_attrs i) (attrs_of b)
    | None => false
    end
  | PMeta m, PMeta m' => meta_eqb m m'
  | PMeta m, PChild (MChild _ a t k) =>
    text_eqb (me_text m) t && seq_eqb mchild_eqb (me_kids m) k && attrs_eqb (me_attrs m) a
  | PChild c, PChild c' => mchild_eqb c c'
  | PMetadata m, PMetadata m' => metadata_eqb m m'
  | PTier t, PTier t' => tier_eqb t t'
  | PIgt g, PIgt g' => igt_eqb g g'
  | PCorpus c, PCorpus c' => corpus_eqb c c'
  | _, _ => false
  end.

(* a != b.  Item has object.__ne__, which negates __eq__.  The container
   classes inherit list.__ne__, which compares only the members (and, with a
   non-list, defers to the other operand). *)
Definition members_of (o : obj) : option (list obj) :=
  match o with
  | PItem _ => None
  | PTier t => Some (map PItem (t_items t))
  | PIgt g => Some (map PTier (g_tiers g))
  | PCorpus c => Some (map PIgt (c_igts c))
  | PMetadata m => Some (map PMeta (md_metas m))
  | PMeta m => Some (map PChild (me_kids m))
  | PChild (MChild _ _ _ k) => Some (map PChild k)
  end.
Definition obj_neb (a b : obj) : bool :=
  match members_of a, members_of b with
  | Some l, Some l' => negb (seq_eqb obj_eqb l l')
  | None, _ => negb (obj_eqb a b)
  | Some _, None => negb (obj_eqb b a)
  end.
