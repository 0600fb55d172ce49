(* Specification of how objects are shown.  No proofs here. *)
From Verif Require Import PyStr Ref Model Value SpecValue Repr.

(* the name of the class *)
Definition class_of (x : thing) : str :=
  match x with
  | TCorpus _ => L "XigtCorpus" | TIgt _ => L "Igt" | TTier _ => L "Tier" | TItem _ _ _ => L "Item"
  | TMetadata _ => L "Metadata" | TMeta _ => L "Meta" | TChild _ => L "MetaChild"
  end.
(* the id, or the name *)
Definition label_of (x : thing) : option str :=
  match x with
  | TCorpus c => a_id (c_attrs c) | TIgt g => a_id (g_attrs g) | TTier t => a_id (t_attrs t) | TItem _ _ i => a_id (it_attrs i)
  | TMetadata m => a_id (md_attrs m) | TMeta m => a_id (me_attrs m) | TChild (MChild n _ _ _) => Some n
  end.
(* how many members, if it has members *)
Definition count_of (x : thing) : option nat :=
  match x with
  | TCorpus c => Some (length (c_igts c)) | TIgt g => Some (length (g_tiers g)) | TTier t => Some (length (t_items t))
  | TMetadata m => Some (length (md_metas m)) | _ => None
  end.
Definition members_of (x : thing) : str :=
  match x with TCorpus _ => L "Igts" | TIgt _ => L "Tiers" | TTier _ => L "Items" | TMetadata _ => L "Metas" | _ => [] end.
Definition is_item (x : thing) : Prop := match x with TItem _ _ _ => True | _ => False end.
(* an id as it can be referred to: it is not empty, and has none of these characters *)
Definition clean_label (o : option str) : Prop :=
  match o with None => True | Some s => s <> [] /\ s <> L "--" /\ ~ In (Ch ")") s /\ ~ In (Ch ";") s end.
(* the text starts with the class and the label, and ends with the address *)
Definition shows (s : str) (class : str) (label : option str) (a : N) : Prop :=
  exists word mid, (word = L "id" \/ word = L "name")
    /\ s = L "<" ++ class ++ L " object (" ++ word ++ L ": " ++ (match label with Some (c :: r) => c :: r | _ => L "--" end) ++ mid ++ L " at " ++ dec_N a ++ L ">"
    /\ (exists r, mid = Ch ")" :: r \/ mid = Ch ";" :: r).
