(* Model of how objects are shown: the methods __repr__ of xigt/model.py and
   xigt/metadata.py, which str and print use too.  Definitions only.

   Simplification: the address of an object, id(self), is a parameter. *)
From Verif Require Import PyStr Ref Model Value.

(* the objects; an item with the igt and the tier that it is in, if it is *)
Inductive thing :=
| TCorpus (c : corpus) | TIgt (g : igt) | TTier (t : tier) | TItem (g : option igt) (t : option tier) (i : item)
| TMetadata (m : metadata) | TMeta (m : meta) | TChild (c : mchild).
(* str(self.id or '--') *)
Definition id_or (o : option str) : str := match o with None | Some [] => L "--" | Some s => s end.
(* '{}'.format of a text or None *)
Definition or_none (o : option str) : str := match o with Some s => s | None => L "None" end.
(* at an address *)
Definition at_address (a : N) : str := L " at " ++ dec_N a ++ L ">".

Section Repr.
Context {U : Unicode}.
Variable fuel : nat.
Definition repr (a : N) (x : thing) : res str :=
  match x with
  (* model.py:83-86 *)
  | TCorpus c => Ok (L "<XigtCorpus object (id: " ++ id_or (a_id (c_attrs c)) ++ L ") with " ++ dec_nat (length (c_igts c)) ++ L " Igts" ++ at_address a)
  (* model.py:139-142 *)
  | TIgt g => Ok (L "<Igt object (id: " ++ id_or (a_id (g_attrs g)) ++ L ") with " ++ dec_nat (length (g_tiers g)) ++ L " Tiers" ++ at_address a)
  (* model.py:273-276 *)
  | TTier t => Ok (L "<Tier object (id: " ++ id_or (a_id (t_attrs t)) ++ L "; type: " ++ or_none (a_type (t_attrs t)) ++ L ") with "
      ++ dec_nat (length (t_items t)) ++ L " Items" ++ at_address a)
  (* model.py:341-344 *)
  | TItem g t i =>
    do v <- value fuel g t i value_refattrs;
    Ok (L "<Item object (id: " ++ id_or (a_id (it_attrs i)) ++ L ") with value """ ++ or_none v ++ L """" ++ at_address a)
  (* metadata.py:100-103 *)
  | TMetadata m => Ok (L "<Metadata object (id: " ++ id_or (a_id (md_attrs m)) ++ L ") with " ++ dec_nat (length (md_metas m)) ++ L " Metas" ++ at_address a)
  (* metadata.py:144-147 *)
  | TMeta m => Ok (L "<Meta object (id: " ++ id_or (a_id (me_attrs m)) ++ L ")" ++ at_address a)
  (* metadata.py:184-187 *)
  | TChild (MChild n _ _ _) => Ok (L "<MetaChild object (name: " ++ id_or (Some n) ++ L ")" ++ at_address a)
  end.
End Repr.
