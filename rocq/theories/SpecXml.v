(* Specification for the XML codec: the corpus as a tree, which corpora can be
   written, and what the document shows. *)
From Verif Require Import PyStr Model XmlStd SpecRef.

(* the tree of objects: element name, attributes, text, children *)
Inductive xtree := XT (tag : str) (a : attrs) (text : option str) (kids : list xtree).
Fixpoint child_tree (m : mchild) : xtree :=
  match m with MChild n a t k => XT n a t (map child_tree k) end.
Definition meta_tree (m : meta) : xtree := XT (L "meta") (me_attrs m) (me_text m) (map child_tree (me_kids m)).
Definition metadata_tree (m : metadata) : xtree := XT (L "metadata") (md_attrs m) None (map meta_tree (md_metas m)).
Definition item_tree (i : item) : xtree := XT (L "item") (it_attrs i) (it_text i) [].
Definition tier_tree (t : tier) : xtree :=
  XT (L "tier") (t_attrs t) None (map metadata_tree (t_md t) ++ map item_tree (t_items t)).
Definition igt_tree (g : igt) : xtree :=
  XT (L "igt") (g_attrs g) None (map metadata_tree (g_md g) ++ map tier_tree (g_tiers g)).
Definition corpus_tree (c : corpus) : xtree :=
  XT (L "xigt-corpus") (c_attrs c) None (map metadata_tree (c_md c) ++ map igt_tree (c_igts c)).

(* the prefixes in force at an object *)
Definition in_force (a : attrs) (outer : dict str) : dict str :=
  match a_nsmap a with Some m => m | None => outer end.
Definition bound (m : dict str) (u : str) : Prop := exists p, In (p, u) m.

(* prefixes are non-empty and may be declared as they are *)
Definition map_ok (m : dict str) : Prop :=
  NoDup (map fst m) /\ forall p u, In (p, u) m -> p <> [] /\ valid_decl p u = true.
Definition uri_ok (m : dict str) (u : str) : Prop := u <> [] /\ ~ In (Ch "}") u /\ bound m u.
(* attribute names: a plain name, or {uri}name with a bound uri or that of
   xml:lang and the like *)
Definition key_ok (m : dict str) (k : str) : Prop :=
  (ncname k = true /\ k <> XMLNS) \/ exists u n, k = in_ns u n /\ ncname n = true /\ (uri_ok m u \/ u = XML_URI).
Definition attrs_ok (m : dict str) (a : attrs) : Prop :=
  map_ok m /\ NoDup (map fst (a_dict a))
  /\ (forall k v, In (k, v) (a_dict a) -> key_ok m k /\ xml_chars v = true)
  /\ (forall i, a_id a = Some i -> xml_chars i = true) /\ (forall t, a_type a = Some t -> xml_chars t = true)
  /\ (a_id a <> None -> ~ In ID (map fst (a_dict a))) /\ (a_type a <> None -> ~ In TYPE (map fst (a_dict a)))
  /\ (forall u, a_ns a = Some u -> uri_ok m u).
Definition text_ok (t : option str) : Prop := forall s, t = Some s -> xml_chars s = true /\ ~ In 13%N s.
Inductive tree_ok : dict str -> xtree -> Prop :=
| Tree_ok outer tag a text kids :
    attrs_ok (in_force a outer) a -> ncname tag = true -> text_ok text ->
    Forall (tree_ok (in_force a outer)) kids -> tree_ok outer (XT tag a text kids).

Section SpecXml.
Context {U : Unicode}.

Definition blank_text (t : option str) : Prop := forall s c, t = Some s -> In c s -> is_space c = true.

(* the element of an object in the document that is read back *)
Definition full_tag (ns : option str) (tag : str) : str := match ns with Some u => in_ns u tag | None => tag end.
Definition optional (k : str) (v : option str) : dict str := match v with Some x => [(k, x)] | None => [] end.
Definition shown_attrs (a : attrs) : dict str := optional ID (a_id a) ++ optional TYPE (a_type a) ++ a_dict a.
(* the empty text is none; between elements there may be newlines and spaces *)
Definition written_text (t : option str) : option str := match t with Some [] => None | _ => t end.
Definition layout (t : option str) : Prop := forall s c, t = Some s -> In c s -> c = 10%N \/ c = 32%N.
Definition shown_text (leaf : bool) (t t' : option str) : Prop :=
  if leaf then t' = written_text t
  else (blank_text t -> t' = written_text t \/ layout t') /\ (~ blank_text t -> t' = t).
Inductive mirrors : xtree -> pelem -> Prop :=
| Mirrors tag a text kids m text' tail ks :
    shown_text (match kids with [] => true | _ => false end) text text' -> Forall2 mirrors kids ks -> layout tail ->
    mirrors (XT tag a text kids) (PElem (full_tag (a_ns a) tag) (shown_attrs a) (Some m) text' tail ks).

(* what the decoder can read back *)
Definition some_ids (l : list (option str)) : list str :=
  flat_map (fun o => match o with Some i => [i] | None => [] end) l.
(* ids that can be assigned *)
Definition accepted_id (i : str) : Prop := exists c r, i = c :: r /\ ascii_letter c.
Definition plain (a : attrs) : Prop :=
  a_ns a = None /\ (forall i, a_id a = Some i -> accepted_id i) /\ ~ In ID (map fst (a_dict a)) /\ ~ In TYPE (map fst (a_dict a)).
Inductive child_ok : mchild -> Prop :=
| Child_ok n a t kids :
    a_id a = None -> a_type a = None -> (a_ns a = None -> n <> L "igt" /\ n <> L "xigt-corpus") ->
    (exists c r, n = c :: r /\ is_word c = true /\ is_digit c = false
       /\ forall x, In x r -> is_word x = true \/ x = Ch "-" \/ x = Ch ".") ->
    Forall child_ok kids -> child_ok (MChild n a t kids).
Definition meta_ok (m : meta) : Prop :=
  plain (me_attrs m) /\ Forall child_ok (me_kids m).
Definition metadata_ok (m : metadata) : Prop :=
  plain (md_attrs m) /\ Forall meta_ok (md_metas m) /\ NoDup (some_ids (map (fun x => a_id (me_attrs x)) (md_metas m))).
Definition metadatas_ok (l : list metadata) : Prop :=
  Forall metadata_ok l /\ NoDup (some_ids (map (fun x => a_id (md_attrs x)) l)).
Definition item_ok (i : item) : Prop := plain (it_attrs i).
Definition tier_ok (t : tier) : Prop :=
  plain (t_attrs t) /\ metadatas_ok (t_md t) /\ Forall item_ok (t_items t)
  /\ NoDup (some_ids (map (fun x => a_id (it_attrs x)) (t_items t))).
Definition igt_ok (g : igt) : Prop :=
  plain (g_attrs g) /\ metadatas_ok (g_md g) /\ Forall tier_ok (g_tiers g)
  /\ NoDup (some_ids (map (fun x => a_id (t_attrs x)) (g_tiers g))).
Definition corpus_ok (c : corpus) : Prop :=
  a_ns (c_attrs c) = None /\ (forall i, a_id (c_attrs c) = Some i -> accepted_id i) /\ ~ In ID (map fst (a_dict (c_attrs c)))
  /\ metadatas_ok (c_md c) /\ Forall igt_ok (c_igts c)
  /\ NoDup (some_ids (map (fun x => a_id (g_attrs x)) (c_igts c))).

(* what comes back: white space is no text in metadata, the empty string is no
   text in items, children have no attributes "id" and "type", and the type of
   the corpus is an attribute *)
Definition nonblank (t : option str) : option str :=
  match t with Some s => if forallb is_space s then None else t | None => None end.
Fixpoint back_child (m : mchild) : mchild :=
  match m with
  | MChild n a t k =>
    MChild n {| a_id := a_id a; a_type := a_type a; a_ns := a_ns a; a_nsmap := a_nsmap a;
                a_dict := filter (fun kv => negb (str_eqb (fst kv) ID || str_eqb (fst kv) TYPE)) (a_dict a) |}
      (nonblank t) (map back_child k)
  end.
Definition back_meta (m : meta) : meta :=
  {| me_attrs := me_attrs m; me_text := nonblank (me_text m); me_kids := map back_child (me_kids m) |}.
Definition back_metadata (m : metadata) : metadata :=
  {| md_attrs := md_attrs m; md_metas := map back_meta (md_metas m) |}.
Definition back_item (i : item) : item :=
  {| it_attrs := it_attrs i; it_text := match it_text i with Some [] => None | t => t end |}.
Definition back_tier (t : tier) : tier :=
  {| t_attrs := t_attrs t; t_md := map back_metadata (t_md t); t_items := map back_item (t_items t) |}.
Definition back_igt (g : igt) : igt :=
  {| g_attrs := g_attrs g; g_md := map back_metadata (g_md g); g_tiers := map back_tier (g_tiers g) |}.
Definition back_corpus (c : corpus) : corpus :=
  {| c_attrs := {| a_id := a_id (c_attrs c); a_type := None; a_ns := a_ns (c_attrs c); a_nsmap := a_nsmap (c_attrs c);
                   a_dict := optional TYPE (a_type (c_attrs c)) ++ a_dict (c_attrs c) |};
     c_md := map back_metadata (c_md c); c_igts := map back_igt (c_igts c) |}.

(* the corpora of which nothing is lost *)
Inductive child_kept : mchild -> Prop :=
| Child_kept n a t kids :
    ~ In ID (map fst (a_dict a)) -> ~ In TYPE (map fst (a_dict a)) ->
    (t <> None -> ~ blank_text t) -> Forall child_kept kids -> child_kept (MChild n a t kids).
Definition meta_kept (m : meta) : Prop :=
  (me_text m <> None -> ~ blank_text (me_text m)) /\ Forall child_kept (me_kids m).
Definition metadatas_kept (l : list metadata) : Prop := Forall (fun m => Forall meta_kept (md_metas m)) l.
Definition tier_kept (t : tier) : Prop :=
  metadatas_kept (t_md t) /\ Forall (fun i => it_text i <> Some []) (t_items t).
Definition corpus_kept (c : corpus) : Prop :=
  a_type (c_attrs c) = None /\ metadatas_kept (c_md c)
  /\ Forall (fun g => metadatas_kept (g_md g) /\ Forall tier_kept (g_tiers g)) (c_igts c).

End SpecXml.
