(* What the schema promises: which documents can be read, what is read of them, and
   which corpora are written as such documents. *)
From Verif Require Import PyStr Model XmlStd SpecRef SpecXml Schema.

Section SpecSchema.
Context {U : Unicode} {X : XsdWord}.

(* ---------- what the schema leaves open and reading needs ---------- *)

Definition the_id (p : pelem) : option str := dget (p_attrib p) ID.
Definition called (n : str) (p : pelem) : Prop := p_tag p = n.
(* ids are distinct among the children of one kind *)
Definition distinct_kids (n : str) (p : pelem) : Prop := forall l1 a l2 b l3,
  p_kids p = l1 ++ a :: l2 ++ b :: l3 -> called n a -> called n b -> the_id a <> None -> the_id a <> the_id b.
(* names of the elements in a meta: letters, digits, _ - . in the sense of Python *)
Definition python_name (n : str) : Prop := exists c r, n = c :: r /\ is_word c = true /\ is_digit c = false
  /\ forall x, In x r -> is_word x = true \/ x = Ch "-" \/ x = Ch ".".
Definition tag_is (tag : str) (ns : option str) (n : str) : Prop :=
  match ns with None => tag = n | Some u => tag = in_ns u n /\ ~ In (Ch "}") u end.
Inductive readable_child : pelem -> Prop :=
| Readable_child tag d m text tail kids ns n :
    tag_is tag ns n -> python_name n -> tag <> L "igt" -> tag <> L "xigt-corpus" ->
    Forall readable_child kids -> readable_child (PElem tag d m text tail kids).
Inductive readable_kids : pelem -> Prop :=
| Readable_meta p : called (L "meta") p -> Forall readable_child (p_kids p) -> readable_kids p
| Readable_other p : ~ called (L "meta") p -> distinct_kids (L "meta") p -> distinct_kids (L "metadata") p -> distinct_kids (L "item") p ->
    distinct_kids (L "tier") p -> distinct_kids (L "igt") p -> Forall readable_kids (p_kids p) -> readable_kids p.
(* the same, in two parts *)
Inductive below : pelem -> pelem -> Prop :=
| Below_here p : below p p
| Below_kid p k q : ~ called (L "meta") p -> In k (p_kids p) -> below k q -> below p q.
Definition ids_apart (p : pelem) : Prop := forall q n, below p q -> ~ called (L "meta") q ->
  In n [L "meta"; L "metadata"; L "item"; L "tier"; L "igt"] -> distinct_kids n q.
Definition names_read (p : pelem) : Prop := forall q k, below p q -> called (L "meta") q -> In k (p_kids q) -> readable_child k.

(* ---------- what is read ---------- *)

(* the attributes; the prefixes are those in scope *)
Definition attrs_read (p : pelem) (a : attrs) : Prop :=
  a_id a = dget (p_attrib p) ID /\ a_type a = dget (p_attrib p) TYPE /\ a_ns a = None /\ a_nsmap a = p_nsmap p
  /\ (forall k, dget (a_dict a) k = if str_eqb k ID || str_eqb k TYPE then None else dget (p_attrib p) k).
(* below a meta, attributes id and type, and text after an element, are not read *)
Inductive child_read : pelem -> mchild -> Prop :=
| Child_read tag d m text tail kids n a ks :
    tag_is tag (a_ns a) n -> a_id a = None -> a_type a = None -> a_nsmap a = m ->
    (forall k, dget (a_dict a) k = if str_eqb k ID || str_eqb k TYPE then None else dget d k) ->
    Forall2 child_read kids ks -> child_read (PElem tag d m text tail kids) (MChild n a (nonblank text) ks).
Definition meta_read (p : pelem) (m : meta) : Prop :=
  called (L "meta") p /\ attrs_read p (me_attrs m) /\ me_text m = nonblank (p_text p) /\ Forall2 child_read (p_kids p) (me_kids m).
Definition metadata_read (p : pelem) (m : metadata) : Prop :=
  called (L "metadata") p /\ attrs_read p (md_attrs m) /\ Forall2 meta_read (p_kids p) (md_metas m).
Definition item_read (p : pelem) (i : item) : Prop := called (L "item") p /\ attrs_read p (it_attrs i) /\ it_text i = p_text p.
Definition tier_read (p : pelem) (t : tier) : Prop :=
  called (L "tier") p /\ attrs_read p (t_attrs t)
  /\ exists ms is_, p_kids p = ms ++ is_ /\ Forall2 metadata_read ms (t_md t) /\ Forall2 item_read is_ (t_items t).
Definition igt_read (p : pelem) (g : igt) : Prop :=
  called (L "igt") p /\ attrs_read p (g_attrs g)
  /\ exists ms ts, p_kids p = ms ++ ts /\ Forall2 metadata_read ms (g_md g) /\ Forall2 tier_read ts (g_tiers g).
(* the type of the corpus is read as an ordinary attribute *)
Definition corpus_read (p : pelem) (c : corpus) : Prop :=
  called (L "xigt-corpus") p /\ a_id (c_attrs c) = dget (p_attrib p) ID /\ a_type (c_attrs c) = None /\ a_ns (c_attrs c) = None /\ a_nsmap (c_attrs c) = p_nsmap p
  /\ (forall k, dget (a_dict (c_attrs c)) k = if str_eqb k ID then None else dget (p_attrib p) k)
  /\ exists ms gs, p_kids p = ms ++ gs /\ Forall2 metadata_read ms (c_md c) /\ Forall2 igt_read gs (c_igts c).

(* ---------- which corpora are written as valid documents ---------- *)

Section Admitted.
(* the texts allowed in front of the elements of a meta *)
Variable space : option str -> Prop.
Definition free (a : attrs) : Prop := a_ns a = None.
Definition admitted_meta (m : meta) : Prop :=
  free (me_attrs m) /\ may_have_id (shown_attrs (me_attrs m)) /\ no_refs (shown_attrs (me_attrs m))
  /\ (me_kids m = [] \/ space (me_text m)).
Definition admitted_metadata (m : metadata) : Prop :=
  free (md_attrs m) /\ may_have_id (shown_attrs (md_attrs m)) /\ no_refs (shown_attrs (md_attrs m)) /\ Forall admitted_meta (md_metas m).
Definition admitted_item (i : item) : Prop :=
  free (it_attrs i) /\ has_id (shown_attrs (it_attrs i)) /\ ref_attrs (shown_attrs (it_attrs i)).
Definition admitted_tier (t : tier) : Prop :=
  free (t_attrs t) /\ has_id (shown_attrs (t_attrs t)) /\ dget (shown_attrs (t_attrs t)) TYPE <> None /\ ref_attrs (shown_attrs (t_attrs t))
  /\ Forall admitted_metadata (t_md t) /\ Forall admitted_item (t_items t).
Definition admitted_igt (g : igt) : Prop :=
  free (g_attrs g) /\ has_id (shown_attrs (g_attrs g)) /\ no_refs (shown_attrs (g_attrs g))
  /\ Forall admitted_metadata (g_md g) /\ Forall admitted_tier (g_tiers g).
Definition admitted (c : corpus) : Prop :=
  free (c_attrs c) /\ may_have_id (shown_attrs (c_attrs c))
  /\ (forall k, In k (map fst (shown_attrs (c_attrs c))) -> k = ID \/ k = TYPE)
  /\ Forall admitted_metadata (c_md c) /\ Forall admitted_igt (c_igts c).

End Admitted.

(* ---------- alignment expressions ---------- *)

(* as in the schema, with the given ids *)
Definition sep (d : str) : Prop := d = L "," \/ d = L "+".
Definition digits (s : str) : Prop := s <> [] /\ Forall (fun c => is_digit c = true) s.
Definition plain_span (sp : span) : Prop := digits (sp_start sp) /\ digits (sp_end sp).
Definition after {A} (delim : A -> str) (l : list A) : Prop :=
  match l with [] => True | x :: l => delim x = [] /\ Forall (fun y => sep (delim y)) l end.
Definition plain_sel (is_id : str -> Prop) (s : sel) : Prop :=
  is_id (sl_id s) /\ after sp_delim (sl_spans s) /\ Forall plain_span (sl_spans s).
Definition plain_expr (is_id : str -> Prop) (e : expr) : Prop := e <> [] /\ after sl_delim e /\ Forall (plain_sel is_id) e.
(* \w of XML Schema has the word characters of Python *)
Definition wide_table : Prop := forall c, (128 <= c)%N -> is_word c = true -> xsd_hi c = true.

End SpecSchema.
