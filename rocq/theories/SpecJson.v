(* Specification for the JSON codec: which corpora survive it. *)
From Verif Require Import PyStr SpecRef Model XmlStd SpecXml.

(* prefixes in force: those of the object, then those of the objects around it *)
Definition binding := str -> option str.
Definition extend (a : attrs) (b : binding) : binding :=
  fun p => match a_nsmap a with
           | Some m => match dget m p with Some u => Some u | None => b p end
           | None => b p
           end.
Definition no_binding : binding := fun _ => None.
Definition bound_in (b : binding) (u : str) : Prop := exists p, b p = Some u.

(* attribute names that are written as they are *)
Definition key_stays (b : binding) (k : str) : Prop :=
  (forall r, k <> Ch "{" :: r) \/ exists u n, k = in_ns u n /\ ~ In (Ch "}") u /\ ~ bound_in b u.
Definition jattrs (b : binding) (a : attrs) : Prop :=
  NoDup (map fst (a_dict a)) /\ (forall m, a_nsmap a = Some m -> NoDup (map fst m))
  /\ (forall k, In k (map fst (a_dict a)) -> key_stays b k)
  /\ (forall i, a_id a = Some i -> accepted_id i) /\ a_ns a <> Some [].

Section SpecJson.
Context {U : Unicode}.

Inductive jchild : binding -> mchild -> Prop :=
| Jchild b n a t kids :
    jattrs (extend a b) a -> a_id a = None -> a_type a = None ->
    (* the prefix chosen for the namespace has no colon; if there is none, the
       namespace is not taken for a prefix *)
    (forall u p, a_ns a = Some u -> extend a b p = Some u -> ~ In (Ch ":") p) ->
    (forall u, a_ns a = Some u -> ~ bound_in (extend a b) u -> extend a b u = None) ->
    (exists c r, n = c :: r /\ is_word c = true /\ is_digit c = false
       /\ forall x, In x r -> is_word x = true \/ x = Ch "-" \/ x = Ch ".") ->
    Forall (jchild (extend a b)) kids -> jchild b (MChild n a t kids).
Definition jmeta (b : binding) (m : meta) : Prop :=
  jattrs (extend (me_attrs m) b) (me_attrs m) /\ a_type (me_attrs m) <> Some []
  /\ Forall (jchild (extend (me_attrs m) b)) (me_kids m).
Definition jmetadata (b : binding) (m : metadata) : Prop :=
  jattrs (extend (md_attrs m) b) (md_attrs m) /\ a_type (md_attrs m) <> Some []
  /\ Forall (jmeta (extend (md_attrs m) b)) (md_metas m)
  /\ NoDup (some_ids (map (fun x => a_id (me_attrs x)) (md_metas m))).
Definition jmetadatas (b : binding) (l : list metadata) : Prop :=
  Forall (jmetadata b) l /\ NoDup (some_ids (map (fun x => a_id (md_attrs x)) l)).
Definition jitem (b : binding) (i : item) : Prop :=
  jattrs (extend (it_attrs i) b) (it_attrs i) /\ a_type (it_attrs i) <> Some [] /\ it_text i <> Some [].
Definition jtier (b : binding) (t : tier) : Prop :=
  jattrs (extend (t_attrs t) b) (t_attrs t) /\ a_type (t_attrs t) <> Some []
  /\ jmetadatas (extend (t_attrs t) b) (t_md t) /\ Forall (jitem (extend (t_attrs t) b)) (t_items t)
  /\ NoDup (some_ids (map (fun x => a_id (it_attrs x)) (t_items t))).
Definition jigt (b : binding) (g : igt) : Prop :=
  jattrs (extend (g_attrs g) b) (g_attrs g) /\ a_type (g_attrs g) <> Some []
  /\ jmetadatas (extend (g_attrs g) b) (g_md g) /\ Forall (jtier (extend (g_attrs g) b)) (g_tiers g)
  /\ NoDup (some_ids (map (fun x => a_id (t_attrs x)) (g_tiers g))).
Definition jcorpus (c : corpus) : Prop :=
  let b := extend (c_attrs c) no_binding in
  jattrs b (c_attrs c) /\ a_type (c_attrs c) = None
  /\ jmetadatas b (c_md c) /\ Forall (jigt b) (c_igts c)
  /\ NoDup (some_ids (map (fun x => a_id (g_attrs x)) (c_igts c))).

End SpecJson.
