(* C22, C46, C48, C49: attribute lookup, metadata lookup, reference arguments
   and select. *)
From Verif Require Import PyStr Model Attr SpecAttr AttrProofs AttrExamples.

(* ---------- C22 ---------- *)

(* the object's own value *)
Theorem C22_own : forall (a : attrs) (ps : list attrs) (k : str) (ns : option str) (full : str) (m : str -> option str)
    (d : option str) (inh : bool) (v : str),
  prefixes (a :: ps) m -> names m k ns full -> dget (a_dict a) full = Some v ->
  get_attribute (a :: ps) k d inh ns = Ok (Some v).
Proof. exact get_attribute_own. Qed.
Print Assumptions C22_own.

Theorem C22_default : forall (a : attrs) (ps : list attrs) (k : str) (ns : option str) (full : str) (m : str -> option str) (d : option str),
  prefixes (a :: ps) m -> names m k ns full -> dget (a_dict a) full = None ->
  get_attribute (a :: ps) k d false ns = Ok d.
Proof. exact get_attribute_not_own. Qed.
Print Assumptions C22_default.

(* Inheriting.  Full statement: for every namespace argument.  Missing: any
   namespace argument, for which it fails. *)
Theorem C22_inherit_partial : forall (chain : list attrs) (k full : str) (m : str -> option str) (d r : option str),
  chain <> [] -> prefixes chain m -> names m k None full -> nearest full chain r ->
  get_attribute chain k d true None = Ok (or_default r d).
Proof. exact get_attribute_inherit. Qed.
Print Assumptions C22_inherit_partial.

Theorem C22_nearest : forall (k : str) (chain : list attrs), exists r, nearest k chain r.
Proof. exact nearest_exists. Qed.
Print Assumptions C22_nearest.

(* the two spellings.  Missing: inheriting. *)
Theorem C22_spellings_partial : forall (chain : list attrs) (p n uri : str) (m : str -> option str) (d : option str),
  prefixes chain m -> no_colon p -> ~ (exists r, p = Ch "{" :: r) -> no_colon n -> m p = Some uri ->
  get_attribute chain (p ++ Ch ":" :: n) d false None = get_attribute chain n d false (Some p).
Proof. exact get_attribute_spellings. Qed.
Print Assumptions C22_spellings_partial.

Theorem C22_spellings_refuted : exists (chain : list attrs) (m : str -> option str) (p n uri v : str),
  prefixes chain m /\ no_colon p /\ (~ exists r, p = Ch "{" :: r) /\ no_colon n /\ m p = Some uri
  /\ get_attribute chain (p ++ Ch ":" :: n) None true None = Ok (Some v)
  /\ get_attribute chain n None true (Some p) = Ok None.
Proof. exact c22_spelling. Qed.
Print Assumptions C22_spellings_refuted.

(* with a namespace argument nothing is inherited at all *)
Theorem C22_namespace_not_inherited : forall (a : attrs) (ps : list attrs) (n p full : str) (m : str -> option str) (d : option str),
  prefixes (a :: ps) m -> names m n (Some p) full -> p <> [] ->
  (forall b k v, In b ps -> dget (a_dict b) k = Some v -> ~ doubled k) ->
  get_attribute (a :: ps) n d true (Some p) = Ok (or_default (dget (a_dict a) full) d).
Proof. exact get_attribute_ns_inherit. Qed.
Print Assumptions C22_namespace_not_inherited.

(* an unknown prefix is an error, even where a default is given *)
Theorem C22_unknown_prefix : forall (chain : list attrs) (p n : str) (d : option str) (inh : bool) (ns : option str) (m : str -> option str),
  chain <> [] -> prefixes chain m -> no_colon p -> ~ (exists r, p = Ch "{" :: r) -> m p = None ->
  get_attribute chain (p ++ Ch ":" :: n) d inh ns = Err KeyError.
Proof. exact get_attribute_unknown. Qed.
Print Assumptions C22_unknown_prefix.

Example C22_example :
  prefixes at_chain at_map
  /\ names at_map (L "x" ++ Ch ":" :: L "tag") None (clark (L "http://x") (L "tag"))
  /\ names at_map (L "tag") (Some (L "x")) (clark (L "http://x") (L "tag"))
  /\ nearest (clark (L "http://x") (L "tag")) at_chain (Some (L "N"))
  /\ get_attribute at_chain (L "x:tag") None true None = Ok (Some (L "N"))
  /\ get_attribute at_chain (L "src") None true None = Ok (Some (L "t"))
  /\ get_attribute at_chain (L "y:tag") (Some (L "?")) true None = Ok (Some (L "?"))
  /\ get_attribute at_chain (L "z:tag") (Some (L "?")) true None = Err KeyError.
Proof. exact c22_example. Qed.
Example C22_namespace_example :
  names at_map (L "tag") (Some (L "x")) (clark (L "http://x") (L "tag"))
  /\ forall b k v, In b [at_tier; at_igt] -> dget (a_dict b) k = Some v -> ~ doubled k.
Proof. exact c22_ns_example. Qed.

(* ---------- C46 ---------- *)

Theorem C46_nearest : forall (before_ : list (list metadata)) (mds : list metadata) (after : list (list metadata))
    (key : option str) (conds : list (meta -> bool)) (l : list meta),
  (forall b, In b before_ -> metas_of key conds b []) -> metas_of key conds mds l -> l <> [] ->
  get_meta (before_ ++ mds :: after) key conds true = Some l.
Proof. exact get_meta_found. Qed.
Print Assumptions C46_nearest.

Theorem C46_default : forall (chain : list (list metadata)) (key : option str) (conds : list (meta -> bool)) (inh : bool),
  (forall b, In b chain -> metas_of key conds b []) -> get_meta chain key conds inh = None.
Proof. exact get_meta_default. Qed.
Print Assumptions C46_default.

Theorem C46_own : forall (mds : list metadata) (after : list (list metadata)) (key : option str) (conds : list (meta -> bool)) (l : list meta),
  metas_of key conds mds l ->
  get_meta (mds :: after) key conds false = match l with [] => None | _ => Some l end.
Proof. exact get_meta_own. Qed.
Print Assumptions C46_own.

(* the metas of an object are determined *)
Theorem C46_metas : forall (key : option str) (conds : list (meta -> bool)) (mds : list metadata),
  exists l, metas_of key conds mds l /\ forall l', metas_of key conds mds l' -> l' = l.
Proof. exact metas_of_unique. Qed.
Print Assumptions C46_metas.

Example C46_example :
  metas_of (Some (L "language")) [] (nth 0 gm_chain []) []
  /\ metas_of (Some (L "language")) [] (nth 1 gm_chain []) [meta_of (L "language") (L "de"); meta_of (L "language") (L "it")]
  /\ get_meta gm_chain (Some (L "language")) [] true = Some [meta_of (L "language") (L "de"); meta_of (L "language") (L "it")]
  /\ get_meta gm_chain (Some (L "language")) [] false = None.
Proof. exact c46_example. Qed.

(* ---------- C48 ---------- *)

(* Missing: empty strings, for which it fails. *)
Theorem C48_excludes_partial : forall (d : dict str) (al co se : option str),
  se <> Some [] -> co <> Some [] -> al <> Some [] ->
  (exists d', ref_init d al co se = Ok d') <-> (se = None \/ co = None /\ al = None).
Proof. exact ref_init_excludes. Qed.
Print Assumptions C48_excludes_partial.

Theorem C48_empty_refuted : exists (d d' : dict str) (al se : str),
  ref_init d (Some al) None (Some se) = Ok d' /\ dget d' ALIGNMENT = Some al /\ dget d' SEGMENTATION = Some se.
Proof. exact c48_empty. Qed.
Print Assumptions C48_empty_refuted.

Theorem C48_error : forall (d : dict str) (al co se : option str) (e : exn), ref_init d al co se = Err e -> e = XigtError.
Proof. exact ref_init_error. Qed.
Print Assumptions C48_error.

Theorem C48_reads_back : forall (d : dict str) (al co se : option str) (d' : dict str), ref_init d al co se = Ok d' ->
  (forall v, al = Some v -> dget d' ALIGNMENT = Some v) /\ (forall v, co = Some v -> dget d' CONTENT = Some v)
  /\ (forall v, se = Some v -> dget d' SEGMENTATION = Some v)
  /\ (al = None -> dget d' ALIGNMENT = dget d ALIGNMENT) /\ (co = None -> dget d' CONTENT = dget d CONTENT)
  /\ (se = None -> dget d' SEGMENTATION = dget d SEGMENTATION)
  /\ forall k, k <> ALIGNMENT -> k <> CONTENT -> k <> SEGMENTATION -> dget d' k = dget d k.
Proof. exact ref_init_reads. Qed.
Print Assumptions C48_reads_back.

Example C48_example :
  ref_init [(L "x", L "y")] (Some (L "a1")) (Some (L "b1")) None
    = Ok [(L "x", L "y"); (ALIGNMENT, L "a1"); (CONTENT, L "b1")]
  /\ ref_init [] None (Some (L "b1")) (Some (L "c1")) = Err XigtError.
Proof. exact c48_example. Qed.

(* ---------- C49 ---------- *)

Theorem C49_filter : forall (A : Type) (ga : A -> str -> option str) (nsmap : dict str) (l : list A) (kw : dict (option str)),
  NoDup (map fst kw) ->
  exists r, select ga (Some nsmap) l kw = Ok r /\ picked (meets ga (dget nsmap) kw) l r.
Proof. exact @select_spec. Qed.
Print Assumptions C49_filter.

Theorem C49_no_nsmap : forall (A : Type) (ga : A -> str -> option str) (l : list A) (kw : dict (option str)),
  NoDup (map fst kw) -> dget kw NAMESPACE = None ->
  exists r, select ga None l kw = Ok r /\ picked (meets ga (fun _ => None) kw) l r.
Proof. exact @select_unmapped. Qed.
Print Assumptions C49_no_nsmap.

(* a container of metadata cannot be searched by namespace *)
Theorem C49_metadata_refuted : exists (A : Type) (ga : A -> str -> option str) (l : list A) (kw : dict (option str)),
  NoDup (map fst kw) /\ select ga None l kw = Err AttributeError.
Proof. exact c49_metadata. Qed.
Print Assumptions C49_metadata_refuted.

Example C49_example :
  NoDup (map fst [(TYPE, Some (L "n")); (NAMESPACE, Some (L "x"))])
  /\ select item_getattr (Some [(L "x", L "http://x")]) [sel_a; sel_b; sel_c; sel_d] [(TYPE, Some (L "n")); (NAMESPACE, Some (L "x"))] = Ok [sel_a; sel_c]
  /\ select item_getattr (Some []) [sel_a; sel_b; sel_c; sel_d] [(NAMESPACE, None)] = Ok [sel_d].
Proof. exact c49_example. Qed.
