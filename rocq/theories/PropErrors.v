(* Property C80: which exceptions are raised. *)
From Verif Require Import PyStr SpecRef Ref Model ModelExamples Attr Value SpecValue Index SpecIndex XmlStd Xml Json Path SpecPath SpecContainer SpecErrors.
From Verif Require Container ErrorsProofs ErrorsData PathExamples.

(* ---------- paths ---------- *)

(* The parent: of a corpus, and of metadata outside a container, there is none;
   other objects outside a container have the parent None. *)
Theorem C80_parent : forall (U : Unicode) ix vfuel,
  (forall o p up, findall ix vfuel (VNode {| n_obj := o; n_up := p :: up |}) (L "..") = Ok [VNode {| n_obj := p; n_up := up |}])
  /\ (forall c, findall ix vfuel (VNode {| n_obj := PCorpus c; n_up := [] |}) (L "..") = Err AttributeError)
  /\ (forall m, findall ix vfuel (VNode {| n_obj := PMetadata m; n_up := [] |}) (L "..") = Err AttributeError)
  /\ (forall o, (forall c, o <> PCorpus c) -> (forall m, o <> PMetadata m) ->
        findall ix vfuel (VNode {| n_obj := o; n_up := [] |}) (L "..") = Ok [VNone])
  /\ (forall v, (forall n, v <> VNode n) -> findall ix vfuel v (L "..") = Err AttributeError).
Proof. exact @ErrorsProofs.parent_exact. Qed.
Print Assumptions C80_parent.

(* text(): igts, tiers, corpora, strings and None have no attribute text. *)
Theorem C80_text : forall (U : Unicode) ix vfuel,
  (forall i up, findall ix vfuel (VNode {| n_obj := PItem i; n_up := up |}) (L "text()")
     = Ok [match it_text i with Some s => VStr s | None => VNone end])
  /\ (forall m up, findall ix vfuel (VNode {| n_obj := PMeta m; n_up := up |}) (L "text()")
     = Ok [match me_text m with Some s => VStr s | None => VNone end])
  /\ (forall n a t k up, findall ix vfuel (VNode {| n_obj := PChild (MChild n a t k); n_up := up |}) (L "text()")
     = Ok [match t with Some s => VStr s | None => VNone end])
  /\ (forall m up, findall ix vfuel (VNode {| n_obj := PMetadata m; n_up := up |}) (L "text()")
     = Ok [VList (map (fun x => {| n_obj := PMeta x; n_up := PMetadata m :: up |}) (md_metas m))])
  /\ (forall v, ~ has_text v -> findall ix vfuel v (L "text()") = Err AttributeError).
Proof. exact @ErrorsProofs.text_exact. Qed.
Print Assumptions C80_text.

(* value(): only items have one. *)
Theorem C80_value : forall (U : Unicode) ix vfuel,
  (forall i up x, value vfuel (match up with PTier _ :: PIgt g :: _ => Some g | _ => None end)
                        (match up with PTier t :: _ => Some t | _ => None end) i value_refattrs = x ->
     findall ix vfuel (VNode {| n_obj := PItem i; n_up := up |}) (L "value()")
     = match x with Ok (Some s) => Ok [VStr s] | Ok None => Ok [VNone] | Err e => Err e end)
  /\ (forall v, (forall i up, v <> VNode {| n_obj := PItem i; n_up := up |}) ->
        findall ix vfuel v (L "value()") = Err AttributeError).
Proof. exact @ErrorsProofs.value_exact. Qed.
Print Assumptions C80_value.

(* referent() and referrer(): AttributeError outside an igt, TypeError without an id. *)
Theorem C80_refs : forall (U : Unicode) ix vfuel f, f = L "referent" \/ f = L "referrer" ->
  (forall v, ~ within_igt v -> findall ix vfuel v (f ++ L "()") = Err AttributeError)
  /\ (forall n, within_igt (VNode n) -> a_id (attrs_of (n_obj n)) = None ->
        findall ix vfuel (VNode n) (f ++ L "()") = Err TypeError).
Proof. exact @ErrorsProofs.refs_exact. Qed.
Print Assumptions C80_refs.

(* An absolute path needs a corpus above. *)
Theorem C80_absolute : forall (U : Unicode) ix vfuel ss, wf (Path true ss) ->
  (forall n, Forall (fun o => match o with PCorpus _ => False | _ => True end) (n_obj n :: n_up n) ->
     findall ix vfuel (VNode n) (show (Path true ss)) = Err AttributeError)
  /\ (forall v, (forall n, v <> VNode n) -> findall ix vfuel v (show (Path true ss)) = Err AttributeError).
Proof. exact @ErrorsProofs.absolute_exact. Qed.
Print Assumptions C80_absolute.

(* A predicate that is not closed. *)
Theorem C80_unclosed : forall (U : Unicode) ix vfuel p r v,
  endswith (L "/") p = false -> tokenize p = L "." :: L "[" :: r ->
  (forall t, In t r -> t <> L "]" /\ t <> L "=" /\ t <> L "!=") -> findall ix vfuel v p = Err IndexError.
Proof. exact @ErrorsProofs.unclosed_exact. Qed.
Print Assumptions C80_unclosed.

Example C80_paths :
  let F n p := @findall ascii_unicode (@construct_index ascii_unicode) 50 (VNode n) p in
  let alone t := {| n_obj := PTier t; n_up := [] |} in
  F (alone PathExamples.ph) (L "..") = Ok [VNone] /\ F PathExamples.root (L "..") = Err AttributeError
  /\ F PathExamples.igt_node (L "text()") = Err AttributeError
  /\ F (alone PathExamples.ph) (L "referent()") = Err AttributeError
  /\ F (alone PathExamples.ph) (L "/igt") = Err AttributeError
  /\ @tokenize ascii_unicode (L ".[tier") = [L "."; L "["; L "tier"] /\ F PathExamples.igt_node (L ".[tier") = Err IndexError.
Proof. vm_compute. repeat split. Qed.

(* ---------- reading ---------- *)

(* a tag with an opening brace only *)
Theorem C80_tag_unclosed : forall (U : Unicode) p u igts, p_tag p = L "{" ++ u -> ~ In (Ch "}") u ->
  decode_xigtcorpus p igts = Err ValueError /\ decode_igt p = Err ValueError /\ decode_tier p = Err ValueError
  /\ decode_item p = Err ValueError /\ decode_metadata p = Err ValueError /\ decode_meta p = Err ValueError
  /\ decode_child p = Err ValueError.
Proof. exact @ErrorsData.tag_unclosed. Qed.
Print Assumptions C80_tag_unclosed.

(* an element of another name than expected *)
Theorem C80_tag_other : forall (U : Unicode) p n igts, tag_name (p_tag p) n ->
  (n <> L "xigt-corpus" -> decode_xigtcorpus p igts = Err AssertionError)
  /\ (n <> L "igt" -> decode_igt p = Err AssertionError)
  /\ (n <> L "tier" -> decode_tier p = Err AssertionError)
  /\ (n <> L "item" -> decode_item p = Err AssertionError)
  /\ (n <> L "metadata" -> decode_metadata p = Err AssertionError)
  /\ (n <> L "meta" -> decode_meta p = Err AssertionError).
Proof. exact @ErrorsData.tag_other. Qed.
Print Assumptions C80_tag_other.

(* an id that is not accepted *)
Theorem C80_xml_id : forall (U : Unicode) p m i,
  p_nsmap p = Some m -> p_kids p = [] -> dget (p_attrib p) (L "id") = Some i -> id_accepted i = false ->
  (tag_name (p_tag p) (L "igt") -> decode_igt p = Err ValueError)
  /\ (tag_name (p_tag p) (L "tier") -> decode_tier p = Err ValueError)
  /\ (tag_name (p_tag p) (L "item") -> decode_item p = Err ValueError)
  /\ (tag_name (p_tag p) (L "metadata") -> decode_metadata p = Err ValueError)
  /\ (tag_name (p_tag p) (L "meta") -> decode_meta p = Err ValueError)
  /\ (tag_name (p_tag p) (L "xigt-corpus") -> forall igts, decode_xigtcorpus p igts = Err ValueError).
Proof. exact @ErrorsData.xml_id. Qed.
Print Assumptions C80_xml_id.

(* an element that the reader has cleared, and a child with a name that is not accepted *)
Theorem C80_xml_cleared : forall (U : Unicode) p,
  p_nsmap p = None -> tag_name (p_tag p) (L "item") -> decode_item p = Err AttributeError.
Proof. exact @ErrorsData.xml_cleared. Qed.
Print Assumptions C80_xml_cleared.
Theorem C80_xml_name : forall (U : Unicode) p m n,
  p_nsmap p = Some m -> p_kids p = [] -> tag_name (p_tag p) n -> name_accepted n = false -> decode_child p = Err ValueError.
Proof. exact @ErrorsData.xml_name. Qed.
Print Assumptions C80_xml_name.

Example C80_xml :
  let e tag i := PElem tag [(L "id", i)] (Some []) None None [] in
  @decode_tier ascii_unicode (e (L "{u") (L "a")) = Err ValueError
  /\ @decode_tier ascii_unicode (e (L "{u}item") (L "a")) = Err AssertionError
  /\ @decode_tier ascii_unicode (e (L "{u}tier") (L "1a")) = Err ValueError
  /\ (exists t, @decode_tier ascii_unicode (e (L "{u}tier") (L "a1")) = Ok t)
  /\ tag_name (L "{u}tier") (L "tier").
Proof.
  repeat split; try (vm_compute; reflexivity).
  - eexists. vm_compute. reflexivity.
  - right. exists (L "u"). split; [reflexivity|]. vm_compute. intuition congruence.
Qed.

(* JSON values other than objects *)
Theorem C80_json_not_object : forall (U : Unicode) j nm, (forall d, j <> JObj d) ->
  json_decode j = Err AttributeError /\ dec_igt nm j = Err AttributeError /\ dec_tier nm j = Err AttributeError
  /\ dec_item nm j = Err AttributeError /\ dec_metadata nm j = Err AttributeError /\ dec_meta nm j = Err AttributeError
  /\ dec_child nm j = Err AttributeError.
Proof. exact @ErrorsData.json_not_object. Qed.
Print Assumptions C80_json_not_object.

Theorem C80_json_id : forall (U : Unicode) d nm i,
  bare d -> dget d (L "id") = Some (JStr i) -> id_accepted i = false ->
  json_decode (JObj d) = Err ValueError /\ dec_igt nm (JObj d) = Err ValueError /\ dec_tier nm (JObj d) = Err ValueError
  /\ dec_item nm (JObj d) = Err ValueError /\ dec_metadata nm (JObj d) = Err ValueError /\ dec_meta nm (JObj d) = Err ValueError.
Proof. exact @ErrorsData.json_id. Qed.
Print Assumptions C80_json_id.

(* the children of a meta need an accepted name; a prefix does not count *)
Theorem C80_json_child : forall (U : Unicode) d nm, bare d ->
  (dget d (L "name") = None -> dec_child nm (JObj d) = Err KeyError)
  /\ (forall n, dget d (L "name") = Some (JStr n) -> ~ In (Ch ":") n -> name_accepted n = false ->
        dec_child nm (JObj d) = Err ValueError)
  /\ (forall p n, dget d (L "name") = Some (JStr (p ++ L ":" ++ n)) -> ~ In (Ch ":") p -> name_accepted n = false ->
        dec_child nm (JObj d) = Err ValueError).
Proof. exact @ErrorsData.json_child. Qed.
Print Assumptions C80_json_child.

Example C80_json :
  let d := [(L "id", JStr (L "1a")); (L "name", JStr (L "dc:-x")); (L "text", JStr (L "t"))] in
  bare d /\ @dec_item ascii_unicode [] (JObj d) = Err ValueError /\ @dec_child ascii_unicode [] (JObj d) = Err ValueError
  /\ @dec_child ascii_unicode [] (JObj [(L "text", JStr (L "t"))]) = Err KeyError.
Proof.
  split; [|vm_compute; repeat split]. split.
  - intros k v. unfold dget. cbn [dget_]. repeat (destruct (str_eqb k _); [intros [= <-]; eauto|]). easy.
  - repeat constructor.
Qed.

(* ---------- references and containers ---------- *)

(* ids that nothing in the igt has *)
Theorem C80_refs_unknown : forall (U : Unicode) g k ras,
  id_accepted k = true -> (forall n, In n (all_nodes g) -> node_id n <> Some k) ->
  referents g (construct_index g) k ras = Err XigtLookupError /\ referrers g (construct_index g) k ras = Err XigtLookupError.
Proof. exact @ErrorsData.refs_unknown. Qed.
Print Assumptions C80_refs_unknown.

Theorem C80_dereference : forall (U : Unicode) g x n ra,
  (dget (a_dict (node_attrs n)) ra = None ->
     dereference g x n ra = Err KeyError /\ dereference_all g x n ra = Err KeyError)
  /\ (forall e, dget (a_dict (node_attrs n)) ra = Some e -> ids e = [] ->
        dereference g x n ra = Err IndexError /\ dereference_all g x n ra = Ok []).
Proof. exact @ErrorsData.deref_errors. Qed.
Print Assumptions C80_dereference.

(* igt[k] for a string k that is no id: a number counts, other strings are KeyErrors *)
Theorem C80_igt_item : forall (U : Unicode) (A : Type) (idof : A -> option str) l k, no_member idof l k ->
  (py_int k = None -> container_item idof l k = Err KeyError)
  /\ (forall z, py_int k = Some z -> (forall p, ~ subscript (length l) z p) -> container_item idof l k = Err IndexError)
  /\ (forall z p x, py_int k = Some z -> subscript (length l) z p -> nth_error l p = Some x -> container_item idof l k = Ok x).
Proof. exact @ErrorsData.container_item_errors. Qed.
Print Assumptions C80_igt_item.

Theorem C80_getitem : forall (U : Unicode) (c : Container.cont),
  (forall z, (forall p, ~ subscript (length (Container.c_items c)) z p) -> Container.getitem c (Container.KInt z) = Err IndexError)
  /\ (forall k z, dget (Container.c_dict c) k = None -> py_int k = Some z ->
        (forall p, ~ subscript (length (Container.c_items c)) z p) -> Container.getitem c (Container.KStr k) = Err IndexError)
  /\ (forall k, dget (Container.c_dict c) k = None -> py_int k = None -> Container.getitem c (Container.KStr k) = Err KeyError)
  /\ Container.getitem c Container.KNone = Err TypeError.
Proof. exact @ErrorsData.getitem_errors. Qed.
Print Assumptions C80_getitem.

(* assignments that change nothing *)
Theorem C80_setitem : forall (U : Unicode) (B : Type) (beq : B -> B -> bool) s k a,
  Container.type_ok (Container.conts s k) (Container.objs s a) = true ->
  Container.step beq s k (Container.OSet Container.KNone a) = (s, Container.RExn TypeError)
  /\ (forall i j, Container.step beq s k (Container.OSet (Container.KSlice i j) a) = (s, Container.RExn AttributeError))
  /\ (forall t, py_int t = None -> Container.step beq s k (Container.OSet (Container.KStr t) a) = (s, Container.RExn ValueError))
  /\ (forall z, (forall p, ~ subscript (length (members s k)) z p) ->
        Container.step beq s k (Container.OSet (Container.KInt z) a) = (s, Container.RExn IndexError)).
Proof. exact @ErrorsData.setitem_errors. Qed.
Print Assumptions C80_setitem.

(* obj.id = i *)
Theorem C80_set_id : forall (U : Unicode) (B : Type) (beq : B -> B -> bool) s k a,
  (forall i, id_accepted i = false -> Container.step beq s k (Container.OSetId a (Some i)) = (s, Container.RExn ValueError))
  /\ (forall i, (forall v, i = Some v -> id_accepted v = true) ->
        snd (Container.step beq s k (Container.OSetId a i)) = Container.RNone
        /\ the_id (fst (Container.step beq s k (Container.OSetId a i))) a = i
        /\ (forall b, b <> a -> Container.objs (fst (Container.step beq s k (Container.OSetId a i))) b = Container.objs s b)
        /\ forall k', Container.conts (fst (Container.step beq s k (Container.OSetId a i))) k' = Container.conts s k').
Proof. exact @ErrorsData.set_id_exact. Qed.
Print Assumptions C80_set_id.

(* container += list: the members are there, the index is as before *)
Theorem C80_iadd : forall (U : Unicode) (B : Type) (beq : B -> B -> bool) s k l,
  snd (Container.step beq s k (Container.OIadd l)) = Container.RNone
  /\ members (fst (Container.step beq s k (Container.OIadd l))) k = members s k ++ l
  /\ Container.c_dict (Container.conts (fst (Container.step beq s k (Container.OIadd l))) k) = Container.c_dict (Container.conts s k)
  /\ (forall b, Container.objs (fst (Container.step beq s k (Container.OIadd l))) b = Container.objs s b)
  /\ forall k', k' <> k -> Container.conts (fst (Container.step beq s k (Container.OIadd l))) k' = Container.conts s k'.
Proof. exact @ErrorsData.iadd_exact. Qed.
Print Assumptions C80_iadd.

(* the attributes of an item that select can ask for *)
Theorem C80_item_attributes : forall (it : item) k,
  item_getattr it (L "id") = a_id (it_attrs it) /\ item_getattr it (L "type") = a_type (it_attrs it)
  /\ item_getattr it (L "namespace") = a_ns (it_attrs it) /\ item_getattr it (L "text") = it_text it
  /\ item_getattr it (L "alignment") = dget (a_dict (it_attrs it)) (L "alignment")
  /\ item_getattr it (L "content") = dget (a_dict (it_attrs it)) (L "content")
  /\ item_getattr it (L "segmentation") = dget (a_dict (it_attrs it)) (L "segmentation")
  /\ (~ In k [L "id"; L "type"; L "namespace"; L "text"; L "alignment"; L "content"; L "segmentation"] -> item_getattr it k = None).
Proof. exact ErrorsData.item_getattr_exact. Qed.
Print Assumptions C80_item_attributes.

Example C80_containers :
  (forall p, ~ subscript 3 (-4) p) /\ subscript 3 (-3) 0
  /\ @referents ascii_unicode PathExamples.ig (@construct_index ascii_unicode PathExamples.ig) (L "w9") None = Err XigtLookupError
  /\ @dereference ascii_unicode PathExamples.ig (@construct_index ascii_unicode PathExamples.ig) (NTier PathExamples.ph) (L "alignment") = Err KeyError
  /\ @container_item ascii_unicode _ tier_id (g_tiers PathExamples.ig) (L "7") = Err IndexError
  /\ @container_item ascii_unicode _ tier_id (g_tiers PathExamples.ig) (L "-1") = Ok PathExamples.tr
  /\ @container_item ascii_unicode _ tier_id (g_tiers PathExamples.ig) (L "x") = Err KeyError.
Proof.
  split; [intros p [H1 [H2|H2]]; lia|]. split; [split; [lia|now right]|]. vm_compute. repeat split.
Qed.
