(* Proofs for PropErrors.v: which exceptions the readers, the containers and the
   indices raise. *)
From Verif Require Import PyStr PyStrFacts SpecRef Ref Model Attr Value SpecValue Index SpecIndex XmlStd Xml Json SpecContainer SpecErrors.
From Verif Require Container RefLossless ValueProofs ContainerProofs ContainerLaws AttrProofs IndexProofs.

Section Readers.
Context {U : Unicode}.

(* ---------- xigtxml ---------- *)

Lemma qname_bad q u : q = L "{" ++ u -> ~ In (Ch "}") u -> qname_split q = Err ValueError.
Proof. intros -> H. unfold qname_split. change (L "{" ++ u) with (Ch "{" :: u). cbn iota. rewrite N.eqb_refl. now rewrite AttrProofs.split1_none. Qed.
Lemma qname_ns u n : ~ In (Ch "}") u -> qname_split (L "{" ++ u ++ L "}" ++ n) = Ok (Some u, n).
Proof.
  intros H. unfold qname_split. change (L "{" ++ u ++ L "}" ++ n) with (Ch "{" :: u ++ Ch "}" :: n). cbn iota. rewrite N.eqb_refl.
  now rewrite AttrProofs.split1_app.
Qed.
Lemma qname_plain n : (forall r, n <> L "{" ++ r) -> qname_split n = Ok (None, n).
Proof.
  intros H. unfold qname_split. destruct n as [|c r]; [easy|]. destruct (N.eqb_spec c (Ch "{")) as [->|]; [|easy]. now destruct (H r).
Qed.
(* a tag with an opening brace only *)
Theorem tag_unclosed p u igts : p_tag p = L "{" ++ u -> ~ In (Ch "}") u ->
  decode_xigtcorpus p igts = Err ValueError /\ decode_igt p = Err ValueError /\ decode_tier p = Err ValueError
  /\ decode_item p = Err ValueError /\ decode_metadata p = Err ValueError /\ decode_meta p = Err ValueError
  /\ decode_child p = Err ValueError.
Proof.
  intros H Hu. pose proof (qname_bad _ _ H Hu) as E.
  unfold decode_xigtcorpus, decode_igt, decode_tier, decode_item, decode_metadata, decode_meta, expect_tag. rewrite E.
  repeat split. destruct p. cbn in E |- *. now rewrite E.
Qed.
Lemma tag_name_split tag n : tag_name tag n -> exists ns, qname_split tag = Ok (ns, n).
Proof.
  intros [[-> H]|(u & -> & H)]; [exists None; now apply qname_plain|exists (Some u); now apply qname_ns].
Qed.
Lemma expect_bad name p n : tag_name (p_tag p) n -> n <> name -> expect_tag name p = Err AssertionError.
Proof.
  intros H Hn. apply tag_name_split in H as [ns E]. unfold expect_tag. rewrite E. cbn [bind].
  now rewrite (proj2 (str_eqb_neq n name)).
Qed.
Lemma expect_good name p : tag_name (p_tag p) name -> exists ns, expect_tag name p = Ok ns.
Proof. intros H. apply tag_name_split in H as [ns E]. unfold expect_tag. rewrite E. cbn [bind]. rewrite str_eqb_refl. eauto. Qed.
Theorem tag_other p n igts : tag_name (p_tag p) n ->
  (n <> L "xigt-corpus" -> decode_xigtcorpus p igts = Err AssertionError)
  /\ (n <> L "igt" -> decode_igt p = Err AssertionError)
  /\ (n <> L "tier" -> decode_tier p = Err AssertionError)
  /\ (n <> L "item" -> decode_item p = Err AssertionError)
  /\ (n <> L "metadata" -> decode_metadata p = Err AssertionError)
  /\ (n <> L "meta" -> decode_meta p = Err AssertionError).
Proof.
  intros H. repeat split; intros Hn; unfold decode_xigtcorpus, decode_igt, decode_tier, decode_item, decode_metadata, decode_meta;
    erewrite expect_bad by eauto; reflexivity.
Qed.
(* an id that is not accepted, in an element without children *)
Theorem xml_id p m i : p_nsmap p = Some m -> p_kids p = [] -> dget (p_attrib p) (L "id") = Some i -> id_accepted i = false ->
  (tag_name (p_tag p) (L "igt") -> decode_igt p = Err ValueError)
  /\ (tag_name (p_tag p) (L "tier") -> decode_tier p = Err ValueError)
  /\ (tag_name (p_tag p) (L "item") -> decode_item p = Err ValueError)
  /\ (tag_name (p_tag p) (L "metadata") -> decode_metadata p = Err ValueError)
  /\ (tag_name (p_tag p) (L "meta") -> decode_meta p = Err ValueError)
  /\ (tag_name (p_tag p) (L "xigt-corpus") -> forall igts, decode_xigtcorpus p igts = Err ValueError).
Proof.
  intros Hm Hk Hi Ha.
  repeat split; intros H; intros; destruct (expect_good _ _ H) as [ns E];
    unfold decode_xigtcorpus, decode_igt, decode_tier, decode_item, decode_metadata, decode_meta, decode_metadatas, find_kids, pget;
    change ID with (L "id"); rewrite E, Hi, ?Hk; unfold decode_attrs; rewrite Hm, Ha; reflexivity.
Qed.
(* elements cleared by the reader have no nsmap *)
Theorem xml_cleared p : p_nsmap p = None -> tag_name (p_tag p) (L "item") -> decode_item p = Err AttributeError.
Proof.
  intros Hm H. destruct (expect_good _ _ H) as [ns E]. unfold decode_item. rewrite E. cbn [bind]. unfold decode_attrs. now rewrite Hm.
Qed.
Theorem xml_name p m n : p_nsmap p = Some m -> p_kids p = [] -> tag_name (p_tag p) n -> name_accepted n = false ->
  decode_child p = Err ValueError.
Proof.
  destruct p as [tag d ms t tl k]. cbn [p_nsmap p_kids p_tag]. intros -> -> H Hn. apply tag_name_split in H as [ns E].
  cbn [decode_child]. rewrite E. cbn [bind traverse]. unfold decode_attrs. cbn. now rewrite Hn.
Qed.

(* ---------- xigtjson ---------- *)

Theorem json_not_object j nm : (forall d, j <> JObj d) ->
  json_decode j = Err AttributeError /\ dec_igt nm j = Err AttributeError /\ dec_tier nm j = Err AttributeError
  /\ dec_item nm j = Err AttributeError /\ dec_metadata nm j = Err AttributeError /\ dec_meta nm j = Err AttributeError
  /\ dec_child nm j = Err AttributeError.
Proof. intros H. destruct j; try now repeat split. now destruct (H d). Qed.
Lemma get_str_ok d k : strings d -> exists o, get_str k d = Ok o.
Proof. intros H. unfold get_str. destruct (dget d k) as [v|] eqn:E; [|eauto]. apply H in E as [s ->]. eauto. Qed.
Lemma get_dict_no d k : dget d k = None -> get_dict k d = Ok None.
Proof. intros H. unfold get_dict. now rewrite H. Qed.
Lemma get_list_no {A} (f : json -> res A) d k : dget d k = None -> get_list f k d = Ok [].
Proof.
  intros H. induction d as [|[k' v] d IH]; [easy|]. cbn. cbn in H. unfold dget in H. cbn in H.
  destruct (str_eqb k k'); [easy|auto].
Qed.
Theorem json_id d nm i : bare d -> dget d (L "id") = Some (JStr i) -> id_accepted i = false ->
  json_decode (JObj d) = Err ValueError /\ dec_igt nm (JObj d) = Err ValueError /\ dec_tier nm (JObj d) = Err ValueError
  /\ dec_item nm (JObj d) = Err ValueError /\ dec_metadata nm (JObj d) = Err ValueError /\ dec_meta nm (JObj d) = Err ValueError.
Proof.
  intros [Hs Hn] Hi Ha. repeat (apply Forall_cons_iff in Hn as [? Hn]).
  destruct (get_str_ok d TYPE Hs) as [t Et]. destruct (get_str_ok d (L "namespace") Hs) as [n En].
  assert (Ei : get_str ID d = Ok (Some i)) by (unfold get_str; change ID with (L "id"); now rewrite Hi).
  assert (En' : get_dict (L "namespaces") d = Ok None) by now apply get_dict_no.
  assert (Ea : get_dict (L "attributes") d = Ok None) by now apply get_dict_no.
  unfold json_decode, dec_igt, dec_tier, dec_item, dec_metadata, dec_meta, dec_metadatas, dec_common, dec_attrs, active_namespaces.
  cbn [as_obj bind]. rewrite Ei, Et, En, En'. cbn [bind]. rewrite Ea. cbn [bind]. rewrite !get_list_no by easy. rewrite Ha.
  repeat split; reflexivity.
Qed.
Theorem json_child d nm : bare d -> 
  (dget d (L "name") = None -> dec_child nm (JObj d) = Err KeyError)
  /\ (forall n, dget d (L "name") = Some (JStr n) -> ~ In (Ch ":") n -> name_accepted n = false -> dec_child nm (JObj d) = Err ValueError)
  /\ (forall p n, dget d (L "name") = Some (JStr (p ++ L ":" ++ n)) -> ~ In (Ch ":") p -> name_accepted n = false ->
        dec_child nm (JObj d) = Err ValueError).
Proof.
  intros [Hs Hn]. repeat (apply Forall_cons_iff in Hn as [? Hn]).
  destruct (get_str_ok d (L "text") Hs) as [t Et]. destruct (get_str_ok d (L "namespace") Hs) as [n0 En].
  assert (En' : get_dict (L "namespaces") d = Ok None) by now apply get_dict_no.
  assert (Ea : get_dict (L "attributes") d = Ok None) by now apply get_dict_no.
  cbn [dec_child]. unfold active_namespaces, dec_attrs. rewrite En'. cbn [bind]. repeat split.
  - intros Hd. unfold get_str at 1. now rewrite Hd.
  - intros n Hd Hc Ha. unfold get_str at 1. rewrite Hd. cbn [bind]. rewrite AttrProofs.split1_none by easy. rewrite En. cbn [bind].
    rewrite Ea. cbn [bind]. rewrite Et. cbn [bind]. rewrite get_list_no by easy. cbn [bind]. now rewrite Ha.
  - intros p n Hd Hc Ha. unfold get_str at 1. rewrite Hd. cbn [bind]. change (p ++ L ":" ++ n) with (p ++ Ch ":" :: n).
    rewrite AttrProofs.split1_app by easy. cbn [bind].
    rewrite Ea. cbn [bind]. rewrite Et. cbn [bind]. rewrite get_list_no by easy. cbn [bind]. now rewrite Ha.
Qed.

(* ---------- indices ---------- *)

Theorem refs_unknown g k ras : id_accepted k = true -> (forall n, In n (all_nodes g) -> node_id n <> Some k) ->
  referents g (construct_index g) k ras = Err XigtLookupError /\ referrers g (construct_index g) k ras = Err XigtLookupError.
Proof.
  intros Ha H. apply RefLossless.accepted_not_int in Ha.
  assert (Ei : get_item (construct_index g) k = None).
  { apply IndexProofs.get_item_constructed. intros n Hn. apply H. unfold all_nodes. apply in_or_app. right.
    destruct Hn as (t & i & -> & Ht & Hi). apply in_concat. exists (map (NItem t) (t_items t)). split; [|now apply in_map].
    apply in_map_iff. now exists t. }
  assert (Et : no_member tier_id (g_tiers g) k).
  { intros t Ht. apply (H (NTier t)). apply in_or_app. left. now apply in_map. }
  split.
  - unfold referents. now rewrite IndexProofs.get_any_absent.
  - unfold referrers. rewrite IndexProofs.container_item_absent, Ei by easy. reflexivity.
Qed.
Theorem deref_errors g x n ra :
  (dget (a_dict (node_attrs n)) ra = None ->
     dereference g x n ra = Err KeyError /\ dereference_all g x n ra = Err KeyError)
  /\ (forall e, dget (a_dict (node_attrs n)) ra = Some e -> ids e = [] ->
        dereference g x n ra = Err IndexError /\ dereference_all g x n ra = Ok []).
Proof.
  unfold dereference, dereference_all. split; [intros ->; easy|]. intros e -> E. now rewrite E.
Qed.
(* a string that is an integer counts *)
Theorem container_item_errors {A} (idof : A -> option str) l k : no_member idof l k ->
  (py_int k = None -> container_item idof l k = Err KeyError)
  /\ (forall z, py_int k = Some z -> (forall p, ~ subscript (length l) z p) -> container_item idof l k = Err IndexError)
  /\ (forall z p x, py_int k = Some z -> subscript (length l) z p -> nth_error l p = Some x -> container_item idof l k = Ok x).
Proof.
  intros H. repeat split.
  - intros Hk. now apply IndexProofs.container_item_absent.
  - intros z Hk Hz. unfold container_item. rewrite (proj2 (ValueProofs.find_id_none _ _ _)), Hk by easy.
    now rewrite (proj2 (ContainerProofs.py_index_none _ _)).
  - intros z p x Hk Hz Hx. unfold container_item. rewrite (proj2 (ValueProofs.find_id_none _ _ _)), Hk by easy.
    now rewrite (proj2 (ContainerProofs.py_index_spec _ _ p)), Hx.
Qed.
End Readers.

(* ---------- containers ---------- *)

Section Containers.
Context {U : Unicode} {B : Type} (beq : B -> B -> bool).
Import Container.

Lemma list_get_none l z : (forall p, ~ subscript (length l) z p) -> list_get l z = Err IndexError.
Proof. intros H. unfold list_get. now rewrite (proj2 (ContainerProofs.py_index_none _ _)). Qed.
Theorem getitem_errors (c : cont) :
  (forall z, (forall p, ~ subscript (length (c_items c)) z p) -> getitem c (KInt z) = Err IndexError)
  /\ (forall k z, dget (c_dict c) k = None -> py_int k = Some z -> (forall p, ~ subscript (length (c_items c)) z p) ->
        getitem c (KStr k) = Err IndexError)
  /\ (forall k, dget (c_dict c) k = None -> py_int k = None -> getitem c (KStr k) = Err KeyError)
  /\ getitem c KNone = Err TypeError.
Proof.
  repeat split; intros; unfold getitem; try (rewrite list_get_none by easy; reflexivity).
  - rewrite H, H0, list_get_none by easy. reflexivity.
  - now rewrite H, H0.
Qed.
Theorem setitem_errors (s : @state B) k a : type_ok (conts s k) (objs s a) = true ->
  step beq s k (OSet KNone a) = (s, RExn TypeError)
  /\ (forall i j, step beq s k (OSet (KSlice i j) a) = (s, RExn AttributeError))
  /\ (forall t, py_int t = None -> step beq s k (OSet (KStr t) a) = (s, RExn ValueError))
  /\ (forall z, (forall p, ~ subscript (length (members s k)) z p) -> step beq s k (OSet (KInt z) a) = (s, RExn IndexError)).
Proof.
  intros Ht. cbn [step]. unfold setitem. rewrite Ht. cbn [negb]. repeat split; try easy.
  - intros t E. cbn [set_index]. now rewrite E.
  - intros z H. cbn [set_index]. now rewrite list_get_none.
Qed.
Theorem set_id_exact (s : @state B) k a :
  (forall i, id_accepted i = false -> step beq s k (OSetId a (Some i)) = (s, RExn ValueError))
  /\ (forall i, (forall v, i = Some v -> id_accepted v = true) ->
        snd (step beq s k (OSetId a i)) = RNone
        /\ the_id (fst (step beq s k (OSetId a i))) a = i
        /\ (forall b, b <> a -> objs (fst (step beq s k (OSetId a i))) b = objs s b)
        /\ forall k', conts (fst (step beq s k (OSetId a i))) k' = conts s k').
Proof.
  split.
  - intros i H. cbn [step]. now rewrite H.
  - intros i H. destruct i as [v|]; cbn [step]; [rewrite (H v eq_refl)|]; (split; [easy|]); (split; [|split; [|easy]]);
      unfold the_id, put_obj, upd; cbn; rewrite ?Nat.eqb_refl; try easy; intros b Hb; now apply Nat.eqb_neq in Hb as ->.
Qed.
Theorem iadd_exact (s : @state B) k l :
  snd (step beq s k (OIadd l)) = RNone
  /\ members (fst (step beq s k (OIadd l))) k = members s k ++ l
  /\ c_dict (conts (fst (step beq s k (OIadd l))) k) = c_dict (conts s k)
  /\ (forall b, objs (fst (step beq s k (OIadd l))) b = objs s b)
  /\ forall k', k' <> k -> conts (fst (step beq s k (OIadd l))) k' = conts s k'.
Proof.
  cbn [step]. unfold relist, members, put_cont, upd. cbn. rewrite Nat.eqb_refl. repeat split.
  intros k' H. now apply Nat.eqb_neq in H as ->.
Qed.
End Containers.

Theorem item_getattr_exact (it : item) k :
  item_getattr it (L "id") = a_id (it_attrs it) /\ item_getattr it (L "type") = a_type (it_attrs it)
  /\ item_getattr it (L "namespace") = a_ns (it_attrs it) /\ item_getattr it (L "text") = it_text it
  /\ item_getattr it (L "alignment") = dget (a_dict (it_attrs it)) (L "alignment")
  /\ item_getattr it (L "content") = dget (a_dict (it_attrs it)) (L "content")
  /\ item_getattr it (L "segmentation") = dget (a_dict (it_attrs it)) (L "segmentation")
  /\ (~ In k [L "id"; L "type"; L "namespace"; L "text"; L "alignment"; L "content"; L "segmentation"] -> item_getattr it k = None).
Proof.
  repeat split. intros H. unfold item_getattr.
  assert (E : forall x, In x [L "id"; L "type"; L "namespace"; L "text"; L "alignment"; L "content"; L "segmentation"] -> str_eqb k x = false).
  { intros x Hx. apply str_eqb_neq. now intros ->. }
  change ID with (L "id"). change TYPE with (L "type"). change NAMESPACE with (L "namespace").
  change ALIGNMENT with (L "alignment"). change CONTENT with (L "content"). change SEGMENTATION with (L "segmentation").
  rewrite !E by (cbn; tauto). reflexivity.
Qed.
