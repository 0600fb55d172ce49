(* Paths over equal objects give equal results. *)
From Verif Require Import PyStr PyStrFacts PySort SpecRef Ref Model SpecModel Attr Value Index Path SpecPathSame.
From Verif Require Import SameProofs PathFuel.
From Verif Require PathTokenProofs SortScriptProofs AttrProofs.

(* ---------- lists ---------- *)

Lemma F2_map {A B C D} (R : A -> B -> Prop) (S_ : C -> D -> Prop) f g l l' : (forall a b, R a b -> S_ (f a) (g b)) -> Forall2 R l l' ->
  Forall2 S_ (map f l) (map g l').
Proof. intros H. induction 1; constructor; auto. Qed.
Lemma F2_filter {A B} (R : A -> B -> Prop) f g l l' : (forall a b, R a b -> f a = g b) -> Forall2 R l l' -> Forall2 R (filter f l) (filter g l').
Proof. intros H. induction 1 as [|a b l l' Hab _ IH]; cbn; [constructor|]. rewrite (H a b Hab). destruct (g b); auto. Qed.
Lemma F2_flat {A B C D} (R : A -> B -> Prop) (S_ : C -> D -> Prop) f g l l' : (forall a b, R a b -> Forall2 S_ (f a) (g b)) -> Forall2 R l l' ->
  Forall2 S_ (flat_map f l) (flat_map g l').
Proof. intros H. induction 1; cbn; [constructor|]. apply Forall2_app; auto. Qed.
Lemma F2_max {A B} (R : A -> B -> Prop) (f : A -> nat) (g : B -> nat) l l' : (forall a b, R a b -> f a = g b) -> Forall2 R l l' ->
  fold_right (fun x n => Nat.max (f x) n) 0 l = fold_right (fun x n => Nat.max (g x) n) 0 l'.
Proof. intros H. induction 1 as [|a b l l' Hab _ IH]; cbn; [easy|]. now rewrite (H a b Hab), IH. Qed.
Lemma F2_refl_map {A B C} (R : B -> C -> Prop) (f : A -> B) (g : A -> C) l : (forall a, R (f a) (g a)) -> Forall2 R (map f l) (map g l).
Proof. intros H. induction l; constructor; auto. Qed.

(* ---------- objects ---------- *)

Lemma attrs_same o o' : same_obj o o' -> same_attrs (attrs_of o) (attrs_of o').
Proof. destruct o, o'; cbn; try easy; try (intros H; apply H). inversion 1; subst. easy. Qed.
Lemma metadata_same o o' : same_obj o o' -> Forall2 same_obj (metadata_list o) (metadata_list o').
Proof.
  destruct o, o'; cbn; try easy; intros H; try constructor; destruct H as (_ & H & _);
    (eapply F2_map; [|exact H]; intros; assumption).
Qed.
Lemma members_same o o' : same_obj o o' -> Forall2 same_obj (member_list o) (member_list o').
Proof.
  destruct o, o'; unfold member_list; cbn; try easy; intros H; try constructor.
  - destruct H as (_ & _ & H). eapply F2_map; [|exact H]. intros; assumption.
  - destruct H as (_ & _ & H). eapply F2_map; [|exact H]. intros; assumption.
  - destruct H as (_ & _ & H). eapply F2_map; [|exact H]. intros; assumption.
  - destruct H as (_ & H). eapply F2_map; [|exact H]. intros; assumption.
  - destruct H as (_ & _ & H). eapply F2_map; [|exact H]. intros; assumption.
  - inversion H; subst. eapply F2_map; [|eassumption]. intros; assumption.
Qed.
Lemma class_same o o' : same_obj o o' -> member_name o = member_name o'.
Proof. now destruct o, o'. Qed.
Lemma child_same n n' o o' : same_node n n' -> same_obj o o' -> same_val (VNode (child_of n o)) (VNode (child_of n' o')).
Proof. intros [H1 H2] Ho. split; [exact Ho|]. constructor; assumption. Qed.
Lemma getattr_same o o' k : same_obj o o' -> child_getattr o k = child_getattr o' k.
Proof.
  intros H. pose proof (attrs_same _ _ H) as (_ & _ & Hn & _). unfold child_getattr. rewrite Hn.
  destruct (str_eqb k NAMESPACE); [easy|]. destruct (str_eqb k (L "name")); [|easy].
  destruct o, o'; cbn in H; try easy. now inversion H.
Qed.

Definition same_stream (s s' : stream) : Prop := Forall2 same_val (fst s) (fst s') /\ snd s = snd s'.
Lemma stream_nil e : same_stream ([], e) ([], e).
Proof. split; constructor. Qed.
Lemma same_of_res r r' : same_results r r' -> same_stream (of_res r) (of_res r').
Proof. destruct r, r'; cbn; intros H; try easy. subst. split; constructor. Qed.
Lemma sbind_same f g s s' : (forall v v', same_val v v' -> same_stream (f v) (g v')) -> same_stream s s' -> same_stream (sbind f s) (sbind g s').
Proof.
  intros H [H1 H2]. unfold sbind. rewrite H2. destruct s as [l e]. cbn in *. clear e H2. induction H1 as [|v v' l l' Hv _ IH]; cbn; [apply stream_nil|].
  destruct (H v v' Hv) as [E1 E2]. destruct (f v) as [ys [e|]], (g v') as [ys' [e'|]]; cbn in *; try easy.
  destruct IH as [I1 I2]. destruct (sbind_ f l _) as [zs x], (sbind_ g _ _) as [zs' x']. cbn in *. split; [now apply Forall2_app|easy].
Qed.
Lemma sfilter_same p q s s' : (forall v v', same_val v v' -> p v = q v') -> same_stream s s' -> same_stream (sfilter p s) (sfilter q s').
Proof.
  intros H [H1 H2]. unfold sfilter. rewrite H2. destruct s as [l e]. cbn in *. clear e H2. induction H1 as [|v v' l l' Hv _ IH]; cbn; [apply stream_nil|].
  rewrite (H v v' Hv). destruct (q v') as [b|x]; [|apply stream_nil].
  destruct IH as [I1 I2]. destruct (sfilter_ p l _) as [zs x], (sfilter_ q _ _) as [zs' x']. cbn in *. split; [destruct b; [now constructor|easy]|easy].
Qed.
Lemma same_opt o : same_val (of_opt o) (of_opt o).
Proof. destruct o; cbn; easy. Qed.
Lemma one_same x y : same_val x y -> same_stream ([x], None) ([y], None).
Proof. intros H. split; [|easy]. constructor; [exact H|constructor]. Qed.

Section PathSame.
Context {U : Unicode}.

(* ---------- children and attributes ---------- *)

Lemma select_same n n' kw : same_node n n' -> dget kw NAMESPACE = None ->
  Forall2 same_val (select_members n kw) (select_members n' kw).
Proof.
  intros H Hk. unfold select_members, select. rewrite Hk. eapply F2_map with (R := same_obj); [intros; now apply child_same|].
  apply F2_filter; [|apply members_same, H]. intros a b Hab. induction kw as [|[k v] kw IH]; cbn; [easy|].
  rewrite (getattr_same a b k Hab). f_equal. apply IH. unfold dget in *. cbn in Hk. now destruct (str_eqb NAMESPACE k).
Qed.
Lemma find_child_same v v' name : ~ In COLON name -> same_val v v' -> same_stream (find_child v name) (find_child v' name).
Proof.
  intros Hc H. unfold find_child, split_ns. rewrite AttrProofs.split1_none by exact Hc. cbn [ns_kwargs app].
  destruct v as [n|s| |l], v' as [n'|s'| |l']; cbn in H; try easy; try (destruct (str_eqb name (L "*")); apply stream_nil); try apply stream_nil.
  assert (M : Forall2 same_val (map VNode (map (child_of n) (metadata_list (n_obj n)))) (map VNode (map (child_of n') (metadata_list (n_obj n'))))).
  { rewrite !map_map. eapply F2_map; [|apply metadata_same, H]. intros a b Hab. now apply child_same. }
  pose proof (class_same _ _ (proj1 H)) as Hn.
  assert (K1 : Forall2 same_val (select_members n []) (select_members n' [])) by now apply select_same.
  assert (K2 : Forall2 same_val (select_members n [(L "name", Some name)]) (select_members n' [(L "name", Some name)])) by now apply select_same.
  assert (E : forall l l', Forall2 same_val l l' -> same_stream (l, None) (l', None)) by (intros; now split).
  remember (map VNode (map (child_of n) (metadata_list (n_obj n)))) as ml eqn:El. remember (map VNode (map (child_of n') (metadata_list (n_obj n')))) as ml' eqn:El'.
  clear El El'. destruct H as [H _]. destruct (n_obj n), (n_obj n'); try easy; try apply stream_nil; cbn [member_name] in *; clear Hn;
    (destruct (str_eqb name (L "*")); [apply E; now apply Forall2_app|]);
    (match goal with |- context [opt_eqb str_eqb ?x (Some name)] => destruct (opt_eqb str_eqb x (Some name)); [now apply E|] end);
    destruct (str_eqb name (L "metadata")); cbn [andb]; first [now apply E|apply stream_nil].
Qed.
Lemma attribute_plain n k : ~ In COLON k -> get_attribute (chain_of n) k None false None = Ok (dget (a_dict (attrs_of (n_obj n))) k).
Proof.
  intros H. unfold chain_of. cbn [map get_attribute].
  assert (E : rewrite_key (nsmap_of (attrs_of (n_obj n) :: map attrs_of (n_up n))) k None = Ok k).
  { unfold rewrite_key. rewrite AttrProofs.split1_none by exact H. now destruct (startswith LBRACE k). }
  rewrite E. cbn [bind]. destruct (dget (a_dict (attrs_of (n_obj n))) k); [easy|]. now destruct (map attrs_of (n_up n)).
Qed.
Lemma find_attr_same v v' a : ~ In COLON a -> a <> L "*" -> same_val v v' -> same_stream (find_attr v a) (find_attr v' a).
Proof.
  intros Hc Hs H. unfold find_attr. destruct (is_pseudo a).
  - assert (E : pseudo_attr v a = pseudo_attr v' a).
    { destruct v as [n|s| |l], v' as [n'|s'| |l']; cbn in H; try easy. cbn. destruct H as [H _].
      pose proof (attrs_same _ _ H) as (E1 & E2 & _). now rewrite E1, E2, (getattr_same _ _ a H). }
    rewrite E. destruct (pseudo_attr v' a); split; repeat constructor.
  - unfold split_ns. rewrite AttrProofs.split1_none by exact Hc.
    destruct v as [n|s| |l], v' as [n'|s'| |l']; cbn in H; try easy; try apply stream_nil.
    rewrite (proj2 (str_eqb_neq a (L "*"))) by exact Hs. rewrite !attribute_plain by exact Hc. cbn [bind of_res].
    destruct H as [H _]. pose proof (attrs_same _ _ H) as (_ & _ & _ & E). rewrite E. apply one_same, same_opt.
Qed.

(* ---------- descendants ---------- *)

Lemma objname_same v v' : same_val v v' -> objname v = objname v'.
Proof.
  destruct v as [n|s| |l], v' as [n'|s'| |l']; cbn; try easy. intros [H _]. destruct (n_obj n), (n_obj n'); cbn in *; try easy. now inversion H.
Qed.
Lemma descend_same f : forall v v' name, ~ In COLON name -> same_val v v' -> same_stream (descend f v name) (descend f v' name).
Proof.
  induction f as [|f IH]; intros v v' name Hc H; [apply stream_nil|]. cbn [descend]. unfold split_ns. rewrite AttrProofs.split1_none by exact Hc.
  rewrite (objname_same _ _ H).
  assert (E : same_stream (sbind (fun c => descend f c name) (find_child v (L "*"))) (sbind (fun c => descend f c name) (find_child v' (L "*")))).
  { apply sbind_same; [intros; now apply IH|]. apply find_child_same; [|exact H]. vm_compute. intuition congruence. }
  destruct (sbind _ (find_child v _)) as [l e], (sbind _ (find_child v' _)) as [l' e']. destruct E as [E1 E2]. cbn in E1, E2.
  split; [|exact E2]. cbn. destruct (str_eqb (objname v') name); cbn; [now constructor|easy].
Qed.
Lemma height_c_same : forall c c', same_child c c' -> height_c c = height_c c'.
Proof.
  fix IH 3. intros c c' H. destruct H as [n a a' t k k' _ Hk]. cbn. f_equal.
  induction Hk as [|x y k k' Hxy _ IHk]; cbn; [easy|]. now rewrite (IH _ _ Hxy), IHk.
Qed.
Lemma height_meta_same m m' : same_meta m m' -> height_meta m = height_meta m'.
Proof. intros (_ & _ & H). unfold height_meta, list_max_. f_equal. eapply F2_max; [|exact H]. apply height_c_same. Qed.
Lemma height_md_same m m' : same_metadata m m' -> height_md m = height_md m'.
Proof. intros (_ & H). unfold height_md, list_max_. f_equal. eapply F2_max; [|exact H]. apply height_meta_same. Qed.
Lemma height_tier_same t t' : same_tier t t' -> height_tier t = height_tier t'.
Proof. intros (_ & H & _). unfold height_tier, list_max_. f_equal. eapply F2_max; [|exact H]. apply height_md_same. Qed.
Lemma height_igt_same g g' : same_igt g g' -> height_igt g = height_igt g'.
Proof.
  intros (_ & H & H2). unfold height_igt, list_max_. f_equal. f_equal; (eapply F2_max; [|eassumption]); [apply height_md_same|apply height_tier_same].
Qed.
Lemma height_same v v' : same_val v v' -> height v = height v'.
Proof.
  destruct v as [n|s| |l], v' as [n'|s'| |l']; cbn; try easy. intros [H _]. destruct (n_obj n), (n_obj n'); cbn in H; try easy.
  - now apply height_tier_same.
  - now apply height_igt_same.
  - destruct H as (_ & H & H2). unfold height_corpus, list_max_. f_equal. f_equal; (eapply F2_max; [|eassumption]); [apply height_md_same|apply height_igt_same].
  - now apply height_md_same.
  - now apply height_meta_same.
  - now apply height_c_same.
Qed.
Lemma descendants_same v v' name : ~ In COLON name -> same_val v v' -> same_stream (find_descendant_or_self v name) (find_descendant_or_self v' name).
Proof. intros Hc H. unfold find_descendant_or_self. rewrite (height_same _ _ H). now apply descend_same. Qed.

(* ---------- upwards ---------- *)

Lemma parent_same v v' : same_val v v' -> same_stream (parent v) (parent v').
Proof.
  destruct v as [n|s| |l], v' as [n'|s'| |l']; cbn; try easy; try (intros; apply stream_nil). intros [H Hu].
  destruct Hu as [|o o' up up' Ho Hu].
  - destruct (n_obj n), (n_obj n'); cbn in H; try easy; try apply stream_nil; apply one_same; exact I.
  - apply one_same. now split.
Qed.
Definition same_res_val (r r' : res pval) : Prop := match r, r' with Ok v, Ok v' => same_val v v' | Err e, Err e' => e = e' | _, _ => False end.
Lemma climb_same o o' up up' : same_obj o o' -> Forall2 same_obj up up' -> same_res_val (climb o up) (climb o' up').
Proof.
  intros H Hu. revert o o' H. induction Hu as [|p p' up up' Hp Hu IH]; intros o o' H.
  - destruct o, o'; cbn in H; try easy. cbn. split; [exact H|]. constructor.
  - destruct o, o'; cbn in H; try easy; try (cbn [climb]; now apply IH). cbn. split; [exact H|]. constructor; assumption.
Qed.
Lemma corpus_same v v' : same_val v v' -> same_res_val (get_corpus v) (get_corpus v').
Proof. destruct v as [n|s| |l], v' as [n'|s'| |l']; cbn; try easy. intros [H Hu]. now apply climb_same. Qed.

(* ---------- references and values ---------- *)

Definition same_nd (n n' : node) : Prop :=
  match n, n' with
  | NTier t, NTier t' => same_tier t t'
  | NItem t i, NItem t' i' => same_tier t t' /\ same_item i i'
  | _, _ => False
  end.
Lemma nd_attrs n n' : same_nd n n' -> same_attrs (node_attrs n) (node_attrs n').
Proof. destruct n, n'; cbn; try easy; intros H; apply H. Qed.
Lemma nd_id n n' : same_nd n n' -> node_id n = node_id n'.
Proof. intros H. apply (nd_attrs n n' H). Qed.
Lemma nd_refs n n' ra : same_nd n n' -> node_refs n ra = node_refs n' ra.
Proof. intros H. unfold node_refs. destruct (nd_attrs n n' H) as (_ & _ & _ & E). now rewrite E. Qed.
Lemma item_nodes_same g g' : same_igt g g' -> Forall2 same_nd (item_nodes g) (item_nodes g').
Proof.
  intros (_ & _ & H). unfold item_nodes. eapply F2_flat; [|exact H]. intros t t' Ht. pose proof Ht as (_ & _ & Hi).
  eapply F2_map; [|exact Hi]. intros i i' Hii. now split.
Qed.
Lemma tier_nodes_same g g' : same_igt g g' -> Forall2 same_nd (tier_nodes g) (tier_nodes g').
Proof. intros (_ & _ & H). unfold tier_nodes. eapply F2_map; [|exact H]. intros; assumption. Qed.

(* the items of the indices *)
Definition same_index (x x' : index) : Prop := forall k, opt_rel same_nd (get_item x k) (get_item x' k).
Definition same_entries := Forall2 (fun (p q : option str * node) => fst p = fst q /\ same_nd (snd p) (snd q)).
Lemma dset_same d d' k n n' : same_entries d d' -> same_nd n n' -> same_entries (dset_ okey_eqb d k n) (dset_ okey_eqb d' k n').
Proof.
  intros H Hn. induction H as [|[a x] [b y] d d' [E Hx] Hd IH]; cbn.
  - constructor; [now split|constructor].
  - cbn in E. subst b. destruct (okey_eqb k a); constructor; try assumption; now split.
Qed.
Lemma dget_same d d' k : same_entries d d' -> opt_rel same_nd (dget_ okey_eqb d k) (dget_ okey_eqb d' k).
Proof.
  intros H. induction H as [|[a x] [b y] d d' [E Hx] _ IH]; cbn; [exact I|]. cbn in E. subst b. now destruct (okey_eqb k a).
Qed.
Lemma construct_same g g' : same_igt g g' -> same_index (construct_index g) (construct_index g').
Proof.
  intros H k. unfold get_item, construct_index, refresh_indices. cbn [x_items]. apply dget_same. unfold refresh_items.
  assert (E : same_entries (x_items empty_index) (x_items empty_index)) by constructor. revert E.
  generalize (x_items empty_index) at 1 3. generalize (x_items empty_index).
  pose proof (item_nodes_same g g' H) as Hn. induction Hn as [|n n' l l' Hnn _ IH]; intros d' d E; cbn; [exact E|].
  apply IH. rewrite (nd_id n n' Hnn). now apply dset_same.
Qed.
Lemma get_any_same g g' x x' k : same_igt g g' -> same_index x x' -> opt_rel same_nd (get_any g x k) (get_any g' x' k).
Proof.
  intros Hg Hx. unfold get_any. pose proof Hg as (_ & _ & Ht). pose proof (get_same same_tier tier_id _ _ k tier_id_same Ht) as Hc.
  destruct (container_get tier_id (g_tiers g) k), (container_get tier_id (g_tiers g') k); try easy.
Qed.
Lemma referents_same g g' x x' k ras : same_igt g g' -> same_index x x' -> referents g x k ras = referents g' x' k ras.
Proof.
  intros Hg Hx. unfold referents. pose proof (get_any_same g g' x x' k Hg Hx) as H.
  destruct (get_any g x k) as [n|], (get_any g' x' k) as [n'|]; try easy. cbn in H. f_equal.
  generalize (@nil (str * list str)). induction (match ras with Some l => l | None => allowed_refattrs end) as [|ra l IH]; intros d; cbn [fold_left]; [easy|].
  rewrite (nd_refs n n' ra H). apply IH.
Qed.
Lemma fold_ext {A B} (f g : A -> B -> A) l : (forall a b, f a b = g a b) -> forall a, fold_left f l a = fold_left g l a.
Proof. intros H. induction l as [|b l IH]; intros a; cbn [fold_left]; [easy|]. rewrite H. apply IH. Qed.
Lemma add_referrer_same k ras n n' r : same_nd n n' -> add_referrer k ras r n = add_referrer k ras r n'.
Proof.
  intros H. unfold add_referrer. rewrite (nd_id n n' H). destruct (node_id n'); [|easy]. apply fold_ext. intros d ra.
  now rewrite (nd_refs n n' ra H).
Qed.
Lemma container_item_same g g' k : same_igt g g' ->
  match container_item tier_id (g_tiers g) k, container_item tier_id (g_tiers g') k with
  | Ok _, Ok _ => True | Err e, Err e' => e = e' | _, _ => False end.
Proof.
  intros (_ & _ & H). unfold container_item. pose proof (find_id_same same_tier tier_id _ _ k tier_id_same H) as Hf.
  destruct (find_id tier_id (g_tiers g) k), (find_id tier_id (g_tiers g') k); try easy. destruct (py_int k) as [z|]; [|easy].
  rewrite (length_same _ _ _ H). destruct (py_index _ z) as [n|]; [|easy]. pose proof (nth_same _ _ _ H n) as Hn.
  now destruct (nth_error (g_tiers g) n), (nth_error (g_tiers g') n).
Qed.
Lemma referrers_same g g' x x' k ras : same_igt g g' -> same_index x x' -> referrers g x k ras = referrers g' x' k ras.
Proof.
  intros Hg Hx. unfold referrers. pose proof (container_item_same g g' k Hg) as Hc.
  assert (A : forall l l' r, Forall2 same_nd l l' -> fold_left (add_referrer k ras) l r = fold_left (add_referrer k ras) l' r).
  { intros l l' r H. revert r. induction H as [|n n' l l' Hn _ IH]; intros r; cbn; [easy|]. now rewrite (add_referrer_same k ras n n' r Hn). }
  destruct (container_item tier_id (g_tiers g) k) as [t|e], (container_item tier_id (g_tiers g') k) as [t'|e']; try easy.
  - cbn [bind]. f_equal. apply A. now apply tier_nodes_same.
  - subst e'. destruct e; try reflexivity. pose proof (Hx k) as Hk.
    destruct (get_item x k), (get_item x' k); try easy. cbn [bind]. f_equal. apply A. now apply item_nodes_same.
Qed.
Lemma of_index_same g g' up up' o o' : same_igt g g' -> Forall2 same_obj up up' -> opt_rel same_nd o o' -> same_val (of_index g up o) (of_index g' up' o').
Proof.
  intros Hg Hu. destruct o as [[t|t i]|], o' as [[t'|t' i']|]; cbn; try easy.
  - intros Ht. split; [exact Ht|]. constructor; [exact Hg|exact Hu].
  - intros [Ht Hi]. split; [exact Hi|]. constructor; [exact Ht|]. constructor; [exact Hg|exact Hu].
Qed.
Lemma igt_of_same n n' : same_node n n' ->
  match igt_of n, igt_of n' with Some (g, up), Some (g', up') => same_igt g g' /\ Forall2 same_obj up up' | None, None => True | _, _ => False end.
Proof.
  intros [H Hu]. destruct n as [o up], n' as [o' up']. unfold igt_of. cbn [n_obj n_up] in *.
  destruct o, o'; cbn in H; try easy.
  - destruct Hu as [|a b up up' Ha Hu]; [exact I|]. destruct Hu as [|c d up up' Hc Hu].
    + destruct a, b; cbn in Ha; easy.
    + destruct a, b; cbn in Ha; try easy. destruct c, d; cbn in Hc; easy.
  - destruct Hu as [|a b up up' Ha Hu]; [exact I|]. destruct a, b; cbn in Ha; easy.
Qed.
Variable ix : igt -> index.
Hypothesis ix_same : forall g g', same_igt g g' -> same_index (ix g) (ix g').
Lemma find_refs_same dir v v' ras : (forall g g' x x' k, same_igt g g' -> same_index x x' -> dir g x k ras = dir g' x' k ras) ->
  same_val v v' -> same_stream (find_refs ix dir v ras) (find_refs ix dir v' ras).
Proof.
  intros Hd H. unfold find_refs. destruct v as [n|s| |l], v' as [n'|s'| |l']; cbn in H; try easy; try apply stream_nil.
  pose proof (igt_of_same n n' H) as Hi. destruct (igt_of n) as [[g up]|], (igt_of n') as [[g' up']|]; try easy; [|apply stream_nil].
  destruct Hi as [Hg Hu]. destruct H as [H _]. pose proof (attrs_same _ _ H) as (E & _). rewrite E.
  destruct (a_id (attrs_of (n_obj n'))) as [k|]; [|apply stream_nil]. rewrite (Hd g g' (ix g) (ix g') k Hg (ix_same g g' Hg)).
  destruct (dir g' (ix g') k ras) as [m|e]; [|apply stream_nil]. cbn [bind of_res]. split; [|easy]. cbn [fst].
  induction (ssort (fun a b => str_ltb (fst a) (fst b)) m) as [|kv l IH]; cbn; [constructor|]. apply Forall2_app; [|exact IH].
  apply F2_refl_map. intros i. apply of_index_same; auto. apply get_any_same; auto.
Qed.
Lemma text_same v v' : same_val v v' -> same_res_val (text_of_val v) (text_of_val v').
Proof.
  destruct v as [n|s| |l], v' as [n'|s'| |l']; try easy. intros H. pose proof H as [Ho _]. cbn [text_of_val].
  destruct (n_obj n), (n_obj n'); cbn in Ho; try easy.
  - destruct Ho as [E _]. rewrite E. apply same_opt.
  - cbn. destruct Ho as [_ Hm]. rewrite !map_map. eapply F2_map; [|exact Hm]. intros a b Hab. apply (child_same n n' (PMeta a) (PMeta b) H Hab).
  - destruct Ho as [E _]. rewrite E. apply same_opt.
  - inversion Ho; subst. apply same_opt.
Qed.
Variable vfuel : nat.
Lemma value_opt_same f g g' t t' i i' ras : opt_rel same_igt g g' -> opt_rel same_tier t t' -> same_item i i' ->
  value f g t i ras = value f g' t' i' ras.
Proof.
  intros Hg Ht Hi. destruct g as [g|], g' as [g'|]; try easy; destruct t as [t|], t' as [t'|]; try easy; cbn in Hg, Ht.
  - now apply value_same.
  - destruct f as [|f]; [easy|]. cbn [value]. destruct Hi as [-> (_ & _ & _ & Hd)]. destruct (it_text i'); [easy|].
    assert (Hf : List.find (dmem (a_dict (it_attrs i))) ras = List.find (dmem (a_dict (it_attrs i'))) ras).
    { induction ras as [|ra ras IHr]; [reflexivity|]. cbn [List.find]. unfold dmem at 1 3. rewrite Hd, IHr. reflexivity. }
    rewrite Hf. match goal with |- match ?x with _ => _ end = match ?y with _ => _ end => change y with x; destruct x as [ra|]; [|reflexivity] end. unfold resolve_ref. now rewrite Hd.
  - destruct f as [|f]; [easy|]. cbn [value]. destruct Hi as [-> (_ & _ & _ & Hd)]. destruct (it_text i'); [easy|].
    assert (Hf : List.find (dmem (a_dict (it_attrs i))) ras = List.find (dmem (a_dict (it_attrs i'))) ras).
    { induction ras as [|ra ras IHr]; [reflexivity|]. cbn [List.find]. unfold dmem at 1 3. rewrite Hd, IHr. reflexivity. }
    rewrite Hf. match goal with |- match ?x with _ => _ end = match ?y with _ => _ end => change y with x; destruct x as [ra|]; [|reflexivity] end. unfold resolve_ref. rewrite Hd.
    destruct Ht as ((_ & _ & _ & Htd) & _). now rewrite Htd.
  - destruct f as [|f]; [easy|]. cbn [value]. destruct Hi as [-> (_ & _ & _ & Hd)]. destruct (it_text i'); [easy|].
    assert (Hf : List.find (dmem (a_dict (it_attrs i))) ras = List.find (dmem (a_dict (it_attrs i'))) ras).
    { induction ras as [|ra ras IHr]; [reflexivity|]. cbn [List.find]. unfold dmem at 1 3. rewrite Hd, IHr. reflexivity. }
    rewrite Hf. match goal with |- match ?x with _ => _ end = match ?y with _ => _ end => change y with x; destruct x as [ra|]; [|reflexivity] end. unfold resolve_ref. now rewrite Hd.
Qed.
Lemma val_value_same v v' : same_val v v' -> same_res_val (value_of_val vfuel v) (value_of_val vfuel v').
Proof.
  destruct v as [n|s| |l], v' as [n'|s'| |l']; try easy. intros H. pose proof H as [Ho Hu]. cbn [value_of_val].
  destruct (n_obj n), (n_obj n'); cbn in Ho; try easy.
  match goal with |- same_res_val (bind ?a _) (bind ?b _) => assert (E : a = b) end.
  { apply value_opt_same; [| |exact Ho].
    - destruct Hu as [|a b up up' Ha Hu]; [exact I|]. destruct a, b; cbn in Ha; try easy. destruct Hu as [|c d up up' Hc Hu]; [exact I|].
      destruct c, d; cbn in Hc; easy.
    - destruct Hu as [|a b up up' Ha Hu]; [exact I|]. destruct a, b; cbn in Ha; easy. }
  rewrite E. match goal with |- same_res_val (bind ?a _) _ => destruct a; cbn; [apply same_opt|easy] end.
Qed.
Lemma function_same v v' f args : same_val v v' -> same_stream (function ix vfuel v f args) (function ix vfuel v' f args).
Proof.
  intros H. unfold function.
  destruct (str_eqb f (L "text")); [pose proof (text_same v v' H); destruct (text_of_val v), (text_of_val v'); cbn in *; try easy; [now apply one_same|subst; apply stream_nil]|].
  destruct (str_eqb f (L "value")); [pose proof (val_value_same v v' H); destruct (value_of_val vfuel v), (value_of_val vfuel v'); cbn in *; try easy; [now apply one_same|subst; apply stream_nil]|].
  destruct (str_eqb f (L "referent")); apply find_refs_same; try exact H; intros; [now apply referents_same|now apply referrers_same].
Qed.

(* ---------- evaluation ---------- *)

Definition same_out (x x' : stream * list str) : Prop := same_stream (fst x) (fst x') /\ snd x = snd x'.
Definition same_alts (x x' : res (list pval * list str)) : Prop :=
  match x, x' with
  | Ok (l, r), Ok (l', r') => Forall2 same_val l l' /\ r = r'
  | Err e, Err e' => e = e'
  | _, _ => False
  end.
Lemma test_same fa t v v' : (forall v v', same_val v v' -> same_results (fa v (sub_of t)) (fa v' (sub_of t))) -> same_val v v' ->
  run_test fa t v = run_test fa t v'.
Proof.
  intros Hf H. pose proof (Hf v v' H) as Hr.
  assert (S1 : forall s a b, same_val a b -> is_str s a = is_str s b) by (intros s [] []; cbn; try easy; now intros ->).
  destruct t; cbn [run_test sub_of] in *; destruct (fa v _) as [l|e], (fa v' _) as [l'|e']; cbn in Hr |- *; try easy; try congruence; f_equal;
    induction Hr as [|a b l l' Hab _ IH]; cbn; try easy; now rewrite (S1 _ _ _ Hab), IH.
Qed.
Variable bad : N.
Hypothesis bad_or : bad = Ch "@" \/ bad = Ch "*".
Definition fine (t : str) : Prop := ~ In COLON t /\ ~ In bad t.
Lemma fine_suffix a b : suffix a b -> Forall fine b -> Forall fine a.
Proof. intros [p ->] H. now apply Forall_app in H. Qed.
Lemma fine_concat l : Forall fine l -> fine (concat l).
Proof.
  intros H. split; intros Hi; apply in_concat in Hi as (t & Ht & Hi); rewrite Forall_forall in H; destruct (H t Ht); auto.
Qed.
Lemma make_predicate_fine r t r' : make_predicate r = Ok (t, r') -> Forall fine r -> fine (sub_of t).
Proof.
  unfold make_predicate. destruct (take_sub r) as [[sub rest]|] eqn:E; [|easy]. apply take_sub_app in E as ->. intros Hm Hf.
  apply Forall_app in Hf as [Hf _]. destruct rest as [|c rest]; [easy|]. destruct (str_eqb c (L "]")).
  - injection Hm as <- _. now apply fine_concat.
  - destruct rest as [|v [|b rest]]; [easy|easy|]. injection Hm as <- _. destruct (str_eqb c (L "=")); now apply fine_concat.
Qed.
Lemma predicates_same fa n : (forall v v' p, fine p -> same_val v v' -> same_results (fa v p) (fa v' p)) ->
  forall s s' r, Forall fine r -> same_stream s s' -> same_out (predicates n fa s r) (predicates n fa s' r).
Proof.
  intros Hf. induction n as [|n IH]; intros s s' r Hr Hs; cbn; [now split|]. destruct r as [|t r]; [now split|].
  destruct (str_eqb t (L "[")); [|now split]. apply Forall_inv_tail in Hr.
  destruct (make_predicate r) as [[q r']|e] eqn:E; [|split; [apply stream_nil|easy]].
  apply IH.
  - eapply fine_suffix; [|exact Hr]. now apply make_predicate_suffix in E.
  - apply sfilter_same; [|exact Hs]. intros v v' Hv. apply test_same; [|exact Hv]. intros w w' Hw. apply Hf; [|exact Hw].
    eapply make_predicate_fine; eauto.
Qed.
Lemma disj_rest_same alts r : (forall v v', same_val v v' -> same_alts (alts v r) (alts v' r)) -> forall l l', Forall2 same_val l l' ->
  same_results (disj_rest alts l r) (disj_rest alts l' r).
Proof.
  intros Ha l l' H. induction H as [|v v' l l' Hv _ IH]; cbn; [constructor|]. specialize (Ha v v' Hv).
  destruct (alts v r) as [[a k]|e], (alts v' r) as [[a' k']|e']; cbn in Ha |- *; try easy.
  destruct (disj_rest alts l r), (disj_rest alts l' r); cbn in IH |- *; try easy. apply Forall2_app; [apply Ha|exact IH].
Qed.
Lemma disjunction_same alts r s s' : (forall v v', same_val v v' -> same_alts (alts v r) (alts v' r)) -> same_stream s s' ->
  same_alts (disjunction alts s r) (disjunction alts s' r).
Proof.
  intros Ha [Hs He]. unfold disjunction. rewrite <- He. destruct s as [l e], s' as [l' e']. cbn [fst snd] in *. clear He e'.
  destruct Hs as [|v v' l l' Hv Hl]; [destruct e; cbn; [easy|now split]|].
  specialize (Ha v v' Hv) as Hv'. pose proof (disj_rest_same alts r Ha l l' Hl) as Hr.
  destruct (alts v r) as [[a k]|x], (alts v' r) as [[a' k']|x']; cbn [same_alts bind] in Hv' |- *; try easy. destruct Hv' as [Hv' ->].
  destruct (disj_rest alts l r), (disj_rest alts l' r); cbn [same_results] in Hr; try easy; destruct e; cbn; try easy.
  split; [|easy]. now apply Forall2_app.
Qed.
Definition same_head (x x' : res (stream * list str)) : Prop :=
  match x, x' with Ok y, Ok y' => same_out y y' | Err e, Err e' => e = e' | _, _ => False end.
Lemma head_same alts s s' t r : (forall v v', same_val v v' -> same_alts (alts v r) (alts v' r)) -> fine t -> Forall fine r -> same_stream s s' ->
  same_head (head_eval ix vfuel alts s t r) (head_eval ix vfuel alts s' t r).
Proof.
  intros Ha Ht Hr Hs. unfold head_eval.
  destruct (str_eqb t (L "(")).
  { pose proof (disjunction_same alts r s s' Ha Hs) as Hd.
    destruct (disjunction alts s r) as [[l k]|e], (disjunction alts s' r) as [[l' k']|e']; cbn in Hd |- *; try easy.
    }
  destruct (str_eqb t (L "//")).
  { destruct r as [|n r]; [easy|]. apply Forall_inv in Hr. split; [|easy]. apply sbind_same; [|exact Hs]. intros v v' Hv.
    apply descendants_same; [apply Hr|exact Hv]. }
  destruct (str_eqb t (L "@")) eqn:Eat.
  { destruct r as [|n r]; [easy|]. apply Forall_inv in Hr. split; [|easy]. apply sbind_same; [|exact Hs]. intros v v' Hv.
    apply find_attr_same; [apply Hr| |exact Hv]. intros ->. apply str_eqb_eq in Eat. subst t. destruct Ht as [_ Ht], Hr as [_ Hr].
    destruct bad_or as [->| ->]; [apply Ht|apply Hr]; now left. }
  destruct (str_eqb t (L "..")). { split; [|easy]. apply sbind_same; [|exact Hs]. apply parent_same. }
  destruct (str_eqb t (L ".")). { split; [exact Hs|easy]. }
  destruct (existsb (str_eqb t) functions).
  { destruct r as [|n r]; [easy|]. destruct (take_args r) as [[args r'']|]; [|easy]. split; [|easy]. apply sbind_same; [|exact Hs].
    intros v v' Hv. now apply function_same. }
  split; [|easy]. apply sbind_same; [|exact Hs]. intros v v' Hv. apply find_child_same; [apply Ht|exact Hv].
Qed.
Lemma tokens_fine p : fine p -> Forall fine (tokenize p).
Proof.
  intros Hp. destruct (PathTokenProofs.scan_total p) as [l Hl]. rewrite (PathTokenProofs.tokenize_scan p l Hl). apply Forall_forall. intros t Ht.
  apply filter_In in Ht as [Ht _]. apply in_map_iff in Ht as (u & <- & Hu).
  assert (K : forall c, In c u -> In c p).
  { clear Hp. revert u Hu. induction Hl as [|s u' r l E _ IH|c s l E _ IH]; intros u Hu x Hx; [easy| |].
    - apply PathTokenProofs.next_tok_app in E as [-> _]. apply in_or_app. destruct Hu as [->|Hu]; [now left|right; eauto].
    - right. eauto. }
  destruct Hp as [H1 H2]. split; intros Hi; apply SortScriptProofs.strip_in in Hi; auto.
Qed.
Lemma eval_same f :
  (forall v v' l, Forall fine l -> same_val v v' -> same_out (expr ix vfuel f v l) (expr ix vfuel f v' l) /\ suffix (snd (expr ix vfuel f v l)) l) /\
  (forall v v' l, Forall fine l -> same_val v v' -> same_alts (alternatives ix vfuel f v l) (alternatives ix vfuel f v' l)) /\
  (forall s s' l, Forall fine l -> same_stream s s' -> same_out (step ix vfuel f s l) (step ix vfuel f s' l)) /\
  (forall v v' p, fine p -> same_val v v' -> same_stream (iterfind ix vfuel f v p) (iterfind ix vfuel f v' p)).
Proof.
  assert (NIL : forall e l, same_out (([], Some e), l) (([], Some e), l)) by (intros; split; [apply stream_nil|easy]).
  induction f as [|f (IHe & IHa & IHs & IHf)].
  { repeat split; intros; cbn; try constructor; try apply suffix_nil. }
  split; [|split; [|split]].
  - intros v v' l Hl H. split; [|apply (proj1 (leftover ix vfuel (S f)))]. rewrite !expr_S. unfold expr_body. destruct l as [|t r]; [apply NIL|].
    pose proof (Forall_inv_tail Hl) as Hr.
    destruct (str_eqb t (L "(")).
    { pose proof (disjunction_same (alternatives ix vfuel f) r ([v], None) ([v'], None) (fun a b Hab => IHa a b r Hr Hab) (one_same _ _ H)) as Hd.
      destruct (disjunction _ ([v], None) r) as [[x k]|e], (disjunction _ ([v'], None) r) as [[x' k']|e']; cbn in Hd; try easy.
      subst. apply NIL. }
    destruct (is_slash t).
    { pose proof (corpus_same v v' H) as Hc. destruct (get_corpus v) as [c|e], (get_corpus v') as [c'|e']; cbn in Hc; try easy.
      - apply IHs; [destruct (str_eqb t (L "/")); assumption|now apply one_same].
      - subst. apply NIL. }
    apply IHs; [exact Hl|now apply one_same].
  - intros v v' l Hl H. rewrite !alts_S. unfold alts_body. destruct (IHe v v' l Hl H) as [[[He1 He2] He3] He4].
    destruct (expr ix vfuel f v l) as [[x e] k], (expr ix vfuel f v' l) as [[x' e'] k']. cbn [fst snd] in *. subst e' k'.
    destruct e; [easy|]. destruct k as [|t r]; [easy|].
    assert (Hr : Forall fine r) by (eapply fine_suffix in Hl; [|exact He4]; now apply Forall_inv_tail in Hl).
    destruct (str_eqb t (L "|")).
    + pose proof (IHa v v' r Hr H) as Ha. destruct (alternatives _ _ _ v r) as [[y k]|e], (alternatives _ _ _ v' r) as [[y' k']|e']; cbn in Ha |- *; try easy.
      destruct Ha as [Ha ->]. split; [|easy]. now apply Forall2_app.
    + destruct (str_eqb t (L ")")); [|easy]. now split.
  - intros s s' l Hl H. destruct l as [|t r]; [now split|]. rewrite !step_S. unfold step_body.
    pose proof (Forall_inv Hl) as Ht. pose proof (Forall_inv_tail Hl) as Hr.
    pose proof (head_same (alternatives ix vfuel f) s s' t r (fun a b Hab => IHa a b r Hr Hab) Ht Hr H) as Hh.
    destruct (head_eval _ _ _ s t r) as [[s1 r1]|e] eqn:E1, (head_eval _ _ _ s' t r) as [[s2 r2]|e']; cbn in Hh; try easy; [|subst; apply NIL].
    destruct Hh as [Hs Hk]. cbn in Hs, Hk. subst r2.
    assert (Hr1 : Forall fine r1).
    { eapply fine_suffix; [|exact Hr]. eapply head_suffix; [|exact E1]. intros a x k Ek. eapply (proj1 (proj2 (leftover ix vfuel f))); exact Ek. }
    set (fa := fun v p => collect (iterfind ix vfuel f v p)).
    assert (Hfa : forall v v' p, fine p -> same_val v v' -> same_results (fa v p) (fa v' p)).
    { intros v v' p Hp Hv. unfold fa. destruct (IHf v v' p Hp Hv) as [Hx Hy].
      destruct (iterfind _ _ f v p) as [x e], (iterfind _ _ f v' p) as [x' e']. cbn in *. subst e'. now destruct e. }
    pose proof (predicates_same fa (length r1) Hfa s1 s2 r1 Hr1 Hs) as [Hp1 Hp2]. pose proof (predicates_suffix fa (length r1) s1 r1) as Hsx.
    destruct (predicates _ fa s1 r1) as [s3 r3], (predicates _ fa s2 r1) as [s4 r4]. cbn [fst snd] in *. subst r4.
    pose proof (fine_suffix _ _ Hsx Hr1) as Hr3.
    unfold continue. destruct r3 as [|t' r3]; [now split|]. destruct (is_slash t'); [|now split].
    apply IHs; [|exact Hp1]. destruct (str_eqb t' (L "/")); [now apply Forall_inv_tail in Hr3|exact Hr3].
  - intros v v' p Hp H. rewrite !find_S. unfold find_body. destruct (endswith (L "/") p); [apply stream_nil|].
    pose proof (tokens_fine p Hp) as Ht. destruct (tokenize p) as [|t r]; [apply stream_nil|].
    apply (IHe v v' (t :: r) Ht H).
Qed.

End PathSame.

Theorem path_same {U : Unicode} ix vfuel : (forall g g', same_igt g g' -> same_index (ix g) (ix g')) -> forall v v' p, plain_path p -> same_val v v' ->
  same_results (findall ix vfuel v p) (findall ix vfuel v' p).
Proof.
  intros Hx v v' p [Hc Hb] H. unfold findall.
  assert (E : same_stream (iterfind ix vfuel (fuel_of p) v p) (iterfind ix vfuel (fuel_of p) v' p)).
  { destruct Hb as [Hb|Hb].
    - apply (eval_same ix Hx vfuel (Ch "@")); [now left|now split|exact H].
    - apply (eval_same ix Hx vfuel (Ch "*")); [now right|now split|exact H]. }
  destruct E as [E1 E2]. destruct (iterfind ix vfuel (fuel_of p) v p) as [l e], (iterfind ix vfuel (fuel_of p) v' p) as [l' e'].
  cbn in E1, E2. subst e'. now destruct e.
Qed.
Theorem path_first_same {U : Unicode} ix vfuel : (forall g g', same_igt g g' -> same_index (ix g) (ix g')) -> forall v v' p, plain_path p -> same_val v v' ->
  match find ix vfuel v p, find ix vfuel v' p with
  | Ok o, Ok o' => opt_rel same_val o o'
  | Err e, Err e' => e = e'
  | _, _ => False
  end.
Proof.
  intros Hx v v' p [Hc Hb] H. unfold find.
  assert (E : same_stream (iterfind ix vfuel (fuel_of p) v p) (iterfind ix vfuel (fuel_of p) v' p)).
  { destruct Hb as [Hb|Hb].
    - apply (eval_same ix Hx vfuel (Ch "@")); [now left|now split|exact H].
    - apply (eval_same ix Hx vfuel (Ch "*")); [now right|now split|exact H]. }
  destruct E as [E1 E2]. destruct (iterfind ix vfuel (fuel_of p) v p) as [l e], (iterfind ix vfuel (fuel_of p) v' p) as [l' e'].
  cbn in E1, E2. subst e'. destruct E1; [now destruct e|exact H0].
Qed.
