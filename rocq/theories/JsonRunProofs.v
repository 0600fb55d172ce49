(* Corpora as JSON texts. *)
From Verif Require Import PyStr PyStrFacts Ref SpecRef Model SpecModel XmlStd Xml SpecXml Json SpecJson JsonText SpecJsonText.
From Verif Require Import LoadProofs JsonTextProofs.
From Verif Require ReloadProofs JsonProofs.
Require Import Lia.

(* ---------- strings made of others ---------- *)

Lemma apart_sub l s r : apart (l ++ s ++ r) -> apart s.
Proof.
  intros [H K]. split; [intros c Hc; apply H, in_or_app; right; apply in_or_app; now left|].
  intros a x y b ->. apply (K (l ++ a) x y (b ++ r)). now rewrite <- !app_assoc.
Qed.
Lemma apart_app a c b : apart a -> apart b -> scalar c -> apart (a ++ c :: b).
Proof.
  intros Ha Hb (H1 & H2 & H3). induction a as [|x a IH].
  - cbn. apply apart_cons; [easy|easy|]. intros X. contradiction.
  - cbn [app]. apply apart_cons; [apply (proj1 Ha); now left|apply IH; now apply apart_tail in Ha|].
    intros Hx d r E. destruct a as [|y a]; cbn in E; [assert (c = d) by congruence; now subst|]. assert (y = d) by congruence. subst.
    apply (proj2 Ha [] x d a eq_refl Hx).
Qed.
Lemma apart_nil : apart [].
Proof. split; [easy|]. intros [|? ?]; discriminate. Qed.
Lemma apart_ascii s : forallb (fun c => N.ltb c 128) s = true -> apart s.
Proof.
  induction s as [|c s IH]; [intros _; apply apart_nil|]. cbn [forallb]. intros H. apply andb_prop in H as [H K]. apply N.ltb_lt in H.
  apply apart_cons; [lia|auto|]. unfold high_surrogate. lia.
Qed.
Notation fine := (Forall apart).
Lemma scalar_colon : scalar (Ch ":").
Proof. unfold scalar, high_surrogate, low_surrogate. change (Ch ":") with 58%N. lia. Qed.
Lemma split1_fine c s a b : apart s -> split1 c s = Some (a, b) -> apart a /\ apart b.
Proof.
  intros H E. apply ReloadProofs.split1_app in E. rewrite E in H. split; [apply (apart_sub [] a (c :: b)); exact H|].
  apply (apart_sub (a ++ [c]) b []). rewrite app_nil_r, <- app_assoc. exact H.
Qed.

(* dicts *)
Lemma of_dict_in d : fine (of_dict d) <-> forall k v, In (k, v) d -> apart k /\ apart v.
Proof.
  unfold of_dict. rewrite Forall_app, !Forall_map, !Forall_forall. split.
  - intros [H K] k v Hin. split; [apply (H _ Hin)|apply (K _ Hin)].
  - intros H. split; intros [k v] Hin; apply (H _ _ Hin).
Qed.
Lemma dset_fine d k v : fine (of_dict d) -> apart k -> apart v -> fine (of_dict (dset d k v)).
Proof.
  rewrite !of_dict_in. intros H Hk Hv k' v' Hin. apply ReloadProofs.dset_in in Hin as [Hin|[-> ->]]; [now apply H|easy].
Qed.
Lemma dupdate_fine d l : fine (of_dict d) -> fine (of_dict l) -> fine (of_dict (dupdate d l)).
Proof.
  unfold dupdate, dupdate_. revert d. induction l as [|[k v] l IH]; intros d Hd Hl; cbn [fold_left]; [easy|].
  rewrite of_dict_in in Hl. apply IH; [|apply of_dict_in; intros; apply Hl; now right]. apply (dset_fine d k v); [easy|apply (Hl k v)|apply (Hl k v)]; now left.
Qed.
Lemma dupdate_nodup (d l : dict str) : NoDup (map fst d) -> NoDup (map fst (dupdate d l)).
Proof. unfold dupdate, dupdate_. revert d. induction l as [|[k v] l IH]; intros d Hd; cbn [fold_left]; [easy|]. apply IH. now apply (dset_nodup str_eqb str_eqb_spec). Qed.
Lemma revmap_fine m : fine (of_dict m) -> fine (of_dict (revmap m)).
Proof.
  intros H. unfold revmap. enough (X : forall acc, fine (of_dict acc) -> fine (of_dict (fold_left (fun d kv => dset d (snd kv) (fst kv)) m acc))) by (apply X; constructor).
  induction m as [|[k v] m IH]; intros acc Ha; cbn [fold_left]; [easy|]. rewrite of_dict_in in H. apply IH; [apply of_dict_in; intros; apply H; now right|].
  cbn [fst snd]. apply dset_fine; [easy|apply (H k v)|apply (H k v)]; now left.
Qed.
Lemma dget_fine (d : dict str) k v : fine (of_dict d) -> dget d k = Some v -> apart v.
Proof. intros H E. apply dget_in in E; [|exact str_eqb_spec]. rewrite of_dict_in in H. now apply (H k v). Qed.
Lemma eff_fine a inh : fine (of_attrs a) -> fine (of_dict inh) -> fine (of_dict (eff a inh)).
Proof.
  intros H K. unfold of_attrs in H. unfold eff. destruct (a_nsmap a) as [m|]; [|easy]. rewrite !Forall_app in H. tauto.
Qed.

(* ---------- encoding ---------- *)

Definition field (kv : str * json) : Prop := apart (fst kv) /\ json_apart (snd kv).
Inductive sub : list str -> list str -> Prop :=
| Sub0 : sub [] []
| Sub_keep x a b : sub a b -> sub (x :: a) (x :: b)
| Sub_skip x a b : sub a b -> sub a (x :: b).
Lemma sub_in a b x : sub a b -> In x a -> In x b.
Proof. induction 1; cbn; intuition. Qed.
Lemma sub_nodup a b : sub a b -> NoDup b -> NoDup a.
Proof.
  induction 1 as [|x a b H IH|x a b H IH]; intros Hn; [easy| |now inversion Hn; auto]. inversion Hn as [|? ? Hx Hn']; subst. constructor; [|auto].
  intros Hin. now apply Hx, (sub_in a b).
Qed.
Lemma sub_app a b a' b' : sub a b -> sub a' b' -> sub (a ++ a') (b ++ b').
Proof. induction 1; intros; cbn; [easy|constructor; auto|constructor; auto]. Qed.
Lemma sub_nil b : sub [] b.
Proof. induction b; constructor; auto. Qed.
Lemma sub_fld k o : sub (map fst (fld k o)) [k].
Proof. destruct o; cbn; [apply Sub_keep, Sub0|apply Sub_skip, Sub0]. Qed.
Lemma sub_ddel (d : dict json) k b : sub (map fst d) b -> sub (map fst (ddel d k)) b.
Proof.
  unfold ddel. intros H. remember (map fst d) as l eqn:E. revert d E. induction H as [|x a b H IH|x a b H IH]; intros d E.
  - destruct d; [constructor|discriminate].
  - destruct d as [|[k' v] d]; [discriminate|]. cbn [map fst] in E. assert (x = k' /\ a = map fst d) as [-> ->] by (split; congruence). cbn [ddel_].
    destruct (str_eqb k k'); [apply Sub_skip; now apply IH|]. cbn [map fst]. apply Sub_keep. now apply IH.
  - apply Sub_skip. now apply IH.
Qed.
Lemma ddel_in (d : dict json) k x : In x (ddel d k) -> In x d.
Proof. unfold ddel. induction d as [|[k' v] d IH]; cbn [ddel_]; [easy|]. destruct (str_eqb k k'); [right; auto|]. intros [<-|H]; [now left|right; auto]. Qed.

Lemma fld_field k o : apart k -> match o with Some j => json_apart j | None => True end -> Forall field (fld k o).
Proof. intros H K. destruct o; cbn; constructor; [now split|constructor]. Qed.
Lemma truthy_apart o : fine (of_opt o) -> match truthy o with Some j => json_apart j | None => True end.
Proof. destruct o as [[|c s]|]; cbn; [easy| |easy]. intros H. apply Forall_inv in H. now constructor. Qed.
Lemma text_apart o : fine (of_opt o) -> match option_map JStr o with Some j => json_apart j | None => True end.
Proof. destruct o as [s|]; cbn; [|easy]. intros H. apply Forall_inv in H. now constructor. Qed.
Lemma if_any_apart d : NoDup (map fst d) -> fine (of_dict d) -> match if_any d with Some j => json_apart j | None => True end.
Proof.
  intros Hn H. unfold if_any. assert (X : json_apart (jdict d)); [|now destruct d]. unfold jdict. constructor.
  - now rewrite map_map.
  - rewrite Forall_map. rewrite of_dict_in in H. apply Forall_forall. intros [k v] Hin. cbn [fst snd]. split; [|constructor]; now apply (H k v).
Qed.
Lemma if_list_apart l : Forall json_apart l -> match if_list l with Some j => json_apart j | None => True end.
Proof. destruct l; cbn; [easy|]. now constructor. Qed.

Lemma json_attrs_fine inv l : fine (of_dict inv) -> fine (of_dict l) -> forall acc r, fine (of_dict acc) -> NoDup (map fst acc) -> json_attrs inv acc l = Ok r ->
  fine (of_dict r) /\ NoDup (map fst r).
Proof.
  intros Hi. induction l as [|[k v] l IH]; intros Hl acc d Ha Hn E; cbn [json_attrs] in E; [assert (acc = d) by congruence; now subst|].
  inv_bind E. rewrite of_dict_in in Hl.
  assert (Hx : apart x).
  { destruct (Hl k v (or_introl eq_refl)) as [Hk _]. destruct k as [|c r]; [assert (x = []) by congruence; now subst|].
    destruct (N.eqb c (Ch "{")); [|assert (x = c :: r) by congruence; now subst].
    destruct (split1 (Ch "}") r) as [[uri key]|] eqn:Es; [|discriminate]. apply split1_fine in Es as [H1 H2]; [|now apply apart_tail in Hk].
    destruct (dget inv uri) as [pre|] eqn:Eg; [|assert (x = c :: r) by congruence; now subst].
    assert (X : x = pre ++ L ":" ++ key) by congruence. rewrite X. change (pre ++ L ":" ++ key) with (pre ++ Ch ":" :: key). apply apart_app; [exact (dget_fine inv uri pre Hi Eg)|easy|exact scalar_colon]. }
  eapply IH; [apply of_dict_in; intros; apply Hl; now right| | |exact E].
  - apply dset_fine; [easy|easy|apply (Hl k v); now left].
  - now apply (dset_nodup str_eqb str_eqb_spec).
Qed.
Definition OBJ_KEYS : list str := map L ["id"; "type"; "attributes"; "namespace"; "namespaces"]%string.
Lemma make_obj_fine a inh ctx obj act : fine (of_attrs a) -> fine (of_dict inh) -> fine (of_dict ctx) -> NoDup (map fst ctx) -> make_obj a inh ctx = Ok (obj, act) ->
  Forall field obj /\ sub (map fst obj) OBJ_KEYS /\ fine (of_dict act) /\ NoDup (map fst act).
Proof.
  intros Ha Hi Hc Hn E. unfold make_obj in E. cbv zeta in E. inv_bind E.
  assert (E1 : fld ID (truthy (a_id a)) ++ fld TYPE (truthy (a_type a)) ++ fld (L "attributes") (if_any x) ++ fld (L "namespace") (truthy (a_ns a))
       ++ fld (L "namespaces") (if_any (new_ns (dupdate ctx (eff a inh)) ctx)) = obj) by congruence.
  assert (E2 : dupdate ctx (eff a inh) = act) by congruence. clear E. rewrite E2 in *.
  assert (Hact : fine (of_dict act)) by (subst act; apply dupdate_fine; [easy|now apply eff_fine]).
  assert (Hnact : NoDup (map fst act)) by (subst act; now apply dupdate_nodup).
  pose proof Ha as Ha'. unfold of_attrs in Ha'. rewrite !Forall_app in Ha'. destruct Ha' as (A1 & A2 & A3 & A4 & _).
  apply json_attrs_fine in E0 as [Hx Hnx]; [|now apply revmap_fine|easy|constructor|constructor].
  assert (Hnew : fine (of_dict (new_ns act ctx))).
  { rewrite of_dict_in in *. intros k v Hin. apply filter_In in Hin as [Hin _]. now apply Hact. }
  split; [|split; [|split; easy]].
  - rewrite <- E1. rewrite !Forall_app. split; [apply fld_field; [now apply apart_ascii|now apply truthy_apart]|].
    split; [apply fld_field; [now apply apart_ascii|now apply truthy_apart]|]. split; [apply fld_field; [now apply apart_ascii|now apply if_any_apart]|].
    split; [apply fld_field; [now apply apart_ascii|now apply truthy_apart]|]. apply fld_field; [now apply apart_ascii|]. apply if_any_apart; [|easy].
    now apply JsonProofs.new_ns_nodup.
  - rewrite <- E1, !map_app. change OBJ_KEYS with ([ID] ++ [TYPE] ++ [L "attributes"] ++ [L "namespace"] ++ [L "namespaces"]). repeat apply sub_app; apply sub_fld.
Qed.
Lemma obj_apart d ks : Forall field d -> sub (map fst d) ks -> NoDup ks -> json_apart (JObj d).
Proof. intros H K N. constructor; [now apply (sub_nodup _ ks)|]. exact H. Qed.
Lemma NoDup_app_one (l : list str) x : NoDup l -> ~ In x l -> NoDup (l ++ [x]).
Proof. intros H K. apply (NoDup_Add (Add_app x l [])). now rewrite app_nil_r. Qed.
Ltac distinct := vm_compute; repeat (constructor; [cbn; intuition discriminate|]); constructor.

Lemma traverse_fine {A} (f : A -> res json) (g : A -> list str) l js : fine (flat_map g l) -> (forall x j, In x l -> fine (g x) -> f x = Ok j -> json_apart j) ->
  traverse f l = Ok js -> Forall json_apart js.
Proof. intros H K. apply traverse_all. intros x y Hin. apply K; [easy|]. rewrite Forall_flat_map, Forall_forall in H. now apply H. Qed.

Definition ctx_fine (inh ctx : dict str) : Prop := fine (of_dict inh) /\ fine (of_dict ctx) /\ NoDup (map fst ctx).
Lemma enc_child_fine m : forall inh ctx j, fine (of_child m) -> ctx_fine inh ctx -> enc_child inh ctx m = Ok j -> json_apart j.
Proof.
  induction m as [n a t kids IH] using XmlProofs.mchild_rec'. intros inh ctx j Hm (Hi & Hc & Hn) E. cbn [of_child] in Hm.
  apply Forall_cons_iff in Hm as [Hnm Hm]. rewrite !Forall_app in Hm. destruct Hm as (Ha & Ht & Hk). cbn [enc_child] in E. cbv zeta in E.
  inv_bind E. destruct x as [obj act]. apply make_obj_fine in E0 as (Ho & Hs & Hact & Hnact); [|easy..]. inv_bind E.
  assert (Hks : Forall json_apart x).
  { apply (traverse_fine (enc_child (eff a inh) act) of_child kids); [easy| |easy]. intros k j' Hin Hf. rewrite Forall_forall in IH. apply (IH k Hin); [easy|].
    split; [now apply eff_fine|]. split; easy. }
  set (named := match a_ns a with Some _ => _ | None => _ end) in E.
  assert (N1 : Forall field named /\ sub (map fst named) (OBJ_KEYS ++ [L "name"])).
  { assert (P : forall s, apart s -> Forall field (fld (L "name") (Some (JStr s)))) by (intros s H; apply fld_field; [now apply apart_ascii|now constructor]).
    assert (P0 : forall s, apart s -> Forall field (obj ++ fld (L "name") (Some (JStr s))) /\ sub (map fst (obj ++ fld (L "name") (Some (JStr s)))) (OBJ_KEYS ++ [L "name"])).
    { intros s H. split; [apply Forall_app; split; [easy|now apply P]|]. rewrite map_app. apply sub_app; [easy|apply sub_fld]. }
    unfold named. destruct (a_ns a) as [[|c u]|]; try (now apply P0). destruct (dget (revmap act) (c :: u)) as [pre|] eqn:Eg; [|now apply P0]. split.
    - apply Forall_app. split; [rewrite Forall_forall in *; intros y Hy; apply Ho; now apply ddel_in in Hy|]. apply P. change (pre ++ L ":" ++ n) with (pre ++ Ch ":" :: n).
      apply apart_app; [|easy|exact scalar_colon]. eapply dget_fine; [|exact Eg]. now apply revmap_fine.
    - rewrite map_app. apply sub_app; [now apply sub_ddel|apply sub_fld]. }
  destruct N1 as [N1 N2]. assert (EJ : JObj (named ++ fld (L "text") (option_map JStr t) ++ fld (L "children") (if_list x)) = j) by congruence. rewrite <- EJ.
  apply (obj_apart _ ((OBJ_KEYS ++ [L "name"]) ++ [L "text"] ++ [L "children"])).
  - rewrite !Forall_app. split; [easy|]. split; apply fld_field; try (now apply apart_ascii); [now apply text_apart|now apply if_list_apart].
  - rewrite !map_app. apply sub_app; [easy|]. apply sub_app; apply sub_fld.
  - distinct.
Qed.
Lemma enc_meta_fine inh ctx m j : fine (of_meta m) -> ctx_fine inh ctx -> enc_meta inh ctx m = Ok j -> json_apart j.
Proof.
  intros Hm (Hi & Hc & Hn) E. unfold of_meta in Hm. rewrite !Forall_app in Hm. destruct Hm as (Ha & Ht & Hk). unfold enc_meta in E.
  inv_bind E. destruct x as [obj act]. apply make_obj_fine in E0 as (Ho & Hs & Hact & Hnact); [|easy..]. inv_bind E.
  assert (Hks : Forall json_apart x).
  { apply (traverse_fine _ _ _ _ Hk) in E0; [easy|]. intros k j' _ Hf. apply enc_child_fine; [easy|]. split; [now apply eff_fine|easy]. }
  assert (EJ : JObj (obj ++ fld (L "text") (option_map JStr (me_text m)) ++ fld (L "children") (if_list x)) = j) by congruence. rewrite <- EJ.
  apply (obj_apart _ (OBJ_KEYS ++ [L "text"] ++ [L "children"])).
  - rewrite !Forall_app. split; [easy|]. split; apply fld_field; try (now apply apart_ascii); [now apply text_apart|now apply if_list_apart].
  - rewrite !map_app. apply sub_app; [easy|]. apply sub_app; apply sub_fld.
  - distinct.
Qed.
Lemma enc_metadata_fine inh ctx m j : fine (of_metadata m) -> ctx_fine inh ctx -> enc_metadata inh ctx m = Ok j -> json_apart j.
Proof.
  intros Hm (Hi & Hc & Hn) E. unfold of_metadata in Hm. rewrite !Forall_app in Hm. destruct Hm as (Ha & Hk). unfold enc_metadata in E.
  inv_bind E. destruct x as [obj act]. apply make_obj_fine in E0 as (Ho & Hs & Hact & Hnact); [|easy..]. inv_bind E.
  assert (Hks : Forall json_apart x).
  { apply (traverse_fine _ _ _ _ Hk) in E0; [easy|]. intros k j' _ Hf. apply enc_meta_fine; [easy|]. split; [now apply eff_fine|easy]. }
  assert (EJ : JObj (obj ++ fld (L "metas") (Some (JArr x))) = j) by congruence. rewrite <- EJ. apply (obj_apart _ (OBJ_KEYS ++ [L "metas"])).
  - rewrite !Forall_app. split; [easy|]. apply fld_field; [now apply apart_ascii|now constructor].
  - rewrite map_app. apply sub_app; [easy|apply sub_fld].
  - distinct.
Qed.
Lemma enc_item_fine inh ctx i j : fine (of_item i) -> ctx_fine inh ctx -> enc_item inh ctx i = Ok j -> json_apart j.
Proof.
  intros Hm (Hi & Hc & Hn) E. unfold of_item in Hm. rewrite !Forall_app in Hm. destruct Hm as (Ha & Ht). unfold enc_item in E.
  inv_bind E. destruct x as [obj act]. apply make_obj_fine in E0 as (Ho & Hs & Hact & Hnact); [|easy..].
  assert (EJ : JObj (obj ++ fld (L "text") (truthy (it_text i))) = j) by congruence. rewrite <- EJ. apply (obj_apart _ (OBJ_KEYS ++ [L "text"])).
  - rewrite !Forall_app. split; [easy|]. apply fld_field; [now apply apart_ascii|now apply truthy_apart].
  - rewrite map_app. apply sub_app; [easy|apply sub_fld].
  - distinct.
Qed.
Lemma nested_fine {A} (enc : dict str -> dict str -> A -> res json) (g : A -> list str) key l obj act inh a md ms ks j :
  (forall x j, fine (g x) -> ctx_fine (eff a inh) act -> enc (eff a inh) act x = Ok j -> json_apart j) ->
  ~ In key (OBJ_KEYS ++ [L "metadata"]) -> apart key ->
  ctx_fine (eff a inh) act -> Forall field obj -> sub (map fst obj) OBJ_KEYS -> fine (flat_map of_metadata md) -> fine (flat_map g l) ->
  traverse (enc_metadata (eff a inh) act) md = Ok ms -> traverse (enc (eff a inh) act) l = Ok ks ->
  Ok (JObj (obj ++ fld (L "metadata") (if_list ms) ++ fld key (Some (JArr ks)))) = Ok j -> json_apart j.
Proof.
  intros He Hkey Hak Hc Ho Hs Hmd Hl Em Ek E.
  assert (EJ : JObj (obj ++ fld (L "metadata") (if_list ms) ++ fld key (Some (JArr ks))) = j) by congruence. rewrite <- EJ.
  apply (traverse_fine _ _ _ _ Hmd) in Em; [|intros k j' _ Hf; now apply enc_metadata_fine].
  apply (traverse_fine _ _ _ _ Hl) in Ek; [|intros k j' _ Hf; now apply He].
  apply (obj_apart _ (OBJ_KEYS ++ [L "metadata"] ++ [key])).
  - rewrite !Forall_app. split; [easy|]. split; apply fld_field; try (now apply apart_ascii); [now apply if_list_apart|easy|now constructor].
  - rewrite !map_app. apply sub_app; [easy|]. apply sub_app; apply sub_fld.
  - rewrite app_assoc. apply NoDup_app_one; [distinct|easy].
Qed.
Lemma enc_tier_fine inh ctx t j : fine (of_tier t) -> ctx_fine inh ctx -> enc_tier inh ctx t = Ok j -> json_apart j.
Proof.
  intros Hm (Hi & Hc & Hn) E. unfold of_tier in Hm. rewrite !Forall_app in Hm. destruct Hm as (Ha & Hmd & Hk). unfold enc_tier in E.
  inv_bind E. destruct x as [obj act]. apply make_obj_fine in E0 as (Ho & Hs & Hact & Hnact); [|easy..]. do 2 inv_bind E.
  assert (Hctx : ctx_fine (eff (t_attrs t) inh) act) by (split; [now apply eff_fine|easy]).
  refine (nested_fine enc_item of_item (L "items") _ _ _ _ _ _ _ _ _ _ _ _ Hctx Ho Hs Hmd Hk E0 E1 E); [intros; now apply (enc_item_fine _ _ _ _ H H0)|vm_compute; intuition discriminate|now apply apart_ascii].
Qed.
Lemma enc_igt_fine inh ctx g j : fine (of_igt g) -> ctx_fine inh ctx -> enc_igt inh ctx g = Ok j -> json_apart j.
Proof.
  intros Hm (Hi & Hc & Hn) E. unfold of_igt in Hm. rewrite !Forall_app in Hm. destruct Hm as (Ha & Hmd & Hk). unfold enc_igt in E.
  inv_bind E. destruct x as [obj act]. apply make_obj_fine in E0 as (Ho & Hs & Hact & Hnact); [|easy..]. do 2 inv_bind E.
  assert (Hctx : ctx_fine (eff (g_attrs g) inh) act) by (split; [now apply eff_fine|easy]).
  refine (nested_fine enc_tier of_tier (L "tiers") _ _ _ _ _ _ _ _ _ _ _ _ Hctx Ho Hs Hmd Hk E0 E1 E); [intros; now apply (enc_tier_fine _ _ _ _ H H0)|vm_compute; intuition discriminate|now apply apart_ascii].
Qed.
Lemma encode_fine c j : fine (of_corpus c) -> json_encode c = Ok j -> json_apart j.
Proof.
  intros Hm E. unfold of_corpus in Hm. rewrite !Forall_app in Hm. destruct Hm as (Ha & Hmd & Hk). unfold json_encode in E.
  assert (Z : fine (of_dict [])) by constructor. assert (Z' : NoDup (map fst ([] : dict str))) by constructor.
  inv_bind E. destruct x as [obj act]. apply make_obj_fine in E0 as (Ho & Hs & Hact & Hnact); [|easy..]. do 2 inv_bind E.
  assert (Hctx : ctx_fine (eff (c_attrs c) []) act) by (split; [now apply eff_fine|easy]).
  refine (nested_fine enc_igt of_igt (L "igts") _ _ _ _ _ _ _ _ _ _ _ _ Hctx Ho Hs Hmd Hk E0 E1 E); [intros; now apply (enc_igt_fine _ _ _ _ H H0)|vm_compute; intuition discriminate|now apply apart_ascii].
Qed.

(* ---------- decoding ---------- *)

Definition fields (d : dict json) : Prop := Forall field d.
Lemma dget_field d k j : fields d -> dget d k = Some j -> json_apart j.
Proof. intros H E. apply dget_in in E; [|exact str_eqb_spec]. unfold fields in H. rewrite Forall_forall in H. now apply (H _ E). Qed.
Lemma as_obj_fields j d : json_apart j -> as_obj j = Ok d -> fields d.
Proof. intros H E. destruct j; try discriminate. assert (d0 = d) by (cbn in E; congruence). subst. now inversion H. Qed.
Lemma get_str_fine k d o : fields d -> get_str k d = Ok o -> fine (of_opt o).
Proof.
  unfold get_str. intros H E. destruct (dget d k) as [[s|l|e]|] eqn:Eg; try discriminate; assert (Eo := E); (injection Eo as <-); [|constructor].
  apply (dget_field _ _ _ H) in Eg. inversion Eg. constructor; [easy|constructor].
Qed.
Lemma get_dict_fine k d o : fields d -> get_dict k d = Ok o -> fine (match o with Some m => of_dict m | None => [] end).
Proof.
  unfold get_dict. intros H E. destruct (dget d k) as [[s|l|e]|] eqn:Eg; try discriminate; [|assert (o = None) by congruence; subst; constructor].
  inv_bind E. assert (o = Some x) by congruence. subst. apply (dget_field _ _ _ H) in Eg. inversion Eg as [| |? Hn He]; subst.
  apply of_dict_in. enough (F : Forall (fun kv => apart (fst kv) /\ apart (snd kv)) x) by (rewrite Forall_forall in F; intros k' v Hin; apply (F _ Hin)).
  apply (traverse_all _ _ _ _) with (2 := E0). intros [k' j] y Hin. cbn [fst snd]. rewrite Forall_forall in He. specialize (He _ Hin). cbn [fst snd] in He.
  destruct j; try discriminate. intros Ey. assert (y = (k', s)) by congruence. subst. destruct He as [H1 H2]. inversion H2; now subst.
Qed.
Lemma get_list_fine {A} (f : json -> res A) (g : A -> list str) k d ys : fields d -> (forall j y, json_apart j -> f j = Ok y -> fine (g y)) ->
  get_list f k d = Ok ys -> fine (flat_map g ys).
Proof.
  intros H K E. rewrite JsonProofs.get_list_eq in E. destruct (dget d k) as [[s|l|o]|] eqn:Eg; try discriminate.
  - apply (dget_field _ _ _ H) in Eg. inversion Eg as [|? Hl|]; subst. apply Forall_flat_map.
    apply (traverse_all _ _ _ _) with (2 := E). intros x y Hin. apply K. rewrite Forall_forall in Hl. now apply Hl.
  - assert (ys = []) by congruence. subst. constructor.
Qed.
Lemma active_fine d nm m : fields d -> fine (of_dict nm) -> active_namespaces d nm = Ok m -> fine (of_dict m).
Proof.
  unfold active_namespaces. intros H K E. inv_bind E. assert (Em : m = dupdate nm (match x with Some m => m | None => [] end)) by congruence. subst m.
  apply get_dict_fine in E0; [|easy]. apply dupdate_fine; [easy|]. now destruct x.
Qed.

Section Decode.
Context {U : Unicode}.
Lemma dec_attrs_fine' d i t ns a : fields d -> fine (of_opt i) -> fine (of_opt t) -> fine (of_opt ns) -> dec_attrs d i t ns = Ok a -> fine (of_attrs a).
Proof.
  unfold dec_attrs. intros H Hi Ht Hn E. do 2 inv_bind E. cbv zeta in E. apply get_dict_fine in E0, E1; [|easy..].
  assert (Ea : a = {| a_id := i; a_type := t; a_dict := match x0 with Some x => x | None => [] end; a_ns := ns; a_nsmap := x |}).
  { destruct i as [i|]; [destruct (id_accepted i)|]; congruence. }
  subst a. unfold of_attrs. cbn [a_id a_type a_dict a_ns a_nsmap]. rewrite !Forall_app. split; [easy|]. split; [easy|]. split; [|split; easy].
  destruct x0; [easy|constructor].
Qed.
Lemma dec_common_fine' d a : fields d -> dec_common d = Ok a -> fine (of_attrs a).
Proof. unfold dec_common. intros H E. do 3 inv_bind E. apply get_str_fine in E0, E1, E2; [|easy..]. now apply dec_attrs_fine' in E. Qed.

Lemma dec_child_strings' j : match j with JArr l => Forall (fun j => forall nm m, fine (of_dict nm) -> json_apart j -> dec_child nm j = Ok m -> fine (of_child m)) l | _ => True end
  /\ forall nm m, fine (of_dict nm) -> json_apart j -> dec_child nm j = Ok m -> fine (of_child m).
Proof.
  induction j as [s|l IH|d IH] using JsonTextProofs.json_rec'; [now split| |].
  - split; [eapply Forall_impl; [|exact IH]; now intros a []|discriminate].
  - split; [easy|]. intros nm m Hnm Hj E. inversion Hj as [| |? Hnd Hd]; subst. cbn [dec_child] in E. do 3 inv_bind E. inv_bind E. destruct x2 as [n ns].
    do 3 inv_bind E. destruct (name_accepted n); [|discriminate]. assert (Em : m = MChild n x2 x3 x4) by congruence. subst m.
    change (Forall (fun kv => apart (fst kv) /\ json_apart (snd kv)) d) with (fields d) in Hd.
    apply active_fine in E0; [|easy..]. apply get_str_fine in E1; [|easy]. apply get_str_fine in E5; [|easy].
    assert (Hx1 : apart x1) by (destruct x0; [assert (l = x1) by congruence; subst; now apply Forall_inv in E1|discriminate]).
    assert (Hns : apart n /\ fine (of_opt ns)).
    { destruct (split1 (Ch ":") x1) as [[p n']|] eqn:Es.
      - apply split1_fine in Es as [Hp Hn]; [|easy]. assert (En : n' = n) by congruence. assert (Ens : ns = Some (match dget x p with Some u => u | None => p end)) by congruence.
        subst. split; [easy|]. constructor; [|constructor]. destruct (dget x p) as [u|] eqn:Eg; [|easy]. now apply (dget_fine x p).
      - inv_bind E3. apply get_str_fine in E7; [|easy]. assert (En : x1 = n) by congruence. subst. split; [easy|].
        destruct x5 as [p|]; [|assert (ns = None) by congruence; subst; constructor].
        destruct (dget x p) as [u|] eqn:Eg; [assert (ns = Some u) by congruence; subst; constructor; [now apply (dget_fine x p)|constructor]|].
        assert (ns = Some p) by congruence. now subst. }
    destruct Hns as [Hn Hns]. apply dec_attrs_fine' in E4; [|easy|constructor|constructor|easy].
    cbn [of_child]. constructor; [easy|]. rewrite !Forall_app. split; [easy|]. split; [easy|].
    rewrite JsonProofs.get_list_eq in E6. destruct (dget d (L "children")) as [[s|l|o]|] eqn:Eg; try discriminate.
    + pose proof (dget_field _ _ _ Hd Eg) as Hl. inversion Hl as [|? Hl'|]; subst.
      apply dget_in in Eg; [|exact str_eqb_spec]. rewrite Forall_forall in IH. destruct (IH _ Eg) as [H _]. cbn [snd] in H.
      apply Forall_flat_map. apply (traverse_all _ _ _ _) with (2 := E6). intros y z Hy. rewrite Forall_forall in H, Hl'. apply (H y Hy); [easy|now apply Hl'].
    + assert (x4 = []) by congruence. subst. constructor.
Qed.
Lemma dec_child_strings nm j m : fine (of_dict nm) -> json_apart j -> dec_child nm j = Ok m -> fine (of_child m).
Proof. apply (proj2 (dec_child_strings' j)). Qed.
Lemma dec_meta_strings nm j m : fine (of_dict nm) -> json_apart j -> dec_meta nm j = Ok m -> fine (of_meta m).
Proof.
  unfold dec_meta. intros Hnm Hj E. inv_bind E. apply (as_obj_fields _ _ Hj) in E0. do 4 inv_bind E. apply active_fine in E1; [|easy..].
  apply dec_common_fine' in E2; [|easy]. apply get_str_fine in E3; [|easy]. apply (get_list_fine _ of_child) in E4; [|easy|intros j' y; now apply dec_child_strings].
  assert (Em : m = {| me_attrs := x1; me_text := x2; me_kids := x3 |}) by congruence. subst m. unfold of_meta. cbn. rewrite !Forall_app. easy.
Qed.
Lemma container_same {A} (f : A -> option str) l l' : new_container f l = Ok l' -> l' = l.
Proof. intros H. now apply ReloadProofs.container_ids in H as [-> _]. Qed.
Lemma dec_metadata_strings nm j m : fine (of_dict nm) -> json_apart j -> dec_metadata nm j = Ok m -> fine (of_metadata m).
Proof.
  unfold dec_metadata. intros Hnm Hj E. inv_bind E. apply (as_obj_fields _ _ Hj) in E0. do 4 inv_bind E. apply active_fine in E1; [|easy..].
  apply dec_common_fine' in E2; [|easy]. apply (get_list_fine _ of_meta) in E3; [|easy|intros j' y; now apply dec_meta_strings]. apply container_same in E4. subst x3.
  assert (Em : m = {| md_attrs := x1; md_metas := x2 |}) by congruence. subst m. unfold of_metadata. cbn. rewrite !Forall_app. easy.
Qed.
Lemma dec_metadatas_strings nm d ms : fine (of_dict nm) -> fields d -> dec_metadatas nm d = Ok ms -> fine (flat_map of_metadata ms).
Proof.
  unfold dec_metadatas. intros Hnm Hd E. inv_bind E. apply container_same in E. subst. apply (get_list_fine _ of_metadata) in E0; [easy|easy|].
  intros j' y. now apply dec_metadata_strings.
Qed.
Lemma dec_item_strings nm j i : fine (of_dict nm) -> json_apart j -> dec_item nm j = Ok i -> fine (of_item i).
Proof.
  unfold dec_item. intros Hnm Hj E. inv_bind E. apply (as_obj_fields _ _ Hj) in E0. do 3 inv_bind E. apply dec_common_fine' in E2; [|easy].
  apply get_str_fine in E3; [|easy]. assert (Ei : i = {| it_attrs := x1; it_text := x2 |}) by congruence. subst i. unfold of_item. cbn. rewrite Forall_app. easy.
Qed.
Lemma dec_tier_strings nm j t : fine (of_dict nm) -> json_apart j -> dec_tier nm j = Ok t -> fine (of_tier t).
Proof.
  unfold dec_tier. intros Hnm Hj E. inv_bind E. apply (as_obj_fields _ _ Hj) in E0. do 5 inv_bind E. apply active_fine in E1; [|easy..].
  apply dec_metadatas_strings in E2; [|easy..]. apply (get_list_fine _ of_item) in E3; [|easy|intros j' y; now apply dec_item_strings].
  apply dec_common_fine' in E4; [|easy]. apply container_same in E5. subst x4. assert (Et : t = {| t_attrs := x3; t_md := x1; t_items := x2 |}) by congruence. subst t.
  unfold of_tier. cbn. rewrite !Forall_app. easy.
Qed.
Lemma dec_igt_strings nm j g : fine (of_dict nm) -> json_apart j -> dec_igt nm j = Ok g -> fine (of_igt g).
Proof.
  unfold dec_igt. intros Hnm Hj E. inv_bind E. apply (as_obj_fields _ _ Hj) in E0. do 5 inv_bind E. apply active_fine in E1; [|easy..].
  apply dec_metadatas_strings in E2; [|easy..]. apply (get_list_fine _ of_tier) in E3; [|easy|intros j' y; now apply dec_tier_strings].
  apply dec_common_fine' in E4; [|easy]. apply container_same in E5. subst x4. assert (Et : g = {| g_attrs := x3; g_md := x1; g_tiers := x2 |}) by congruence. subst g.
  unfold of_igt. cbn. rewrite !Forall_app. easy.
Qed.
Lemma decode_strings j c : json_apart j -> json_decode j = Ok c -> fine (of_corpus c).
Proof.
  unfold json_decode. intros Hj E. inv_bind E. apply (as_obj_fields _ _ Hj) in E0. do 7 inv_bind E. apply active_fine in E1; [|easy|constructor].
  apply dec_metadatas_strings in E2; [|easy..]. apply (get_list_fine _ of_igt) in E3; [|easy|intros j' y; now apply dec_igt_strings].
  apply get_str_fine in E4, E5; [|easy..]. apply dec_attrs_fine' in E6; [|easy|easy|constructor|easy]. apply container_same in E7. subst x6.
  assert (Et : c = {| c_attrs := x5; c_md := x1; c_igts := x2 |}) by congruence. subst c.
  unfold of_corpus. cbn. rewrite !Forall_app. easy.
Qed.

(* ---------- together ---------- *)

Theorem json_text c indent j : json_encode c = Ok j -> Forall apart (of_corpus c) ->
  exists s, json_dumps c indent = Ok s /\ Forall (written_char indent) s /\ read_json s = Ok j /\ json_loads s = json_decode j.
Proof.
  intros E H. exists (write_json indent 0 j). unfold json_dumps, json_loads. rewrite E. split; [reflexivity|]. split; [apply write_ascii|].
  rewrite read_write by now apply (encode_fine c). now split.
Qed.
Theorem json_text_round_trip c indent : jcorpus c -> Forall apart (of_corpus c) ->
  exists s c', json_dumps c indent = Ok s /\ json_loads s = Ok c' /\ same_corpus c c'.
Proof.
  intros Hc H. destruct (JsonProofs.json_round_trip c Hc) as (j & c' & E1 & E2 & S). destruct (json_text c indent j E1 H) as (s & D & _ & _ & Ls).
  exists s, c'. split; [easy|]. split; [now rewrite Ls|easy].
Qed.
Theorem json_read_strings s c : Forall scalar s -> json_loads s = Ok c -> Forall apart (of_corpus c).
Proof. unfold json_loads. intros H E. inv_bind E. apply (decode_strings x); [now apply (read_json_sound s)|easy]. Qed.
End Decode.
