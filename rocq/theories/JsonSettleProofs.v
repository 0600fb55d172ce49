(* What was saved once as JSON and loaded is saved and loaded without change. *)
From Verif Require Import PyStr PyStrFacts Ref SpecRef Model SpecModel XmlStd Xml SpecXml XmlProofs Json SpecJson SpecJsonSettle.
From Verif Require Import LoadProofs JsonProofs.
From Verif Require ReloadProofs AttrProofs RefProofs.

Lemma traverse_both {A B} (enc : A -> res json) (dec : json -> res B) (P : B -> Prop) l :
  (forall x j y, In x l -> enc x = Ok j -> dec j = Ok y -> P y) ->
  forall js ys, traverse enc l = Ok js -> traverse dec js = Ok ys -> Forall P ys.
Proof.
  induction l as [|x l IH]; cbn [traverse]; intros H js ys E D.
  - assert (js = []) by congruence. subst. cbn in D. assert (ys = []) by congruence. subst. constructor.
  - inv_bind E. inv_bind E. assert (js = x0 :: x1) by congruence. subst. cbn [traverse] in D. inv_bind D. inv_bind D.
    assert (ys = x2 :: x3) by congruence. subst. constructor; [apply (H x x0); [now left|easy|easy]|].
    apply (IH (fun z j y Hz => H z j y (or_intror Hz)) x1); easy.
Qed.
Lemma dupdate_in (m : dict str) : forall d p u, In (p, u) (dupdate d m) -> In (p, u) d \/ In (p, u) m.
Proof.
  unfold dupdate, dupdate_. induction m as [|[k v] m IH]; cbn [fold_left fst snd]; intros d p u H; [now left|].
  apply IH in H as [H|H]; [|right; now right]. apply ReloadProofs.dset_in in H as [H|[-> ->]]; [now left|].
  right. now left.
Qed.

Lemma split1_first c s a b : split1 c s = Some (a, b) -> ~ In c a.
Proof.
  revert a. induction s as [|x s IH]; cbn; [discriminate|]. intros a. destruct (N.eqb_spec x c) as [->|Hx]; [intros E; now assert (a = []) as -> by congruence|].
  destruct (split1 c s) as [[a' b']|]; [|discriminate]. cbn [option_map fst snd]. intros E. assert (a = x :: a') as -> by congruence. assert (b = b') as -> by congruence.
  intros [H|H]; [easy|]. now apply (IH a').
Qed.

(* the attributes an object is read with *)
Definition clean (o : option str) : option str := match o with Some [] => None | _ => o end.
Lemma clean_truthy o : truthy (clean o) = truthy o.
Proof. now destruct o as [[|? ?]|]. Qed.
Lemma clean_some o : clean o <> Some [].
Proof. now destruct o as [[|? ?]|]. Qed.
Definition cleaned (a : attrs) (d news : dict str) : attrs :=
  {| a_id := clean (a_id a); a_type := clean (a_type a); a_dict := d; a_ns := clean (a_ns a);
     a_nsmap := match news with [] => None | _ => Some news end |}.
Lemma attrs_stay act b : NoDup (map fst act) -> plain_map act -> agrees act b -> forall l acc r, json_attrs (revmap act) acc l = Ok r ->
  NoDup (map fst acc) -> (forall k, In k (map fst acc) -> key_stays b k) ->
  NoDup (map fst r) /\ (forall k, In k (map fst r) -> key_stays b k).
Proof.
  intros Hnd Hpl Hag. induction l as [|[k v] l IH]; cbn [json_attrs]; intros acc r E H K.
  - assert (acc = r) by congruence. subst. now split.
  - inv_bind E. apply (IH _ _ E); [apply dset_nodup; [exact str_eqb_spec|easy]|].
    assert (Kx : key_stays b x).
    { destruct k as [|c k]; [left; intros ?; congruence|]. destruct (N.eqb_spec c (Ch "{")) as [->|Hc].
      - destruct (split1 (Ch "}") k) as [[uri key]|] eqn:Es; [|discriminate].
        pose proof (ReloadProofs.split1_app _ _ _ _ Es) as Ek. destruct (dget (revmap act) uri) as [pre|] eqn:Er.
        + assert (x = pre ++ L ":" ++ key) by congruence. subst. left. intros r' Ee.
          destruct (Hpl pre uri) as [[_ Hp] _].
          { destruct (revmap_from act [] uri pre Er) as [|]; [easy|discriminate]. }
          destruct pre as [|c pre]; [discriminate|]. apply (Hp pre). cbn [app] in Ee. congruence.
        + assert (x = Ch "{" :: k) by congruence. subst. right. exists uri, key. split; [reflexivity|]. split.
          * now apply (split1_first _ _ _ _ Es).
          * now apply (inv_none act).
      - assert (x = c :: k) by congruence. subst. left. intros r' Ee. congruence. }
    intros k' Hk. apply in_map_iff in Hk as ((k1 & v1) & <- & Hin). apply ReloadProofs.dset_in in Hin as [Hin|[-> _]]; [|easy].
    apply K. apply in_map_iff. now exists (k1, v1).
Qed.

Record settled_state (inh ctx nm : dict str) (b : binding) : Prop := {
  st_inh : plain_map inh; st_ctx : plain_map ctx; st_nodup : NoDup (map fst ctx); st_agrees : agrees ctx b;
  st_nm : forall p, dget nm p = dget ctx p }.
Section Settle.
Context {U : Unicode}.

Lemma obj_step a inh ctx nm b obj act : settled_state inh ctx nm b -> plain_attrs a -> make_obj a inh ctx = Ok (obj, act) ->
  exists d, let a' := cleaned a d (new_ns act ctx) in
    obj = base a' (new_ns act ctx) /\ settled_state (eff a inh) act (dupdate nm (new_ns act ctx)) (extend a' b)
    /\ NoDup (map fst d) /\ (forall k, In k (map fst d) -> key_stays (extend a' b) k) /\ NoDup (map fst (new_ns act ctx)).
Proof.
  intros [H1 H2 H3 H4 H5] Ha E. unfold make_obj in E. inv_bind E. set (act' := dupdate ctx (eff a inh)) in *.
  assert (act = act') by congruence. subst act. rename act' into act. exists x. cbv zeta. set (a' := cleaned _ _ _).
  assert (Hpe : plain_map (eff a inh)) by (unfold eff; destruct (a_nsmap a) as [m|] eqn:Em; [now apply Ha|easy]).
  assert (Hna : NoDup (map fst act)) by now apply dupdate_keys.
  assert (Hpa : plain_map act) by (intros p u Hin; apply dupdate_in in Hin as [?|?]; [now apply H2|now apply Hpe]).
  assert (Hnn : NoDup (map fst (new_ns act ctx))) by now apply new_ns_nodup.
  assert (Hsub : forall p u, dget ctx p = Some u -> dget act p <> None).
  { intros p u Hp Hn. assert (Hin : In p (map fst act)); [|now apply dget_none in Hn; [|exact str_eqb_spec]].
    apply dget_in in Hp; [|exact str_eqb_spec]. assert (In p (map fst ctx)) by (apply in_map_iff; now exists (p, u)).
    clear - H. unfold act. revert H. generalize ctx. unfold dupdate, dupdate_. induction (eff a inh) as [|[k v] m IH]; cbn [fold_left]; intros d H; [easy|].
    apply IH. cbn [fst snd]. clear - H. induction d as [|[k' v'] d IH]; [easy|]. cbn [dset_]. destruct (str_eqb_spec k k') as [->|]; [exact H|].
    destruct H as [H|H]; [now left|right; auto]. }
  assert (Hag : agrees act (extend a' b)).
  { intros p. pose proof (new_ns_update act ctx ctx (dget act) Hna (fun _ => eq_refl) (fun _ => eq_refl) Hsub p) as Hu.
    rewrite dupdate_get in Hu by easy. rewrite <- Hu. unfold extend. cbn [a_nsmap a' cleaned].
    destruct (new_ns act ctx) as [|kv news] eqn:En; [apply H4|]. destruct (dget (kv :: news) p); [easy|apply H4]. }
  assert (Hstay := attrs_stay act (extend a' b) Hna Hpa Hag _ _ _ E0 (NoDup_nil _) (fun k (K : In k (map fst [])) => False_ind _ K)).
  split; [|split; [|split; [|split]]].
  - assert (Eo : obj = base {| a_id := a_id a; a_type := a_type a; a_dict := x; a_ns := a_ns a; a_nsmap := None |} (new_ns act ctx))
      by (unfold base; cbn [a_id a_type a_dict a_ns]; congruence).
    rewrite Eo. unfold base. cbn [a_id a_type a_dict a_ns a' cleaned]. now rewrite !clean_truthy.
  - constructor; [easy|easy|easy|easy|]. intros p.
    apply (new_ns_update act ctx nm (dget act)); [easy|easy|easy|easy].
  - apply Hstay.
  - apply Hstay.
  - easy.
Qed.
Lemma dec_attrs_eq j a news id type ns r : seen j a news -> dec_attrs j id type ns = Ok r ->
  r = {| a_id := id; a_type := type; a_dict := a_dict a; a_ns := ns; a_nsmap := match news with [] => None | _ => Some news end |}
  /\ forall i, id = Some i -> accepted_id i.
Proof.
  intros [H1 H2] E. pose proof (dec_attrs_fine _ _ _ _ _ E) as [F1 F2]. unfold dec_attrs in E.
  rewrite (any_dict _ _ _ H1), (any_dict _ _ _ H2) in E. cbn [bind] in E. split.
  - destruct id as [i|]; [destruct (id_accepted i); [|discriminate]|]; (assert (Er := E); clear E; destruct (a_dict a); cbn in Er |- *; congruence).
  - intros i Ei. apply F1. now rewrite F2.
Qed.
Lemma strs_clean a d0 news rest : fresh rest -> let a' := cleaned a d0 news in
  get_str ID (base a' news ++ rest) = Ok (a_id a') /\ get_str TYPE (base a' news ++ rest) = Ok (a_type a')
  /\ get_str (L "namespace") (base a' news ++ rest) = Ok (a_ns a').
Proof.
  intros (H1 & H2 & _ & H4 & _) a'. split; [|split]; (apply truthy_str; [apply clean_some|]); unfold base; look.
  - unfold ID in H1. rewrite H1. now destruct (truthy (a_id a')).
  - unfold TYPE in H2. rewrite H2. now destruct (truthy (a_type a')).
  - rewrite H4. now destruct (truthy (a_ns a')).
Qed.
Lemma common_eq a d0 news rest r : fresh rest -> dec_common (base (cleaned a d0 news) news ++ rest) = Ok r ->
  r = cleaned a d0 news /\ forall i, a_id r = Some i -> accepted_id i.
Proof.
  intros Hf E. destruct (strs_clean a d0 news rest Hf) as (S1 & S2 & S3). unfold dec_common in E. rewrite S1, S2, S3 in E. cbn [bind] in E.
  apply (dec_attrs_eq _ (cleaned a d0 news) news) in E as [-> Hi]; [|now apply base_seen]. split; [reflexivity|exact Hi].
Qed.

(* what one object with attributes gives *)
Lemma obj_settles a inh ctx nm b obj act rest a' : settled_state inh ctx nm b -> plain_attrs a -> make_obj a inh ctx = Ok (obj, act) ->
  fresh rest -> dec_common (obj ++ rest) = Ok a' ->
  jattrs (extend a' b) a' /\ a_type a' <> Some []
  /\ exists nm', active_namespaces (obj ++ rest) nm = Ok nm' /\ settled_state (eff a inh) act nm' (extend a' b).
Proof.
  intros Hs Ha E Hf D. destruct (obj_step _ _ _ _ _ _ _ Hs Ha E) as (d & Eo & Hs' & Hd & Hk & Hn). cbv zeta in *. subst obj.
  apply common_eq in D as [-> Hi]; [|easy]. split; [|split].
  - split; [exact Hd|]. split; [|split; [exact Hk|split; [exact Hi|apply clean_some]]].
    cbn [a_nsmap cleaned]. intros m Em. destruct (new_ns act ctx) as [|kv news] eqn:En; [discriminate|]. now assert (m = kv :: news) as -> by congruence.
  - apply clean_some.
  - eexists. split; [apply (active_ok _ (cleaned a d (new_ns act ctx)) (new_ns act ctx)); now apply base_seen|exact Hs'].
Qed.
Lemma base_skip a inh ctx obj act rest k : make_obj a inh ctx = Ok (obj, act) -> fresh rest ->
  k <> ID -> k <> TYPE -> k <> L "attributes" -> k <> L "namespace" -> k <> L "namespaces" -> dget (obj ++ rest) k = dget rest k.
Proof.
  intros E Hf H1 H2 H3 H4 H5. unfold make_obj in E. inv_bind E. set (act' := dupdate ctx (eff a inh)) in *.
  assert (Eo : obj = base {| a_id := a_id a; a_type := a_type a; a_dict := x; a_ns := a_ns a; a_nsmap := None |} (new_ns act' ctx))
    by (unfold base; cbn [a_id a_type a_dict a_ns]; congruence).
  rewrite Eo. now apply base_get.
Qed.

Ltac fresh_ := unfold fresh; repeat split; look; repeat match goal with |- context [match ?x with _ => _ end] => destruct x end; reflexivity.

(* ----- meta children ----- *)

Lemma child_settles m : forall inh ctx nm b j y, settled_state inh ctx nm b -> plain_child m ->
  enc_child inh ctx m = Ok j -> dec_child nm j = Ok y -> jchild b y.
Proof.
  induction m as [n a t kids IH] using mchild_rec'. intros inh ctx nm b j y Hs Hp E D.
  inversion_clear Hp as [? ? ? ? Hn Ha Hk]. cbn [enc_child] in E. inv_bind E. destruct x as [obj act].
  inv_bind E. change (match a_ns a with Some (c :: u) => _ | _ => _ end) with (named a act n obj) in E.
  destruct (obj_step _ _ _ _ _ _ _ Hs Ha E0) as (d & Eo & Hs' & Hd & Hkey & Hnn). cbv zeta in *.
  set (news := new_ns act ctx) in *. set (a1 := cleaned a d news) in *.
  assert (En : named a act n obj = named a1 act n (base a1 news)).
  { rewrite Eo. unfold named. cbn [a_ns a1 cleaned]. now destruct (a_ns a) as [[|? ?]|]. }
  rewrite En in E. set (rest := fld (L "text") (option_map JStr t) ++ fld (L "children") (if_list x)) in *.
  destruct (named_cases (extend a1 b) a1 act n news rest (clean_some _)) as (Hseen & Ht & Hc & Hname); try apply Hs'.
  { unfold rest. repeat split; look; now destruct (option_map JStr t). }
  set (o := named a1 act n (base a1 news) ++ rest) in *. assert (j = JObj o) as -> by congruence. clear E.
  cbn [dec_child] in D. rewrite (active_ok o a1 news) in D by easy. cbn [bind] in D. set (nm' := dupdate nm news) in *.
  (* the name and the namespace *)
  assert (X : exists ns, ns <> Some [] /\ (forall u, ns = Some u -> bound_in (extend a1 b) u \/ extend a1 b u = None)
    /\ (do a' <- dec_attrs o None None ns; do t <- get_str (L "text") o; do ks <- get_list (dec_child nm') (L "children") o;
        if name_accepted n then Ok (MChild n a' t ks) else Err ValueError) = Ok y).
  { assert (Hnm : forall p, dget nm' p = extend a1 b p) by (intros p; rewrite (st_nm _ _ _ _ Hs'); apply Hs').
    assert (Hpl : forall p u, extend a1 b p = Some u -> plain_prefix p /\ u <> []).
    { intros p u Hu. rewrite <- (st_agrees _ _ _ _ Hs') in Hu. apply (st_ctx _ _ _ _ Hs'). apply dget_in in Hu; [easy|exact str_eqb_spec]. }
    destruct Hname as [(p & u & Eu & Hpu & Hg)|(Hnb & Hg & Hgn)]; unfold get_str at 1 in D; rewrite Hg in D; cbn [bind] in D.
    - change (p ++ L ":" ++ n) with (p ++ Ch ":" :: n) in D. rewrite AttrProofs.split1_app in D by now apply (Hpl p u). cbn [bind] in D.
      rewrite Hnm, Hpu in D. exists (Some u). split; [intros Ex; apply (proj2 (Hpl p u Hpu)); congruence|]. split; [|exact D].
      intros v Ev. left. exists p. congruence.
    - rewrite AttrProofs.split1_none in D by now apply name_no_colon. rewrite (truthy_str _ _ (a_ns a1)) in D by (first [apply clean_some|exact Hgn]).
      cbn [bind] in D. destruct (a_ns a1) as [u|] eqn:Eu.
      + rewrite Hnm in D. destruct (extend a1 b u) as [v|] eqn:Ev; cbv iota in D; (eexists; split; [|split; [|exact D]]).
        * intros Ex. apply (proj2 (Hpl u v Ev)). congruence.
        * intros w Ew. left. exists u. congruence.
        * intros Ex. apply (clean_some (a_ns a)). change (clean (a_ns a)) with (a_ns a1). congruence.
        * intros w Ew. right. now assert (w = u) as -> by congruence.
      + exists None. split; [discriminate|]. split; [discriminate|exact D]. }
  clear D. destruct X as (ns & Hns & Hb & D). inv_bind D. inv_bind D. inv_bind D. apply (dec_attrs_eq o a1 news) in E as [-> _]; [|easy].
  destruct (name_accepted n); [|discriminate]. set (a2 := Build_attrs _ _ _ _ _) in D.
  assert (y = MChild n a2 x1 x2) as -> by congruence. clear D.
  assert (Eb : extend a2 b = extend a1 b) by reflexivity.
  constructor; [|reflexivity|reflexivity| | |exact Hn|].
  - rewrite Eb. split; [exact Hd|]. split; [|split; [exact Hkey|split; [intros i Ei; discriminate|exact Hns]]].
    cbn [a_nsmap a2]. intros m Em. destruct news as [|kv news']; [discriminate|]. now assert (m = kv :: news') as -> by congruence.
  - intros u p _ Hpu. rewrite Eb, <- (st_agrees _ _ _ _ Hs') in Hpu. apply dget_in in Hpu; [|exact str_eqb_spec]. now apply (st_ctx _ _ _ _ Hs' p u).
  - intros u Eu Hnb. destruct (Hb u Eu) as [Hx|Hx]; [now destruct Hnb|exact Hx].
  - rewrite Eb. rewrite (if_list_get _ _ _ x) in E3 by (rewrite Hc; unfold rest; look; reflexivity).
    eapply traverse_both; [|exact E1|exact E3]. intros z jz yz Hz Ez Dz. rewrite Forall_forall in IH, Hk. eapply (IH z Hz); eauto.
Qed.

(* ----- the other objects ----- *)

Lemma nodup_ids {A} (f : A -> option str) l l' : new_container f l = Ok l' -> l' = l /\ NoDup (some_ids (map f l)).
Proof. unfold new_container. intros E. inv_bind E. destruct x. assert (l' = l) as -> by congruence. split; [easy|]. now apply (check_ids_sound _ []). Qed.

Lemma meta_settles inh ctx nm b m j y : settled_state inh ctx nm b -> plain_meta m ->
  enc_meta inh ctx m = Ok j -> dec_meta nm j = Ok y -> jmeta b y.
Proof.
  intros Hs (Ha & Hk) E D. unfold enc_meta in E. inv_bind E. destruct x as [obj act]. inv_bind E.
  set (rest := fld (L "text") _ ++ fld (L "children") _) in E. assert (Hf : fresh rest) by (unfold rest; fresh_).
  assert (j = JObj (obj ++ rest)) as -> by congruence. clear E. unfold dec_meta in D. cbn [as_obj bind] in D. inv_bind D. inv_bind D. inv_bind D. inv_bind D.
  destruct (obj_settles _ _ _ _ _ _ _ _ _ Hs Ha E0 Hf E2) as (Ja & Jt & nm' & En & Hs').
  assert (x0 = nm') as -> by congruence. assert (y = Build_meta x1 x2 x3) as -> by congruence.
  split; [exact Ja|]. split; [exact Jt|]. cbn [me_attrs me_kids].
  rewrite (if_list_get _ _ _ x) in E4 by (rewrite (base_skip _ _ _ _ _ _ _ E0 Hf) by easy; unfold rest; look; now destruct (me_text m)).
  eapply traverse_both; [|exact E1|exact E4]. intros z jz yz Hz Ez Dz. rewrite Forall_forall in Hk. eapply child_settles; eauto.
Qed.
Lemma metadata_settles inh ctx nm b m j y : settled_state inh ctx nm b -> plain_metadata m ->
  enc_metadata inh ctx m = Ok j -> dec_metadata nm j = Ok y -> jmetadata b y.
Proof.
  intros Hs (Ha & Hk) E D. unfold enc_metadata in E. inv_bind E. destruct x as [obj act]. inv_bind E.
  set (rest := fld (L "metas") _) in E. assert (Hf : fresh rest) by (unfold rest; fresh_).
  assert (j = JObj (obj ++ rest)) as -> by congruence. clear E. unfold dec_metadata in D. cbn [as_obj bind] in D. inv_bind D. inv_bind D. inv_bind D. inv_bind D.
  destruct (obj_settles _ _ _ _ _ _ _ _ _ Hs Ha E0 Hf E2) as (Ja & Jt & nm' & En & Hs').
  assert (x0 = nm') as -> by congruence. apply nodup_ids in E4 as [-> Hnd]. assert (y = Build_metadata x1 x2) as -> by congruence.
  split; [exact Ja|]. split; [exact Jt|]. split; [|exact Hnd]. cbn [md_attrs md_metas].
  rewrite (arr_get _ _ _ x) in E3 by (rewrite (base_skip _ _ _ _ _ _ _ E0 Hf) by easy; unfold rest; look; reflexivity).
  eapply traverse_both; [|exact E1|exact E3]. intros z jz yz Hz Ez Dz. rewrite Forall_forall in Hk. eapply meta_settles; eauto.
Qed.
Lemma metadatas_settle inh ctx nm b l js o ys : settled_state inh ctx nm b -> Forall plain_metadata l ->
  traverse (enc_metadata inh ctx) l = Ok js -> dget o (L "metadata") = if_list js -> dec_metadatas nm o = Ok ys -> jmetadatas b ys.
Proof.
  intros Hs Hk E Hg D. unfold dec_metadatas in D. inv_bind D. apply nodup_ids in D as [-> Hnd].
  rewrite (if_list_get _ _ _ js) in E0 by easy. split; [|exact Hnd].
  eapply traverse_both; [|exact E|exact E0]. intros z jz yz Hz Ez Dz. rewrite Forall_forall in Hk. eapply metadata_settles; eauto.
Qed.
Lemma item_settles inh ctx nm b m j y : settled_state inh ctx nm b -> plain_attrs (it_attrs m) ->
  enc_item inh ctx m = Ok j -> dec_item nm j = Ok y -> jitem b y.
Proof.
  intros Hs Ha E D. unfold enc_item in E. inv_bind E. destruct x as [obj act].
  set (rest := fld (L "text") _) in E. assert (Hf : fresh rest) by (unfold rest; fresh_).
  assert (j = JObj (obj ++ rest)) as -> by congruence. clear E. unfold dec_item in D. cbn [as_obj bind] in D. inv_bind D. inv_bind D. inv_bind D.
  destruct (obj_settles _ _ _ _ _ _ _ _ _ Hs Ha E0 Hf E1) as (Ja & Jt & nm' & En & Hs').
  assert (y = Build_item x0 x1) as -> by congruence.
  split; [exact Ja|]. split; [exact Jt|]. cbn [it_text].
  rewrite (truthy_str _ _ (clean (it_text m))) in E2; [|apply clean_some|rewrite (base_skip _ _ _ _ _ _ _ E0 Hf) by easy; unfold rest; look; now rewrite clean_truthy].
  assert (x1 = clean (it_text m)) as -> by congruence. apply clean_some.
Qed.
Lemma tier_settles inh ctx nm b m j y : settled_state inh ctx nm b -> plain_tier m ->
  enc_tier inh ctx m = Ok j -> dec_tier nm j = Ok y -> jtier b y.
Proof.
  intros Hs (Ha & Hm & Hk) E D. unfold enc_tier in E. inv_bind E. destruct x as [obj act]. inv_bind E. inv_bind E.
  set (rest := fld (L "metadata") _ ++ fld (L "items") _) in E. assert (Hf : fresh rest) by (unfold rest; fresh_).
  assert (j = JObj (obj ++ rest)) as -> by congruence. clear E. unfold dec_tier in D. cbn [as_obj bind] in D.
  inv_bind D. inv_bind D. inv_bind D. inv_bind D. inv_bind D.
  destruct (obj_settles _ _ _ _ _ _ _ _ _ Hs Ha E0 Hf E5) as (Ja & Jt & nm' & En & Hs').
  assert (x1 = nm') as -> by congruence. apply nodup_ids in E6 as [-> Hnd]. assert (y = Build_tier x4 x2 x3) as -> by congruence.
  split; [exact Ja|]. split; [exact Jt|]. cbn [t_attrs t_md t_items]. split; [|split; [|exact Hnd]].
  - eapply metadatas_settle; [exact Hs'|exact Hm|exact E1| |exact E3]. rewrite (base_skip _ _ _ _ _ _ _ E0 Hf) by easy. unfold rest. look. now destruct (if_list x).
  - rewrite (arr_get _ _ _ x0) in E4 by (rewrite (base_skip _ _ _ _ _ _ _ E0 Hf) by easy; unfold rest; look; reflexivity).
    eapply traverse_both; [|exact E2|exact E4]. intros z jz yz Hz Ez Dz. rewrite Forall_forall in Hk. eapply item_settles; eauto.
Qed.
Lemma igt_settles inh ctx nm b m j y : settled_state inh ctx nm b -> plain_igt m ->
  enc_igt inh ctx m = Ok j -> dec_igt nm j = Ok y -> jigt b y.
Proof.
  intros Hs (Ha & Hm & Hk) E D. unfold enc_igt in E. inv_bind E. destruct x as [obj act]. inv_bind E. inv_bind E.
  set (rest := fld (L "metadata") _ ++ fld (L "tiers") _) in E. assert (Hf : fresh rest) by (unfold rest; fresh_).
  assert (j = JObj (obj ++ rest)) as -> by congruence. clear E. unfold dec_igt in D. cbn [as_obj bind] in D.
  inv_bind D. inv_bind D. inv_bind D. inv_bind D. inv_bind D.
  destruct (obj_settles _ _ _ _ _ _ _ _ _ Hs Ha E0 Hf E5) as (Ja & Jt & nm' & En & Hs').
  assert (x1 = nm') as -> by congruence. apply nodup_ids in E6 as [-> Hnd]. assert (y = Build_igt x4 x2 x3) as -> by congruence.
  split; [exact Ja|]. split; [exact Jt|]. cbn [g_attrs g_md g_tiers]. split; [|split; [|exact Hnd]].
  - eapply metadatas_settle; [exact Hs'|exact Hm|exact E1| |exact E3]. rewrite (base_skip _ _ _ _ _ _ _ E0 Hf) by easy. unfold rest. look. now destruct (if_list x).
  - rewrite (arr_get _ _ _ x0) in E4 by (rewrite (base_skip _ _ _ _ _ _ _ E0 Hf) by easy; unfold rest; look; reflexivity).
    eapply traverse_both; [|exact E2|exact E4]. intros z jz yz Hz Ez Dz. rewrite Forall_forall in Hk. eapply tier_settles; eauto.
Qed.
Theorem json_settles c j c1 : plain_corpus c -> json_encode c = Ok j -> json_decode j = Ok c1 -> jcorpus c1.
Proof.
  intros (Ha & Hm & Hk) E D.
  assert (Hs : settled_state [] [] [] no_binding) by (constructor; [easy|easy|constructor|easy|easy]).
  unfold json_encode in E. inv_bind E. destruct x as [obj act]. inv_bind E. inv_bind E.
  set (rest := fld (L "metadata") _ ++ fld (L "igts") _) in E. assert (Hf : fresh rest) by (unfold rest; fresh_).
  assert (j = JObj (obj ++ rest)) as -> by congruence. clear E. unfold json_decode in D. cbn [as_obj bind] in D.
  inv_bind D. inv_bind D. inv_bind D. inv_bind D. inv_bind D. inv_bind D. inv_bind D.
  apply nodup_ids in E8 as [-> Hnd]. assert (c1 = Build_corpus x6 x2 x3) as -> by congruence.
  destruct (obj_step _ _ _ _ _ _ _ Hs Ha E0) as (d & Eo & Hs' & Hd & Hkey & Hnn). cbv zeta in *.
  destruct (strs_clean (c_attrs c) d (new_ns act []) rest Hf) as (S1 & S2 & S3).
  set (news := new_ns act []) in *. set (a1 := cleaned (c_attrs c) d news) in *.
  assert (Hseen : seen (obj ++ rest) a1 news) by (rewrite Eo; now apply base_seen).
  rewrite <- Eo in S1, S3. assert (x4 = a_id a1) as -> by congruence. assert (x5 = a_ns a1) as -> by congruence.
  rewrite (active_ok _ a1 news) in E by easy. assert (Enm : x1 = dupdate [] news) by congruence. rewrite <- Enm in Hs'.
  apply (dec_attrs_eq _ a1 news) in E7 as [-> Hi]; [|easy]. set (a2 := Build_attrs _ _ _ _ _).
  assert (Eb : extend a2 no_binding = extend a1 no_binding) by reflexivity.
  split; [|split; [reflexivity|]]; cbn [c_attrs c_md c_igts]; rewrite ?Eb.
  - split; [exact Hd|]. split; [|split; [exact Hkey|split; [exact Hi|apply clean_some]]].
    cbn [a_nsmap a2]. intros m Em. destruct news as [|kv news']; [discriminate|]. now assert (m = kv :: news') as -> by congruence.
  - split; [|split; [|exact Hnd]].
    + eapply metadatas_settle; [exact Hs'|exact Hm|exact E1| |exact E3]. rewrite (base_skip _ _ _ _ _ _ _ E0 Hf) by easy. unfold rest. look. now destruct (if_list x).
    + rewrite (arr_get _ _ _ x0) in E4 by (rewrite (base_skip _ _ _ _ _ _ _ E0 Hf) by easy; unfold rest; look; reflexivity).
      eapply traverse_both; [|exact E2|exact E4]. intros z jz yz Hz Ez Dz. rewrite Forall_forall in Hk. eapply igt_settles; eauto.
Qed.
(* so a second time nothing is changed *)
Theorem json_second c j c1 : plain_corpus c -> json_encode c = Ok j -> json_decode j = Ok c1 ->
  exists j1 c2, json_encode c1 = Ok j1 /\ json_decode j1 = Ok c2 /\ same_corpus c1 c2.
Proof. intros H E D. apply json_round_trip. now apply (json_settles c j). Qed.
End Settle.
