(* Proofs about the JSON codec. *)
From Verif Require Import PyStr PyStrFacts Ref Model SpecRef SpecModel XmlStd Xml SpecXml XmlProofs Json SpecJson.
From Verif Require AttrProofs RefProofs.

(* ---------- fields ---------- *)

Lemma get_fld k o (d : dict json) k' : dget (fld k o ++ d) k'
  = if str_eqb k' k then match o with Some v => Some v | None => dget d k' end else dget d k'.
Proof.
  destruct o as [v|]; cbn [fld app]; [|now destruct (str_eqb k' k)].
  unfold dget. cbn [dget_]. reflexivity.
Qed.
Lemma get_last k o k' : dget (fld k o) k' = if str_eqb k' k then o else None.
Proof. rewrite <- (app_nil_r (fld k o)), get_fld. destruct (str_eqb k' k); [|easy]. now destruct o. Qed.
Lemma del_fld k o (d : dict json) k' : ddel (fld k o ++ d) k' = if str_eqb k' k then ddel d k' else fld k o ++ ddel d k'.
Proof.
  destruct o as [v|]; cbn [fld app]; [|now destruct (str_eqb k' k)].
  unfold ddel. cbn [ddel_]. now destruct (str_eqb k' k).
Qed.
Lemma del_last k o k' : ddel (fld k o) k' = if str_eqb k' k then [] else fld k o.
Proof. rewrite <- (app_nil_r (fld k o)), del_fld. destruct (str_eqb k' k); [easy|]. cbn. now rewrite !app_nil_r. Qed.

Ltac lits :=
  unfold ID, TYPE;
  repeat match goal with
  | |- context [str_eqb (L ?a) (L ?b)] =>
    let r := eval vm_compute in (str_eqb (L a) (L b)) in change (str_eqb (L a) (L b)) with r
  end; cbv iota.
Ltac look := rewrite <- ?app_assoc; rewrite ?get_fld, ?get_last; lits.

Lemma get_list_eq {A} (f : json -> res A) k d : get_list f k d
  = match dget d k with Some (JArr l) => traverse f l | None => Ok [] | _ => Err TypeError end.
Proof.
  induction d as [|[k' v] d IH]; [reflexivity|]. cbn [get_list]. unfold dget. cbn [dget_].
  destruct (str_eqb k k'); [now destruct v|exact IH].
Qed.

(* ---------- maps ---------- *)

Definition agrees (d : dict str) (b : binding) : Prop := forall p, dget d p = b p.

Lemma dupdate_get (m d : dict str) p : NoDup (map fst m) ->
  dget (dupdate d m) p = match dget m p with Some u => Some u | None => dget d p end.
Proof. intros H. exact (fold_scope m d p H). Qed.
Lemma dupdate_keys (m : dict str) : forall d, NoDup (map fst d) -> NoDup (map fst (dupdate d m)).
Proof.
  unfold dupdate, dupdate_. induction m as [|[k v] m IH]; cbn [fold_left]; intros d H; [easy|].
  apply IH. apply dset_nodup; [exact str_eqb_spec|easy].
Qed.

(* the state of the encoder at an object: nsmap of its parent, active map *)
Record enc_state (inh ctx : dict str) (b : binding) : Prop := {
  es_inh : NoDup (map fst inh); es_ctx : NoDup (map fst ctx); es_agrees : agrees ctx b;
  es_sub : forall p u, dget inh p = Some u -> dget ctx p = Some u }.

Lemma act_agrees a inh ctx b : enc_state inh ctx b -> (forall m, a_nsmap a = Some m -> NoDup (map fst m)) ->
  enc_state (eff a inh) (dupdate ctx (eff a inh)) (extend a b).
Proof.
  intros [H1 H2 H3 H4] Hm.
  assert (Hnd : NoDup (map fst (eff a inh))) by (unfold eff; destruct (a_nsmap a) as [m|]; [now apply Hm|easy]).
  constructor; [easy|now apply dupdate_keys| |].
  - intros p. rewrite dupdate_get by easy. unfold eff, extend. destruct (a_nsmap a) as [m|].
    + now rewrite H3.
    + destruct (dget inh p) as [u|] eqn:E; [|apply H3]. rewrite <- H3. now rewrite (H4 _ _ E).
  - intros p u E. rewrite dupdate_get by easy. now rewrite E.
Qed.

Lemma dget_In (d : dict str) p u : NoDup (map fst d) -> (In (p, u) d <-> dget d p = Some u).
Proof.
  intros H. split; intros E.
  - apply dget_nodup; [exact str_eqb_spec|easy|easy].
  - now apply dget_in in E; [|exact str_eqb_spec].
Qed.
Lemma inv_some act b u p : NoDup (map fst act) -> agrees act b -> dget (revmap act) u = Some p -> b p = Some u.
Proof.
  intros Hnd Hb E. rewrite <- Hb. apply dget_In; [easy|].
  destruct (revmap_from act [] u p E) as [|]; [easy|discriminate].
Qed.
Lemma inv_none act b u : NoDup (map fst act) -> agrees act b -> dget (revmap act) u = None <-> ~ bound_in b u.
Proof.
  intros Hnd Hb. split.
  - intros E [p Hp]. rewrite <- Hb in Hp. apply dget_In in Hp; [|easy].
    now apply (revmap_some act [] u (or_introl (ex_intro _ p Hp))).
  - intros H. destruct (dget (revmap act) u) as [p|] eqn:E; [|easy]. destruct H. exists p. now apply (inv_some act).
Qed.

Lemma new_ns_in act ctx p u : In (p, u) (new_ns act ctx) <-> In (p, u) act /\ dget ctx p <> Some u.
Proof. exact (declared_in ctx act p u). Qed.
Lemma new_ns_nodup act ctx : NoDup (map fst act) -> NoDup (map fst (new_ns act ctx)).
Proof. exact (declared_nodup ctx act). Qed.
(* adding the new declarations to the decoder's map gives the active map *)
Lemma new_ns_update act ctx nm b : NoDup (map fst act) -> agrees act b -> (forall p, dget nm p = dget ctx p) ->
  (forall p u, dget ctx p = Some u -> dget act p <> None) -> agrees (dupdate nm (new_ns act ctx)) b.
Proof.
  intros Hnd Ha Hnm Hsub p. rewrite dupdate_get by now apply new_ns_nodup.
  destruct (dget (new_ns act ctx) p) as [u|] eqn:E.
  - apply dget_In in E; [|now apply new_ns_nodup]. apply new_ns_in in E as [E _].
    apply dget_In in E; [|easy]. now rewrite <- Ha.
  - rewrite Hnm, <- Ha. destruct (dget act p) as [u|] eqn:Ea.
    + destruct (opt_eqb_spec str_eqb str_eqb_spec (dget ctx p) (Some u)) as [|Hne]; [easy|].
      assert (I : In (p, u) (new_ns act ctx)) by (apply new_ns_in; split; [now apply dget_In|easy]).
      apply dget_In in I; [|now apply new_ns_nodup]. congruence.
    + destruct (dget ctx p) as [u|] eqn:Ec; [|easy]. now destruct (Hsub p u).
Qed.

(* ---------- attributes ---------- *)

Lemma json_attrs_id act b : NoDup (map fst act) -> agrees act b -> forall l acc, NoDup (map fst l) ->
  (forall k, In k (map fst l) -> key_stays b k) -> (forall k, In k (map fst l) -> ~ In k (map fst acc)) ->
  json_attrs (revmap act) acc l = Ok (acc ++ l).
Proof.
  intros Ha Hb. induction l as [|[k v] l IH]; cbn [map fst]; intros acc Hnd Hk Hacc.
  - now rewrite app_nil_r.
  - inversion_clear Hnd as [|? ? Hn Hnd'].
    assert (S : json_attrs (revmap act) acc ((k, v) :: l) = json_attrs (revmap act) (dset acc k v) l).
    { cbn [json_attrs]. destruct (Hk k) as [H|(u & n & -> & Hu & Hub)]; [now left| |].
      - destruct k as [|c r]; [reflexivity|]. destruct (N.eqb_spec c (Ch "{")) as [->|]; [now destruct (H r)|reflexivity].
      - change (in_ns u n) with (Ch "{" :: u ++ Ch "}" :: n). cbv iota beta. rewrite N.eqb_refl.
        rewrite AttrProofs.split1_app by easy. apply (inv_none act) in Hub; [|easy|easy].
        rewrite Hub. reflexivity. }
    rewrite S, dset_fresh by (apply Hacc; now left). rewrite IH.
    + now rewrite <- app_assoc.
    + easy.
    + intros k' Hin. apply Hk. now right.
    + intros k' Hin. rewrite map_app, in_app_iff. intros [H|[H|[]]]; [apply (Hacc k'); [now right|easy]|].
      cbn in H. now subst.
Qed.

Definition base (a : attrs) (news : dict str) : dict json :=
  fld ID (truthy (a_id a)) ++ fld TYPE (truthy (a_type a)) ++ fld (L "attributes") (if_any (a_dict a))
  ++ fld (L "namespace") (truthy (a_ns a)) ++ fld (L "namespaces") (if_any news).

Lemma make_obj_ok a inh ctx b : enc_state inh ctx b -> jattrs (extend a b) a ->
  make_obj a inh ctx = Ok (base a (new_ns (dupdate ctx (eff a inh)) ctx), dupdate ctx (eff a inh)).
Proof.
  intros Hs (Hnd & Hm & Hk & _). destruct (act_agrees _ _ _ _ Hs Hm) as [_ Ha Hb _].
  unfold make_obj. cbv zeta. rewrite (json_attrs_id _ _ Ha Hb _ [] Hnd Hk) by (intros ? ? []). reflexivity.
Qed.

Lemma truthy_str k d (o : option str) : o <> Some [] -> dget d k = truthy o -> get_str k d = Ok o.
Proof. intros H E. unfold get_str. rewrite E. destruct o as [[|c s]|]; easy. Qed.
Lemma any_dict k d (e : dict str) : dget d k = if_any e -> get_dict k d = Ok (match e with [] => None | _ => Some e end).
Proof.
  intros E. unfold get_dict. rewrite E. destruct e as [|x e]; [reflexivity|]. cbn [if_any jdict].
  assert (T : forall l : dict str, traverse (fun kv : str * json => match snd kv with JStr s => Ok (fst kv, s) | _ => Err TypeError end)
    (map (fun kv => (fst kv, JStr (snd kv))) l) = Ok l).
  { induction l as [|[k' v'] l IH]; cbn; [reflexivity|]. now rewrite IH. }
  rewrite T. reflexivity.
Qed.

(* what the decoder sees in an object *)
Record seen (d : dict json) (a : attrs) (news : dict str) : Prop := {
  sn_attrs : dget d (L "attributes") = if_any (a_dict a); sn_nss : dget d (L "namespaces") = if_any news }.

Section JsonProofs.
Context {U : Unicode}.

Lemma accepted_b i : accepted_id i -> id_accepted i = true.
Proof. intros H. now apply RefProofs.id_accepted_spec. Qed.
Lemma dec_attrs_ok d a news id type ns : seen d a news -> (forall i, id = Some i -> accepted_id i) ->
  id = a_id a -> type = a_type a -> ns = a_ns a -> exists a', dec_attrs d id type ns = Ok a' /\ same_attrs a a'.
Proof.
  intros [H1 H2] Hi Ei Et En. unfold dec_attrs. rewrite (any_dict _ _ _ H1), (any_dict _ _ _ H2). cbn [bind].
  eexists. split.
  - destruct id as [i|]; [|reflexivity]. rewrite accepted_b by now apply Hi. reflexivity.
  - repeat (split; [easy|]). cbn. now destruct (a_dict a).
Qed.
Lemma active_ok d a news nm : seen d a news -> active_namespaces d nm = Ok (dupdate nm news).
Proof. intros [_ H]. unfold active_namespaces. rewrite (any_dict _ _ _ H). cbn [bind]. now destruct news. Qed.

(* the fields of the structural objects *)
Definition fresh (rest : dict json) : Prop :=
  dget rest ID = None /\ dget rest TYPE = None /\ dget rest (L "attributes") = None
  /\ dget rest (L "namespace") = None /\ dget rest (L "namespaces") = None.
Lemma base_seen a news rest : fresh rest -> seen (base a news ++ rest) a news.
Proof.
  intros (_ & _ & H1 & H2 & H3). unfold base. constructor; look; rewrite ?H1, ?H3.
  - now destruct (if_any (a_dict a)).
  - now destruct (if_any news).
Qed.
Lemma id_nonempty a : (forall i, a_id a = Some i -> accepted_id i) -> a_id a <> Some [].
Proof. intros H E. destruct (H _ E) as (c & r & ? & _). discriminate. Qed.
Lemma base_get a news rest k : fresh rest -> k <> ID -> k <> TYPE -> k <> L "attributes" -> k <> L "namespace" ->
  k <> L "namespaces" -> dget (base a news ++ rest) k = dget rest k.
Proof.
  intros _ H1 H2 H3 H4 H5. unfold base. rewrite <- !app_assoc, !get_fld.
  destruct (str_eqb_spec k ID); [easy|]. destruct (str_eqb_spec k TYPE); [easy|].
  destruct (str_eqb_spec k (L "attributes")); [easy|]. destruct (str_eqb_spec k (L "namespace")); [easy|].
  destruct (str_eqb_spec k (L "namespaces")); easy.
Qed.
Lemma base_strs a news rest : fresh rest -> (forall i, a_id a = Some i -> accepted_id i) -> a_ns a <> Some [] ->
  get_str ID (base a news ++ rest) = Ok (a_id a) /\ get_str (L "namespace") (base a news ++ rest) = Ok (a_ns a).
Proof.
  intros (H1 & H2 & _ & H4 & _) Hi Hn. split.
  - apply truthy_str; [now apply id_nonempty|]. unfold base. look. unfold ID in H1. rewrite H1. now destruct (truthy (a_id a)).
  - apply truthy_str; [easy|]. unfold base. look. rewrite H4. now destruct (truthy (a_ns a)).
Qed.
Lemma dec_common_ok a news rest : fresh rest -> (forall i, a_id a = Some i -> accepted_id i) -> a_ns a <> Some [] ->
  a_type a <> Some [] -> exists a', dec_common (base a news ++ rest) = Ok a' /\ same_attrs a a'.
Proof.
  intros Hf Hi Hn Ht. destruct (base_strs a news rest Hf Hi Hn) as [E1 E2]. unfold dec_common.
  rewrite E1, E2. cbn [bind].
  replace (get_str TYPE (base a news ++ rest)) with (Ok (a_type a)).
  - cbn [bind]. apply (dec_attrs_ok _ a news); auto. now apply base_seen.
  - symmetry. apply truthy_str; [easy|]. destruct Hf as (_ & H2 & _). unfold base. look.
    unfold TYPE in H2. rewrite H2. now destruct (truthy (a_type a)).
Qed.

(* one step: what both sides have after an object *)
Lemma step a inh ctx b nm : enc_state inh ctx b -> (forall p, dget nm p = dget ctx p) -> jattrs (extend a b) a ->
  let act := dupdate ctx (eff a inh) in let nm' := dupdate nm (new_ns act ctx) in
  make_obj a inh ctx = Ok (base a (new_ns act ctx), act) /\ enc_state (eff a inh) act (extend a b)
  /\ agrees nm' (extend a b) /\ forall p, dget nm' p = dget act p.
Proof.
  intros Hs Hnm Ha act nm'. assert (Hm : forall m, a_nsmap a = Some m -> NoDup (map fst m)) by apply Ha.
  assert (Hs' : enc_state (eff a inh) act (extend a b)) by now apply act_agrees.
  assert (Hag : agrees nm' (extend a b)).
  { apply new_ns_update; auto; try apply Hs'. intros p u E. unfold act. rewrite dupdate_get by apply Hs'.
    rewrite E. now destruct (dget (eff a inh) p). }
  split; [now apply (make_obj_ok _ _ _ b)|]. split; [easy|]. split; [easy|]. intros p.
  rewrite Hag. symmetry. now apply Hs'.
Qed.

Section Lists.
Context {A B : Type} (enc : A -> res json) (dec : json -> res B) (R : A -> B -> Prop).
Lemma traverse_two l : (forall x, In x l -> exists j y, enc x = Ok j /\ dec j = Ok y /\ R x y) ->
  exists js ys, traverse enc l = Ok js /\ traverse dec js = Ok ys /\ Forall2 R l ys.
Proof.
  induction l as [|x l IH]; intros H.
  - exists [], []. now repeat split.
  - destruct (H x) as (j & y & E1 & E2 & Hr); [now left|].
    destruct IH as (js & ys & F1 & F2 & Hf); [intros z Hz; apply H; now right|].
    exists (j :: js), (y :: ys). cbn. rewrite E1. cbn. rewrite F1. cbn. rewrite E2. cbn. rewrite F2.
    repeat split. now constructor.
Qed.
End Lists.
Lemma pack {B} (e : res json) j (dec : json -> res B) (R : B -> Prop) :
  e = Ok j -> (exists y, dec j = Ok y /\ R y) -> exists j y, e = Ok j /\ dec j = Ok y /\ R y.
Proof. intros E (y & H). now exists j, y. Qed.
Lemma if_list_get {B} (dec : json -> res B) k d js : dget d k = if_list js -> get_list dec k d = traverse dec js.
Proof. intros E. rewrite get_list_eq, E. now destruct js. Qed.
Lemma arr_get {B} (dec : json -> res B) k d js : dget d k = Some (JArr js) -> get_list dec k d = traverse dec js.
Proof. intros E. now rewrite get_list_eq, E. Qed.
Lemma text_get k d t : dget d k = option_map JStr t -> get_str k d = Ok t.
Proof. intros E. unfold get_str. rewrite E. now destruct t. Qed.

(* ----- meta children ----- *)

Definition named (a : attrs) (act : dict str) (n : str) (obj : dict json) : dict json :=
  match a_ns a with
  | Some (c :: u) =>
    match dget (revmap act) (c :: u) with
    | Some pre => ddel obj (L "namespace") ++ fld (L "name") (Some (JStr (pre ++ L ":" ++ n)))
    | None => obj ++ fld (L "name") (Some (JStr n))
    end
  | _ => obj ++ fld (L "name") (Some (JStr n))
  end.
Lemma named_cases b a act n news rest : a_ns a <> Some [] -> NoDup (map fst act) -> agrees act b ->
  (dget rest (L "attributes") = None /\ dget rest (L "namespaces") = None /\ dget rest (L "namespace") = None) ->
  let d := named a act n (base a news) ++ rest in
  seen d a news /\ dget d (L "text") = dget rest (L "text") /\ dget d (L "children") = dget rest (L "children")
  /\ ((exists p u, a_ns a = Some u /\ b p = Some u /\ dget d (L "name") = Some (JStr (p ++ L ":" ++ n)))
      \/ ((forall u, a_ns a = Some u -> ~ bound_in b u) /\ dget d (L "name") = Some (JStr n)
          /\ dget d (L "namespace") = truthy (a_ns a))).
Proof.
  intros Hns Hnd Hb (R1 & R2 & R3). cbv zeta. unfold named.
  assert (D : ddel (base a news) (L "namespace")
    = fld ID (truthy (a_id a)) ++ fld TYPE (truthy (a_type a)) ++ fld (L "attributes") (if_any (a_dict a))
      ++ fld (L "namespaces") (if_any news)).
  { unfold base. rewrite !del_fld, del_last. lits. reflexivity. }
  destruct (a_ns a) as [[|c u]|] eqn:En; [easy| |].
  - destruct (dget (revmap act) (c :: u)) as [p|] eqn:Ei.
    + rewrite D. repeat split; look; rewrite ?R1, ?R2; try now destruct (if_any _).
      1: now destruct (if_any news).
      left. exists p, (c :: u). split; [easy|]. split; [now apply (inv_some act)|reflexivity].
    + unfold base. repeat split; look; rewrite ?R1, ?R2; try now destruct (if_any _).
      1: now destruct (if_any news).
      right. split; [|split]; look; rewrite ?En, ?R3; try easy. intros u' [= <-]. now apply (inv_none act).
  - unfold base. repeat split; look; rewrite ?R1, ?R2; try now destruct (if_any _).
    1: now destruct (if_any news).
    right. split; [|split]; look; rewrite ?En, ?R3; easy.
Qed.

Lemma name_no_colon n : (exists c r, n = c :: r /\ is_word c = true /\ is_digit c = false
   /\ forall x, In x r -> is_word x = true \/ x = Ch "-" \/ x = Ch ".") -> ~ In (Ch ":") n.
Proof.
  intros (c & r & -> & Hw & _ & Hr) [E|H].
  - subst. now vm_compute in Hw.
  - destruct (Hr _ H) as [E|[E|E]]; now vm_compute in E.
Qed.

Lemma child_trip m : forall inh ctx nm b, enc_state inh ctx b -> (forall p, dget nm p = dget ctx p) -> jchild b m ->
  exists j m', enc_child inh ctx m = Ok j /\ dec_child nm j = Ok m' /\ same_child m m'.
Proof.
  induction m as [n a t kids IH] using mchild_rec'. intros inh ctx nm b Hs Hnm Hj.
  inversion_clear Hj as [? ? ? ? ? Ha Hid Hty Hpre Hun Hname Hk].
  destruct (step _ _ _ _ _ Hs Hnm Ha) as (E & Hs' & Hag & Hnm'). cbv zeta in *.
  set (act := dupdate ctx (eff a inh)) in *. set (nm' := dupdate nm (new_ns act ctx)) in *.
  destruct (traverse_two (enc_child (eff a inh) act) (dec_child nm') same_child kids) as (js & ys & F1 & F2 & HF).
  { intros x Hx. rewrite Forall_forall in IH, Hk. apply (IH x Hx _ _ _ (extend a b)); auto. }
  cbn [enc_child]. rewrite E. cbn [bind]. cbv zeta. rewrite F1. cbn [bind].
  change (match a_ns a with Some (c :: u) => _ | _ => _ end) with (named a act n (base a (new_ns act ctx))).
  set (rest := fld (L "text") (option_map JStr t) ++ fld (L "children") (if_list js)).
  assert (Hns : a_ns a <> Some []) by apply Ha.
  destruct (named_cases (extend a b) a act n (new_ns act ctx) rest Hns) as (Hseen & Ht & Hc & Hn); try apply Hs'.
  { unfold rest. repeat split; look; now destruct (option_map JStr t). }
  eapply pack; [reflexivity|].
  set (d := named a act n (base a (new_ns act ctx)) ++ rest) in *.
  assert (Ht' : get_str (L "text") d = Ok t).
  { apply text_get. rewrite Ht. unfold rest. look. now destruct t. }
  assert (Hc' : get_list (dec_child nm') (L "children") d = Ok ys).
  { rewrite (if_list_get _ _ _ js); [easy|]. rewrite Hc. unfold rest. look. reflexivity. }
  destruct (dec_attrs_ok d a (new_ns act ctx) None None (a_ns a)) as (a' & Ea & Hsa); auto; try easy.
  assert (Hacc : name_accepted n = true) by now apply name_accepted_ok.
  assert (G : dec_child nm (JObj d) = Ok (MChild n a' t ys)); [|eexists; split; [exact G|now constructor]].
  cbn [dec_child]. rewrite (active_ok d a (new_ns act ctx)) by easy. cbn [bind]. fold nm'.
  destruct Hn as [(p & u & En & Hp & Hg)|(Hnb & Hg & Hgn)].
  - unfold get_str at 1. rewrite Hg. cbn [bind].
    change (p ++ L ":" ++ n) with (p ++ Ch ":" :: n). rewrite AttrProofs.split1_app by now apply (Hpre u).
    cbn [bind]. rewrite Hag, Hp, <- En, Ea. cbn [bind]. rewrite Ht'. cbn [bind]. rewrite Hc'. cbn [bind]. now rewrite Hacc.
  - unfold get_str at 1. rewrite Hg. cbn [bind].
    rewrite AttrProofs.split1_none by now apply name_no_colon. 
    rewrite (truthy_str _ _ (a_ns a)) by easy. cbn [bind].
    replace (match a_ns a with Some p => match dget nm' p with Some u => Some u | None => a_ns a end | None => None end) with (a_ns a).
    2:{ destruct (a_ns a) as [u|] eqn:En; [|easy]. rewrite Hag, (Hun u); auto. }
    rewrite Ea. cbn [bind]. rewrite Ht'. cbn [bind]. rewrite Hc'. cbn [bind]. now rewrite Hacc.
Qed.

(* ----- the other objects ----- *)

Ltac fresh_ := unfold fresh; repeat split; look; repeat match goal with |- context [match ?x with _ => _ end] => destruct x end; reflexivity.

Lemma meta_trip inh ctx nm b m : enc_state inh ctx b -> (forall p, dget nm p = dget ctx p) -> jmeta b m ->
  exists j m', enc_meta inh ctx m = Ok j /\ dec_meta nm j = Ok m' /\ same_meta m m'.
Proof.
  intros Hs Hnm (Ha & Hty & Hk). set (a := me_attrs m) in *.
  destruct (step _ _ _ _ _ Hs Hnm Ha) as (E & Hs' & Hag & Hnm'). cbv zeta in *.
  set (act := dupdate ctx (eff a inh)) in *. set (nm' := dupdate nm (new_ns act ctx)) in *.
  destruct (traverse_two (enc_child (eff a inh) act) (dec_child nm') same_child (me_kids m)) as (js & ys & F1 & F2 & HF).
  { intros x Hx. rewrite Forall_forall in Hk. apply (child_trip x _ _ _ (extend a b)); auto. }
  unfold enc_meta. fold a. rewrite E. cbn [bind]. rewrite F1. cbn [bind].
  set (rest := fld (L "text") _ ++ fld (L "children") _).
  assert (Hf : fresh rest) by (unfold rest; fresh_).
  eapply pack; [reflexivity|]. unfold dec_meta. cbn [as_obj bind].
  rewrite (active_ok _ a (new_ns act ctx)) by now apply base_seen. cbn [bind]. fold nm'.
  destruct (dec_common_ok a (new_ns act ctx) rest Hf) as (a' & -> & Hsa); try apply Ha; auto. cbn [bind].
  rewrite (text_get _ _ (me_text m)).
  2:{ rewrite base_get by easy. unfold rest. look. now destruct (me_text m). }
  cbn [bind]. rewrite (if_list_get _ _ _ js).
  2:{ rewrite base_get by easy. unfold rest. look. reflexivity. }
  rewrite F2. cbn [bind]. eexists. split; [reflexivity|]. split; [easy|now split].
Qed.
Lemma metadata_trip inh ctx nm b m : enc_state inh ctx b -> (forall p, dget nm p = dget ctx p) -> jmetadata b m ->
  exists j m', enc_metadata inh ctx m = Ok j /\ dec_metadata nm j = Ok m' /\ same_metadata m m'.
Proof.
  intros Hs Hnm (Ha & Hty & Hk & Hnd). set (a := md_attrs m) in *.
  destruct (step _ _ _ _ _ Hs Hnm Ha) as (E & Hs' & Hag & Hnm'). cbv zeta in *.
  set (act := dupdate ctx (eff a inh)) in *. set (nm' := dupdate nm (new_ns act ctx)) in *.
  destruct (traverse_two (enc_meta (eff a inh) act) (dec_meta nm') same_meta (md_metas m)) as (js & ys & F1 & F2 & HF).
  { intros x Hx. rewrite Forall_forall in Hk. apply (meta_trip _ _ _ (extend a b)); auto. }
  unfold enc_metadata. fold a. rewrite E. cbn [bind]. rewrite F1. cbn [bind].
  set (rest := fld (L "metas") _).
  assert (Hf : fresh rest) by (unfold rest; fresh_).
  eapply pack; [reflexivity|]. unfold dec_metadata. cbn [as_obj bind].
  rewrite (active_ok _ a (new_ns act ctx)) by now apply base_seen. cbn [bind]. fold nm'.
  destruct (dec_common_ok a (new_ns act ctx) rest Hf) as (a' & -> & Hsa); try apply Ha; auto. cbn [bind].
  rewrite (arr_get _ _ _ js).
  2:{ rewrite base_get by easy. unfold rest. look. reflexivity. }
  rewrite F2. cbn [bind].
  erewrite new_container_ok; [|exact Hnd|exact HF|]; [|intros x y (_ & H & _); now apply same_attrs_id].
  cbn [bind]. eexists. split; [reflexivity|]. repeat (first [easy|split]).
Qed.
Lemma metadatas_trip inh ctx nm b l : enc_state inh ctx b -> (forall p, dget nm p = dget ctx p) -> jmetadatas b l ->
  exists js l', traverse (enc_metadata inh ctx) l = Ok js
    /\ (forall d, dget d (L "metadata") = if_list js -> dec_metadatas nm d = Ok l') /\ Forall2 same_metadata l l'.
Proof.
  intros Hs Hnm (Hk & Hnd).
  destruct (traverse_two (enc_metadata inh ctx) (dec_metadata nm) same_metadata l) as (js & ys & F1 & F2 & HF).
  { intros x Hx. rewrite Forall_forall in Hk. apply (metadata_trip _ _ _ b); auto. }
  exists js, ys. split; [easy|]. split; [|easy]. intros d Hd. unfold dec_metadatas.
  rewrite (if_list_get _ _ _ js) by easy. rewrite F2. cbn [bind].
  eapply new_container_ok; [exact Hnd|exact HF|]. intros x y (H & _). now apply same_attrs_id.
Qed.
Lemma item_trip inh ctx nm b i : enc_state inh ctx b -> (forall p, dget nm p = dget ctx p) -> jitem b i ->
  exists j i', enc_item inh ctx i = Ok j /\ dec_item nm j = Ok i' /\ same_item i i'.
Proof.
  intros Hs Hnm (Ha & Hty & Hx). set (a := it_attrs i) in *.
  destruct (step _ _ _ _ _ Hs Hnm Ha) as (E & Hs' & Hag & Hnm'). cbv zeta in *.
  set (act := dupdate ctx (eff a inh)) in *.
  unfold enc_item. fold a. rewrite E. cbn [bind].
  set (rest := fld (L "text") _).
  assert (Hf : fresh rest) by (unfold rest; fresh_).
  eapply pack; [reflexivity|]. unfold dec_item. cbn [as_obj bind].
  rewrite (active_ok _ a (new_ns act ctx)) by now apply base_seen. cbn [bind].
  destruct (dec_common_ok a (new_ns act ctx) rest Hf) as (a' & -> & Hsa); try apply Ha; auto. cbn [bind].
  rewrite (truthy_str _ _ (it_text i) Hx).
  2:{ rewrite base_get by easy. unfold rest. look. reflexivity. }
  cbn [bind]. eexists. split; [reflexivity|]. now split.
Qed.
Lemma tier_trip inh ctx nm b t : enc_state inh ctx b -> (forall p, dget nm p = dget ctx p) -> jtier b t ->
  exists j t', enc_tier inh ctx t = Ok j /\ dec_tier nm j = Ok t' /\ same_tier t t'.
Proof.
  intros Hs Hnm (Ha & Hty & Hm & Hk & Hnd). set (a := t_attrs t) in *.
  destruct (step _ _ _ _ _ Hs Hnm Ha) as (E & Hs' & Hag & Hnm'). cbv zeta in *.
  set (act := dupdate ctx (eff a inh)) in *. set (nm' := dupdate nm (new_ns act ctx)) in *.
  destruct (metadatas_trip _ _ nm' _ _ Hs' Hnm' Hm) as (ms & md' & M1 & M2 & HM).
  destruct (traverse_two (enc_item (eff a inh) act) (dec_item nm') same_item (t_items t)) as (js & ys & F1 & F2 & HF).
  { intros x Hx. rewrite Forall_forall in Hk. apply (item_trip _ _ _ (extend a b)); auto. }
  unfold enc_tier. fold a. rewrite E. cbn [bind]. rewrite M1. cbn [bind]. rewrite F1. cbn [bind].
  set (rest := fld (L "metadata") _ ++ fld (L "items") _).
  assert (Hf : fresh rest) by (unfold rest; fresh_).
  eapply pack; [reflexivity|]. unfold dec_tier. cbn [as_obj bind].
  rewrite (active_ok _ a (new_ns act ctx)) by now apply base_seen. cbn [bind]. fold nm'.
  rewrite M2.
  2:{ rewrite base_get by easy. unfold rest. look. now destruct (if_list ms). }
  cbn [bind]. rewrite (arr_get _ _ _ js).
  2:{ rewrite base_get by easy. unfold rest. look. reflexivity. }
  rewrite F2. cbn [bind].
  destruct (dec_common_ok a (new_ns act ctx) rest Hf) as (a' & -> & Hsa); try apply Ha; auto. cbn [bind].
  erewrite new_container_ok; [|exact Hnd|exact HF|]; [|intros x y (_ & H); now apply same_attrs_id].
  cbn [bind]. eexists. split; [reflexivity|]. repeat (first [easy|split]).
Qed.
Lemma igt_trip inh ctx nm b g : enc_state inh ctx b -> (forall p, dget nm p = dget ctx p) -> jigt b g ->
  exists j g', enc_igt inh ctx g = Ok j /\ dec_igt nm j = Ok g' /\ same_igt g g'.
Proof.
  intros Hs Hnm (Ha & Hty & Hm & Hk & Hnd). set (a := g_attrs g) in *.
  destruct (step _ _ _ _ _ Hs Hnm Ha) as (E & Hs' & Hag & Hnm'). cbv zeta in *.
  set (act := dupdate ctx (eff a inh)) in *. set (nm' := dupdate nm (new_ns act ctx)) in *.
  destruct (metadatas_trip _ _ nm' _ _ Hs' Hnm' Hm) as (ms & md' & M1 & M2 & HM).
  destruct (traverse_two (enc_tier (eff a inh) act) (dec_tier nm') same_tier (g_tiers g)) as (js & ys & F1 & F2 & HF).
  { intros x Hx. rewrite Forall_forall in Hk. apply (tier_trip _ _ _ (extend a b)); auto. }
  unfold enc_igt. fold a. rewrite E. cbn [bind]. rewrite M1. cbn [bind]. rewrite F1. cbn [bind].
  set (rest := fld (L "metadata") _ ++ fld (L "tiers") _).
  assert (Hf : fresh rest) by (unfold rest; fresh_).
  eapply pack; [reflexivity|]. unfold dec_igt. cbn [as_obj bind].
  rewrite (active_ok _ a (new_ns act ctx)) by now apply base_seen. cbn [bind]. fold nm'.
  rewrite M2.
  2:{ rewrite base_get by easy. unfold rest. look. now destruct (if_list ms). }
  cbn [bind]. rewrite (arr_get _ _ _ js).
  2:{ rewrite base_get by easy. unfold rest. look. reflexivity. }
  rewrite F2. cbn [bind].
  destruct (dec_common_ok a (new_ns act ctx) rest Hf) as (a' & -> & Hsa); try apply Ha; auto. cbn [bind].
  erewrite new_container_ok; [|exact Hnd|exact HF|]; [|intros x y (H & _); now apply same_attrs_id].
  cbn [bind]. eexists. split; [reflexivity|]. repeat (first [easy|split]).
Qed.

Theorem json_round_trip c : jcorpus c -> exists j c', json_encode c = Ok j /\ json_decode j = Ok c' /\ same_corpus c c'.
Proof.
  intros (Ha & Hty & Hm & Hk & Hnd). cbv zeta in *. set (a := c_attrs c) in *.
  assert (Hs : enc_state [] [] no_binding) by (constructor; [constructor|constructor|easy|easy]).
  destruct (step a [] [] no_binding [] Hs ltac:(easy) Ha) as (E & Hs' & Hag & Hnm'). cbv zeta in *.
  set (act := dupdate [] (eff a [])) in *. set (nm' := dupdate [] (new_ns act [])) in *.
  destruct (metadatas_trip _ _ nm' _ _ Hs' Hnm' Hm) as (ms & md' & M1 & M2 & HM).
  destruct (traverse_two (enc_igt (eff a []) act) (dec_igt nm') same_igt (c_igts c)) as (js & ys & F1 & F2 & HF).
  { intros x Hx. rewrite Forall_forall in Hk. apply (igt_trip _ _ _ (extend a no_binding)); auto. }
  unfold json_encode. fold a. rewrite E. cbn [bind]. rewrite M1. cbn [bind]. rewrite F1. cbn [bind].
  set (rest := fld (L "metadata") _ ++ fld (L "igts") _).
  assert (Hf : fresh rest) by (unfold rest; fresh_).
  eapply pack; [reflexivity|]. unfold json_decode. cbn [as_obj bind].
  rewrite (active_ok _ a (new_ns act [])) by now apply base_seen. cbn [bind]. fold nm'.
  rewrite M2.
  2:{ rewrite base_get by easy. unfold rest. look. now destruct (if_list ms). }
  cbn [bind]. rewrite (arr_get _ _ _ js).
  2:{ rewrite base_get by easy. unfold rest. look. reflexivity. }
  rewrite F2. cbn [bind].
  destruct (base_strs a (new_ns act []) rest Hf) as [-> ->]; try apply Ha. cbn [bind].
  destruct (dec_attrs_ok (base a (new_ns act []) ++ rest) a (new_ns act []) (a_id a) None (a_ns a)) as (a' & -> & Hsa);
    try apply Ha; auto; [now apply base_seen|]. cbn [bind].
  erewrite new_container_ok; [|exact Hnd|exact HF|]; [|intros x y (H & _); now apply same_attrs_id].
  cbn [bind]. eexists. split; [reflexivity|]. repeat (first [easy|split]).
Qed.

End JsonProofs.
