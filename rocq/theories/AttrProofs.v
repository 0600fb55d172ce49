From Verif Require Import PyStr PyStrFacts Model Attr SpecAttr.

Lemma nsmap_prefixes chain : prefixes chain (dget (nsmap_of chain)).
Proof.
  induction chain as [|a ps IH]; [constructor|]. cbn [nsmap_of]. destruct (a_nsmap a) as [m|] eqn:E; now constructor.
Qed.
Lemma prefixes_fun chain m : prefixes chain m -> forall k, m k = dget (nsmap_of chain) k.
Proof.
  induction 1 as [a ps m H|a ps m H _ IH|]; intros k; cbn [nsmap_of]; rewrite ?H; auto.
Qed.
Lemma expand_clark u n : expand u n = clark u n.
Proof. reflexivity. Qed.

Lemma split1_none c s : ~ In c s -> split1 c s = None.
Proof.
  induction s as [|x s IH]; intros H; [easy|]. cbn. destruct (N.eqb_spec x c) as [->|]; [exfalso; apply H; now left|].
  rewrite IH; [easy|]. intros Hc. apply H. now right.
Qed.
Lemma split1_app c p n : ~ In c p -> split1 c (p ++ c :: n) = Some (p, n).
Proof.
  induction p as [|x p IH]; intros H; cbn.
  - now rewrite N.eqb_refl.
  - destruct (N.eqb_spec x c) as [->|]; [exfalso; apply H; now left|]. rewrite IH; [easy|]. intros Hc. apply H. now right.
Qed.
Lemma brace_start k : startswith LBRACE (Ch "{" :: k) = true.
Proof. now destruct k. Qed.
Lemma not_brace k : ~ (exists r, k = Ch "{" :: r) -> startswith LBRACE k = false.
Proof.
  intros H. destruct k as [|c k]; [easy|]. unfold LBRACE. change (L "{") with [Ch "{"]. cbn [startswith].
  destruct (N.eqb_spec (Ch "{") c) as [<-|]; [exfalso; eauto|easy].
Qed.
Lemma rewrite_names m k ns full : names (dget m) k ns full -> rewrite_key m k ns = Ok full.
Proof.
  intros H. unfold rewrite_key, COLON. destruct H as [k Hk|k|p n uri Hp Hb Hm|p n uri Hn Hm|u n Hn Hm Hu|n Hn Hm].
  - rewrite (split1_none _ _ Hk). now destruct (startswith LBRACE k).
  - now rewrite brace_start.
  - assert (Hb' : startswith LBRACE (p ++ Ch ":" :: n) = false).
    { apply not_brace. intros (r & E). destruct p as [|c p]; cbn in E; [injection E as E _; vm_compute in E; discriminate|].
      apply Hb. injection E as -> _. eauto. }
    rewrite Hb', (split1_app _ _ _ Hp), Hm. reflexivity.
  - rewrite (split1_none _ _ Hn), Hm. now destruct (startswith LBRACE n).
  - rewrite (split1_none _ _ Hn), Hm. destruct u as [|c u]; [easy|]. now destruct (startswith LBRACE n).
  - rewrite (split1_none _ _ Hn), Hm. now destruct (startswith LBRACE n).
Qed.
(* once rewritten, without a namespace the key stays *)
Lemma rewrite_again m m' k full : names (dget m) k None full -> rewrite_key m' full None = Ok full.
Proof.
  intros H. apply rewrite_names. inversion H; subst; [now apply nm_plain|apply nm_full|apply nm_full].
Qed.
Lemma prefixes_names chain m k ns full : prefixes chain m -> names m k ns full -> rewrite_key (nsmap_of chain) k ns = Ok full.
Proof.
  intros Hp Hn. apply rewrite_names. assert (E := prefixes_fun chain m Hp).
  destruct Hn; [apply nm_plain|apply nm_full|eapply nm_prefix|eapply nm_ns|eapply nm_uri|eapply nm_empty]; eauto; now rewrite <- E.
Qed.

Theorem get_attribute_own a ps k ns full m d inh v :
  prefixes (a :: ps) m -> names m k ns full -> dget (a_dict a) full = Some v ->
  get_attribute (a :: ps) k d inh ns = Ok (Some v).
Proof. intros Hp Hn Hv. cbn [get_attribute]. rewrite (prefixes_names _ _ _ _ _ Hp Hn). cbn. now rewrite Hv. Qed.
Theorem get_attribute_not_own a ps k ns full m d :
  prefixes (a :: ps) m -> names m k ns full -> dget (a_dict a) full = None ->
  get_attribute (a :: ps) k d false ns = Ok d.
Proof. intros Hp Hn Hv. cbn [get_attribute]. rewrite (prefixes_names _ _ _ _ _ Hp Hn). cbn. rewrite Hv. now destruct ps. Qed.

Lemma get_attribute_fixed full d : (forall m, rewrite_key m full None = Ok full) -> forall chain r,
  nearest full chain r -> get_attribute chain full d true None = Ok (or_default r d).
Proof.
  intros Hf. induction 1 as [a ps v H|a ps r H Hn IH|]; [| |easy]; cbn [get_attribute]; rewrite Hf; cbn [bind]; rewrite H; [easy|].
  destruct ps; [now inversion Hn|exact IH].
Qed.
Theorem get_attribute_inherit chain k full m d r :
  chain <> [] -> prefixes chain m -> names m k None full -> nearest full chain r ->
  get_attribute chain k d true None = Ok (or_default r d).
Proof.
  intros Hc Hp Hn Hr. destruct chain as [|a ps]; [easy|].
  assert (E := prefixes_names _ _ _ _ _ Hp Hn).
  assert (Hf : forall m', rewrite_key m' full None = Ok full).
  { intros m'. inversion Hn; subst; apply rewrite_names; [now apply nm_plain|apply nm_full|apply nm_full]. }
  cbn [get_attribute]. rewrite E. cbn [bind]. inversion Hr as [? ? v H|? ? ? H Hn'|]; subst; rewrite H; [easy|].
  destruct ps as [|b ps]; [now inversion Hn'|]. now apply get_attribute_fixed.
Qed.
Theorem nearest_exists k chain : exists r, nearest k chain r.
Proof.
  induction chain as [|a ps [r IH]]; [exists None; constructor|].
  destruct (dget (a_dict a) k) as [v|] eqn:E; [exists (Some v); now constructor|exists r; now constructor].
Qed.

Theorem get_attribute_unknown chain p n d inh ns m :
  chain <> [] -> prefixes chain m -> no_colon p -> ~ (exists r, p = Ch "{" :: r) -> m p = None ->
  get_attribute chain (p ++ Ch ":" :: n) d inh ns = Err KeyError.
Proof.
  intros Hc Hp Hno Hb Hm. destruct chain as [|a ps]; [easy|]. cbn [get_attribute]. unfold rewrite_key, COLON.
  assert (Hb' : startswith LBRACE (p ++ Ch ":" :: n) = false).
  { apply not_brace. intros (r & E). destruct p as [|c p]; cbn in E; [injection E as E _; vm_compute in E; discriminate|].
    apply Hb. injection E as -> _. eauto. }
  rewrite Hb', (split1_app _ _ _ Hno). rewrite (prefixes_fun _ _ Hp) in Hm. now rewrite Hm.
Qed.

(* the two spellings, without inheriting *)
Theorem get_attribute_spellings chain p n uri m d :
  prefixes chain m -> no_colon p -> ~ (exists r, p = Ch "{" :: r) -> no_colon n -> m p = Some uri ->
  get_attribute chain (p ++ Ch ":" :: n) d false None = get_attribute chain n d false (Some p).
Proof.
  intros Hp Hno Hb Hn Hm. destruct chain as [|a ps]; [easy|]. cbn [get_attribute].
  rewrite (prefixes_names _ _ _ _ (clark uri n) Hp (nm_prefix m p n uri Hno Hb Hm)).
  rewrite (prefixes_names _ _ _ _ (clark uri n) Hp (nm_ns m p n uri Hn Hm)). cbn. destruct (dget (a_dict a) (clark uri n)); [easy|]. now destruct ps.
Qed.

(* with a namespace argument nothing is ever inherited, short of attribute names
   that carry two namespaces *)
Definition doubled (k : str) : Prop := exists u v r, k = clark u (clark v r).
Lemma rewrite_ns_brace m r n : n <> [] -> exists u, rewrite_key m (Ch "{" :: r) (Some n) = Ok (clark u (Ch "{" :: r)).
Proof.
  intros Hn. unfold rewrite_key, COLON. rewrite brace_start. destruct (dget m n); [eauto|]. destruct n; [easy|]. eauto.
Qed.
Lemma never_inherits d n : n <> [] -> forall ps u r,
  (forall a k v, In a ps -> dget (a_dict a) k = Some v -> ~ doubled k) ->
  get_attribute ps (clark u r) d true (Some n) = Ok d.
Proof.
  intros Hn. induction ps as [|a ps IH]; intros u r Hd; [easy|]. cbn [get_attribute].
  destruct (rewrite_ns_brace (nsmap_of (a :: ps)) (u ++ [Ch "}"] ++ r) n Hn) as [u' E].
  change (Ch "{" :: u ++ [Ch "}"] ++ r) with (clark u r) in E. rewrite E. cbn [bind].
  destruct (dget (a_dict a) (clark u' (clark u r))) as [v|] eqn:Ev.
  - exfalso. apply (Hd a _ v (or_introl eq_refl) Ev). exists u', u, r. easy.
  - destruct ps as [|b ps]; [easy|]. apply IH. intros a' k v Ha'. apply Hd. now right.
Qed.
Theorem get_attribute_ns_inherit a ps n p full m d :
  prefixes (a :: ps) m -> names m n (Some p) full -> p <> [] ->
  (forall b k v, In b ps -> dget (a_dict b) k = Some v -> ~ doubled k) ->
  get_attribute (a :: ps) n d true (Some p) = Ok (or_default (dget (a_dict a) full) d).
Proof.
  intros Hp Hn Hne Hd. cbn [get_attribute]. rewrite (prefixes_names _ _ _ _ _ Hp Hn). cbn [bind].
  destruct (dget (a_dict a) full); [easy|]. destruct ps as [|b ps]; [easy|].
  assert (exists u r, full = clark u r) as (u & r & ->) by (inversion Hn; subst; eauto; easy).
  now apply never_inherits.
Qed.

(* ---------- get_meta ---------- *)

Lemma picked_filter {A} (P : A -> Prop) (f : A -> bool) : (forall x, f x = true <-> P x) -> forall xs, picked P xs (filter f xs).
Proof.
  intros H. induction xs as [|x xs IH]; [constructor|]. cbn. destruct (f x) eqn:E.
  - constructor; [now apply H|easy].
  - constructor; [|easy]. intros Hx. apply H in Hx. congruence.
Qed.
Lemma picked_det {A} (P : A -> Prop) xs l : picked P xs l -> forall l', picked P xs l' -> l = l'.
Proof.
  induction 1 as [|x xs l H Hp IH|x xs l H Hp IH]; intros l' Hl'; inversion Hl'; subst; auto; try easy. f_equal. auto.
Qed.
Lemma opt_str_true (a b : option str) : opt_eqb str_eqb a b = true <-> a = b.
Proof. destruct (opt_eqb_spec str_eqb str_eqb_spec a b); split; intros; congruence. Qed.
Lemma own_metas_spec key conds mds : metas_of key conds mds (own_metas key conds mds).
Proof.
  exists (concat (map md_metas (filter (fun md => opt_eqb str_eqb (a_type (md_attrs md)) (Some (L "xigt-meta"))) mds))). split.
  - eexists. split; [|reflexivity]. apply picked_filter. intros md. apply opt_str_true.
  - set (f := fun m => opt_eqb str_eqb (a_type (me_attrs m)) key && forallb (fun c => c m) conds).
    replace (own_metas key conds mds) with (filter f (concat (map md_metas (filter (fun md => opt_eqb str_eqb (a_type (md_attrs md)) (Some (L "xigt-meta"))) mds)))).
    + apply picked_filter. intros m. unfold f, wanted. rewrite andb_true_iff, opt_str_true, forallb_forall. tauto.
    + induction mds as [|md mds IH]; [easy|]. cbn [own_metas flat_map filter]. fold (own_metas key conds mds).
      destruct (opt_eqb str_eqb (a_type (md_attrs md)) (Some (L "xigt-meta"))); [|exact IH].
      cbn [map concat]. rewrite filter_app, IH. reflexivity.
Qed.
Lemma metas_of_det key conds mds l l' : metas_of key conds mds l -> metas_of key conds mds l' -> l = l'.
Proof.
  intros (all & (x & Hx & ->) & H) (all' & (x' & Hx' & ->) & H'). rewrite (picked_det _ _ _ Hx _ Hx') in H.
  exact (picked_det _ _ _ H _ H').
Qed.
Lemma metas_of_own key conds mds l : metas_of key conds mds l -> own_metas key conds mds = l.
Proof. intros H. exact (metas_of_det _ _ _ _ _ (own_metas_spec key conds mds) H). Qed.

Theorem get_meta_found before_ mds after key conds l :
  (forall b, In b before_ -> metas_of key conds b []) -> metas_of key conds mds l -> l <> [] ->
  get_meta (before_ ++ mds :: after) key conds true = Some l.
Proof.
  intros Hb Hl Hne. induction before_ as [|b bs IH]; cbn [app get_meta].
  - rewrite (metas_of_own _ _ _ _ Hl). now destruct l.
  - rewrite (metas_of_own _ _ _ _ (Hb b (or_introl eq_refl))).
    destruct (bs ++ mds :: after) eqn:E; [now destruct bs|]. rewrite <- E in *. apply IH. intros b' H. apply Hb. now right.
Qed.
Theorem get_meta_default chain key conds inh :
  (forall b, In b chain -> metas_of key conds b []) -> get_meta chain key conds inh = None.
Proof.
  intros Hb. induction chain as [|b bs IH]; [easy|]. cbn [get_meta]. rewrite (metas_of_own _ _ _ _ (Hb b (or_introl eq_refl))).
  destruct bs; [easy|]. destruct inh; [|easy]. apply IH. intros b' H. apply Hb. now right.
Qed.
Theorem get_meta_own mds after key conds l : metas_of key conds mds l ->
  get_meta (mds :: after) key conds false = match l with [] => None | _ => Some l end.
Proof. intros H. cbn [get_meta]. rewrite (metas_of_own _ _ _ _ H). destruct l; [now destruct after|easy]. Qed.

(* ---------- reference arguments ---------- *)

Lemma dget_set {A} (d : dict A) k v k' : dget (dset d k v) k' = if str_eqb k' k then Some v else dget d k'.
Proof. apply (dget_dset str_eqb str_eqb_spec). Qed.
Lemma put_attr_get d k o k' : dget (put_attr d k o) k' =
  if str_eqb k' k then match o with Some v => Some v | None => dget d k' end else dget d k'.
Proof.
  destruct o as [v|]; cbn [put_attr].
  - rewrite dget_set. now destruct (str_eqb_spec k' k).
  - now destruct (str_eqb k' k).
Qed.
Lemma refattrs_distinct : ALIGNMENT <> CONTENT /\ CONTENT <> SEGMENTATION /\ ALIGNMENT <> SEGMENTATION.
Proof. repeat split; vm_compute; discriminate. Qed.
Theorem ref_init_excludes d al co se : se <> Some [] -> co <> Some [] -> al <> Some [] ->
  (exists d', ref_init d al co se = Ok d') <-> (se = None \/ co = None /\ al = None).
Proof.
  intros H1 H2 H3. unfold ref_init.
  destruct se as [[|? ?]|], co as [[|? ?]|], al as [[|? ?]|]; cbn; try congruence;
    (split; [intros [d' E]; try discriminate; tauto|intros E; try (eexists; reflexivity); exfalso; intuition discriminate]).
Qed.
Theorem ref_init_error d al co se e : ref_init d al co se = Err e -> e = XigtError.
Proof. unfold ref_init. destruct (_ && _); congruence. Qed.
Theorem ref_init_reads d al co se d' : ref_init d al co se = Ok d' ->
  (forall v, al = Some v -> dget d' ALIGNMENT = Some v) /\ (forall v, co = Some v -> dget d' CONTENT = Some v)
  /\ (forall v, se = Some v -> dget d' SEGMENTATION = Some v)
  /\ (al = None -> dget d' ALIGNMENT = dget d ALIGNMENT) /\ (co = None -> dget d' CONTENT = dget d CONTENT)
  /\ (se = None -> dget d' SEGMENTATION = dget d SEGMENTATION)
  /\ forall k, k <> ALIGNMENT -> k <> CONTENT -> k <> SEGMENTATION -> dget d' k = dget d k.
Proof.
  unfold ref_init. destruct (_ && _); [discriminate|]. intros [= <-]. destruct refattrs_distinct as (D1 & D2 & D3).
  repeat split; intros; subst; rewrite !put_attr_get;
    repeat match goal with |- context[str_eqb ?a ?b] => destruct (str_eqb_spec a b); try congruence end; reflexivity.
Qed.

(* ---------- select ---------- *)

Lemma kw_in (kw : dict (option str)) k v : NoDup (map fst kw) -> (In (k, v) kw <-> dget kw k = Some v).
Proof.
  intros Hn. split; [|apply (dget_in str_eqb str_eqb_spec)].
  intros H. now apply (dget_nodup str_eqb str_eqb_spec).
Qed.
Lemma criterion_other m k v : k <> NAMESPACE -> criterion m k v = v.
Proof. intros H. destruct v; [|easy]. cbn. destruct (str_eqb_spec k (L "namespace")); [now exfalso|easy]. Qed.
Theorem select_spec {A} (ga : A -> str -> option str) nsmap l kw :
  NoDup (map fst kw) ->
  exists r, select ga (Some nsmap) l kw = Ok r /\ picked (meets ga (dget nsmap) kw) l r.
Proof.
  intros Hn.
  assert (W : forall kw', (forall x, (forall k v, In (k, v) kw' -> ga x k = v) <-> meets ga (dget nsmap) kw x) ->
     picked (meets ga (dget nsmap) kw) l (filter (fun x => forallb (fun kv => opt_eqb str_eqb (ga x (fst kv)) (snd kv)) kw') l)).
  { intros kw' H. apply picked_filter. intros x. rewrite <- H, forallb_forall. split.
    - intros Hx k v Hin. apply opt_str_true. exact (Hx (k, v) Hin).
    - intros Hx [k v] Hin. apply opt_str_true. now apply Hx. }
  unfold select. destruct (dget kw NAMESPACE) as [v|] eqn:E.
  - assert (Hplain : criterion (dget nsmap) NAMESPACE v = v -> forall x, (forall k v, In (k, v) kw -> ga x k = v) <-> meets ga (dget nsmap) kw x).
    { intros Hc x. unfold meets. split; intros H k v' Hin; specialize (H k v' Hin); destruct (str_eqb_spec k NAMESPACE) as [->|Hk];
        rewrite ?criterion_other in * by easy; try easy; apply kw_in in Hin; auto; rewrite E in Hin; injection Hin as <-; congruence. }
    destruct v as [p|]; [|eexists; split; [reflexivity|apply W; now apply Hplain]].
    destruct (dget nsmap p) as [uri|] eqn:Ep.
    + eexists. split; [reflexivity|]. apply W. intros x. unfold meets. 
      assert (Hn' : NoDup (map fst (dset kw NAMESPACE (Some uri)))) by now apply (dset_nodup str_eqb str_eqb_spec).
      split; intros H k v' Hin; apply kw_in in Hin; auto.
      * destruct (str_eqb_spec k NAMESPACE) as [->|Hk].
        -- rewrite E in Hin. injection Hin as <-. cbn. rewrite Ep. apply H. apply kw_in; auto.
           rewrite dget_set. now destruct (str_eqb_spec NAMESPACE NAMESPACE).
        -- rewrite criterion_other by easy. apply H. apply kw_in; auto. rewrite dget_set. now destruct (str_eqb_spec k NAMESPACE).
      * rewrite dget_set in Hin. destruct (str_eqb_spec k NAMESPACE) as [->|Hk].
        -- injection Hin as <-. apply kw_in in E; auto. rewrite (H _ _ E). cbn. now rewrite Ep.
        -- apply kw_in in Hin; auto. rewrite (H _ _ Hin). now apply criterion_other.
    + eexists. split; [reflexivity|]. apply W. apply Hplain. cbn. now rewrite Ep.
  - eexists. split; [reflexivity|]. apply W. intros x. unfold meets. split; intros H k v Hin; specialize (H k v Hin);
      (assert (k <> NAMESPACE) by (intros ->; apply kw_in in Hin; auto; congruence)); rewrite ?criterion_other in * by easy; easy.
Qed.
Theorem select_unmapped {A} (ga : A -> str -> option str) l kw : NoDup (map fst kw) -> dget kw NAMESPACE = None ->
  exists r, select ga None l kw = Ok r /\ picked (meets ga (fun _ => None) kw) l r.
Proof.
  intros Hn E. unfold select. rewrite E. eexists. split; [reflexivity|]. apply picked_filter. intros x. unfold meets. rewrite forallb_forall. split.
  - intros Hx k v Hin. assert (k <> NAMESPACE) by (intros ->; apply kw_in in Hin; auto; congruence). rewrite criterion_other by easy.
    apply opt_str_true. exact (Hx (k, v) Hin).
  - intros Hx [k v] Hin. cbn. apply opt_str_true. rewrite (Hx _ _ Hin). apply criterion_other.
    intros ->. apply kw_in in Hin; auto. congruence.
Qed.
Theorem metas_of_unique key conds mds : exists l, metas_of key conds mds l /\ forall l', metas_of key conds mds l' -> l' = l.
Proof. exists (own_metas key conds mds). split; [apply own_metas_spec|]. intros l' H. symmetry. now apply metas_of_own. Qed.
