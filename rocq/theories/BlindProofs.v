(* Paths that do not depend on the order of igts, tiers and items. *)
From Coq Require Import Permutation.
From Verif Require Import PyStr PyStrFacts Ref Model Attr Index Xml Scripts Path SpecPath PathTokenProofs PathFuel PathProofs Command SpecCommand.

Section Blind.
Context {U : Unicode}.
Variable ix : igt -> index.
Variable vfuel : nat.
Notation Find := (Find ix vfuel).
Notation Step := (Step ix vfuel).
Notation basic := (basic ix vfuel).

(* ---------- a path of plain steps ---------- *)

Notation plain_steps hs := (map (fun h : head => (h, @nil pred)) hs).
Lemma steps_stream hs : forall g np first s, hs <> [] -> Forall (fun h => is_group h = false) hs -> wf_steps g np first (plain_steps hs) ->
  fst (Step s (bare (plain_steps hs))) = fold_left (fun s h => sbind (basic h) s) hs s.
Proof.
  induction hs as [|h hs IH]; intros g np first s Hne Hg H; [easy|]. inversion_clear Hg as [|? ? G1 G2]. cbn [map] in H.
  assert (Hst : stops []) by (split; [constructor|easy]).
  destruct (after_head_ok _ _ _ _ _ _ _ H Hst) as [Hok Hnb]. destruct H as (H1 & H2 & H3 & H4).
  destruct (head_toks_ne _ _ _ _ H1) as (t0 & l0 & Eh).
  cbn [map bare]. rewrite app_nil_r in Hok.
  rewrite Step_read; [|apply Forall_app; split; [now apply (head_ok g np first)|easy]|now rewrite Eh].
  rewrite (read_basic _ _ _ _ _ g np first) by easy.
  rewrite predicates_read; [|easy|easy|now rewrite app_nil_r in Hnb]. cbn [fold_left].
  rewrite <- (app_nil_r (steps_toks true false _)). rewrite bare_next; [|easy|].
  2:{ intros h' qs' ss' E _. destruct hs as [|h2 hs]; [easy|]. cbn in E. injection E as <- <- <-. destruct H4 as (H4 & _). eapply head_toks_ne; eauto. }
  rewrite app_nil_r. destruct hs as [|h2 hs]; [easy|]. cbn [map]. now rewrite (IH g np false).
Qed.
Lemma path_stream hs v : Forall (fun h => is_group h = false) hs -> wf (plain_path hs) ->
  Find v (show (plain_path hs)) = fold_left (fun s h => sbind (basic h) s) hs ([v], None).
Proof.
  intros Hg H. assert (Ht := H). rewrite Find_body. unfold find_body. erewrite show_end by exact H. erewrite show_tokens by exact H.
  destruct (path_first _ _ _ _ H []) as (t & r & E & Hsl & _ & Hb). specialize (Hb eq_refl). rewrite app_nil_r in E. unfold plain_path in *. rewrite E.
  assert (Hok : toks_ok (t :: r)) by (rewrite <- E; eapply path_ok; eauto).
  apply wf_path_eq in Ht as (Hne & Hd & Hw). rewrite Expr_body by easy. unfold expr_body. rewrite Hsl.
  assert (Ep : str_eqb t (L "(") = false).
  { destruct (str_eqb t (L "(")) eqn:Ep; [|easy]. exfalso. apply str_eqb_eq in Ep as ->. rewrite Hb in E.
    destruct hs as [|h hs]; [easy|]. inversion_clear Hg as [|? ? G1 _]. destruct Hw as (Hw & _). cbn [map bare] in E.
    destruct h as [n|n|n| | |f [x|]|p ps]; cbn [head_toks app] in E; try easy; injection E as E _; try easy.
    - apply valid_child_tok in Hw as (Hw & _). subst n. now rewrite str_eqb_refl in Hw.
    - subst f. destruct Hw as [[Hw | [Hw | [Hw | Hw]]] _]; easy.
    - subst f. destruct Hw as [[Hw | [Hw | [Hw | Hw]]] _]; easy. }
  rewrite Ep, <- E, Hb. apply (steps_stream hs false false true); [|easy|easy]. intros ->. easy.
Qed.

(* ---------- the same values up to what is above them ---------- *)

Notation same_chain n n' := (nsmap_of (map attrs_of (n_obj n' :: n_up n')) = nsmap_of (map attrs_of (n_obj n :: n_up n))).
Definition nsim (n n' : pnode) : Prop := n_obj n' = n_obj n /\ same_chain n n'.
Definition vsim (v v' : pval) : Prop :=
  match v, v' with
  | VNode n, VNode n' => nsim n n'
  | VList l, VList l' => Forall2 nsim l l'
  | _, _ => v = v'
  end.
Definition ssim (s s' : stream) : Prop := Forall2 vsim (fst s) (fst s') /\ snd s = snd s'.

Lemma nsim_child n n' o : same_chain n n' -> nsim (child_of n o) (child_of n' o).
Proof. intros E. split; [easy|]. cbn in *. now rewrite E. Qed.
Lemma nsim_chain n n' : nsim n n' -> same_chain n n'.
Proof. now intros [_ E]. Qed.
Lemma ssim_nodes (l l' : list pnode) : Forall2 nsim l l' -> Forall2 vsim (map VNode l) (map VNode l').
Proof. induction 1; constructor; auto. Qed.
Lemma children_sim n n' l : same_chain n n' ->
  Forall2 nsim (map (child_of n) l) (map (child_of n') l).
Proof. intros E. induction l; constructor; [now apply nsim_child|easy]. Qed.
Lemma Forall2_app_ {A B} (R : A -> B -> Prop) a b c d : Forall2 R a b -> Forall2 R c d -> Forall2 R (a ++ c) (b ++ d).
Proof. intros H1 H2. induction H1; [easy|constructor; auto]. Qed.
Lemma sbind_sim f f' s s' : (forall v v', vsim v v' -> ssim (f v) (f' v')) -> ssim s s' -> ssim (sbind f s) (sbind f' s').
Proof.
  intros Hf [H1 H2]. destruct s as [l e], s' as [l' e']. cbn in *. subst e'. unfold sbind. cbn.
  induction H1 as [|v v' l l' Hv _ IH]; [split; [constructor|easy]|]. cbn. specialize (Hf v v' Hv).
  destruct (f v) as [ys x], (f' v') as [ys' x']. destruct Hf as [F1 F2]. cbn in F1, F2. subst x'.
  destruct x; [split; [exact F1|easy]|]. destruct (sbind_ f l e) as [zs y], (sbind_ f' l' e) as [zs' y']. destruct IH as [I1 I2]. cbn in *.
  split; [now apply Forall2_app_|exact I2].
Qed.
Lemma ssim_refl_str l e : Forall (fun v => match v with VStr _ | VNone => True | _ => False end) l -> ssim (l, e) (l, e).
Proof. intros H. split; [|easy]. cbn. induction H as [|v l Hv _ IH]; constructor; [now destruct v|easy]. Qed.
Lemma select_sim n n' kw : nsim n n' -> Forall2 vsim (select_members n kw) (select_members n' kw).
Proof.
  intros H. pose proof (nsim_chain _ _ H) as E. destruct H as [E1 _]. unfold select_members, chain_of. rewrite E, E1.
  destruct (select _ _ _ _) as [l|]; [|constructor]. induction l as [|o l IH]; constructor; [|easy]. cbn. now apply nsim_child.
Qed.
Lemma filter_sim (f : obj -> bool) l l' : Forall2 nsim l l' -> Forall2 nsim (filter (fun c => f (n_obj c)) l) (filter (fun c => f (n_obj c)) l').
Proof. induction 1 as [|n n' l l' [E1 E2] _ IH]; [constructor|]. cbn. rewrite E1. destruct (f (n_obj n)); [constructor; [easy|]|]; easy. Qed.
Lemma child_sim v v' name : vsim v v' -> ssim (find_child v name) (find_child v' name).
Proof.
  intros H. unfold find_child. destruct (split_ns name) as [ns nm]. cbv zeta.
  destruct v as [n|s| |l], v' as [n'|s'| |l']; try easy; try (destruct (str_eqb nm (L "*")); split; solve [constructor|easy]).
  cbn in H. pose proof (nsim_chain _ _ H) as E. pose proof (proj1 H) as E1. rewrite E1.
  pose proof (children_sim n n' (metadata_list (n_obj n)) E) as Hm.
  destruct (n_obj n) as [i|t|g|c|m|m|c] eqn:Eo; [split; [constructor|easy]|..]; cbv zeta;
    (destruct (str_eqb nm (L "*")); [split; [apply Forall2_app_; [now apply ssim_nodes|exact (select_sim n n' _ H)]|easy]|]);
    (destruct (opt_eqb _ _ _); [split; [exact (select_sim n n' _ H)|easy]|]);
    (destruct (_ && _); [split; [destruct ns; apply ssim_nodes; [apply (filter_sim (fun o => opt_eqb str_eqb (a_ns (attrs_of o)) _))|]; exact Hm|easy]|]);
    try solve [split; [constructor|easy]]; (split; [exact (select_sim n n' _ H)|easy]).
Qed.
Lemma mapM_same {A B} (f g : A -> res B) l : (forall a, f a = g a) -> mapM f l = mapM g l.
Proof. intros H. induction l as [|a l IH]; cbn [mapM]; [easy|]. now rewrite H, IH. Qed.
Lemma own_attribute a l l' k d ns : nsmap_of (a :: l') = nsmap_of (a :: l) -> get_attribute (a :: l') k d false ns = get_attribute (a :: l) k d false ns.
Proof.
  intros E. cbn [get_attribute]. rewrite E. destruct (rewrite_key _ _ _) as [k'|]; [|easy]. cbn [bind]. destruct (dget _ _); [easy|].
  now destruct l, l'.
Qed.
Lemma attr_sim n n' a : same_chain n n' -> attrs_of (n_obj n') = attrs_of (n_obj n) ->
  (forall k, child_getattr (n_obj n') k = child_getattr (n_obj n) k) -> ssim (find_attr (VNode n) a) (find_attr (VNode n') a).
Proof.
  intros E Ea Hc.
  unfold find_attr, pseudo_attr. rewrite Ea, Hc. destruct (is_pseudo a).
  { apply ssim_refl_str. repeat match goal with |- context [match ?x with _ => _ end] => destruct x end; repeat constructor. }
  destruct (split_ns a) as [ns k]. unfold chain_of.
  assert (Eg : forall k', get_attribute (map attrs_of (n_obj n' :: n_up n')) k' None false ns = get_attribute (map attrs_of (n_obj n :: n_up n)) k' None false ns).
  { intros k'. cbn [map] in *. rewrite Ea in *. now apply own_attribute. }
  replace (mapM (fun k0 => do x <- get_attribute (map attrs_of (n_obj n' :: n_up n')) k0 None false ns; Ok (of_opt x)) (map fst (a_dict (attrs_of (n_obj n)))))
    with (mapM (fun k0 => do x <- get_attribute (map attrs_of (n_obj n :: n_up n)) k0 None false ns; Ok (of_opt x)) (map fst (a_dict (attrs_of (n_obj n)))))
    by (apply mapM_same; intros k'; now rewrite Eg).
  rewrite Eg.
  match goal with |- ssim (of_res ?r) _ => assert (Hr : forall l, r = Ok l -> Forall (fun v => match v with VStr _ | VNone => True | _ => False end) l) end.
  { intros l. destruct (str_eqb k (L "*")).
    - generalize (map fst (a_dict (attrs_of (n_obj n)))). intros ks. revert l. induction ks as [|k0 ks IH]; intros l; cbn [mapM]; [intros [= <-]; constructor|].
      destruct (get_attribute _ _ _ _ _) as [x|]; [|easy]. cbn [bind]. destruct (mapM _ ks) as [l0|]; [|easy]. cbn. intros [= <-]. constructor; [now destruct x|now apply IH].
    - destruct (get_attribute _ _ _ _ _) as [x|]; [|easy]. cbn. intros [= <-]. constructor; [now destruct x|constructor]. }
  destruct (if str_eqb k (L "*") then _ else _) as [l|e]; [apply ssim_refl_str; now apply Hr|split; [constructor|easy]].
Qed.
Lemma descend_sim m : forall v v' name, vsim v v' -> ssim (descend m v name) (descend m v' name).
Proof.
  induction m as [|m IH]; intros v v' name H; [split; [constructor|easy]|]. cbn [descend]. destruct (split_ns name) as [ns nm].
  assert (Eo : objname v' = objname v) by (destruct v, v'; try easy; destruct H as [E _]; cbn; now rewrite E).
  rewrite Eo.
  assert (Eh : match ns with None => Ok (str_eqb (objname v) nm) | Some p => match v' with VNode n => Ok (opt_eqb str_eqb (a_ns (attrs_of (n_obj n))) (Some p) && str_eqb (objname v) nm) | _ => Err AttributeError end end
    = match ns with None => Ok (str_eqb (objname v) nm) | Some p => match v with VNode n => Ok (opt_eqb str_eqb (a_ns (attrs_of (n_obj n))) (Some p) && str_eqb (objname v) nm) | _ => Err AttributeError end end).
  { destruct ns; [|easy]. destruct v, v'; try easy. destruct H as [E _]. now rewrite E. }
  rewrite Eh. clear Eh. destruct (match ns with None => _ | Some _ => _ end) as [b|e]; [|split; [constructor|easy]].
  pose proof (sbind_sim (fun c => descend m c nm) (fun c => descend m c nm) _ _ (fun a a' => IH a a' nm) (child_sim v v' (L "*") H)) as Hs.
  destruct (sbind _ (find_child v _)) as [l e], (sbind _ (find_child v' _)) as [l' e']. destruct Hs as [H1 H2]. cbn in *. split; [|exact H2].
  cbn. apply Forall2_app_; [|exact H1]. destruct b; [constructor; [exact H|constructor]|constructor].
Qed.
Lemma text_sim v v' : vsim v v' -> ssim (function ix vfuel v (L "text") []) (function ix vfuel v' (L "text") []).
Proof.
  intros H. unfold function. rewrite str_eqb_refl. unfold text_of_val.
  destruct v as [n|s| |l], v' as [n'|s'| |l']; try easy; try solve [split; [constructor|easy]].
  cbn in H. pose proof (nsim_chain _ _ H) as E. destruct H as [E1 E2]. rewrite E1.
  destruct (n_obj n) as [i|t|g|c|m|m|[nm ? t ?]] eqn:Eo; try solve [split; [constructor|easy]]; cbn.
  - apply ssim_refl_str. constructor; [now destruct (it_text i)|constructor].
  - split; [|easy]. constructor; [|constructor]. apply children_sim. now rewrite Eo.
  - apply ssim_refl_str. constructor; [now destruct (me_text m)|constructor].
  - apply ssim_refl_str. constructor; [now destruct t|constructor].
Qed.
Lemma step_sim h v v' : downward h -> vsim v v' -> ssim (basic h v) (basic h v').
Proof.
  intros Hd H. destruct h as [n|n|n| | |f a|p ps]; try easy; cbn [PathProofs.basic].
  - now apply child_sim.
  - unfold find_descendant_or_self. assert (E : height v' = height v) by (destruct v, v'; try easy; destruct H as [E _]; cbn; now rewrite E).
    rewrite E. now apply descend_sim.
  - destruct v as [m|s| |l], v' as [m'|s'| |l']; try easy.
    + apply attr_sim; [now apply nsim_chain|destruct H as [E _]; now rewrite E|]. destruct H as [E _]. now rewrite E.
    + injection H as <-. unfold find_attr. destruct (is_pseudo n); [now split; [constructor|]|]. destruct (split_ns n). split; [constructor|easy].
    + unfold find_attr. destruct (is_pseudo n); [now split; [constructor|]|]. destruct (split_ns n). split; [constructor|easy].
    + unfold find_attr. destruct (is_pseudo n); [now split; [constructor|]|]. destruct (split_ns n). split; [constructor|easy].
  - split; [|easy]. constructor; [exact H|constructor].
  - destruct Hd as [-> ->]. now apply text_sim.
Qed.
Lemma steps_sim hs : Forall downward hs -> forall s s', ssim s s' ->
  ssim (fold_left (fun s h => sbind (basic h) s) hs s) (fold_left (fun s h => sbind (basic h) s) hs s').
Proof.
  induction 1 as [|h hs Hd _ IH]; intros s s' H; [exact H|]. cbn. apply IH. apply sbind_sim; [|exact H]. intros v v'. now apply step_sim.
Qed.
Lemma found_sim v v' : vsim v v' -> found_text (Some v') = found_text (Some v).
Proof.
  destruct v as [n|s| |l], v' as [n'|s'| |l']; cbn; try easy; [intros [E _]; now rewrite E|intros [= ->]; easy|intros H; now destruct H].
Qed.

(* ---------- the first step ---------- *)

Lemma up_attrs l l' : Forall2 reordered_obj l l' -> map attrs_of l' = map attrs_of l.
Proof.
  induction 1 as [|o o' l l' H _ IH]; [easy|]. cbn. rewrite IH. f_equal.
  destruct o, o'; cbn in H; try discriminate H; try (injection H as ->; easy); cbn; apply H.
Qed.
Lemma own_sim h n n' : own_step h -> an_igt (n_obj n) \/ a_tier (n_obj n) -> reordered_node n n' -> ssim (basic h (VNode n)) (basic h (VNode n')).
Proof.
  intros Ho Hw Hr. pose proof (up_attrs _ _ Hr) as E. unfold reordered_node in Hr. inversion Hr as [|? ? ? ? Ho1 _]; subst.
  destruct h as [nm|nm|nm| | |f a|p ps]; try easy; cbn [PathProofs.basic].
  - cbn in Ho. subst nm. unfold find_child. change (split_ns (L "metadata")) with (@None str, L "metadata"). cbv iota beta zeta.
    change (str_eqb (L "metadata") (L "*")) with false. change (str_eqb (L "metadata") (L "metadata")) with true.
    assert (Hm : metadata_list (n_obj n') = metadata_list (n_obj n)).
    { destruct Hw as [[g Eg]|[t Et]]; rewrite ?Eg, ?Et in *; destruct (n_obj n'); try easy; destruct Ho1 as (_ & H & _); cbn; now rewrite H. }
    destruct Hw as [[g Eg]|[t Et]]; rewrite ?Eg, ?Et in *; (destruct (n_obj n') eqn:En; try easy);
      (split; [|easy]); cbn [fst member_name opt_eqb]; rewrite Hm; apply ssim_nodes, children_sim; rewrite ?En, ?Eg, ?Et; now rewrite E.
  - apply attr_sim; [now rewrite E|cbn in E; congruence|]. intros k.
    destruct Hw as [[g Eg]|[t Et]]; rewrite ?Eg, ?Et in *; destruct (n_obj n'); try easy; unfold child_getattr; cbn [attrs_of]; destruct Ho1 as (H & _); now rewrite H.
Qed.

Lemma texts_sim n n' hs : Forall downward hs -> wf (plain_path hs) ->
  ssim (fold_left (fun s h => sbind (basic h) s) hs ([VNode n], None)) (fold_left (fun s h => sbind (basic h) s) hs ([VNode n'], None)) ->
  text_at ix vfuel n (show (plain_path hs)) = text_at ix vfuel n' (show (plain_path hs)).
Proof.
  intros Hd Hw Hs. unfold text_at. rewrite !find_eq.
  assert (Hg : Forall (fun h => is_group h = false) hs) by (eapply Forall_impl; [|exact Hd]; now intros []).
  rewrite !path_stream by easy. unfold stream in *.
  set (s1 := fold_left _ hs ([VNode n], None)) in *. set (s2 := fold_left _ hs ([VNode n'], None)) in *. clearbody s1 s2. destruct s1 as [l e], s2 as [l' e'].
  destruct Hs as [H1 H2]. cbn in *. subst e'. destruct H1 as [|v v' l l' Hv _]; [easy|]. cbn [bind]. now rewrite (found_sim v v').
Qed.
Theorem own_paths h hs : own_step h -> Forall downward hs -> wf (plain_path (h :: hs)) ->
  order_blind ix vfuel an_igt (show (plain_path (h :: hs))) /\ order_blind ix vfuel a_tier (show (plain_path (h :: hs))).
Proof.
  intros Ho Hd Hw. assert (Hh : downward h) by now destruct h.
  split; intros n n' Hn Hr; (apply texts_sim; [now constructor|easy|]); cbn [fold_left]; apply steps_sim; try easy; unfold sbind; cbn [fst snd sbind_];
    (destruct (own_sim h n n' Ho ltac:(auto) Hr) as [S1 S2]); destruct (basic h (VNode n)) as [l [e|]], (basic h (VNode n')) as [l' e'];
    cbn in S1, S2; subst e'; cbv iota beta zeta; rewrite ?app_nil_r; now split.
Qed.
Theorem item_paths hs : Forall downward hs -> wf (plain_path hs) -> order_blind ix vfuel an_item (show (plain_path hs)).
Proof.
  intros Hd Hw n n' [i Ei] Hr. apply texts_sim; [easy|easy|]. apply steps_sim; [easy|]. split; [|easy]. constructor; [|constructor].
  unfold reordered_node in Hr. inversion Hr as [|? ? ? ? Ho Hu]; subst. split; [|cbn [map]; pose proof (up_attrs _ _ Hu) as E; pose proof (up_attrs _ _ Hr) as E2; cbn in E2 |- *; injection E2 as -> ->; easy].
  rewrite Ei in *. destruct (n_obj n'); cbn in Ho; congruence.
Qed.
End Blind.
