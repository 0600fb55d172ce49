From Verif Require Import PyStr Regex SpecRef Ref Model SpecModel XmlStd Xml SpecXml XmlText Value Validate SpecValidate Report Files SpecImport Stream SpecStream SpecLoad ValidateRun SpecValidateRun.
From Verif Require Import LoadProofs SameProofs.
From Verif Require StreamProofs TextRunProofs ValidateProofs.
From Verif Require PropReport.

Section Same.
Context {U : Unicode}.
Variable fuel : nat.

Lemma attr_same a b : same_attrs a b -> forall k, dget (a_dict a) k = dget (a_dict b) k.
Proof. intros (_ & _ & _ & H). exact H. Qed.
Lemma dmem_same a b : same_attrs a b -> forall k, dmem (a_dict a) k = dmem (a_dict b) k.
Proof. intros H k. unfold dmem. now rewrite (attr_same a b H k). Qed.
Lemma exists_same {A} (R : A -> A -> Prop) (f g : A -> bool) l l' : (forall a b, R a b -> f a = g b) -> Forall2 R l l' -> existsb f l = existsb g l'.
Proof. intros H. induction 1 as [|a b l l' Hab _ IH]; [reflexivity|]. cbn [existsb]. now rewrite (H a b Hab), IH. Qed.
Lemma filterM_ext {A} (f g : A -> res bool) l : (forall x, f x = g x) -> filterM f l = filterM g l.
Proof. intros H. induction l as [|x l IH]; [reflexivity|]. cbn [filterM]. now rewrite H, IH. Qed.
Lemma foldM_ext {A B} (f g : B -> A -> res B) l : (forall b x, f b x = g b x) -> forall b, foldM f l b = foldM g l b.
Proof. intros H. induction l as [|x l IH]; intros b; [reflexivity|]. cbn [foldM]. rewrite H. destruct (g b x); [apply IH|reflexivity]. Qed.

Section Igt.
Variables g g' : igt.
Hypothesis Hg : same_igt g g'.
Let Ht : Forall2 same_tier (g_tiers g) (g_tiers g') := proj2 (proj2 Hg).

Lemma referred_same t t' ra : same_tier t t' -> opt_rel same_tier (get_referred_tier g t ra) (get_referred_tier g' t' ra).
Proof.
  intros H. unfold get_referred_tier. rewrite (attr_same _ _ (proj1 H)). destruct (dget (a_dict (t_attrs t')) ra) as [[|c r]|]; try exact I.
  apply (get_same same_tier tier_id); [exact tier_id_same|exact Ht].
Qed.
Lemma id_in_same t t' ra : same_tier t t' -> reference_id_in_igt g t ra = reference_id_in_igt g' t' ra.
Proof.
  intros H. unfold reference_id_in_igt. rewrite (attr_same _ _ (proj1 H)). destruct (dget (a_dict (t_attrs t')) ra) as [[|c r]|]; try reflexivity.
  pose proof (get_same same_tier tier_id _ _ (c :: r) tier_id_same Ht) as Hc. destruct (container_get tier_id (g_tiers g) (c :: r)), (container_get tier_id (g_tiers g') (c :: r)); now try reflexivity.
Qed.
Lemma specified_same t t' : same_tier t t' -> item_refattrs_specified_on_tier t = item_refattrs_specified_on_tier t'.
Proof.
  intros (Ha & _ & Hi). unfold item_refattrs_specified_on_tier. cbv zeta.
  match goal with |- Ok (match ?a with _ => _ end) = Ok (match ?b with _ => _ end) => assert (E : a = b); [|now rewrite E] end.
  apply filter_ext. intros ra. rewrite (dmem_same _ _ Ha). f_equal. apply (exists_same same_item); [|exact Hi]. intros i i' (_ & H). now apply dmem_same.
Qed.
Definition ref_rel (x y : option (str * tier)) : Prop := opt_rel (fun a b => fst a = fst b /\ same_tier (snd a) (snd b)) x y.
Lemma reference_same t t' i i' ra : same_tier t t' -> same_item i i' -> ref_rel (reference g t i ra) (reference g' t' i' ra).
Proof.
  intros H [_ Hi]. unfold reference. rewrite (attr_same _ _ Hi). destruct (dget (a_dict (it_attrs i')) ra) as [[|c e]|]; try exact I.
  pose proof (referred_same t t' ra H) as Hr. destruct (get_referred_tier g t ra) as [rt|], (get_referred_tier g' t' ra) as [rt'|]; try easy. cbn [opt_rel] in Hr.
  pose proof Hr as (_ & _ & His). destruct His; [exact I|]. split; [reflexivity|exact Hr].
Qed.
Lemma missing_same rt rt' e : same_tier rt rt' -> missing_ids rt e = missing_ids rt' e.
Proof.
  intros (_ & _ & H). unfold missing_ids. apply filter_ext. intros i. pose proof (get_same same_item item_id _ _ i item_id_same H) as Hc.
  destruct (container_get item_id (t_items rt) i), (container_get item_id (t_items rt') i); now try reflexivity.
Qed.
Lemma ids_same t t' i i' ra : same_tier t t' -> same_item i i' -> algnexpr_ids_in_referred_tier g t i ra = algnexpr_ids_in_referred_tier g' t' i' ra.
Proof.
  intros H Hi. unfold algnexpr_ids_in_referred_tier. pose proof (reference_same t t' i i' ra H Hi) as Hr. destruct (reference g t i ra) as [[e rt]|], (reference g' t' i' ra) as [[e' rt']|]; try easy.
  destruct Hr as [Ee Hr]. cbn [fst snd] in Ee, Hr. subst e'. now rewrite (missing_same rt rt' e Hr), (tier_id_same rt rt' Hr).
Qed.
Lemma ival_same t t' i i' : same_tier t t' -> same_item i i' -> item_value fuel g t i = item_value fuel g' t' i'.
Proof. intros H Hi. unfold item_value. now apply value_same. Qed.
Lemma outside_same rt rt' s : same_tier rt rt' -> span_outside fuel g rt s = span_outside fuel g' rt' s.
Proof.
  intros H. unfold span_outside. destruct (is_delimiter s); [reflexivity|]. destruct (re_match selection_re s) as [m|]; [|reflexivity]. destruct (cap 3 m) as [[|c r]|]; try reflexivity.
  destruct (re_match span_re (c :: r)) as [m'|]; [|reflexivity]. destruct (int_arg (cap 2 m')); [|reflexivity]. destruct (int_arg (cap 3 m')); [|reflexivity]. cbn [bind].
  pose proof (get_same same_item item_id _ _ (capd 2 m) item_id_same (proj2 (proj2 H))) as Hc.
  destruct (container_get item_id (t_items rt) (capd 2 m)) as [i|], (container_get item_id (t_items rt') (capd 2 m)) as [i'|]; try easy. now rewrite (ival_same rt rt' i i' H Hc).
Qed.
Lemma spans_same t t' i i' ra : same_tier t t' -> same_item i i' -> algnexpr_spans_in_aligned_item fuel g t i ra = algnexpr_spans_in_aligned_item fuel g' t' i' ra.
Proof.
  intros H Hi. unfold algnexpr_spans_in_aligned_item. pose proof (reference_same t t' i i' ra H Hi) as Hr. destruct (reference g t i ra) as [[e rt]|], (reference g' t' i' ra) as [[e' rt']|]; try easy.
  destruct Hr as [Ee Hr]. cbn [fst snd] in Ee, Hr. subst e'. rewrite (filterM_ext _ (span_outside fuel g' rt')); [reflexivity|]. intros s. now apply outside_same.
Qed.
Lemma count_same rt rt' d s : same_tier rt rt' -> count_span fuel g rt d s = count_span fuel g' rt' d s.
Proof.
  intros H. unfold count_span. destruct (is_delimiter s); [reflexivity|]. pose proof (get_same same_item item_id _ _ s item_id_same (proj2 (proj2 H))) as Hc.
  destruct (container_get item_id (t_items rt) s) as [i|], (container_get item_id (t_items rt') s) as [i'|]; try easy. now rewrite (ival_same rt rt' i i' H Hc).
Qed.
Lemma overlap_same t t' i i' ra : same_tier t t' -> same_item i i' -> algnexpr_spans_do_not_overlap fuel g t i ra = algnexpr_spans_do_not_overlap fuel g' t' i' ra.
Proof.
  intros H Hi. unfold algnexpr_spans_do_not_overlap. pose proof (reference_same t t' i i' ra H Hi) as Hr. destruct (reference g t i ra) as [[e rt]|], (reference g' t' i' ra) as [[e' rt']|]; try easy.
  destruct Hr as [Ee Hr]. cbn [fst snd] in Ee, Hr. subst e'. rewrite (foldM_ext _ (count_span fuel g' rt')); [reflexivity|]. intros d s. now apply count_same.
Qed.
Lemma vitem_same t t' i i' cx : same_tier t t' -> same_item i i' -> validate_item fuel g t i cx = validate_item fuel g' t' i' cx.
Proof.
  intros H Hi. unfold validate_item, item_conditions, reference_attributes. cbn [flat_map app].
  now rewrite (item_id_same i i' Hi), !(ids_same t t' i i' _ H Hi), !(spans_same t t' i i' _ H Hi), !(overlap_same t t' i i' _ H Hi).
Qed.
Lemma tier_items_same t t' l l' : same_tier t t' -> Forall2 same_item l l' -> forall n seen, tier_items fuel g t n seen l = tier_items fuel g' t' n seen l'.
Proof.
  intros H. induction 1 as [|i i' l l' Hi _ IH]; intros n seen; [reflexivity|]. cbn [tier_items]. rewrite (item_id_same i i' Hi), (vitem_same t t' i i' _ H Hi), IH. reflexivity.
Qed.
Lemma vtier_same t t' cx : same_tier t t' -> validate_tier fuel g t cx = validate_tier fuel g' t' cx.
Proof.
  intros H. unfold validate_tier, tier_conditions, reference_attributes. cbn [map app]. pose proof H as ((Eid & Ety & _) & _ & Hi).
  now rewrite (tier_id_same t t' H), Ety, (specified_same t t' H), !(id_in_same t t' _ H), (tier_items_same t t' _ _ H Hi).
Qed.
Lemma igt_items_same l l' : Forall2 same_item l l' -> forall n seen rs, igt_items n seen l rs = igt_items n seen l' rs.
Proof. induction 1 as [|i i' l l' Hi _ IH]; intros n seen [|r rs]; try reflexivity. cbn [igt_items]. now rewrite (item_id_same i i' Hi), IH. Qed.
Lemma igt_tiers_same l l' : Forall2 same_tier l l' -> forall n a b, igt_tiers fuel g n a b l = igt_tiers fuel g' n a b l'.
Proof.
  induction 1 as [|t t' l l' H _ IH]; intros n a b; [reflexivity|]. cbn [igt_tiers]. rewrite (tier_id_same t t' H), (vtier_same t t' _ H). destruct (validate_tier fuel g' t' _) as [r|]; [|reflexivity]. cbn [bind].
  destruct (unique_in _ _ _) as [u|]; [|reflexivity]. cbn [bind]. rewrite (igt_items_same _ _ (proj2 (proj2 H))). destruct (igt_items _ _ _ _) as [p|]; [|reflexivity]. cbn [bind]. now rewrite IH.
Qed.
Lemma vigt_same cx : validate_igt fuel g cx = validate_igt fuel g' cx.
Proof. unfold validate_igt, igt_id. pose proof Hg as ((E & _) & _). now rewrite E, (igt_tiers_same _ _ Ht). Qed.
End Igt.
Theorem validate_same ci gs gs' e n idset : Forall2 same_igt gs gs' -> validate_corpus fuel ci gs e n idset = validate_corpus fuel ci gs' e n idset.
Proof.
  intros H. unfold validate_corpus. cbv zeta. assert (E : forall n seen, corpus_igts fuel n seen gs e = corpus_igts fuel n seen gs' e); [|now rewrite E].
  induction H as [|g g' gs gs' Hg _ IH]; intros k seen; [reflexivity|]. cbn [corpus_igts]. rewrite (vigt_same g g' Hg), IH. unfold igt_id. pose proof Hg as ((Ei & _) & _). now rewrite Ei.
Qed.
End Same.

(* ---------- whole runs ---------- *)

Section Run.
Context {U : Unicode}.
Variables (color : bool) (m : Z) (fuel : nat).
Variable before : str -> option stream.
Variable ahead : str -> nat.
Notation load_file := (load_file before ahead).
Notation run_validate := (run_validate color m fuel before ahead).

Lemma lazily_in {A B} (f : A -> res B) l end_ y : In y (fst (lazily f l end_)) -> exists x, f x = Ok y.
Proof.
  induction l as [|x l IH]; cbn [lazily]; [easy|]. destruct (f x) as [z|e] eqn:E; [|easy]. destruct (lazily f l end_) as [ys o]. cbn [fst] in *. intros [<-|H]; [eauto|auto].
Qed.
Lemma decode_stream_ids n p st g i : decode_stream n p = Ok st -> In g (st_igts st) -> igt_id g = Some i -> i <> [].
Proof.
  intros E Hg Hi. assert (H : exists x, decode_igt x = Ok g).
  { unfold decode_stream in E. destruct (skip_to _ (events p)) as [[e rest]|]; [|discriminate]. destruct e as [q|q].
    - destruct (iter_lazily _ _ _) as [igts b]. destruct (open_corpus _) as [c0|]; [|discriminate]. cbn [bind] in E. destruct (lazily decode_igt (map at_end igts) _) as [gs x] eqn:El.
      assert (st = {| st_corpus := c0; st_igts := gs; st_end := x |}) by congruence. subst st. cbn [st_igts] in Hg. apply (lazily_in decode_igt (map at_end igts) (if b then None else Some RuntimeError)). now rewrite El.
    - destruct (open_corpus _) as [c0|]; [|discriminate]. cbn [bind] in E. inv_bind E. assert (st = {| st_corpus := c0; st_igts := x; st_end := None |}) by congruence. subst st. cbn [st_igts] in Hg.
      apply (traverse_all decode_igt (fun g => exists x, decode_igt x = Ok g)) in E0; [|eauto]. rewrite Forall_forall in E0. auto. }
  destruct H as [x Hx]. apply decode_igt_fine in Hx as [Hf _]. specialize (Hf i Hi). intros ->. destruct Hf as (c & r & H & _). discriminate.
Qed.
Lemma no_repeats {A} (idof : A -> option str) l : (forall n, ~ repeats idof l n) -> (forall x i, In x l -> idof x = Some i -> i <> []) -> NoDup (some_ids (map idof l)).
Proof.
  induction l as [|x l IH]; intros Hr Hn; [constructor|]. unfold some_ids. cbn [map flat_map].
  assert (Hl : NoDup (some_ids (map idof l))).
  { apply IH; [|intros y i Hy; apply Hn; now right]. intros n (i & y & k & z & Hi & Hy & Ey & Hk & Hz & Ez). apply (Hr (S n)). exists i, y, (S k), z. repeat split; auto. now apply -> Nat.succ_lt_mono. }
  destruct (idof x) as [i|] eqn:Ex; [|exact Hl]. constructor; [|exact Hl]. intros H. apply in_flat_map in H as (o & Ho & H). apply in_map_iff in Ho as (y & <- & Hy). destruct (idof y) as [j|] eqn:Ey; [|easy]. destruct H as [->|[]].
  apply In_nth_error in Hy as [n Hy]. apply (Hr (S n)). exists i, y, 0, x. repeat split; auto; [|apply Nat.lt_0_succ]. apply (Hn x i); [now left|exact Ex].
Qed.
(* what has no error is loaded *)
Lemma passes_loads w p ci gs n idset r : (m <= 40)%Z -> load_file w p = Loaded ci gs None -> validate_corpus fuel ci gs None n idset = Ok r -> all_below m r ->
  exists s c, dget (d_files w) p = Some s /\ loads (ahead s) s = Ok c /\ ci = a_id (c_attrs c) /\ gs = c_igts c.
Proof.
  intros Hm El Ev Hb. unfold ValidateRun.load_file in El. destruct (dget (d_files w) p) as [s|]; [|discriminate]. destruct (load_stream before (ahead s) s) as [st|x] eqn:Es; [|now destruct x].
  assert (ci = a_id (c_attrs (st_corpus st)) /\ gs = st_igts st /\ st_end st = None) as (Eci & Egs & En) by (repeat split; congruence). exists s.
  assert (Hd : distinct gs).
  { apply (no_repeats igt_id).
    - intros k (i & x & k' & y & Hi & Hx & Ex & Hk & Hy & Ey). destruct (proj1 (ValidateProofs.places fuel ci gs None n idset r Ev) k x Hx) as [l Hl].
      pose proof (ValidateProofs.unique_igt fuel ci gs None n idset r k x l Ev Hx Hl) as [_ H]. assert (Hr : repeats igt_id gs k) by (exists i, x, k', y; repeat split; assumption). specialize (H Hr). specialize (Hb [k] l _ Hl H).
      unfold not_unique, error in Hb. cbn [rec_level] in Hb. apply (Z.lt_irrefl 40). eapply Z.lt_le_trans; eassumption.
    - intros x i Hx Hi. subst gs. unfold load_stream in Es. destruct (do e <- parse_text s; resolve [] e) as [e|x0].
      + exact (decode_stream_ids _ _ _ x i Es Hx Hi).
      + destruct (before s) as [st0|]; [|discriminate]. assert (st = {| st_corpus := st_corpus st0; st_igts := st_igts st0; st_end := Some x0 |}) by congruence. now subst st. }
  exists {| c_attrs := c_attrs (st_corpus st); c_md := c_md (st_corpus st); c_igts := gs |}. split; [reflexivity|]. split; [|now split].
  apply StreamProofs.load_iff with (before := before). exists st. split; [exact Es|]. split; [|now rewrite <- Egs]. split; [|now split]. cbn [c_attrs c_md].
  assert (Hc : c_igts (st_corpus st) = []).
  { unfold load_stream in Es. destruct (do e <- parse_text s; resolve [] e) as [e|x0].
    - unfold decode_stream in Es. destruct (skip_to _ (events e)) as [[ev rest]|]; [|discriminate].
      assert (Ho : forall q c0, open_corpus q = Ok c0 -> c_igts c0 = []) by (intros q c0 E; unfold open_corpus in E; inv_bind E; inv_bind E; inv_bind E; assert (c0 = {| c_attrs := x1; c_md := x0; c_igts := [] |}) by congruence; now subst c0).
      destruct ev as [q|q].
      + destruct (iter_lazily _ _ _) as [igts b]. destruct (open_corpus _) as [c0|] eqn:E0; [|discriminate]. cbn [bind] in Es. destruct (lazily _ _ _) as [gs' x]. assert (st = {| st_corpus := c0; st_igts := gs'; st_end := x |}) by congruence. subst st. cbn [st_corpus]. eauto.
      + destruct (open_corpus _) as [c0|] eqn:E0; [|discriminate]. cbn [bind] in Es. inv_bind Es. assert (st = {| st_corpus := c0; st_igts := x; st_end := None |}) by congruence. subst st. cbn [st_corpus]. eauto.
    - destruct (before s) as [st0|]; [|discriminate]. assert (st = {| st_corpus := st_corpus st0; st_igts := st_igts st0; st_end := Some x0 |}) by congruence. now subst st. }
  revert Hc. destruct (st_corpus st) as [ca cm cg]. cbn [c_igts c_attrs c_md]. now intros ->.
Qed.
Lemma loads_file w p s c : dget (d_files w) p = Some s -> loads (ahead s) s = Ok c -> load_file w p = Loaded (a_id (c_attrs c)) (c_igts c) None.
Proof.
  intros Es El. unfold ValidateRun.load_file. rewrite Es. apply StreamProofs.load_iff with (before := before) in El as (st & -> & (Ec & Eg & En) & _). now rewrite Ec, Eg, En.
Qed.
Theorem passes_iff paths w : (m <= 40)%Z ->
  (snd (run_validate paths w) = Ok true <->
   forall k p, nth_error paths k = Some p -> exists s, dget (d_files w) p = Some s
     /\ (load_stream before (ahead s) s = Err ParseError
         \/ exists c r, loads (ahead s) s = Ok c
            /\ validate_corpus fuel (a_id (c_attrs c)) (c_igts c) None k (given_ids (map (load_file w) (firstn k paths))) = Ok r /\ all_below m r)).
Proof.
  intros Hm. unfold ValidateRun.run_validate. rewrite PropReport.C67_verdict, map_map. cbn [snd]. rewrite ValidateProofs.run_verdict. split.
  - intros H k p Hp. assert (Hn : nth_error (map (load_file w) paths) k = Some (load_file w p)) by (rewrite nth_error_map; now rewrite Hp).
    destruct (H k _ Hn) as [E|(ci & gs & r & E & Ev & Hb)].
    + unfold ValidateRun.load_file in E. destruct (dget (d_files w) p) as [s|]; [|discriminate]. exists s. split; [reflexivity|]. left. destruct (load_stream before (ahead s) s) as [st|x]; [discriminate|]. destruct x; try discriminate. reflexivity.
    + destruct (passes_loads w p ci gs _ _ r Hm E Ev Hb) as (s & c & Es & El & -> & ->). exists s. split; [exact Es|]. right. exists c, r. split; [exact El|]. split; [|exact Hb]. rewrite <- firstn_map. exact Ev.
  - intros H k f Hf. rewrite nth_error_map in Hf. destruct (nth_error paths k) as [p|] eqn:Ep; [|discriminate]. assert (f = load_file w p) by (cbn in Hf; congruence). subst f.
    destruct (H k p Ep) as (s & Es & [E|(c & r & El & Ev & Hb)]).
    + left. unfold ValidateRun.load_file. now rewrite Es, E.
    + right. exists (a_id (c_attrs c)), (c_igts c), r. split; [now apply (loads_file w p s)|]. split; [|exact Hb]. rewrite firstn_map. exact Ev.
Qed.

(* ---------- what was saved ---------- *)

Theorem saved_run w paths cs : Forall2 (saved_as w) paths cs -> run_validate paths w = run_all color m fuel (map (fun pc => in_memory (fst pc) (snd pc)) (combine paths cs)).
Proof.
  intros H. unfold ValidateRun.run_validate, run_all.
  assert (E : forall n idset, run_output color m fuel n idset (map (fun p => (p, load_file w p)) paths) = run_output color m fuel n idset (map (fun pc => in_memory (fst pc) (snd pc)) (combine paths cs))); [|now rewrite E].
  induction H as [|p c paths cs (Ht & Ho & Hk & indent & s & Hd & Hp) _ IH]; intros n idset; [reflexivity|]. cbn [map combine in_memory fst snd].
  destruct (TextRunProofs.text_kept c indent Ht Ho Hk) as (s' & c' & Hd' & Hl & ((Hi & _) & _ & Hg)). assert (s' = s) by congruence. subst s'.
  rewrite (loads_file w p s c' Hp (Hl _)). cbn [run_output]. unfold in_memory at 1. rewrite <- Hi, <- (validate_same fuel _ _ _ _ _ _ Hg). destruct (validate_corpus _ _ _ _ _ _); [|reflexivity]. now rewrite IH.
Qed.
End Run.
