From Verif Require Import PyStr PyStrFacts Ref SpecRef Model Value SpecValue Validate SpecValidate ValidateProofs Report SpecReport.

(* ---------- the printed report ---------- *)

Lemma places_cons d recs kids i n : places d (Report recs kids i n) = (d, Report recs kids i n) :: flat_map (places (S d)) kids.
Proof. reflexivity. Qed.
Lemma proper_kids d recs kids i n : proper d (Report recs kids i n) <->
  d < 4 /\ (forall x, In x recs -> In (rec_level x) [20; 30; 40]%Z) /\ Forall (proper (S d)) kids.
Proof.
  unfold proper. rewrite places_cons. split.
  - intros H. split; [|split].
    + exact (proj1 (H d (Report recs kids i n) {| rec_level := 0; rec_msg := [] |} (or_introl eq_refl))).
    + intros x Hx. apply (H d (Report recs kids i n) x (or_introl eq_refl)). exact Hx.
    + apply Forall_forall. intros k Hk d' r' x Hin. apply H. right. apply in_flat_map. eauto.
  - intros (H1 & H2 & H3) d' r' x [[= <- <-]|Hin]; [auto|]. apply in_flat_map in Hin as (k & Hk & Hin).
    rewrite Forall_forall in H3. apply (H3 k Hk _ _ _ Hin).
Qed.
Lemma below_places m : forall r d, all_below m r -> forall p, In p (places d r) -> all_below m (snd p).
Proof.
  intros r. induction r as [recs kids i n IH] using report_rect'. intros d H p Hp. rewrite places_cons in Hp.
  destruct Hp as [<-|Hp]; [exact H|]. apply all_below_kids in H as [_ H]. apply in_flat_map in Hp as (k & Hk & Hp).
  rewrite Forall_forall in IH, H. eapply IH; eauto.
Qed.
Lemma shown_below color m d r : all_below m r -> shown color m d r [].
Proof.
  intros H. exists (map (fun _ => []) (places d r)). split.
  - assert (Q := below_places m r d H). induction (places d r) as [|[d' r'] l IH]; [constructor|]. constructor.
    + left. split; [exact (Q (d', r') (or_introl eq_refl))|reflexivity].
    + apply IH. intros p Hp. apply Q. now right.
  - induction (places d r) as [|p l IH]; [reflexivity|exact IH].
Qed.

Lemma andthen_writes a b : andthen (writes a) b = (a ++ fst b, snd b).
Proof. reflexivity. Qed.
Lemma message_ok color d x : In (rec_level x) [20; 30; 40]%Z -> format_message color d x = Ok (message color d x).
Proof.
  intros H. unfold format_message, message, coloured. destruct x as [lv msg]. cbn [rec_level rec_msg] in *.
  destruct H as [<-|[<-|[<-|[]]]]; reflexivity.
Qed.
Lemma heading_ok color d n i : d < 4 -> format_heading color d n i = Ok (heading color d n i).
Proof.
  intros H. unfold format_heading, heading, spaces, bold.
  assert (nth_error datalevels d = Some (level_name d)) as -> by (do 4 (destruct d as [|d]; [reflexivity|]); lia).
  destruct i as [[|c i]|], color; cbv beta iota zeta; unfold BOLD_SEQ, RESET_SEQ, ESC; rewrite <- ?app_assoc; reflexivity.
Qed.
Lemma records_ok color m d recs : (forall x, In x recs -> In (rec_level x) [20; 30; 40]%Z) ->
  exists l, picks (fun x => (m <= rec_level x)%Z) recs l
    /\ print_records color m d recs = (map (fun x => Logged (message color d x)) l, None).
Proof.
  induction recs as [|x recs IH]; intros H; [exists []; split; [constructor|reflexivity]|].
  destruct IH as (l & Hl & E); [intros y Hy; apply H; now right|]. cbn [print_records].
  rewrite message_ok by (apply H; now left). rewrite E. destruct (Z.leb_spec m (rec_level x)).
  - exists (x :: l). split; [now constructor|reflexivity].
  - exists l. split; [|reflexivity]. apply P_skip; [lia|exact Hl].
Qed.

Theorem print_shown color m : forall r d, proper d r ->
  exists out, print_report color m d (filter_empty_reports (Some m) r) = (out, None) /\ shown color m d r out.
Proof.
  intros r. induction r as [recs kids i n IH] using report_rect'. intros d H.
  destruct (report_is_empty None (filter_empty_reports (Some m) (Report recs kids i n))) eqn:E.
  - apply filter_verdict in E. exists []. split; [|now apply shown_below]. apply filter_empty in E. now rewrite E.
  - assert (Hn : ~ all_below m (Report recs kids i n)) by (intros Q; apply filter_verdict in Q; congruence).
    assert (F : filter_empty_reports (Some m) (Report recs kids i n) = FReport recs (map (filter_empty_reports (Some m)) kids) i n).
    { destruct (filter_empty_reports (Some m) (Report recs kids i n)) eqn:F; [apply filter_empty in F; easy|].
      cbn [filter_empty_reports] in F. destruct (report_is_empty (Some m) _); [discriminate|]. now injection F as <- <- <- <-. }
    rewrite F in *. clear F. apply proper_kids in H as (H1 & H2 & H3).
    destruct (records_ok color m d recs H2) as (l & Hl & El).
    assert (K : exists ls, Forall2 (shown_for color m) (flat_map (places (S d)) kids) ls /\
      (fix go l := match l with [] => writes [] | k :: l => andthen (print_report color m (S d) k) (go l) end)
        (map (filter_empty_reports (Some m)) kids) = (concat ls, None)).
    { clear -IH H3. induction kids as [|k kids IHk]; [exists []; split; [constructor|reflexivity]|].
      inversion IH as [|? ? Hk IH']; subst. inversion H3 as [|? ? Hp H3']; subst.
      destruct (Hk (S d) Hp) as (out & E1 & ls1 & F1 & ->). destruct (IHk IH' H3') as (ls2 & F2 & E2).
      exists (ls1 ++ ls2). split; [cbn [flat_map]; now apply Forall2_app|]. cbn [map]. rewrite E1, E2, concat_app. reflexivity. }
    destruct K as (ls & F & K).
    exists (Printed (heading color d n i) :: map (fun x => Logged (message color d x)) l ++ concat ls). split.
    + cbn [print_report]. rewrite E. rewrite heading_ok by exact H1. rewrite El, K. reflexivity.
    + exists ((Printed (heading color d n i) :: map (fun x => Logged (message color d x)) l) :: ls). split; [|reflexivity].
      rewrite places_cons. constructor; [|exact F]. right. split; [exact Hn|]. exists i, n, l. auto.
Qed.
Lemma shown_fun color m d r a b : shown color m d r a -> shown color m d r b -> a = b.
Proof.
  intros (la & Fa & ->) (lb & Fb & ->). f_equal. revert lb Fb.
  induction Fa as [|[d' r'] x ps la Hx Fa IH]; intros lb Fb; inversion Fb as [|? y ? lb' Hy Fb']; subst; [reflexivity|].
  f_equal; [|now apply IH]. destruct Hx as [[A ->]|[A (i & n & l & E & P & ->)]], Hy as [[B ->]|[B (i' & n' & l' & E' & P' & ->)]]; try easy.
  rewrite E in E'. injection E' as <- <-. now rewrite (picks_fun _ _ _ _ P P').
Qed.
Theorem print_iff color m r d out : proper d r ->
  (print_report color m d (filter_empty_reports (Some m) r) = (out, None) <-> shown color m d r out).
Proof.
  intros H. destruct (print_shown color m r d H) as (o & E & S). split.
  - intros Q. assert (o = out) by congruence. now subst.
  - intros Q. now rewrite (shown_fun _ _ _ _ _ _ Q S).
Qed.

(* ---------- the reports of validation ---------- *)

Section R.
Context {U : Unicode}.
Variable fuel : nat.
Notation lv x := (In (rec_level x) [20; 30; 40]%Z).

Lemma validate_lv cx conds recs : validate cx conds = Ok recs -> forall x, In x recs -> lv x.
Proof. intros H x Hx. destruct (validate_recs _ _ _ _ H Hx) as (m & c & t & _ & _ & _ & -> & _). destruct m; cbn; auto. Qed.
Lemma unique_lv cx i s u : unique_in cx i s = Ok u -> forall x, In x u -> lv x.
Proof.
  unfold unique_in. intros H x Hx. apply condition_recs in H as [(t & msg & _ & _ & _ & ->)|(_ & ->)]; [|destruct Hx].
  destruct Hx as [<-|[]]. cbn. auto.
Qed.
Lemma extend_proper d r u : proper d r -> (forall x, In x u -> lv x) -> proper d (extend_recs r u).
Proof.
  destruct r as [recs kids i n]. cbn [extend_recs]. rewrite !proper_kids. intros (H1 & H2 & H3) H4. split; [easy|]. split; [|easy].
  intros x Hx. apply in_app_or in Hx as [Hx|Hx]; auto.
Qed.
Lemma tier_items_proper g t l : forall n seen rs, tier_items fuel g t n seen l = Ok rs -> Forall (proper 3) rs.
Proof.
  induction l as [|it l IH]; intros n seen rs H; cbn [tier_items] in H; inv_ok; [constructor|]. unfold validate_item in K. inv_ok.
  constructor; [|eapply IH; eassumption]. apply extend_proper; [|eapply unique_lv; eassumption].
  apply proper_kids. split; [lia|]. split; [eapply validate_lv; eassumption|constructor].
Qed.
Lemma igt_items_proper l : forall n seen rs p, igt_items n seen l rs = Ok p -> Forall (proper 3) rs -> Forall (proper 3) (fst p).
Proof.
  induction l as [|it l IH]; intros n seen rs p H Hl; cbn [igt_items] in H; [inv_ok; constructor|]. destruct rs as [|r rs]; [inv_ok; constructor|].
  inv_ok. inversion Hl; subst. cbn [fst]. constructor; [|eapply IH; eassumption]. apply extend_proper; [easy|eapply unique_lv; eassumption].
Qed.
Lemma igt_tiers_proper g l : forall n a b rs, igt_tiers fuel g n a b l = Ok rs -> Forall (proper 2) rs.
Proof.
  induction l as [|t l IH]; intros n a b rs H; cbn [igt_tiers] in H; inv_ok; [constructor|]. unfold validate_tier in K. inv_ok.
  cbn [report_recs report_kids] in *. constructor; [|eapply IH; eassumption]. apply proper_kids. split; [lia|]. split.
  - intros y Hy. apply in_app_or in Hy as [Hy|Hy]; [eapply validate_lv; eassumption|eapply unique_lv; eassumption].
  - eapply igt_items_proper; [eassumption|]. eapply tier_items_proper; eassumption.
Qed.
Lemma corpus_igts_proper l : forall n seen e rs, corpus_igts fuel n seen l e = Ok rs -> Forall (proper 1) rs.
Proof.
  induction l as [|g l IH]; intros n seen e rs H; cbn [corpus_igts] in H; [destruct e; inv_ok; [discriminate|constructor]|]. inv_ok.
  unfold validate_igt in K. inv_ok. constructor; [|eapply IH; eassumption]. apply extend_proper; [|eapply unique_lv; eassumption].
  apply proper_kids. split; [lia|]. split; [eapply validate_lv; eassumption|]. eapply igt_tiers_proper; eassumption.
Qed.
Theorem corpus_proper ci gs e n ids_ r : validate_corpus fuel ci gs e n ids_ = Ok r -> proper 0 r.
Proof.
  unfold validate_corpus. intros H. inv_ok. apply proper_kids. split; [lia|]. split; [eapply validate_lv; eassumption|].
  eapply corpus_igts_proper; eassumption.
Qed.

(* the report mirrors the corpus *)
Theorem mirrors ci gs e n ids_ r : validate_corpus fuel ci gs e n ids_ = Ok r ->
  report_is r [] ci n
  /\ (forall i, report_at r [i] <> None <-> i < length gs)
  /\ (forall i g, nth_error gs i = Some g -> report_is r [i] (igt_id g) i /\ forall j, report_at r [i; j] <> None <-> j < length (g_tiers g))
  /\ (forall i j g t, tier_at gs i j g t -> report_is r [i; j] (tier_id t) j /\ forall k, report_at r [i; j; k] <> None <-> k < length (t_items t))
  /\ (forall i j k g t it, item_at gs i j k g t it -> report_is r [i; j; k] (item_id it) k /\ forall m, report_at r [i; j; k; m] = None).
Proof.
  intros H. assert (H0 := H). unfold validate_corpus in H0. inv_ok. rename x into recs, x0 into kids.
  assert (N : forall {A} (l : list A) k, nth_error l k <> None <-> k < length l) by (intros A l k; rewrite <- nth_error_Some; reflexivity).
  assert (Lc : forall l n s e rs, corpus_igts fuel n s l e = Ok rs -> length rs = length l).
  { clear. induction l as [|g l IH]; intros n s e rs H; cbn [corpus_igts] in H; [destruct e; inv_ok; [discriminate|reflexivity]|].
    inv_ok. cbn. f_equal. eapply IH; eauto. }
  assert (Lt : forall g l n a b rs, igt_tiers fuel g n a b l = Ok rs -> length rs = length l).
  { clear. induction l as [|t l IH]; intros n a b rs H; cbn [igt_tiers] in H; inv_ok; [reflexivity|]. cbn. f_equal. eapply IH; eauto. }
  assert (Li : forall l n s rs p, igt_items n s l rs = Ok p -> length rs = length l -> length (fst p) = length l).
  { clear. induction l as [|t l IH]; intros n s rs p H Hl; destruct rs as [|r rs]; try discriminate; cbn [igt_items] in H; inv_ok; [reflexivity|].
    cbn. f_equal. eapply IH; eauto. }
  split; [exists recs, kids; reflexivity|]. split; [|split; [|split]].
  - intros i. rewrite <- (Lc _ _ _ _ _ K0), <- N. cbn. destruct (nth_error kids i); split; easy.
  - intros i g Hg. destruct (corpus_igts_nth _ _ _ _ _ _ _ _ K0 Hg) as (r1 & u & H1 & _ & H3). cbn [Nat.add] in H1.
    unfold validate_igt in H1. inv_ok. cbn [extend_recs cx_index make_context] in H3. split.
    + eexists _, _. cbn. rewrite H3. reflexivity.
    + intros j. cbn. rewrite H3. cbn. rewrite <- (Lt _ _ _ _ _ _ K2), <- N. destruct (nth_error x0 j); split; easy.
  - intros i j g t Ht. assert (Ht' := Ht). destruct Ht' as [Hg Hj].
    destruct (corpus_igts_nth _ _ _ _ _ _ _ _ K0 Hg) as (r1 & u & H1 & _ & H3). cbn [Nat.add] in H1.
    unfold validate_igt in H1. inv_ok. cbn [extend_recs cx_index make_context] in H3.
    destruct (igt_tiers_nth _ _ _ _ _ _ _ _ _ K2 Hj) as (r2 & u2 & rs' & seen' & H4 & _ & H5 & H6). cbn [Nat.add] in H4, H6. split.
    + eexists _, _. cbn. rewrite H3. cbn. rewrite H6. reflexivity.
    + intros k. cbn. rewrite H3. cbn. rewrite H6. cbn. unfold validate_tier in H4. inv_ok. cbn [report_kids] in H5.
      assert (Hl := tier_items_length _ _ _ _ _ _ _ K4). apply (Li _ _ _ _ _ H5) in Hl. cbn [fst] in Hl. rewrite <- Hl, <- N.
      destruct (nth_error rs' k); split; easy.
  - intros i j k g t it [Ht Hk]. destruct (tier_records _ _ _ _ _ _ _ _ _ _ _ H Ht) as (_ & _ & rs & rs' & seen' & _ & _ & _ & Hrs & Hrs' & Hp).
    destruct (tier_items_nth _ _ _ _ _ _ _ _ _ Hrs Hk) as (r1 & u & H1 & _ & H3). cbn [Nat.add] in H1.
    destruct (igt_items_nth _ _ _ _ _ _ _ _ _ Hrs' (tier_items_length _ _ _ _ _ _ _ Hrs) Hk H3) as (v & _ & H5).
    unfold validate_item in H1. inv_ok. cbn [extend_recs cx_index make_context] in H5.
    rewrite <- Hp in H5. split; [eexists _, _; exact H5|]. intros m. cbn in H5 |- *.
    destruct (nth_error kids i) as [r1|]; [|easy]. destruct (nth_error (report_kids r1) j) as [r2|]; [|easy].
    destruct (nth_error (report_kids r2) k) as [r3|]; [|easy]. injection H5 as ->. cbn. now destruct m.
Qed.

(* ---------- the exact records ---------- *)

Lemma format_name m cx s : format m cx None (L "{name}" ++ s) = (do r <- format m cx None s; Ok (cx_name cx ++ r)).
Proof. reflexivity. Qed.
Lemma needs_msg m cx what : lit what ->
  format m cx None (L "Each " ++ L "{name}" ++ L " " ++ L "{modal}" ++ L " specify " ++ what ++ L ".")
  = Ok (rec_msg (needs (modal_level m) what (modal_text m) (cx_name cx))).
Proof.
  intros H. rewrite format_lit by lits. rewrite format_name, format_lit, format_modal, format_lit by lits.
  rewrite format_lit by exact H. rewrite format_end by lits. reflexivity.
Qed.
Lemma truthy_iff i : truthy i = false <-> no_value i.
Proof. unfold no_value. destruct i as [[|c i]|]; cbn; split; intuition congruence. Qed.
Lemma id_exact m cx i l : validate_condition m cx (has_id i) = Ok l ->
  exactly (no_value i) (needs (modal_level m) (L "an id") (modal_text m) (cx_name cx)) l.
Proof.
  unfold validate_condition, has_id. destruct (truthy i) eqn:E; cbn [bind].
  - intros [= <-]. right. split; [|reflexivity]. intros Q. apply truthy_iff in Q. congruence.
  - change (L "Each {name} {modal} specify an id.") with (L "Each " ++ L "{name}" ++ L " " ++ L "{modal}" ++ L " specify " ++ L "an id" ++ L ".").
    rewrite needs_msg by lits. intros [= <-]. left. split; [now apply truthy_iff|reflexivity].
Qed.
Lemma type_exact m cx i l : validate_condition m cx (has_type i) = Ok l ->
  exactly (no_value i) (needs (modal_level m) (L "a type") (modal_text m) (cx_name cx)) l.
Proof.
  unfold validate_condition, has_type. destruct (truthy i) eqn:E; cbn [bind].
  - intros [= <-]. right. split; [|reflexivity]. intros Q. apply truthy_iff in Q. congruence.
  - change (L "Each {name} {modal} specify a type.") with (L "Each " ++ L "{name}" ++ L " " ++ L "{modal}" ++ L " specify " ++ L "a type" ++ L ".").
    rewrite needs_msg by lits. intros [= <-]. left. split; [now apply truthy_iff|reflexivity].
Qed.
Lemma exactly_in P x l : (forall y, In y l <-> y = x /\ P) -> length l <= 1 -> exactly P x l.
Proof.
  intros H Hl. destruct l as [|a [|b l]]; [|..|cbn in Hl; lia].
  - right. split; [|reflexivity]. intros Q. destruct (proj2 (H x) (conj eq_refl Q)).
  - left. destruct (proj1 (H a) (or_introl eq_refl)) as [-> Q]. auto.
Qed.
Lemma condition_len m cx c l : validate_condition m cx c = Ok l -> length l <= 1.
Proof. intros H. apply condition_recs in H as [(t & msg & _ & _ & _ & ->)|(_ & ->)]; cbn; lia. Qed.

Lemma condition_exact m cx c l t x (P : Prop) : validate_condition m cx c = Ok l -> (P -> c = Ok (Some t)) -> (~ P -> c = Ok None) -> (P \/ ~ P) ->
  t <> [] -> format m cx None t = Ok (rec_msg x) -> rec_level x = modal_level m -> exactly P x l.
Proof.
  intros H H1 H2 [Q|Q] Ht Hf Hl; unfold validate_condition in H.
  - rewrite (H1 Q) in H. cbn [bind] in H. destruct t; [easy|]. rewrite Hf in H. injection H as <-. left. split; [exact Q|].
    destruct x; cbn in *. congruence.
  - rewrite (H2 Q) in H. injection H as <-. now right.
Qed.
Lemma reference_exact cx g t ra l : refattr ra -> validate_condition MUST cx (reference_id_in_igt g t ra) = Ok l ->
  exactly (no_tier g t ra) (no_such_tier ra) l.
Proof.
  intros Hra H. apply (condition_exact _ _ _ _ ((L "The reference attribute """ ++ ra ++ L """ ") ++ L "{modal}" ++ L " select an available <tier> id.") _ _ H).
  - intros (rid & E & Hne & Hm). unfold reference_id_in_igt. unfold attr in E. rewrite E. destruct rid as [|c rid]; [easy|].
    apply get_none in Hm. rewrite Hm. rewrite <- !app_assoc. reflexivity.
  - intros Q. unfold reference_id_in_igt. destruct (dget (a_dict (t_attrs t)) ra) as [[|c rid]|] eqn:E; [easy| |easy].
    destruct (container_get _ _ _) eqn:G; [easy|]. exfalso. apply Q. exists (c :: rid). apply get_none in G. unfold attr. split; [exact E|]. split; [easy|exact G].
  - unfold no_tier, attr. destruct (dget (a_dict (t_attrs t)) ra) as [[|c rid]|] eqn:E.
    + right. intros (rid & [= <-] & Q & _). easy.
    + destruct (container_get tier_id (g_tiers g) (c :: rid)) eqn:G.
      * right. intros (rid' & [= <-] & _ & Q). apply get_none in Q. congruence.
      * left. exists (c :: rid). apply get_none in G. split; [reflexivity|]. split; [easy|exact G].
    + right. intros (rid & [=] & _).
  - intros Q. vm_compute in Q. discriminate.
  - rewrite format_template; [|apply lit_app; [lits|]; apply lit_app; [now apply refattr_lit|lits]].
    rewrite format_end by lits. cbn [bind no_such_tier error rec_msg modal_text]. rewrite <- !app_assoc. reflexivity.
  - reflexivity.
Qed.
Lemma picks_filter {A} (P : A -> Prop) f l : (forall x, In x l -> (f x = true <-> P x)) -> picks P l (filter f l).
Proof.
  induction l as [|x l IH]; intros H; [constructor|]. cbn. assert (Q := H x (or_introl eq_refl)).
  destruct (f x); [apply P_keep; [now apply Q|]|apply P_skip; [intros R; apply Q in R; discriminate|]]; apply IH; intros; apply H; now right.
Qed.
Lemma unspecified_exact cx t l : validate_condition MUST cx (item_refattrs_specified_on_tier t) = Ok l ->
  exists lst, picks (lacks t) [L "alignment"; L "content"; L "segmentation"] lst /\ exactly (exists ra, lacks t ra) (unspecified lst) l.
Proof.
  intros H. unfold item_refattrs_specified_on_tier in H.
  set (lst := filter (fun ra => existsb (fun it => dmem (a_dict (it_attrs it)) ra) (t_items t)
                                   && negb (dmem (a_dict (t_attrs t)) ra)) [ALIGNMENT; CONTENT; SEGMENTATION]) in *.
  assert (Hp : picks (lacks t) [L "alignment"; L "content"; L "segmentation"] lst).
  { apply picks_filter. intros ra Hra. unfold lacks, attr. rewrite andb_true_iff, existsb_exists, negb_true_iff.
    assert (Hx : dmem (a_dict (t_attrs t)) ra = false <-> dget (a_dict (t_attrs t)) ra = None).
    { destruct (dmem (a_dict (t_attrs t)) ra) eqn:E.
      - apply dget_mem in E. split; [easy|congruence].
      - split; [|easy]. intros _. destruct (dget _ _) eqn:F; [|easy]. assert (dmem (a_dict (t_attrs t)) ra = true) by (apply dget_mem; congruence). congruence. }
    rewrite Hx. setoid_rewrite dget_mem. unfold refattr. cbn [In] in *. tauto. }
  exists lst. split; [exact Hp|].
  assert (Hin : forall ra, In ra lst <-> lacks t ra).
  { intros ra. rewrite (picks_in _ _ _ Hp). split; [tauto|]. intros Q. split; [|exact Q]. destruct Q as [Q _]. unfold refattr in Q. cbn [In] in *. tauto. }
  clearbody lst. destruct lst as [|a lst].
  - cbn in H. injection H as <-. right. split; [|reflexivity]. intros [ra Q]. apply Hin in Q. destruct Q.
  - assert (Q : exists ra, lacks t ra) by (exists a; apply Hin; now left).
    apply (condition_exact _ _ _ _ (L "Reference attributes on <item> elements " ++ L "{modal}" ++
      L " be specified on their <tier> as well. The following are not: " ++ join (L ", ") (a :: lst)) (unspecified (a :: lst)) _ H);
      [intros _; idtac|intros Q'; destruct (Q' Q)|left; exact Q|intros Q'; vm_compute in Q'; discriminate| |reflexivity].
    1: reflexivity.
    rewrite format_template by lits. rewrite format_end; [reflexivity|]. apply lit_app; [lits|]. apply lit_join.
    intros x Hx. apply Hin in Hx as [Hx _]. now apply refattr_lit.
Qed.
Lemma unique_len cx i s u : unique_in cx i s = Ok u -> length u <= 1.
Proof. apply condition_len. Qed.

Theorem corpus_records ci gs e n ids_ r l : validate_corpus fuel ci gs e n ids_ = Ok r -> records_at r [] l ->
  exists a u, l = a ++ u /\ exactly (no_value ci) (needs 20 (L "an id") (L "MAY") (L "<xigt-corpus>")) a
  /\ exactly (exists i, i <> [] /\ ci = Some i /\ In i ids_) (not_unique (L "<xigt-corpus>") (L "collection")) u.
Proof.
  intros H Hl. unfold validate_corpus in H. inv_ok. destruct Hl as (k & [= <-] & <-). cbn [report_recs].
  cbn [validate] in K. inv_ok. rewrite app_nil_r. eexists _, _. split; [reflexivity|]. split; [exact (id_exact _ _ _ _ K1)|].
  destruct (unique_in_ok (make_context ci n (L "<xigt-corpus>") (L "collection")) ci ids_ _ _ eq_refl eq_refl) as (u & Hu & Hi); [cbn; tauto|cbn; tauto|].
  unfold unique_in in Hu. rewrite K3 in Hu. injection Hu as <-. apply exactly_in; [exact Hi|]. eapply condition_len; eauto.
Qed.
Theorem igt_exact ci gs e n ids_ r i g l : validate_corpus fuel ci gs e n ids_ = Ok r -> nth_error gs i = Some g -> records_at r [i] l ->
  exists a u, l = a ++ u /\ exactly (no_value (igt_id g)) (needs 30 (L "an id") (L "SHOULD") (L "<igt>")) a
  /\ exactly (repeats igt_id gs i) (not_unique (L "<igt>") (L "<xigt-corpus>")) u.
Proof.
  intros H Hg Hl. unfold validate_corpus in H. inv_ok. destruct (corpus_igts_nth _ _ _ _ _ _ _ _ K0 Hg) as (r1 & u & H1 & H2 & H3).
  cbn [Nat.add] in H1, H2. unfold validate_igt in H1. inv_ok. destruct Hl as (k & Hk & <-). cbn in Hk. rewrite H3 in Hk. injection Hk as <-. cbn [report_recs].
  cbn [validate] in K1. inv_ok. rewrite app_nil_r. eexists _, _. split; [reflexivity|]. split; [exact (id_exact _ _ _ _ K3)|].
  destruct (unique_in_ok (make_context (igt_id g) i (L "<igt>") (L "<xigt-corpus>")) (igt_id g) (seen_before igt_id [] (firstn i gs))
     (L "<igt>") (L "<xigt-corpus>") eq_refl eq_refl) as (u' & Hu & Hiff); [cbn; tauto|cbn; tauto|].
  rewrite H2 in Hu. injection Hu as <-. apply exactly_in; [|eapply unique_len; eauto].
  intros y. rewrite Hiff, <- (repeats_seen _ _ _ _ Hg). reflexivity.
Qed.
Theorem tier_exact ci gs e n ids_ r i j g t l : validate_corpus fuel ci gs e n ids_ = Ok r -> tier_at gs i j g t -> records_at r [i; j] l ->
  exists a b c x y z u lst, l = a ++ b ++ c ++ x ++ y ++ z ++ u
  /\ exactly (no_value (tier_id t)) (needs 30 (L "an id") (L "SHOULD") (L "<tier>")) a
  /\ exactly (no_value (a_type (t_attrs t))) (needs 30 (L "a type") (L "SHOULD") (L "<tier>")) b
  /\ picks (lacks t) [L "alignment"; L "content"; L "segmentation"] lst /\ exactly (exists ra, lacks t ra) (unspecified lst) c
  /\ exactly (no_tier g t (L "alignment")) (no_such_tier (L "alignment")) x
  /\ exactly (no_tier g t (L "segmentation")) (no_such_tier (L "segmentation")) y
  /\ exactly (no_tier g t (L "content")) (no_such_tier (L "content")) z
  /\ exactly (repeats tier_id (g_tiers g) j) (not_unique (L "<tier>") (L "<igt>")) u.
Proof.
  intros H [Hg Ht] Hl. unfold validate_corpus in H. inv_ok. destruct (corpus_igts_nth _ _ _ _ _ _ _ _ K0 Hg) as (r1 & u1 & H1 & _ & H3).
  cbn [Nat.add] in H1. unfold validate_igt in H1. inv_ok. cbn [extend_recs] in H3.
  destruct (igt_tiers_nth _ _ _ _ _ _ _ _ _ K2 Ht) as (r2 & u & rs' & seen' & H4 & H5 & _ & H6). cbn [Nat.add] in H4, H5, H6.
  destruct Hl as (k & Hk & <-). cbn in Hk. rewrite H3 in Hk. cbn in Hk. rewrite H6 in Hk. injection Hk as <-. cbn [report_recs].
  unfold validate_tier in H4. inv_ok. cbn [report_recs]. unfold tier_conditions, reference_attributes in K3. cbn [map app validate] in K3. inv_ok.
  destruct (unspecified_exact _ _ _ K9) as (lst & Hp & He).
  exists x5, x7, x9, x11, x13, x15, u, lst. split; [rewrite app_nil_r, <- !app_assoc; reflexivity|].
  split; [exact (id_exact _ _ _ _ K5)|]. split; [exact (type_exact _ _ _ _ K7)|]. split; [exact Hp|]. split; [exact He|].
  split; [eapply reference_exact; [|exact K11]; cbn; tauto|]. split; [eapply reference_exact; [|exact K13]; cbn; tauto|].
  split; [eapply reference_exact; [|exact K15]; cbn; tauto|].
  destruct (unique_in_ok (make_context (tier_id t) j (L "<tier>") (L "<igt>")) (tier_id t) (seen_before tier_id [] (firstn j (g_tiers g)))
     (L "<tier>") (L "<igt>") eq_refl eq_refl) as (u' & Hu & Hiff); [cbn; tauto|cbn; tauto|].
  rewrite H5 in Hu. injection Hu as <-. apply exactly_in; [|eapply unique_len; eauto].
  intros q. rewrite Hiff, <- (repeats_seen _ _ _ _ Ht). reflexivity.
Qed.

Theorem item_exact ci gs e n ids_ r i j k g t it l : validate_corpus fuel ci gs e n ids_ = Ok r -> item_at gs i j k g t it -> records_at r [i; j; k] l ->
  exists a b u v, l = a ++ b ++ u ++ v
  /\ exactly (no_value (item_id it)) (needs 30 (L "an id") (L "SHOULD") (L "<item>")) a
  /\ (forall x, In x b -> exists ra, refattr ra /\ attr (it_attrs it) ra <> None /\ attr (t_attrs t) ra <> None)
  /\ exactly (repeats item_id (t_items t) k) (not_unique (L "<item>") (L "<tier>")) u
  /\ exactly (repeats item_id (flat_map t_items (g_tiers g)) (length (flat_map t_items (firstn j (g_tiers g))) + k))
       (not_unique (L "<item>") (L "<igt>")) v.
Proof.
  intros H [Ht Hk] Hl. destruct (tier_records _ _ _ _ _ _ _ _ _ _ _ H Ht) as (_ & _ & rs & rs' & seen' & _ & _ & _ & Hrs & Hrs' & Hpath).
  destruct (tier_items_nth _ _ _ _ _ _ _ _ _ Hrs Hk) as (r1 & u & H1 & H2 & H3). cbn [Nat.add] in H1, H2.
  destruct (igt_items_nth _ _ _ _ _ _ _ _ _ Hrs' (tier_items_length _ _ _ _ _ _ _ Hrs) Hk H3) as (v & H4 & H5). cbn [Nat.add] in H4.
  unfold validate_item in H1. inv_ok. destruct Hl as (q & Hq & <-). rewrite Hpath, H5 in Hq. injection Hq as <-. cbn [extend_recs report_recs].
  unfold item_conditions in K. cbn [validate] in K. inv_ok. rewrite <- !app_assoc. eexists _, _, u, v. split; [reflexivity|].
  split; [exact (id_exact _ _ _ _ K0)|]. split; [|split].
  - intros y Hy. destruct (validate_recs _ _ _ _ K1 Hy) as (m & c & tm & Hin & -> & _). apply in_flat_map in Hin as (ra & Hra & Hin).
    exists ra. apply refattr_in in Hra. split; [exact Hra|].
    assert (Q : reference g t it ra <> None).
    { intros Q. cbn [In] in Hin. unfold algnexpr_ids_in_referred_tier, algnexpr_spans_in_aligned_item, algnexpr_spans_do_not_overlap in Hin.
      rewrite Q in Hin. destruct Hin as [[=]|[[=]|[[=]|[]]]]. }
    unfold reference, get_referred_tier in Q. unfold attr.
    destruct (dget (a_dict (it_attrs it)) ra) as [[|]|]; [easy| |easy]. split; [easy|]. now destruct (dget (a_dict (t_attrs t)) ra).
  - destruct (unique_in_ok (make_context (item_id it) k (L "<item>") (L "<tier>")) (item_id it) (seen_before item_id [] (firstn k (t_items t)))
     (L "<item>") (L "<tier>") eq_refl eq_refl) as (u' & Hu & Hiff); [cbn; tauto|cbn; tauto|].
    rewrite H2 in Hu. injection Hu as <-. apply exactly_in; [|eapply unique_len; eauto].
    intros q. rewrite Hiff, <- (repeats_seen _ _ _ _ Hk). reflexivity.
  - destruct (unique_in_ok (make_context (item_id it) k (L "<item>") (L "<igt>")) (item_id it)
     (seen_before item_id (seen_before item_id [] (items_before (firstn j (g_tiers g)))) (firstn k (t_items t)))
     (L "<item>") (L "<igt>") eq_refl eq_refl) as (v' & Hv & Hiff'); [cbn; tauto|cbn; tauto|].
    rewrite H4 in Hv. injection Hv as <-. apply exactly_in; [|eapply unique_len; eauto].
    intros q. rewrite Hiff'. fold (items_before (firstn j (g_tiers g))). destruct Ht as [Hg Ht].
    rewrite (repeats_seen _ _ _ _ (nth_items_before _ _ _ _ _ Ht Hk)).
    rewrite (firstn_items_before _ _ _ _ Ht) by (apply Nat.lt_le_incl, nth_error_Some; congruence).
    unfold seen_before at 1 2. rewrite <- fold_left_app. reflexivity.
Qed.

(* ---------- a run ---------- *)

Lemma corpus_end ci gs e n ids_ r : validate_corpus fuel ci gs e n ids_ = Ok r -> e = None.
Proof.
  unfold validate_corpus. intros H. inv_ok. revert K0. generalize 0 at 1. generalize (@nil str). revert x0.
  induction gs as [|g gs IH]; intros rs s k H; cbn [corpus_igts] in H; [now destruct e|]. inv_ok. eapply IH; eassumption.
Qed.
Lemma run_output_spec color m l : forall n idset o bs, run_output color m fuel n idset l = (o, bs) ->
  match snd o with
  | None => exists outs, ran fuel color m n idset l outs bs /\ fst o = concat outs
      /\ run_files fuel m n idset (map snd l) = Ok bs
  | Some e => (exists l1 x l2 outs bs1, l = l1 ++ x :: l2 /\ ran fuel color m n idset l1 outs bs1 /\ fst o = concat outs
      /\ fails fuel (n + length l1) (idset ++ given_ids (map snd l1)) (snd x) e)
      /\ run_files fuel m n idset (map snd l) = Err e
  end.
Proof.
  induction l as [|[name f] l IH]; intros n idset o bs H.
  - cbn in H. injection H as <- <-. cbn. exists []. split; [constructor|auto].
  - destruct f as [|e|ci gs end_]; cbn [run_output map snd run_files] in H |- *.
    + destruct (run_output color m fuel (S n) idset l) as [o' bs'] eqn:E. injection H as <- <-. specialize (IH _ _ _ _ E).
      rewrite andthen_writes. cbn [snd fst]. destruct (snd o').
      * destruct IH as [(l1 & x & l2 & outs & bs1 & -> & R & Eo & F) Er]. split; [|exact Er].
        exists ((name, Unparsable) :: l1), x, l2, ([Printed (load_failed n name)] :: outs), bs1. split; [reflexivity|].
        split; [now constructor|]. split; [cbn; now rewrite Eo|]. cbn [length]. rewrite <- plus_n_Sm. exact F.
      * destruct IH as (outs & R & Eo & Er). exists ([Printed (load_failed n name)] :: outs). split; [now constructor|].
        split; [cbn; now rewrite Eo|exact Er].
    + injection H as <- <-. cbn. split; [|reflexivity]. exists [], (name, Unreadable e), l, [], []. split; [reflexivity|].
      split; [constructor|]. split; [reflexivity|]. constructor.
    + destruct (validate_corpus fuel ci gs end_ n idset) as [r|e] eqn:Ev.
      * destruct (run_output color m fuel (S n) (add_id idset ci) l) as [o' bs'] eqn:E. specialize (IH _ _ _ _ E).
        assert (end_ = None) as -> by (eapply corpus_end; eassumption).
        assert (P := corpus_proper _ _ _ _ _ _ Ev). destruct (print_shown color m r 0 P) as (out & Ep & Sh).
        set (p := if report_is_empty None (filter_empty_reports (Some m) r) then writes [] else print_report color m 0 (filter_empty_reports (Some m) r)) in H.
        assert (Hp : p = (out, None)).
        { unfold p. destruct (report_is_empty None _) eqn:Em; [|exact Ep]. apply filter_verdict in Em. unfold writes. f_equal.
          exact (shown_fun _ _ _ _ _ _ (shown_below color m 0 r Em) Sh). }
        rewrite Hp in H. injection H as <- <-. unfold andthen. cbn [snd fst bind].
        assert (Ad : add_id idset ci = idset ++ match ci with Some i => [i] | None => [] end) by (destruct ci; cbn; now rewrite ?app_nil_r).
        rewrite Ad in IH |- *.
        assert (Rl : forall l outs bs, ran fuel color m (S n) (idset ++ match ci with Some i => [i] | None => [] end) l outs bs ->
          ran fuel color m n idset ((name, Loaded ci gs None) :: l) (out :: outs) (report_is_empty None (filter_empty_reports (Some m) r) :: bs)).
        { intros l' outs bs R. apply (R_loaded fuel color m n idset name ci gs l' r out _ outs bs Ev Sh (filter_verdict m r) R). }
        destruct (snd o').
        -- destruct IH as [(l1 & x & l2 & outs & bs1 & -> & R & Eo & F) Er]. rewrite Er. split; [|reflexivity].
           exists ((name, Loaded ci gs None) :: l1), x, l2, (out :: outs). eexists. split; [reflexivity|].
           split; [apply Rl; exact R|]. split; [cbn; now rewrite Eo|]. cbn [length map snd].
           rewrite <- plus_n_Sm. unfold given_ids in *. cbn [flat_map]. rewrite <- app_assoc in F. exact F.
        -- destruct IH as (outs & R & Eo & Er). rewrite Er. exists (out :: outs). split; [apply Rl; exact R|].
           split; [cbn; now rewrite Eo|reflexivity].
      * injection H as <- <-. cbn [snd fst raises bind]. split; [|reflexivity]. exists [], (name, Loaded ci gs end_), l, [], [].
        split; [reflexivity|]. split; [constructor|]. split; [reflexivity|]. cbn. rewrite app_nil_r, Nat.add_0_r. now constructor.
Qed.

Theorem run_ran color m l out b : run_all color m fuel l = (out, Ok b) ->
  exists outs bs, ran fuel color m 0 [] l outs bs /\ out = concat outs /\ b = forallb (fun b => b) bs.
Proof.
  unfold run_all. destruct (run_output color m fuel 0 [] l) as [o bs] eqn:E. assert (Q := run_output_spec color m l _ _ _ _ E).
  intros [= <- H]. destruct (snd o); [discriminate|]. destruct Q as (outs & R & Eo & _). exists outs, bs. split; [exact R|].
  split; [exact Eo|]. congruence.
Qed.
Theorem run_failed color m l out e : run_all color m fuel l = (out, Err e) ->
  exists l1 x l2 outs bs, l = l1 ++ x :: l2 /\ ran fuel color m 0 [] l1 outs bs /\ out = concat outs
  /\ fails fuel (length l1) (given_ids (map snd l1)) (snd x) e.
Proof.
  unfold run_all. destruct (run_output color m fuel 0 [] l) as [o bs] eqn:E. assert (Q := run_output_spec color m l _ _ _ _ E).
  intros [= <- H]. destruct (snd o) as [e'|]; [|discriminate]. injection H as ->.
  destruct Q as [(l1 & x & l2 & outs & bs1 & El & R & Eo & F) _]. exists l1, x, l2, outs, bs1. auto.
Qed.
Theorem run_verdict_same color m l : snd (run_all color m fuel l) = run fuel m (map snd l).
Proof.
  unfold run_all, run. destruct (run_output color m fuel 0 [] l) as [o bs] eqn:E. assert (Q := run_output_spec color m l _ _ _ _ E).
  cbn [snd]. destruct (snd o).
  - destruct Q as [_ ->]. reflexivity.
  - destruct Q as (outs & _ & _ & ->). reflexivity.
Qed.
(* silence: nothing is printed exactly if all files load and all records are below the level *)
Lemma shown_nil color m d r out : shown color m d r out -> (out = [] <-> all_below m r).
Proof.
  intros H. split; [|intros Q; exact (shown_fun _ _ _ _ _ _ H (shown_below color m d r Q))].
  intros ->. destruct H as (ls & F & E). destruct r as [recs kids i n]. rewrite places_cons in F. inversion F as [|p y ps ls' Hy F']; subst.
  destruct Hy as [[A _]|[_ (i' & n' & l' & _ & _ & ->)]]; [exact A|]. discriminate E.
Qed.
Theorem run_silent color m l out b : run_all color m fuel l = (out, Ok b) ->
  (out = [] <-> b = true /\ forall name, ~ In (name, Unparsable) l).
Proof.
  intros H. apply run_ran in H as (outs & bs & R & -> & ->). induction R as [|n idset name l outs bs R IH|n idset name ci gs l r o b outs bs V Sh Hb R IH].
  - cbn. tauto.
  - cbn [concat app]. split; [discriminate|]. intros [_ Q]. destruct (Q name). now left.
  - cbn [concat forallb]. assert (Q := shown_nil _ _ _ _ _ Sh). rewrite andb_true_iff. split.
    + intros E. apply app_eq_nil in E as [E1 E2]. apply IH in E2 as [E2 E3]. split; [split; [|exact E2]; tauto|].
      intros name' [[=]|Hin]. exact (E3 _ Hin).
    + intros [[-> E2] E3]. assert (o = []) as -> by tauto. apply IH. split; [exact E2|]. intros name' Hin. apply (E3 name'). now right.
Qed.
End R.
