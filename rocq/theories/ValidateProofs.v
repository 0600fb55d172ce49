(* Proofs about validation. *)
From Verif Require Import PyStr PyStrFacts Regex RegexFacts Ref SpecRef RefMatch RefProofs RefLaws RefLossless Model Value SpecValue ValueProofs Validate SpecValidate.

(* ---------- results ---------- *)

Lemma bind_ok {A B} (r : res A) (f : A -> res B) b : bind r f = Ok b -> exists a, r = Ok a /\ f a = Ok b.
Proof. destruct r; cbn; [eauto|discriminate]. Qed.
Ltac inv_ok :=
  repeat match goal with
  | H : bind ?r ?f = Ok _ |- _ =>
      apply bind_ok in H; let a := fresh "x" in destruct H as [a H]; let H1 := fresh "K" in destruct H as [H1 H]
  | H : Ok _ = Ok _ |- _ => injection H; clear H; intros; subst
  end.

Lemma Ok_inj {A} (a b : A) : Ok a = Ok b -> a = b.
Proof. congruence. Qed.

(* ---------- format ---------- *)

Definition lit (s : str) : Prop := forall c, In c s -> N.eqb c (Ch "{") = false /\ N.eqb c (Ch "}") = false.

Lemma no_braces_lit s : no_braces s -> lit s.
Proof.
  intros [H1 H2] c Hc. split; apply N.eqb_neq; intros ->; auto.
Qed.
Lemma format_lit m cx a s : lit a -> format m cx None (a ++ s) = (do r <- format m cx None s; Ok (a ++ r)).
Proof.
  induction a as [|c a IH]; intros Ha; cbn [app].
  - destruct (format m cx None s); reflexivity.
  - cbn [format]. destruct (Ha c (or_introl eq_refl)) as [-> ->]. rewrite IH.
    + now destruct (format m cx None s).
    + intros d Hd. apply Ha. now right.
Qed.
Lemma format_modal m cx s : format m cx None (L "{modal}" ++ s) = (do r <- format m cx None s; Ok (modal_text m ++ r)).
Proof. reflexivity. Qed.
Lemma lit_app a b : lit a -> lit b -> lit (a ++ b).
Proof. intros Ha Hb c Hc. apply in_app_or in Hc as [H|H]; auto. Qed.
Lemma format_end m cx a : lit a -> format m cx None a = Ok a.
Proof. intros H. rewrite <- (app_nil_r a) at 1. rewrite format_lit by easy. cbn. now rewrite app_nil_r. Qed.

Ltac lits := let c := fresh in let H := fresh in intros c H; vm_compute in H; repeat (destruct H as [<-|H]; [now split|]); now elim H.

(* a template: literal, modal verb, rest *)
Lemma format_template m cx a b : lit a ->
  format m cx None (a ++ L "{modal}" ++ b) = (do r <- format m cx None b; Ok (a ++ modal_text m ++ r)).
Proof.
  intros H. rewrite format_lit, format_modal by easy. now destruct (format m cx None b).
Qed.

(* ---------- validate ---------- *)

(* the records of one condition *)
Lemma condition_recs m cx c recs : validate_condition m cx c = Ok recs ->
  (exists t msg, c = Ok (Some t) /\ t <> [] /\ format m cx None t = Ok msg /\ recs = [{| rec_level := modal_level m; rec_msg := msg |}])
  \/ ((c = Ok None \/ c = Ok (Some [])) /\ recs = []).
Proof.
  unfold validate_condition. intros H. inv_ok. destruct x as [[|ch t]|].
  - inv_ok. right. auto.
  - inv_ok. left. exists (ch :: t), x. repeat split; (easy || assumption).
  - inv_ok. right. auto.
Qed.
Lemma validate_recs cx conds : forall recs r, validate cx conds = Ok recs -> In r recs ->
  exists m c t, In (m, c) conds /\ c = Ok (Some t) /\ t <> [] /\ rec_level r = modal_level m /\ format m cx None t = Ok (rec_msg r).
Proof.
  induction conds as [|[m c] conds IH]; intros recs r H Hr; cbn [validate] in H.
  - inv_ok. destruct Hr.
  - inv_ok. apply in_app_or in Hr as [Hr|Hr].
    + apply condition_recs in K as [(t & msg & -> & Ht & Hf & ->)|(_ & ->)]; [|destruct Hr].
      destruct Hr as [<-|[]]. exists m, (Ok (Some t)), t. cbn. auto.
    + destruct (IH _ _ K0 Hr) as (m' & c' & t & H1 & H2). exists m', c', t. split; [now right|exact H2].
Qed.
Lemma validate_in cx conds m t : forall recs, validate cx conds = Ok recs -> In (m, Ok (Some t)) conds -> t <> [] ->
  exists msg, format m cx None t = Ok msg /\ In {| rec_level := modal_level m; rec_msg := msg |} recs.
Proof.
  induction conds as [|[m' c] conds IH]; intros recs H Hin Ht; cbn [validate] in H; [destruct Hin|].
  inv_ok. destruct Hin as [[= -> ->]|Hin].
  - apply condition_recs in K as [(t' & msg & [= ->] & _ & Hf & ->)|([H|H] & ->)]; try discriminate.
    + exists msg. split; [exact Hf|now left].
    + injection H as ->. easy.
  - destruct (IH _ K0 Hin Ht) as (msg & H1 & H2). exists msg. split; [easy|]. apply in_or_app. now right.
Qed.
Lemma validate_ok cx conds :
  (forall m c, In (m, c) conds -> exists r, validate_condition m cx c = Ok r) -> exists recs, validate cx conds = Ok recs.
Proof.
  induction conds as [|[m c] conds IH]; intros H; cbn [validate]; [eauto|].
  destruct (H m c (or_introl eq_refl)) as [r ->]. destruct IH as [r' ->]; [intros; apply H; now right|].
  cbn. eauto.
Qed.

(* ---------- id_is_unique ---------- *)

Lemma unique_in_ok cx i seen name scope :
  cx_name cx = name -> cx_scope cx = scope ->
  In name [L "<igt>"; L "<tier>"; L "<item>"; L "<xigt-corpus>"] ->
  In scope [L "<igt>"; L "<tier>"; L "<xigt-corpus>"; L "collection"] ->
  exists u, unique_in cx i seen = Ok u
    /\ (forall r, In r u <-> r = not_unique name scope /\ exists k, k <> [] /\ i = Some k /\ In k seen).
Proof.
  intros Hn Hs _ _. unfold unique_in, id_is_unique, validate_condition.
  destruct i as [[|c k]|]; cbn [bind].
  - exists []. split; [reflexivity|]. intros r; split; [intros []|]. intros (_ & k & Hk & [= <-] & _). easy.
  - destruct (existsb (str_eqb (c :: k)) seen) eqn:E.
    + assert (Hin : In (c :: k) seen).
      { apply existsb_exists in E as (x & Hx & Hxe). apply str_eqb_eq in Hxe. now subst. }
      eexists. split.
      { change (L "The given id for each {name} {modal} be unique within its {scope}.") with
          (L "The given id for each " ++ L "{name}" ++ L " " ++ L "{modal}" ++ L " be unique within its " ++ L "{scope}" ++ L ".").
        cbn [bind]. 
        replace (format MUST cx None _) with (Ok (rec_msg (not_unique name scope))).
        - cbn [bind]. reflexivity.
        - rewrite format_lit by lits.
          assert (Hname : forall s, format MUST cx None (L "{name}" ++ s) = (do r <- format MUST cx None s; Ok (name ++ r)))
            by (intros; rewrite <- Hn; reflexivity).
          assert (Hscope : forall s, format MUST cx None (L "{scope}" ++ s) = (do r <- format MUST cx None s; Ok (scope ++ r)))
            by (intros; rewrite <- Hs; reflexivity).
          rewrite Hname, format_lit, format_modal, format_lit, Hscope, format_end by lits.
          cbn [bind]. unfold not_unique, error. cbn [rec_msg modal_text]. reflexivity. }
      intros r. split.
      * intros [<-|[]]. split; [reflexivity|]. exists (c :: k). split; [easy|auto].
      * intros [-> _]. now left.
    + exists []. split; [reflexivity|]. intros r; split; [intros []|]. intros (_ & k' & _ & [= <-] & Hin).
      exfalso. assert (existsb (str_eqb (c :: k)) seen = true); [|congruence].
      apply existsb_exists. exists (c :: k). split; [easy|apply str_eqb_refl].
  - exists []. split; [reflexivity|]. intros r; split; [intros []|]. intros (_ & k & _ & [=] & _).
Qed.

(* the ids seen before position n *)
Definition seen_before {A} (idof : A -> option str) (seen : list str) (l : list A) : list str :=
  fold_left (fun s x => add_id s (idof x)) l seen.
Lemma seen_before_in {A} (idof : A -> option str) l : forall seen k,
  In k (seen_before idof seen l) <-> In k seen \/ exists x, In x l /\ idof x = Some k.
Proof.
  induction l as [|x l IH]; intros seen k; cbn [seen_before fold_left].
  - split; [auto|]. intros [H|(x & [] & _)]. exact H.
  - fold (seen_before idof (add_id seen (idof x)) l). rewrite IH. unfold add_id. destruct (idof x) as [i|] eqn:E.
    + rewrite in_app_iff. cbn. split.
      * intros [[H|[<-|[]]]|(y & Hy & Hk)]; [now left|right; exists x; auto|right; exists y; auto].
      * intros [H|(y & [<-|Hy] & Hk)]; [left; now left|left; right; left; congruence|right; eauto].
    + split.
      * intros [H|(y & Hy & Hk)]; [now left|right; exists y; cbn; auto].
      * intros [H|(y & [<-|Hy] & Hk)]; [now left|congruence|right; eauto].
Qed.
Lemma in_firstn {A} (l : list A) n x : In x (firstn n l) <-> exists m, m < n /\ nth_error l m = Some x.
Proof.
  revert n. induction l as [|y l IH]; intros n; [rewrite firstn_nil; split; [intros []|intros ([|m] & _ & H); discriminate]|].
  destruct n as [|n]; cbn [firstn]; [split; [intros []|intros (m & H & _); lia]|]. cbn [In]. rewrite IH. split.
  - intros [->|(m & Hm & E)]; [exists 0; split; [lia|reflexivity]|exists (S m); split; [lia|exact E]].
  - intros ([|m] & Hm & E); [left; cbn in E; congruence|right; exists m; split; [lia|exact E]].
Qed.
Lemma repeats_seen {A} (idof : A -> option str) l n x : nth_error l n = Some x ->
  (repeats idof l n <-> exists k, k <> [] /\ idof x = Some k /\ In k (seen_before idof [] (firstn n l))).
Proof.
  intros Hx. split.
  - intros (i & x' & m & y & Hi & Hx' & Hid & Hm & Hy & Hyi). exists i. rewrite Hx in Hx'. injection Hx' as <-.
    split; [easy|]. split; [easy|]. apply seen_before_in. right. exists y. split; [|easy]. apply in_firstn. eauto.
  - intros (k & Hk & Hid & Hin). apply seen_before_in in Hin as [[]|(y & Hy & Hyi)].
    apply in_firstn in Hy as (m & Hm & E). exists k, x, m, y. repeat (split; [assumption|]); assumption.
Qed.

Section V.
Context {U : Unicode}.
Variable fuel : nat.

(* ---------- the loops ---------- *)

Lemma tier_items_nth g t l : forall n seen rs k it, tier_items fuel g t n seen l = Ok rs -> nth_error l k = Some it ->
  exists r u, let cx := make_context (item_id it) (n + k) (L "<item>") (L "<tier>") in
    validate_item fuel g t it cx = Ok r /\ unique_in cx (item_id it) (seen_before item_id seen (firstn k l)) = Ok u
    /\ nth_error rs k = Some (extend_recs r u).
Proof.
  induction l as [|x l IH]; intros n seen rs k it H Hk; [destruct k; discriminate|].
  cbn [tier_items] in H. inv_ok. destruct k as [|k].
  - cbn in Hk. injection Hk as ->. rewrite Nat.add_0_r. eexists _, _. cbn. eauto.
  - destruct (IH _ _ _ k it K1 Hk) as (r & u & H1 & H2 & H3). rewrite <- plus_n_Sm. eexists _, _. cbn. eauto.
Qed.
Lemma tier_items_length g t l : forall n seen rs, tier_items fuel g t n seen l = Ok rs -> length rs = length l.
Proof.
  induction l as [|x l IH]; intros n seen rs H; cbn [tier_items] in H; inv_ok; [reflexivity|]. cbn. f_equal. eauto.
Qed.
Lemma igt_items_nth l : forall n seen rs rs' seen' k it r, igt_items n seen l rs = Ok (rs', seen') -> length rs = length l ->
  nth_error l k = Some it -> nth_error rs k = Some r ->
  exists u, unique_in (make_context (item_id it) (n + k) (L "<item>") (L "<igt>")) (item_id it) (seen_before item_id seen (firstn k l)) = Ok u
    /\ nth_error rs' k = Some (extend_recs r u).
Proof.
  induction l as [|x l IH]; intros n seen rs rs' seen' k it r H Hlen Hk Hr; [destruct k; discriminate|].
  destruct rs as [|r0 rs]; [discriminate|]. cbn [igt_items] in H. inv_ok.
  destruct x1 as [rs1 seen1]. destruct k as [|k].
  - cbn in Hk, Hr. injection Hk as ->. injection Hr as ->. rewrite Nat.add_0_r. eexists. cbn. eauto.
  - destruct (IH _ _ _ _ _ k it r K0 ltac:(cbn in Hlen; lia) Hk Hr) as (u & H1 & H2). rewrite <- plus_n_Sm. eexists. cbn. eauto.
Qed.
Lemma igt_items_seen l : forall n seen rs rs' seen', igt_items n seen l rs = Ok (rs', seen') -> length rs = length l ->
  seen' = seen_before item_id seen l.
Proof.
  induction l as [|x l IH]; intros n seen rs rs' seen' H Hlen; destruct rs as [|r0 rs]; try discriminate; cbn [igt_items] in H.
  - inv_ok. reflexivity.
  - inv_ok. destruct x1 as [rs1 seen1]. cbn. apply (IH _ _ _ _ _ K0). cbn in Hlen. lia.
Qed.

(* the items of tiers before a place *)
Definition items_before (l : list tier) : list item := flat_map t_items l.
Lemma igt_tiers_nth g l : forall n ts is_ rs j t, igt_tiers fuel g n ts is_ l = Ok rs -> nth_error l j = Some t ->
  exists r u rs' seen', let cx := make_context (tier_id t) (n + j) (L "<tier>") (L "<igt>") in
    validate_tier fuel g t cx = Ok r /\ unique_in cx (tier_id t) (seen_before tier_id ts (firstn j l)) = Ok u
    /\ igt_items 0 (seen_before item_id is_ (items_before (firstn j l))) (t_items t) (report_kids r) = Ok (rs', seen')
    /\ nth_error rs j = Some (Report (report_recs r ++ u) rs' (tier_id t) (n + j)).
Proof.
  induction l as [|x l IH]; intros n ts is_ rs j t H Hj; [destruct j; discriminate|].
  cbn [igt_tiers] in H. inv_ok. destruct x2 as [rs2 seen2]. cbn [fst snd] in *. destruct j as [|j].
  - cbn in Hj. injection Hj as ->. rewrite Nat.add_0_r. eexists _, _, _, _. cbn. eauto.
  - destruct (IH _ _ _ _ j t K2 Hj) as (r & u & rs' & seen' & H1 & H2 & H3 & H4).
    rewrite <- plus_n_Sm. eexists _, _, _, _. cbn. split; [exact H1|]. split; [exact H2|]. split; [|exact H4].
    rewrite <- H3. f_equal. unfold items_before. cbn [flat_map].
    assert (Hlen : length (report_kids x0) = length (t_items x)).
    { unfold validate_tier in K. inv_ok. cbn. eapply tier_items_length; eauto. }
    rewrite (igt_items_seen _ _ _ _ _ _ K1 Hlen). unfold seen_before. now rewrite fold_left_app.
Qed.
Lemma corpus_igts_nth l : forall n seen e rs i g, corpus_igts fuel n seen l e = Ok rs -> nth_error l i = Some g ->
  exists r u, let cx := make_context (igt_id g) (n + i) (L "<igt>") (L "<xigt-corpus>") in
    validate_igt fuel g cx = Ok r /\ unique_in cx (igt_id g) (seen_before igt_id seen (firstn i l)) = Ok u
    /\ nth_error rs i = Some (extend_recs r u).
Proof.
  induction l as [|x l IH]; intros n seen e rs i g H Hi; [destruct i; discriminate|].
  cbn [corpus_igts] in H. inv_ok. destruct i as [|i].
  - cbn in Hi. injection Hi as ->. rewrite Nat.add_0_r. eexists _, _. cbn. eauto.
  - destruct (IH _ _ _ _ i g K1 Hi) as (r & u & H1 & H2 & H3). rewrite <- plus_n_Sm. eexists _, _. cbn. eauto.
Qed.

(* ---------- what the records at a place are ---------- *)

Lemma igt_records ci gs e n ids_ r i g : validate_corpus fuel ci gs e n ids_ = Ok r -> nth_error gs i = Some g ->
  exists recs u r0, records_at r [i] (recs ++ u)
    /\ validate (make_context (igt_id g) i (L "<igt>") (L "<xigt-corpus>")) [(SHOULD, has_id (igt_id g))] = Ok recs
    /\ (forall x, In x u <-> x = not_unique (L "<igt>") (L "<xigt-corpus>") /\ repeats igt_id gs i)
    /\ igt_tiers fuel g 0 [] [] (g_tiers g) = Ok r0
    /\ forall path, report_at r (i :: path) = match path with [] => report_at r [i]
         | j :: path => match nth_error r0 j with Some k => report_at k path | None => None end end.
Proof.
  unfold validate_corpus. intros H Hg. inv_ok. destruct (corpus_igts_nth _ _ _ _ _ _ _ K0 Hg) as (r & u & H1 & H2 & H3).
  cbn [Nat.add] in H1, H2. unfold validate_igt in H1. inv_ok.
  destruct (unique_in_ok (make_context (igt_id g) i (L "<igt>") (L "<xigt-corpus>")) (igt_id g) (seen_before igt_id [] (firstn i gs))
     (L "<igt>") (L "<xigt-corpus>") eq_refl eq_refl) as (u' & Hu & Hiff); [cbn; tauto|cbn; tauto|].
  rewrite H2 in Hu. injection Hu as <-.
  exists x1, u, x2. split; [|split; [exact K1|split; [|split; [exact K2|]]]].
  - eexists. cbn. rewrite H3. split; reflexivity.
  - intros r. rewrite Hiff, <- (repeats_seen _ _ _ _ Hg). reflexivity.
  - intros [|j path]; [reflexivity|]. cbn. rewrite H3. reflexivity.
Qed.

Lemma tier_records ci gs e n ids_ r i j g t : validate_corpus fuel ci gs e n ids_ = Ok r -> tier_at gs i j g t ->
  exists recs u rs rs' seen', records_at r [i; j] (recs ++ u)
    /\ validate (make_context (tier_id t) j (L "<tier>") (L "<igt>")) (tier_conditions g t) = Ok recs
    /\ (forall x, In x u <-> x = not_unique (L "<tier>") (L "<igt>") /\ repeats tier_id (g_tiers g) j)
    /\ tier_items fuel g t 0 [] (t_items t) = Ok rs
    /\ igt_items 0 (seen_before item_id [] (items_before (firstn j (g_tiers g)))) (t_items t) rs = Ok (rs', seen')
    /\ forall k, report_at r [i; j; k] = nth_error rs' k.
Proof.
  intros H [Hg Ht]. destruct (igt_records _ _ _ _ _ _ _ _ H Hg) as (_ & _ & r0 & _ & _ & _ & Hr0 & Hpath).
  destruct (igt_tiers_nth _ _ _ _ _ _ _ _ Hr0 Ht) as (r1 & u & rs' & seen' & H1 & H2 & H3 & H4). cbn [Nat.add] in H1, H2, H4.
  unfold validate_tier in H1. inv_ok. cbn [report_kids report_recs] in H3, H4.
  destruct (unique_in_ok (make_context (tier_id t) j (L "<tier>") (L "<igt>")) (tier_id t) (seen_before tier_id [] (firstn j (g_tiers g)))
     (L "<tier>") (L "<igt>") eq_refl eq_refl) as (u' & Hu & Hiff); [cbn; tauto|cbn; tauto|].
  rewrite H2 in Hu. injection Hu as <-.
  exists x, u, x0, rs', seen'. split; [|split; [exact K|split; [|split; [exact K0|split; [exact H3|]]]]].
  - eexists. rewrite (Hpath [j]). cbn. rewrite H4. split; reflexivity.
  - intros q. rewrite Hiff, <- (repeats_seen _ _ _ _ Ht). reflexivity.
  - intros k. rewrite (Hpath [j; k]), H4. cbn. now destruct (nth_error rs' k).
Qed.

(* item k of tier j is the number |items of earlier tiers| + k of the igt *)
Lemma nth_items_before (l : list tier) j t k it : nth_error l j = Some t -> nth_error (t_items t) k = Some it ->
  nth_error (flat_map t_items l) (length (items_before (firstn j l)) + k) = Some it.
Proof.
  revert j. induction l as [|x l IH]; intros j Hj Hk; [destruct j; discriminate|]. destruct j as [|j]; cbn in Hj.
  - injection Hj as ->. cbn. rewrite nth_error_app1; [easy|]. apply nth_error_Some. congruence.
  - unfold items_before. cbn [firstn flat_map]. rewrite app_length, <- Nat.add_assoc, nth_error_app2 by lia.
    replace (length (t_items x) + _ - length (t_items x)) with (length (items_before (firstn j l)) + k) by (unfold items_before; lia).
    now apply IH.
Qed.
Lemma firstn_items_before (l : list tier) j t k : nth_error l j = Some t -> k <= length (t_items t) ->
  firstn (length (items_before (firstn j l)) + k) (flat_map t_items l) = items_before (firstn j l) ++ firstn k (t_items t).
Proof.
  revert j. induction l as [|x l IH]; intros j Hj Hk; [destruct j; discriminate|]. destruct j as [|j]; cbn in Hj.
  - injection Hj as ->. cbn. rewrite firstn_app. replace (k - length (t_items t)) with 0 by lia. cbn. now rewrite app_nil_r.
  - unfold items_before. cbn [firstn flat_map]. rewrite app_length, <- Nat.add_assoc, firstn_app_2, <- app_assoc. f_equal. now apply IH.
Qed.

Lemma item_records ci gs e n ids_ r i j k g t it : validate_corpus fuel ci gs e n ids_ = Ok r -> item_at gs i j k g t it ->
  exists recs u v, records_at r [i; j; k] ((recs ++ u) ++ v)
    /\ validate (make_context (item_id it) k (L "<item>") (L "<tier>")) (item_conditions fuel g t it) = Ok recs
    /\ (forall x, In x u <-> x = not_unique (L "<item>") (L "<tier>") /\ repeats item_id (t_items t) k)
    /\ (forall x, In x v <-> x = not_unique (L "<item>") (L "<igt>")
          /\ repeats item_id (flat_map t_items (g_tiers g)) (length (flat_map t_items (firstn j (g_tiers g))) + k)).
Proof.
  intros H [Ht Hk]. destruct (tier_records _ _ _ _ _ _ _ _ _ _ H Ht) as (_ & _ & rs & rs' & seen' & _ & _ & _ & Hrs & Hrs' & Hpath).
  destruct (tier_items_nth _ _ _ _ _ _ _ _ Hrs Hk) as (r1 & u & H1 & H2 & H3). cbn [Nat.add] in H1, H2.
  destruct (igt_items_nth _ _ _ _ _ _ _ _ _ Hrs' (tier_items_length _ _ _ _ _ _ Hrs) Hk H3) as (v & H4 & H5). cbn [Nat.add] in H4.
  unfold validate_item in H1. inv_ok.
  destruct (unique_in_ok (make_context (item_id it) k (L "<item>") (L "<tier>")) (item_id it) (seen_before item_id [] (firstn k (t_items t)))
     (L "<item>") (L "<tier>") eq_refl eq_refl) as (u' & Hu & Hiff); [cbn; tauto|cbn; tauto|].
  rewrite H2 in Hu. injection Hu as <-.
  destruct (unique_in_ok (make_context (item_id it) k (L "<item>") (L "<igt>")) (item_id it)
     (seen_before item_id (seen_before item_id [] (items_before (firstn j (g_tiers g)))) (firstn k (t_items t)))
     (L "<item>") (L "<igt>") eq_refl eq_refl) as (v' & Hv & Hiff'); [cbn; tauto|cbn; tauto|].
  rewrite H4 in Hv. injection Hv as <-.
  exists x, u, v. split; [|split; [exact K|split]].
  - eexists. rewrite Hpath, H5. split; reflexivity.
  - intros q. rewrite Hiff, <- (repeats_seen _ _ _ _ Hk). reflexivity.
  - intros q. rewrite Hiff'. fold (items_before (firstn j (g_tiers g))).
    destruct Ht as [Hg Ht].
    rewrite (repeats_seen _ _ _ _ (nth_items_before _ _ _ _ _ Ht Hk)).
    rewrite (firstn_items_before _ _ _ _ Ht) by (apply Nat.lt_le_incl, nth_error_Some; congruence).
    unfold seen_before at 1 2. rewrite <- fold_left_app. reflexivity.
Qed.

(* ---------- kinds of messages ---------- *)

Ltac no_lit H := exfalso; revert H; clear; let H := fresh in intros H;
  repeat match type of H with _ /\ _ => destruct H as [_ H] end;
  first [ apply (f_equal (fun s => nth 4 s 0%N)) in H; vm_compute in H; discriminate
        | apply (f_equal (fun s => nth 5 s 0%N)) in H; vm_compute in H; discriminate
        | apply (f_equal (fun s => nth 0 s 0%N)) in H; vm_compute in H; discriminate
        | apply (f_equal (fun s => nth 20 s 0%N)) in H; vm_compute in H; discriminate ].

Lemma template_ok m cx a b msg : lit a -> format m cx None (a ++ L "{modal}" ++ b) = Ok msg ->
  exists r, format m cx None b = Ok r /\ msg = a ++ modal_text m ++ r.
Proof. intros H. rewrite format_template by easy. intros K. inv_ok. eexists. split; [eassumption|reflexivity]. Qed.

Lemma has_id_template m cx i t msg : has_id i = Ok (Some t) -> format m cx None t = Ok msg -> exists r, msg = L "Each " ++ r.
Proof.
  unfold has_id. destruct (truthy i); intros [= <-].
  change (L "Each {name} {modal} specify an id.") with (L "Each " ++ L "{name} {modal} specify an id.").
  rewrite format_lit by lits. intros K. inv_ok. eexists. reflexivity.
Qed.
Lemma has_type_template m cx i t msg : has_type i = Ok (Some t) -> format m cx None t = Ok msg -> exists r, msg = L "Each " ++ r.
Proof.
  unfold has_type. destruct (truthy i); intros [= <-].
  change (L "Each {name} {modal} specify a type.") with (L "Each " ++ L "{name} {modal} specify a type.").
  rewrite format_lit by lits. intros K. inv_ok. eexists. reflexivity.
Qed.

(* the texts of the three item conditions *)
Definition missing_head (ra : str) : str := L "The """ ++ ra ++ L """ alignment expression ".
Definition missing_rest (tid : str) (l : list str) : str :=
  L " select available <item> ids from the aligned <tier> (""" ++ tid ++ L """). The following are unavailable: " ++ join (L ", ") l.

Lemma refattr_lit ra : refattr ra -> lit ra.
Proof. intros [<-|[<-|[<-|[]]]]; lits. Qed.
Lemma refattr_in ra : refattr ra <-> In ra reference_attributes.
Proof. reflexivity. Qed.

Lemma lit_join l : (forall x, In x l -> lit x) -> lit (join (L ", ") l).
Proof.
  induction l as [|x l IH]; intros H; [intros c []|]. destruct l as [|y l].
  - cbn. apply H. now left.
  - change (join (L ", ") (x :: y :: l)) with (x ++ L ", " ++ join (L ", ") (y :: l)).
    apply lit_app; [apply H; now left|]. apply lit_app; [lits|]. apply IH. intros z Hz. apply H. now right.
Qed.
Lemma id_shape_lit i : id_shape i -> lit i.
Proof.
  intros (c & t & -> & Hc & Ht) d Hd.
  assert (Hno : forall b, (b = Ch "{" \/ b = Ch "}") -> N.eqb d b = false).
  { intros b Hb. apply N.eqb_neq. intros ->. destruct Hd as [<-|Hd].
    - unfold ascii_letter in Hc. destruct Hb as [->| ->]; unfold Ch in Hc; cbn in Hc; lia.
    - rewrite Forall_forall in Ht. destruct (Ht _ Hd) as [H|[H|H]].
      + destruct Hb as [->| ->]; discriminate.
      + destruct Hb as [->| ->]; discriminate.
      + destruct Hb as [->| ->]; unfold is_word, cclass in H; cbn in H; discriminate. }
  split; apply Hno; auto.
Qed.
Lemma ids_shape e : Forall id_shape (ids e).
Proof. eapply id_tokens_shape. apply ids_tokens. Qed.

Lemma missing_template g t it ra tm : algnexpr_ids_in_referred_tier g t it ra = Ok (Some tm) ->
  exists e rt, reference g t it ra = Some (e, rt) /\ missing_ids rt e <> []
    /\ tm = missing_head ra ++ L "{modal}" ++ missing_rest (str_of (tier_id rt)) (missing_ids rt e).
Proof.
  unfold algnexpr_ids_in_referred_tier. destruct (reference g t it ra) as [[e rt]|]; [|discriminate].
  destruct (missing_ids rt e) as [|i l] eqn:E; [discriminate|]. intros [= <-]. exists e, rt. rewrite E.
  split; [reflexivity|]. split; [discriminate|]. unfold missing_head, missing_rest. rewrite <- !app_assoc. reflexivity.
Qed.
Lemma missing_ids_shape rt e i : In i (missing_ids rt e) -> id_shape i.
Proof. intros H. apply filter_In in H as [H _]. apply (proj1 (Forall_forall _ _) (ids_shape e)). exact H. Qed.

Lemma outside_template g t it ra tm : algnexpr_spans_in_aligned_item fuel g t it ra = Ok (Some tm) ->
  exists e rt l, reference g t it ra = Some (e, rt) /\ filterM (span_outside fuel g rt) (spans e true) = Ok l /\ l <> []
    /\ tm = L "Alignment expressions " ++ L "{modal}" ++ L " select spans within the aligned <item> elements. The following spans are not valid: " ++ join (L ", ") l.
Proof.
  unfold algnexpr_spans_in_aligned_item. destruct (reference g t it ra) as [[e rt]|]; [|discriminate].
  intros H. inv_ok. destruct x as [|a l]; [discriminate|]. exists e, rt, (a :: l).
  split; [reflexivity|]. split; [exact K|]. split; [discriminate|]. injection H as <-. reflexivity.
Qed.
Lemma overlap_template g t it ra tm : algnexpr_spans_do_not_overlap fuel g t it ra = Ok (Some tm) ->
  exists e rt d l, reference g t it ra = Some (e, rt) /\ foldM (count_span fuel g rt) (spans e true) [] = Ok d
    /\ l = map fst (filter (fun kv => counted_twice (snd kv)) d) /\ l <> []
    /\ tm = L "Alignment expression spans " ++ L "{modal}" ++ L " NOT overlap. Spans for the following <item> elements overlap: " ++ join (L ", ") l.
Proof.
  unfold algnexpr_spans_do_not_overlap. destruct (reference g t it ra) as [[e rt]|]; [|discriminate].
  intros H. inv_ok. destruct (map fst _) as [|a l] eqn:E; [discriminate|]. exists e, rt, x, (a :: l).
  split; [reflexivity|]. split; [exact K|]. split; [now rewrite E|]. split; [discriminate|]. injection H as <-. reflexivity.
Qed.

Inductive item_message (g : igt) (t : tier) (it : item) (cx : context) : record -> Prop :=
| IM_id r : item_message g t it cx (warning (L "Each " ++ r))
| IM_missing ra e rt r : refattr ra -> reference g t it ra = Some (e, rt) -> missing_ids rt e <> [] ->
    format MUST cx None (missing_rest (str_of (tier_id rt)) (missing_ids rt e)) = Ok r ->
    item_message g t it cx (error (missing_head ra ++ L "MUST" ++ r))
| IM_outside ra e rt l r : refattr ra -> reference g t it ra = Some (e, rt) ->
    filterM (span_outside fuel g rt) (spans e true) = Ok l -> l <> [] ->
    format SHOULD cx None (L " select spans within the aligned <item> elements. The following spans are not valid: " ++ join (L ", ") l) = Ok r ->
    item_message g t it cx (warning (L "Alignment expressions SHOULD" ++ r))
| IM_overlap ra e rt d l r : refattr ra -> reference g t it ra = Some (e, rt) ->
    foldM (count_span fuel g rt) (spans e true) [] = Ok d -> l = map fst (filter (fun kv => counted_twice (snd kv)) d) -> l <> [] ->
    format SHOULD cx None (L " NOT overlap. Spans for the following <item> elements overlap: " ++ join (L ", ") l) = Ok r ->
    item_message g t it cx (warning (L "Alignment expression spans SHOULD" ++ r)).

Lemma record_eq r lv msg : rec_level r = lv -> rec_msg r = msg -> r = {| rec_level := lv; rec_msg := msg |}.
Proof. destruct r; cbn; congruence. Qed.

Ltac pair_inv Hin := let Hm := fresh "Hm" in pose proof (f_equal fst Hin) as Hm; pose proof (f_equal snd Hin) as Hc;
  cbn [fst snd] in Hm, Hc; subst; clear Hin.

Lemma item_messages g t it cx recs r : validate cx (item_conditions fuel g t it) = Ok recs -> In r recs -> item_message g t it cx r.
Proof.
  intros H Hr. destruct (validate_recs _ _ _ _ H Hr) as (m & c & tm & Hin & -> & _ & Hl & Hf).
  unfold item_conditions in Hin. destruct Hin as [Hin|Hin].
  - pair_inv Hin. destruct (has_id_template _ _ _ _ _ Hc Hf) as [s Hs].
    rewrite (record_eq _ _ _ Hl Hs). apply IM_id.
  - apply in_flat_map in Hin as (ra & Hra & Hin). apply refattr_in in Hra. cbn [In] in Hin.
    destruct Hin as [Hin|[Hin|[Hin|[]]]]; pair_inv Hin.
    + apply missing_template in Hc as (e & rt & Hre & Hne & ->).
      apply template_ok in Hf as (s & Hf & Hs).
      * rewrite (record_eq _ _ _ Hl Hs). eapply IM_missing; eauto.
      * apply lit_app; [lits|]. apply lit_app; [now apply refattr_lit|lits].
    + apply outside_template in Hc as (e & rt & l & Hre & Hfm & Hne & ->).
      apply template_ok in Hf as (s & Hf & Hs); [|lits].
      rewrite (record_eq _ _ _ Hl Hs). eapply (IM_outside _ _ _ _ ra); eauto.
    + apply overlap_template in Hc as (e & rt & d & l & Hre & Hfm & Hl' & Hne & ->).
      apply template_ok in Hf as (s & Hf & Hs); [|lits].
      rewrite (record_eq _ _ _ Hl Hs). eapply (IM_overlap _ _ _ _ ra); eauto.
Qed.

Ltac differ H k := exfalso; apply (f_equal (fun s => nth k s 0%N)) in H; vm_compute in H; discriminate.

(* ---------- C32 ---------- *)

Lemma records_at_fun r p l l' : records_at r p l -> records_at r p l' -> l = l'.
Proof. intros (k & H1 & <-) (k' & H2 & <-). congruence. Qed.

Theorem unique_igt ci gs e n ids_ r i g l : validate_corpus fuel ci gs e n ids_ = Ok r -> nth_error gs i = Some g ->
  records_at r [i] l -> (In (not_unique (L "<igt>") (L "<xigt-corpus>")) l <-> repeats igt_id gs i).
Proof.
  intros H Hg Hl. destruct (igt_records _ _ _ _ _ _ _ _ H Hg) as (recs & u & r0 & Hr & Hv & Hu & _).
  rewrite (records_at_fun _ _ _ _ Hl Hr), in_app_iff, Hu. split; [|auto]. intros [Hin|[_ Hin]]; [|exact Hin].
  destruct (validate_recs _ _ _ _ Hv Hin) as (m & c & tm & [Hi|[]] & -> & _ & _ & Hf). pair_inv Hi.
  destruct (has_id_template _ _ _ _ _ Hc Hf) as [s Hs]. differ Hs 4.
Qed.
Theorem report_igt ci gs e n ids_ r i g : validate_corpus fuel ci gs e n ids_ = Ok r -> nth_error gs i = Some g -> exists l, records_at r [i] l.
Proof. intros H Hg. destruct (igt_records _ _ _ _ _ _ _ _ H Hg) as (recs & u & r0 & Hr & _). eauto. Qed.

(* the messages of a tier *)
Lemma tier_messages g t cx recs r : validate cx (tier_conditions g t) = Ok recs -> In r recs ->
  (exists s, r = warning (L "Each " ++ s))
  \/ (exists l s, item_refattrs_specified_on_tier t = Ok (Some (L "Reference attributes on <item> elements " ++ L "{modal}" ++
        L " be specified on their <tier> as well. The following are not: " ++ join (L ", ") l))
        /\ l <> [] /\ (forall x, In x l -> refattr x)
        /\ r = error (L "Reference attributes on <item> elements MUST" ++ s)
        /\ format MUST cx None (L " be specified on their <tier> as well. The following are not: " ++ join (L ", ") l) = Ok s)
  \/ (exists ra, refattr ra /\ reference_id_in_igt g t ra <> Ok None /\ r = no_such_tier ra).
Proof.
  intros H Hr. destruct (validate_recs _ _ _ _ H Hr) as (m & c & tm & Hin & -> & _ & Hl & Hf).
  unfold tier_conditions in Hin. apply in_app_or in Hin as [[Hin|[Hin|[Hin|[]]]]|Hin].
  - pair_inv Hin. destruct (has_id_template _ _ _ _ _ Hc Hf) as [s Hs]. left. exists s. exact (record_eq _ _ _ Hl Hs).
  - pair_inv Hin. destruct (has_type_template _ _ _ _ _ Hc Hf) as [s Hs]. left. exists s. exact (record_eq _ _ _ Hl Hs).
  - pair_inv Hin. right. left. unfold item_refattrs_specified_on_tier in Hc |- *.
    destruct (filter _ _) as [|a l] eqn:E; [discriminate|]. injection Hc as <-.
    change (format MUST cx None (L "Reference attributes on <item> elements " ++ L "{modal}" ++
        L " be specified on their <tier> as well. The following are not: " ++ join (L ", ") (a :: l)) = Ok (rec_msg r)) in Hf.
    apply template_ok in Hf as (s & Hf & Hs); [|lits]. exists (a :: l), s. split; [reflexivity|]. split; [discriminate|]. split.
    + intros x Hx. rewrite <- E in Hx. apply filter_In in Hx as [Hx _]. cbn in Hx |- *. tauto.
    + split; [exact (record_eq _ _ _ Hl Hs)|exact Hf].
  - right. right. apply in_map_iff in Hin as (ra & Hin & Hra). pair_inv Hin. apply refattr_in in Hra. exists ra. split; [exact Hra|].
    split; [congruence|]. unfold reference_id_in_igt in Hc. destruct (dget _ ra) as [[|ch rid]|]; try discriminate.
    destruct (container_get _ _ _); [discriminate|].
    assert (Ht : tm = (L "The reference attribute """ ++ ra ++ L """ ") ++ L "{modal}" ++ L " select an available <tier> id.").
    { injection Hc as <-. rewrite <- !app_assoc. reflexivity. }
    rewrite Ht in Hf. apply template_ok in Hf as (s & Hf & Hs).
    2:{ apply lit_app; [lits|]. apply lit_app; [now apply refattr_lit|lits]. }
    rewrite format_end in Hf by lits. injection Hf as <-. rewrite (record_eq _ _ _ Hl Hs). unfold no_such_tier, error.
    cbn [modal_level modal_text]. f_equal. rewrite <- !app_assoc. reflexivity.
Qed.

Theorem unique_tier ci gs e n ids_ r i j g t l : validate_corpus fuel ci gs e n ids_ = Ok r -> tier_at gs i j g t ->
  records_at r [i; j] l -> (In (not_unique (L "<tier>") (L "<igt>")) l <-> repeats tier_id (g_tiers g) j).
Proof.
  intros H Hg Hl. destruct (tier_records _ _ _ _ _ _ _ _ _ _ H Hg) as (recs & u & _ & _ & _ & Hr & Hv & Hu & _).
  rewrite (records_at_fun _ _ _ _ Hl Hr), in_app_iff, Hu. split; [|auto]. intros [Hin|[_ Hin]]; [|exact Hin].
  destruct (tier_messages _ _ _ _ _ Hv Hin) as [[s Hs]|[(l' & s & _ & _ & _ & Hs & _)|(ra & _ & _ & Hs)]];
    apply (f_equal rec_msg) in Hs; cbn [rec_msg not_unique no_such_tier error warning] in Hs.
  - differ Hs 4.
  - differ Hs 0.
  - differ Hs 4.
Qed.

Theorem unique_item ci gs e n ids_ r i j k g t it l : validate_corpus fuel ci gs e n ids_ = Ok r -> item_at gs i j k g t it ->
  records_at r [i; j; k] l ->
  (In (not_unique (L "<item>") (L "<tier>")) l <-> repeats item_id (t_items t) k)
  /\ (In (not_unique (L "<item>") (L "<igt>")) l
      <-> repeats item_id (flat_map t_items (g_tiers g)) (length (flat_map t_items (firstn j (g_tiers g))) + k)).
Proof.
  intros H Hg Hl. destruct (item_records _ _ _ _ _ _ _ _ _ _ _ _ H Hg) as (recs & u & v & Hr & Hv & Hu & Hv').
  rewrite (records_at_fun _ _ _ _ Hl Hr), !in_app_iff, !Hu, !Hv'.
  assert (Hno : forall scope, ~ In (not_unique (L "<item>") scope) recs).
  { intros scope Hin. assert (Hm := item_messages _ _ _ _ _ _ Hv Hin). remember (not_unique (L "<item>") scope) as q eqn:Hs.
    destruct Hm; apply (f_equal rec_msg) in Hs; cbn [rec_msg not_unique error warning] in Hs.
    - differ Hs 4.
    - differ Hs 4.
    - differ Hs 0.
    - differ Hs 0. }
  assert (Hd : not_unique (L "<item>") (L "<tier>") <> not_unique (L "<item>") (L "<igt>")) by (vm_compute; congruence).
  split.
  - split; [|auto]. intros [[Hin|[_ Hin]]|[Hin _]]; [now apply Hno in Hin|exact Hin|now apply Hd in Hin].
  - split; [|auto]. intros [[Hin|[Hin _]]|[_ Hin]]; [now apply Hno in Hin|now symmetry in Hin; apply Hd in Hin|exact Hin].
Qed.
Theorem report_tier ci gs e n ids_ r i j g t : validate_corpus fuel ci gs e n ids_ = Ok r -> tier_at gs i j g t -> exists l, records_at r [i; j] l.
Proof. intros H Hg. destruct (tier_records _ _ _ _ _ _ _ _ _ _ H Hg) as (recs & u & _ & _ & _ & Hr & _). eauto. Qed.
Theorem report_item ci gs e n ids_ r i j k g t it : validate_corpus fuel ci gs e n ids_ = Ok r -> item_at gs i j k g t it ->
  exists l, records_at r [i; j; k] l.
Proof. intros H Hg. destruct (item_records _ _ _ _ _ _ _ _ _ _ _ _ H Hg) as (recs & u & v & Hr & _). eauto. Qed.

Theorem unique_corpus ci gs e n ids_ r l : validate_corpus fuel ci gs e n ids_ = Ok r -> records_at r [] l ->
  (In (not_unique (L "<xigt-corpus>") (L "collection")) l <-> exists k, k <> [] /\ ci = Some k /\ In k ids_).
Proof.
  intros H Hl. unfold validate_corpus in H. inv_ok.
  assert (Hr : records_at (Report x x0 ci n) [] x) by (eexists; split; reflexivity).
  rewrite (records_at_fun _ _ _ _ Hl Hr). clear Hr Hl.
  cbn [validate] in K. inv_ok.
  destruct (unique_in_ok (make_context ci n (L "<xigt-corpus>") (L "collection")) ci ids_ (L "<xigt-corpus>") (L "collection")) as (u & Hu & Hiff);
    [reflexivity|reflexivity|cbn; tauto|cbn; tauto|]. unfold unique_in in Hu. rewrite Hu in K3. injection K3 as <-.
  rewrite !in_app_iff, Hiff. split; [|intros Hk; right; left; auto].
  intros [Hin|[[_ Hin]|[]]]; [|exact Hin]. exfalso.
  apply condition_recs in K1 as [(tm & msg & Hc & _ & Hf & ->)|(_ & ->)]; [|destruct Hin].
  destruct Hin as [Hin|[]]. apply (f_equal rec_msg) in Hin.
  destruct (has_id_template _ _ _ _ _ Hc Hf) as [s Hs]. cbn [rec_msg not_unique error] in Hin. rewrite Hs in Hin. differ Hin 4.
Qed.

(* ---------- C34: tiers ---------- *)

Lemma py_index_none n z : py_index n z = None <-> ~ (- Z.of_nat n <= z < Z.of_nat n)%Z.
Proof.
  unfold py_index. destruct (z <? 0)%Z eqn:E; [apply Z.ltb_lt in E|apply Z.ltb_ge in E];
  destruct (_ && _) eqn:F; (split; [intros H|intros H]); try easy.
  - exfalso. apply H. apply andb_true_iff in F as [F1 F2]. apply Z.leb_le in F1. apply Z.ltb_lt in F2. lia.
  - intros K. apply andb_false_iff in F as [F|F]; [apply Z.leb_gt in F|apply Z.ltb_ge in F]; lia.
  - exfalso. apply H. apply andb_true_iff in F as [F1 F2]. apply Z.leb_le in F1. apply Z.ltb_lt in F2. lia.
  - intros K. apply andb_false_iff in F as [F|F]; [apply Z.leb_gt in F|apply Z.ltb_ge in F]; lia.
Qed.
Lemma py_index_lt n z k : py_index n z = Some k -> k < n.
Proof.
  unfold py_index. destruct (_ && _) eqn:F; [|easy]. intros [= <-]. apply andb_true_iff in F as [F1 F2].
  apply Z.leb_le in F1. apply Z.ltb_lt in F2. lia.
Qed.
Lemma get_none {A} (idof : A -> option str) l k : container_get idof l k = None <-> no_member idof l k /\ ~ is_position (length l) k.
Proof.
  unfold container_get, is_position. split.
  - destruct (find_id idof l k) eqn:E; [easy|]. apply find_id_none in E. intros H. split; [easy|]. intros (z & Hz & Hr).
    rewrite Hz in H. destruct (py_index (length l) z) as [n|] eqn:F.
    + apply py_index_lt in F. apply nth_error_None in H. lia.
    + apply py_index_none in F. auto.
  - intros [H1 H2]. apply find_id_none in H1. rewrite H1. destruct (py_int k) as [z|]; [|easy].
    destruct (py_index (length l) z) as [n|] eqn:F; [|easy]. exfalso. apply H2. exists z. split; [easy|].
    destruct (Z.le_gt_cases (- Z.of_nat (length l)) z) as [G1|G1], (Z.lt_ge_cases z (Z.of_nat (length l))) as [G2|G2]; try lia;
    (assert (K : py_index (length l) z = None); [apply py_index_none; lia|congruence]).
Qed.
Lemma get_id_shape {A} (idof : A -> option str) l i : id_shape i -> (container_get idof l i = None <-> no_member idof l i).
Proof.
  intros Hi. rewrite get_none. split; [tauto|]. intros H. split; [easy|]. intros (z & Hz & _). rewrite id_shape_int in Hz; easy.
Qed.

Theorem missing_tier ci gs e n ids_ r i j g t l ra : validate_corpus fuel ci gs e n ids_ = Ok r -> tier_at gs i j g t ->
  records_at r [i; j] l -> refattr ra ->
  (In (no_such_tier ra) l <-> exists rid, attr (t_attrs t) ra = Some rid /\ rid <> []
     /\ no_member tier_id (g_tiers g) rid /\ ~ is_position (length (g_tiers g)) rid).
Proof.
  intros H Hg Hl Hra. destruct (tier_records _ _ _ _ _ _ _ _ _ _ H Hg) as (recs & u & _ & _ & _ & Hr & Hv & Hu & _).
  rewrite (records_at_fun _ _ _ _ Hl Hr), in_app_iff, Hu.
  assert (Hcond : reference_id_in_igt g t ra <> Ok None <-> exists rid, attr (t_attrs t) ra = Some rid /\ rid <> []
     /\ no_member tier_id (g_tiers g) rid /\ ~ is_position (length (g_tiers g)) rid).
  { unfold reference_id_in_igt, attr. destruct (dget _ ra) as [[|c rid]|].
    - split; [easy|]. intros (x & [= <-] & Hx & _). easy.
    - destruct (container_get _ _ _) eqn:E.
      + split; [easy|]. intros (x & [= <-] & _ & Hx). apply get_none in Hx. congruence.
      + apply get_none in E. split; [intros _|easy]. exists (c :: rid). repeat split; (easy || tauto).
    - split; [easy|]. intros (x & [=] & _). }
  rewrite <- Hcond. split.
  - intros [Hin|[Hin _]].
    + destruct (tier_messages _ _ _ _ _ Hv Hin) as [[s Hs]|[(l' & s & _ & _ & _ & Hs & _)|(ra' & Hra' & Hc & Hs)]];
        apply (f_equal rec_msg) in Hs; cbn [rec_msg not_unique no_such_tier error warning] in Hs.
      * differ Hs 0.
      * differ Hs 0.
      * assert (ra = ra') as ->; [|exact Hc].
        destruct Hra as [<-|[<-|[<-|[]]]], Hra' as [<-|[<-|[<-|[]]]]; try reflexivity; differ Hs 25.
    + exfalso. apply (f_equal rec_msg) in Hin; cbn [rec_msg not_unique no_such_tier error warning] in Hin. differ Hin 4.
  - intros Hc. left.
    assert (Hex : exists tm, reference_id_in_igt g t ra = Ok (Some tm)
        /\ tm = (L "The reference attribute """ ++ ra ++ L """ ") ++ L "{modal}" ++ L " select an available <tier> id.").
    { unfold reference_id_in_igt in *. destruct (dget _ ra) as [[|c rid]|]; try easy. destruct (container_get _ _ _); [easy|].
      eexists. split; [reflexivity|]. rewrite <- !app_assoc. reflexivity. }
    destruct Hex as (tm & Ht & Htm).
    destruct (validate_in _ _ MUST tm _ Hv) as (msg & Hf & Hin).
    + unfold tier_conditions. apply in_or_app. right. apply in_map_iff. exists ra. rewrite Ht. split; [reflexivity|exact Hra].
    + rewrite Htm. easy.
    + rewrite Htm in Hf. apply template_ok in Hf as (s & Hf & Hs).
      2:{ apply lit_app; [lits|]. apply lit_app; [now apply refattr_lit|lits]. }
      rewrite format_end in Hf by lits. injection Hf as <-. unfold no_such_tier, error.
      replace (L "The reference attribute """ ++ ra ++ L """ MUST select an available <tier> id.") with msg; [exact Hin|].
      rewrite Hs. cbn [modal_text]. rewrite <- !app_assoc. reflexivity.
Qed.

Lemma dget_mem {A} (d : dict A) k : dmem d k = true <-> dget d k <> None.
Proof. unfold dmem, dget. destruct (dget_ str_eqb d k); split; easy. Qed.

Theorem unspecified_attrs ci gs e n ids_ r i j g t l : validate_corpus fuel ci gs e n ids_ = Ok r -> tier_at gs i j g t ->
  records_at r [i; j] l ->
  ((exists ra, lacks t ra) -> exists lst, In (unspecified lst) l /\ (forall ra, In ra lst <-> lacks t ra))
  /\ (forall lst, In (unspecified lst) l -> exists ra, lacks t ra).
Proof.
  intros H Hg Hl. destruct (tier_records _ _ _ _ _ _ _ _ _ _ H Hg) as (recs & u & _ & _ & _ & Hr & Hv & Hu & _).
  rewrite (records_at_fun _ _ _ _ Hl Hr).
  set (lst := filter (fun ra => existsb (fun it => dmem (a_dict (it_attrs it)) ra) (t_items t)
                                   && negb (dmem (a_dict (t_attrs t)) ra)) [ALIGNMENT; CONTENT; SEGMENTATION]).
  assert (Hlst : forall ra, In ra lst <-> lacks t ra).
  { intros ra. unfold lst, lacks, attr. rewrite filter_In, andb_true_iff, existsb_exists, negb_true_iff.
    assert (Hx : dmem (a_dict (t_attrs t)) ra = false <-> dget (a_dict (t_attrs t)) ra = None).
    { destruct (dmem (a_dict (t_attrs t)) ra) eqn:E.
      - apply dget_mem in E. split; [easy|congruence].
      - split; [|easy]. intros _. destruct (dget _ _) eqn:F; [|easy]. assert (dmem (a_dict (t_attrs t)) ra = true) by (apply dget_mem; congruence). congruence. }
    rewrite Hx. setoid_rewrite dget_mem. unfold refattr. cbn [In]. change (L "alignment") with ALIGNMENT. change (L "content") with CONTENT.
    change (L "segmentation") with SEGMENTATION. tauto. }
  split.
  - intros [ra0 Hra0]. exists lst. split; [|exact Hlst]. apply in_or_app. left. apply Hlst in Hra0.
    assert (Hne : lst <> []) by (intros E; rewrite E in Hra0; destruct Hra0).
    set (b := L " be specified on their <tier> as well. The following are not: ").
    destruct (validate_in _ _ MUST (L "Reference attributes on <item> elements " ++ L "{modal}" ++ b ++ join (L ", ") lst) _ Hv) as (msg & Hf & Hin).
    + unfold tier_conditions. apply in_or_app. left. right. right. left. f_equal.
      unfold item_refattrs_specified_on_tier. fold lst. destruct lst; [easy|]. reflexivity.
    + easy.
    + apply template_ok in Hf as (s & Hf & Hs); [|lits].
      rewrite format_end in Hf.
      2:{ apply lit_app; [lits|]. apply lit_join. intros x Hx. apply Hlst in Hx as [Hx _]. now apply refattr_lit. }
      injection Hf as <-. unfold unspecified, error. 
      replace (L "Reference attributes on <item> elements MUST be specified on their <tier> as well. The following are not: " ++ join (L ", ") lst)
        with msg by (rewrite Hs; reflexivity). exact Hin.
  - intros lst' Hin. apply in_app_or in Hin as [Hin|Hin].
    + destruct (tier_messages _ _ _ _ _ Hv Hin) as [[s Hs]|[(l' & s & Hc & Hne & _ & Hs & _)|(ra' & Hra' & Hc & Hs)]];
        try (apply (f_equal rec_msg) in Hs; cbn [rec_msg unspecified not_unique no_such_tier error warning] in Hs).
      * differ Hs 0.
      * unfold item_refattrs_specified_on_tier in Hc. fold lst in Hc. destruct lst as [|ra lst0] eqn:E; [discriminate|].
        exists ra. apply Hlst. now left.
      * differ Hs 0.
    + apply Hu in Hin as [Hin _]. apply (f_equal rec_msg) in Hin; cbn [rec_msg unspecified not_unique error] in Hin. differ Hin 0.
Qed.

(* ---------- C34: ids of items ---------- *)

Lemma refers_reference g t it ra e rt : refers g t it ra e rt -> reference g t it ra = Some (e, rt).
Proof.
  intros (rid & H1 & H2 & H3 & H4 & H5 & H6). unfold reference, get_referred_tier. unfold attr in *. rewrite H1, H4.
  destruct e; [easy|]. destruct rid; [easy|]. rewrite (get_member _ _ _ _ H3). now destruct (t_items rt).
Qed.

Lemma missing_ids_in rt e i : In i (missing_ids rt e) <-> In i (ids e) /\ no_member item_id (t_items rt) i.
Proof.
  unfold missing_ids. rewrite filter_In. split; intros [H1 H2]; (split; [exact H1|]);
    assert (Hi := proj1 (Forall_forall _ _) (ids_shape e) _ H1).
  - apply (get_id_shape item_id); [exact Hi|]. now destruct (container_get _ _ _).
  - apply (get_id_shape item_id) in H2; [|exact Hi]. now rewrite H2.
Qed.
Lemma missing_ids_absent rt e : missing_ids rt e = absent (t_items rt) (ids e).
Proof.
  unfold missing_ids, absent. apply filter_ext_in. intros i Hi.
  assert (Hs := proj1 (Forall_forall _ _) (ids_shape e) _ Hi).
  destruct (container_get item_id (t_items rt) i) eqn:E.
  - symmetry. apply negb_false_iff. destruct (existsb _ _) eqn:F; [easy|]. exfalso.
    assert (N : no_member item_id (t_items rt) i).
    { intros y Hy Ey. assert (existsb (fun it => opt_eqb str_eqb (item_id it) (Some i)) (t_items rt) = true); [|congruence].
      apply existsb_exists. exists y. split; [easy|]. rewrite Ey. cbn. apply str_eqb_refl. }
    apply (get_id_shape item_id) in N; [congruence|easy].
  - symmetry. apply negb_true_iff. destruct (existsb _ _) eqn:F; [|easy]. exfalso.
    apply existsb_exists in F as (y & Hy & Ey). apply (get_id_shape item_id) in E; [|easy]. apply (E y Hy).
    destruct (opt_eqb_spec str_eqb str_eqb_spec (item_id y) (Some i)); [easy|discriminate].
Qed.

Lemma item_condition_in g t it ra c : refattr ra ->
  In c [(MUST, algnexpr_ids_in_referred_tier g t it ra); (SHOULD, algnexpr_spans_in_aligned_item fuel g t it ra);
        (SHOULD, algnexpr_spans_do_not_overlap fuel g t it ra)] -> In c (item_conditions fuel g t it).
Proof. intros Hra Hc. right. apply in_flat_map. exists ra. split; [exact Hra|exact Hc]. Qed.

Theorem missing_items_found ci gs e n ids_ r i j k g t it l ra x rt lst : validate_corpus fuel ci gs e n ids_ = Ok r ->
  item_at gs i j k g t it -> records_at r [i; j; k] l -> refattr ra -> refers g t it ra x rt -> id_pieces x lst ->
  ((exists s, In (error (missing_prefix ra ++ s)) l) <-> exists a, In a lst /\ no_member item_id (t_items rt) a)
  /\ (forall rid, attr (t_attrs t) ra = Some rid -> no_braces rid -> absent (t_items rt) lst <> [] ->
      In (missing_items ra rid (absent (t_items rt) lst)) l).
Proof.
  intros H Hg Hl Hra Href Hlst. destruct (item_records _ _ _ _ _ _ _ _ _ _ _ _ H Hg) as (recs & u & v & Hr & Hv & Hu & Hv').
  rewrite (records_at_fun _ _ _ _ Hl Hr). apply ids_pieces in Hlst. subst lst.
  assert (Hrf := refers_reference _ _ _ _ _ _ Href).
  assert (Hcond : missing_ids rt x <> [] -> exists s, format MUST (make_context (item_id it) k (L "<item>") (L "<tier>")) None
       (missing_rest (str_of (tier_id rt)) (missing_ids rt x)) = Ok s /\ In (error (missing_head ra ++ L "MUST" ++ s)) recs).
  { intros Hne.
    destruct (validate_in _ _ MUST (missing_head ra ++ L "{modal}" ++ missing_rest (str_of (tier_id rt)) (missing_ids rt x)) _ Hv) as (msg & Hf & Hin).
    - eapply item_condition_in; [exact Hra|]. left. f_equal. unfold algnexpr_ids_in_referred_tier. rewrite Hrf.
      destruct (missing_ids rt x); [easy|]. unfold missing_head, missing_rest. rewrite <- !app_assoc. reflexivity.
    - easy.
    - apply template_ok in Hf as (s & Hf & Hs).
      2:{ apply lit_app; [lits|]. apply lit_app; [now apply refattr_lit|lits]. }
      exists s. split; [exact Hf|]. rewrite Hs in Hin. exact Hin. }
  split; [split|].
  - intros [s Hin]. rewrite !in_app_iff in Hin. destruct Hin as [[Hin|Hin]|Hin].
    + assert (Hm := item_messages _ _ _ _ _ _ Hv Hin). remember (error (missing_prefix ra ++ s)) as q eqn:Hs.
      destruct Hm as [s'|ra' e' rt' s' Hra' Hrf' Hne _|ra' e' rt' l' s'|ra' e' rt' d' l' s'];
        apply (f_equal rec_msg) in Hs; cbn [rec_msg not_unique error warning] in Hs.
      * differ Hs 0.
      * assert (ra = ra') as <-.
        { clear Hin. destruct Hra as [<-|[<-|[<-|[]]]], Hra' as [<-|[<-|[<-|[]]]]; try reflexivity; differ Hs 5. }
        rewrite Hrf in Hrf'. injection Hrf' as <- <-. destruct (missing_ids rt x) as [|a l'] eqn:E; [easy|].
        exists a. apply missing_ids_in. rewrite E. now left.
      * differ Hs 0.
      * differ Hs 0.
    + apply Hu in Hin as [Hin _]. apply (f_equal rec_msg) in Hin; cbn [rec_msg not_unique error] in Hin. differ Hin 4.
    + apply Hv' in Hin as [Hin _]. apply (f_equal rec_msg) in Hin; cbn [rec_msg not_unique error] in Hin. differ Hin 4.
  - intros (a & Ha). apply missing_ids_in in Ha.
    destruct Hcond as (s & Hf & Hin); [intros E; rewrite E in Ha; destruct Ha|].
    unfold missing_rest in Hf. rewrite format_lit in Hf by lits. inv_ok. eexists x0. rewrite !in_app_iff. left. left.
    replace (missing_prefix ra ++ x0) with (missing_head ra ++ L "MUST" ++ L " select available <item> ids from the aligned <tier> (""" ++ x0); [exact Hin|].
    unfold missing_prefix, missing_head. rewrite <- !app_assoc. reflexivity.
  - intros rid Hrid Hb Hne. rewrite <- missing_ids_absent in *. destruct Hcond as (s & Hf & Hin); [easy|].
    destruct Href as (rid' & Hrid' & Hrid'' & (_ & Hid & _) & _). rewrite Hrid in Hrid'. injection Hrid' as <-.
    unfold missing_rest in Hf. rewrite Hid in Hf. cbn [str_of] in Hf. rewrite format_end in Hf.
    2:{ apply lit_app; [lits|]. apply lit_app; [now apply no_braces_lit|]. apply lit_app; [lits|]. apply lit_join.
        intros a Ha. apply id_shape_lit. eapply missing_ids_shape; eauto. }
    apply Ok_inj in Hf. rewrite !in_app_iff. left. left.
    assert (Hq : missing_items ra rid (missing_ids rt x) = error (missing_head ra ++ L "MUST" ++ s)); [|rewrite Hq; exact Hin].
    unfold missing_items, missing_prefix, missing_head. rewrite <- Hf, <- !app_assoc. reflexivity.
Qed.

(* ---------- C34: spans ---------- *)

Lemma show_sel_head s : id_shape (sl_id s) -> exists c r, show_sel s = c :: r /\ ascii_letter c.
Proof. intros (c & t & H & Hc & _). rewrite show_sel_eq, H. exists c. eexists. split; [reflexivity|exact Hc]. Qed.
Lemma show_sel_no_delim s : id_shape (sl_id s) -> is_delimiter (show_sel s) = false.
Proof.
  intros Hi. destruct (show_sel_head _ Hi) as (c & r & -> & Hc). unfold is_delimiter. apply orb_false_iff. split; apply str_eqb_neq;
    intros E; injection E as -> ->; unfold ascii_letter, Ch in Hc; cbn in Hc; lia.
Qed.
Lemma show_sel_not_int s : id_shape (sl_id s) -> py_int (show_sel s) = None.
Proof. intros Hi. destruct (show_sel_head _ Hi) as (c & r & -> & Hc). now apply letter_not_int. Qed.

Lemma match_show_sel tight f s : wf_sel tight f s -> exists m, re_match selection_re (show_sel s) = Some m
  /\ cap 2 m = Some (sl_id s) /\ cap 3 m = opt_range (sl_spans s).
Proof.
  intros (_ & Hi & Hl). unfold re_match. rewrite match_sel. unfold sel_at. cbn [Nat.eqb].
  rewrite show_sel_eq, <- (app_nil_r (show_tail _)), (idrange_shape tight) by (easy || exact I).
  eexists. split; [reflexivity|]. split; destruct (sl_spans s); reflexivity.
Qed.
Lemma match_show_span a b : num_shape a -> num_shape b -> exists m, re_match span_re (a ++ L ":" ++ b) = Some m
  /\ cap 2 m = Some a /\ cap 3 m = Some b.
Proof.
  intros Ha Hb. unfold re_match. replace (a ++ L ":" ++ b) with ([] ++ a ++ L ":" ++ b ++ []) by (cbn [app]; now rewrite app_nil_r).
  rewrite match_span.
  rewrite span_at_shape by (auto || exact I). eexists. split; [reflexivity|]. split; reflexivity.
Qed.

Lemma span_outside_sel g rt tight f s : wf_sel tight f s -> length (sl_spans s) <= 1 ->
  Forall (fun sp => py_int (sp_start sp) <> None /\ py_int (sp_end sp) <> None) (sl_spans s) ->
  unambiguous item_id (t_items rt) (sl_id s) ->
  (forall it, the_member item_id (t_items rt) (sl_id s) it -> exists v, shows fuel g rt it v) ->
  exists b, span_outside fuel g rt (show_sel s) = Ok b /\ (b = true <-> outside_of fuel g rt s).
Proof.
  intros Hwf Hlen Hb Hu Hv. destruct (match_show_sel _ _ _ Hwf) as (m & Hm & Hc2 & Hc3).
  unfold span_outside. rewrite show_sel_no_delim by apply Hwf. rewrite Hm, Hc3.
  destruct Hwf as (_ & Hi & Hl). destruct (sl_spans s) as [|sp [|? ?]] eqn:E; [| |cbn in Hlen; lia].
  - exists false. split; [reflexivity|]. split; [easy|]. intros Ho. destruct Ho. congruence.
  - cbn [opt_range]. destruct Hl as [(Hd & Ha & He) _]. cbn in Hd.
    assert (Hr : show_range [sp] = sp_start sp ++ L ":" ++ sp_end sp).
    { unfold show_range, show_span. cbn [flat_map]. now rewrite Hd, app_nil_r. }
    destruct (show_range [sp]) as [|c0 r0] eqn:Er.
    { exfalso. symmetry in Hr. apply app_eq_nil in Hr as [_ Hr]. discriminate. }
    rewrite Hr. destruct (match_show_span _ _ Ha He) as (m' & Hm' & Hc2' & Hc3'). rewrite Hm', Hc2', Hc3'.
    inversion Hb as [|? ? [Hb1 Hb2] _]; subst. unfold int_arg.
    destruct (py_int (sp_start sp)) as [a|] eqn:Ea; [|easy]. destruct (py_int (sp_end sp)) as [b|] eqn:Eb; [|easy]. cbn [bind].
    unfold capd. rewrite Hc2. destruct Hu as [Hno|(tgt & Ht)].
    + rewrite get_no_member by (easy || now apply id_shape_int). exists false. split; [reflexivity|]. split; [easy|].
      intros Ho. destruct Ho as [s sp' it v H1 (H2 & H2' & _)]. exfalso. exact (Hno it H2 H2').
    + rewrite (get_member _ _ _ _ Ht). destruct (Hv _ Ht) as [v Hsh]. unfold item_value. change value_refattrs with [L "content"; L "segmentation"].
      unfold shows in Hsh. rewrite Hsh. cbn [bind]. eexists. split; [reflexivity|].
      assert (Hout : outside (length v) sp = (Z.of_nat (length v) <? a)%Z || (Z.of_nat (length v) <? b)%Z) by (unfold outside; now rewrite Ea, Eb).
      rewrite <- Hout. split.
      * intros Ho. eapply Outside; eauto.
      * intros Ho. destruct Ho as [s sp' it v' H1 (H2 & H3 & _) H4 H5]. rewrite E in H1. injection H1 as <-.
        destruct Ht as (_ & _ & Huniq). rewrite (Huniq it H2 H3) in H4. unfold shows in H4. rewrite Hsh in H4. injection H4 as <-. exact H5.
Qed.

(* what holds of the selections after expansion *)
Definition fine (s : sel) : Prop := plain_delim (sl_delim s) /\ (exists f, wf_sel true f s) /\ length (sl_spans s) <= 1
  /\ Forall (fun sp => py_int (sp_start sp) <> None /\ py_int (sp_end sp) <> None) (sl_spans s).

Lemma expand_sel_fine f s : wf_sel true f s -> plain_delim (sl_delim s) -> Forall (fun sp => plain_delim (sp_delim sp)) (sl_spans s) ->
  Forall (fun sp => py_int (sp_start sp) <> None /\ py_int (sp_end sp) <> None) (sl_spans s) ->
  Forall (fun s' => fine s' /\ sl_id s' = sl_id s) (expand_sel s).
Proof.
  intros Hwf Hd Hds Hbs.
  assert (Hw : Forall (fun s' => (exists f, wf_sel true f s')) (expand_sel s)) by (eapply wf_sels_forall; apply wf_expand_sel; exact Hwf).
  rewrite Forall_forall in Hw |- *. intros s' Hs'. assert (Hw' := Hw _ Hs'). clear Hw. unfold expand_sel in Hs'.
  destruct (sl_spans s) as [|sp l] eqn:E.
  - destruct Hs' as [<-|[]]. unfold fine. rewrite E. repeat split; auto.
  - inversion Hds as [|? ? Hds1 Hds2]; subst. inversion Hbs as [|? ? Hbs1 Hbs2]; subst. destruct Hs' as [<-|Hs'].
    + unfold fine. cbn. repeat split; auto.
    + apply in_map_iff in Hs' as (sp' & <- & Hsp). unfold fine. cbn. rewrite Forall_forall in Hds2, Hbs2. repeat split; auto.
      constructor; [exact (Hbs2 _ Hsp)|constructor].
Qed.
Lemma expand_fine x : plain x -> Forall (fun s' => fine s' /\ exists s, In s x /\ sl_id s' = sl_id s) (expand_expr x).
Proof.
  intros (Hwf & Hd & Hb). apply wf_sels_forall in Hwf. apply Forall_forall. intros s' Hs'. unfold expand_expr in Hs'.
  apply in_flat_map in Hs' as (s & Hs & Hs'). rewrite Forall_forall in Hwf, Hd. unfold bounds_ok in Hb. rewrite Forall_forall in Hb.
  destruct (Hwf _ Hs) as [f Hf]. destruct (Hd _ Hs) as [H1 H2].
  assert (H := expand_sel_fine _ _ Hf H1 H2 (Hb _ Hs)). rewrite Forall_forall in H. destruct (H _ Hs') as [H3 H4]. eauto.
Qed.

Lemma plain_delim_token d : plain_delim d -> d <> [] -> is_delimiter d = true.
Proof. intros [->|[->| ->]] H; [easy|reflexivity|reflexivity]. Qed.

Lemma filterM_outside g rt y : Forall fine y ->
  (forall s, In s y -> unambiguous item_id (t_items rt) (sl_id s)
     /\ forall it, the_member item_id (t_items rt) (sl_id s) it -> exists v, shows fuel g rt it v) ->
  exists bad, filterM (span_outside fuel g rt) (expr_selections true y) = Ok (map show_sel bad) /\ picks (outside_of fuel g rt) y bad.
Proof.
  induction y as [|s y IH]; intros Hf Hv.
  - exists []. split; [reflexivity|constructor].
  - inversion Hf as [|? ? (Hd & (f & Hw) & Hlen & Hb) Hf']; subst. destruct IH as (bad & Hbad & Hp); [exact Hf'|intros; apply Hv; now right|].
    destruct (Hv s (or_introl eq_refl)) as [Hu Hval].
    destruct (span_outside_sel g rt _ _ _ Hw Hlen Hb Hu Hval) as (b & Hso & Hiff).
    exists (if b then s :: bad else bad). split.
    + unfold expr_selections. cbn [flat_map]. fold (expr_selections true y).
      assert (Hstep : filterM (span_outside fuel g rt) (show_sel s :: expr_selections true y) = Ok (map show_sel (if b then s :: bad else bad))).
      { cbn [filterM]. rewrite Hso, Hbad. cbn [bind]. now destruct b. }
      destruct (sl_delim s) as [|c d] eqn:E; cbn [app]; [exact Hstep|].
      cbn [filterM]. unfold span_outside at 1. rewrite plain_delim_token by easy. cbn [bind].
      cbn [filterM] in Hstep. rewrite Hstep. reflexivity.
    + destruct b; constructor; try exact Hp; [now apply Hiff|]. intros Ho. apply Hiff in Ho. discriminate.
Qed.

(* no braces in a selection *)
Lemma num_lit a : num_shape a -> lit a.
Proof.
  intros (sg & t & -> & Hsg & _ & Ht). apply lit_app; [destruct Hsg as [->| ->]; lits|].
  intros c Hc. rewrite Forall_forall in Ht. destruct (Ht _ Hc) as [->|Hd]; [now split|].
  split; apply N.eqb_neq; intros ->; rewrite digit_ascii in Hd by reflexivity; discriminate.
Qed.
Lemma plain_delim_lit d : plain_delim d -> lit d.
Proof. intros [->|[->| ->]]; lits. Qed.
Lemma show_sel_lit s : fine s -> lit (show_sel s).
Proof.
  intros (Hd & (f & _ & Hi & Hl) & Hlen & _). rewrite show_sel_eq. apply lit_app; [now apply id_shape_lit|].
  destruct (sl_spans s) as [|sp [|? ?]]; [lits| |cbn in Hlen; lia]. unfold show_tail. apply lit_app; [lits|]. apply lit_app; [|lits].
  destruct Hl as [(Hsd & Ha & Hb) _]. cbn in Hsd. unfold show_range, show_span. cbn [flat_map]. rewrite Hsd, app_nil_r. cbn [app].
  apply lit_app; [now apply num_lit|]. apply lit_app; [lits|now apply num_lit].
Qed.

Lemma picks_in {A} (P : A -> Prop) l k : picks P l k -> forall x, In x k <-> In x l /\ P x.
Proof.
  induction 1 as [|x l k Hx H IH|x l k Hx H IH]; intros y; cbn.
  - tauto.
  - rewrite IH. split; [intros [<-|[? ?]]; auto|intros [[<-|?] ?]; auto].
  - rewrite IH. split; [tauto|]. intros [[<-|?] ?]; tauto.
Qed.
Lemma picks_fun {A} (P : A -> Prop) l k k' : picks P l k -> picks P l k' -> k = k'.
Proof.
  intros H; revert k'. induction H as [|x l k Hx H IH|x l k Hx H IH]; intros k' H'; inversion H'; subst; try easy.
  - f_equal. auto.
  - auto.
Qed.

Lemma readable_outside g rt x : plain x -> (forall i, unambiguous item_id (t_items rt) i) ->
  (forall s it, In s x -> the_member item_id (t_items rt) (sl_id s) it -> exists v, shows fuel g rt it v) ->
  exists bad, filterM (span_outside fuel g rt) (spans (show x) true) = Ok (map show_sel bad)
    /\ picks (outside_of fuel g rt) (expand_expr x) bad.
Proof.
  intros Hp Hu Hv. rewrite spans_show by apply Hp. assert (Hf := expand_fine x Hp). apply filterM_outside.
  - eapply Forall_impl; [|exact Hf]. cbn. tauto.
  - intros s Hs. split; [apply Hu|]. intros it Hit. rewrite Forall_forall in Hf. destruct (Hf _ Hs) as (_ & s' & Hs' & E).
    rewrite E in Hit. eauto.
Qed.

Theorem spans_outside_found ci gs e n ids_ r i j k g t it l ra x rt bad : validate_corpus fuel ci gs e n ids_ = Ok r ->
  item_at gs i j k g t it -> records_at r [i; j; k] l -> refattr ra -> refers g t it ra (show x) rt -> plain x ->
  (forall i, unambiguous item_id (t_items rt) i) ->
  (forall s it, In s x -> the_member item_id (t_items rt) (sl_id s) it -> exists v, shows fuel g rt it v) ->
  picks (outside_of fuel g rt) (expand_expr x) bad -> bad <> [] -> In (bad_spans (map show_sel bad)) l.
Proof.
  intros H Hg Hl Hra Href Hp Hu Hval Hbad Hne. destruct (item_records _ _ _ _ _ _ _ _ _ _ _ _ H Hg) as (recs & u & v & Hr & Hv & _).
  rewrite (records_at_fun _ _ _ _ Hl Hr). rewrite !in_app_iff. left. left.
  destruct (readable_outside g rt x Hp Hu Hval) as (bad' & Hf & Hbad'). rewrite (picks_fun _ _ _ _ Hbad Hbad') in *. clear bad Hbad.
  destruct (validate_in _ _ SHOULD (L "Alignment expressions " ++ L "{modal}" ++
     L " select spans within the aligned <item> elements. The following spans are not valid: " ++ join (L ", ") (map show_sel bad')) _ Hv) as (msg & Hm & Hin).
  - eapply item_condition_in; [exact Hra|]. right. left. f_equal. unfold algnexpr_spans_in_aligned_item.
    rewrite (refers_reference _ _ _ _ _ _ Href), Hf. cbn [bind]. destruct bad'; [easy|]. reflexivity.
  - easy.
  - apply template_ok in Hm as (s & Hm & Hs); [|lits]. rewrite format_end in Hm.
    2:{ apply lit_app; [lits|]. apply lit_join. intros y Hy. apply in_map_iff in Hy as (s' & <- & Hs'). apply show_sel_lit.
        apply (picks_in _ _ _ Hbad') in Hs' as [Hs' _]. assert (He := expand_fine x Hp). rewrite Forall_forall in He. now destruct (He _ Hs'). }
    apply Ok_inj in Hm. unfold bad_spans, warning.
    assert (Hq : L "Alignment expressions SHOULD select spans within the aligned <item> elements. The following spans are not valid: "
      ++ join (L ", ") (map show_sel bad') = msg); [|rewrite Hq; exact Hin]. rewrite Hs, <- Hm. reflexivity.
Qed.

Theorem spans_outside_sound ci gs e n ids_ r i j k g t it l lst : validate_corpus fuel ci gs e n ids_ = Ok r ->
  item_at gs i j k g t it -> records_at r [i; j; k] l ->
  (forall ra, refattr ra -> attr (it_attrs it) ra <> None -> exists x rt, refers g t it ra (show x) rt /\ plain x
     /\ (forall i, unambiguous item_id (t_items rt) i)
     /\ (forall s it, In s x -> the_member item_id (t_items rt) (sl_id s) it -> exists v, shows fuel g rt it v)
     /\ forall s, In s (expand_expr x) -> ~ outside_of fuel g rt s) ->
  ~ In (bad_spans lst) l.
Proof.
  intros H Hg Hl Hall Hin. destruct (item_records _ _ _ _ _ _ _ _ _ _ _ _ H Hg) as (recs & u & v & Hr & Hv & Hu & Hv').
  rewrite (records_at_fun _ _ _ _ Hl Hr), !in_app_iff in Hin. destruct Hin as [[Hin|Hin]|Hin].
  - assert (Hm := item_messages _ _ _ _ _ _ Hv Hin). remember (bad_spans lst) as q eqn:Hs.
    destruct Hm as [s'|ra' e' rt' s' Hra' Hrf' Hne _|ra' e' rt' l' s' Hra' Hrf' Hf Hne _|ra' e' rt' d' l' s'];
      apply (f_equal rec_msg) in Hs; cbn [rec_msg bad_spans not_unique error warning] in Hs.
    + differ Hs 0.
    + differ Hs 0.
    + destruct (Hall ra' Hra') as (x & rt & Href & Hp & Hun & Hval & Hno).
      { unfold reference in Hrf'. unfold attr. destruct (dget _ _); easy. }
      rewrite (refers_reference _ _ _ _ _ _ Href) in Hrf'. injection Hrf' as <- <-.
      destruct (readable_outside g rt x Hp Hun Hval) as (bad & Hf' & Hbad). rewrite Hf in Hf'. apply Ok_inj in Hf'.
      destruct bad as [|b bad]; [now rewrite Hf' in Hne|]. assert (Hb := proj1 (picks_in _ _ _ Hbad b) (or_introl eq_refl)).
      destruct Hb as [Hb1 Hb2]. exact (Hno _ Hb1 Hb2).
    + differ Hs 20.
  - apply Hu in Hin as [Hin _]. apply (f_equal rec_msg) in Hin; cbn [rec_msg bad_spans not_unique error warning] in Hin. differ Hin 0.
  - apply Hv' in Hin as [Hin _]. apply (f_equal rec_msg) in Hin; cbn [rec_msg bad_spans not_unique error warning] in Hin. differ Hin 0.
Qed.

(* ---------- C34: overlap ---------- *)

Definition cnt (i : str) (l : list str) : nat := length (filter (str_eqb i) l).
Lemma cnt_app i a b : cnt i (a ++ b) = cnt i a + cnt i b.
Proof. unfold cnt. now rewrite filter_app, app_length. Qed.
Lemma cnt_cons i a b : cnt i (a :: b) = (if str_eqb i a then 1 else 0) + cnt i b.
Proof. unfold cnt. cbn. now destruct (str_eqb i a). Qed.
Lemma cnt_two i l m n : m <> n -> nth_error l m = Some i -> nth_error l n = Some i -> 2 <= cnt i l.
Proof.
  assert (Hone : forall l m, nth_error l m = Some i -> 1 <= cnt i l).
  { clear. induction l as [|a l IH]; intros m H; [now destruct m|]. rewrite cnt_cons. destruct m; cbn in H.
    - injection H as ->. rewrite str_eqb_refl. lia.
    - apply IH in H. lia. }
  revert m n. induction l as [|a l IH]; intros m n Hmn Hm Hn; [now destruct m|]. rewrite cnt_cons.
  destruct m as [|m], n as [|n]; cbn in Hm, Hn; try easy.
  - injection Hm as ->. rewrite str_eqb_refl. apply Hone in Hn. lia.
  - injection Hn as ->. rewrite str_eqb_refl. apply Hone in Hm. lia.
  - assert (2 <= cnt i l) by (apply (IH m n); auto). lia.
Qed.
Lemma cnt_nodup i l : NoDup l -> cnt i l <= 1.
Proof.
  induction 1 as [|a l Ha Hl IH]; [cbn; lia|]. rewrite cnt_cons. destruct (str_eqb i a) eqn:E; [|lia].
  apply str_eqb_eq in E as ->. assert (cnt a l = 0); [|lia]. unfold cnt.
  destruct (filter (str_eqb a) l) as [|b k] eqn:F; [easy|]. exfalso. assert (Hb : In b (filter (str_eqb a) l)) by (rewrite F; now left).
  apply filter_In in Hb as [Hb Eb]. apply str_eqb_eq in Eb as ->. auto.
Qed.
Lemma cnt_in i l : 1 <= cnt i l -> In i l.
Proof.
  unfold cnt. destruct (filter (str_eqb i) l) as [|b k] eqn:F; [cbn; lia|]. intros _. assert (Hb : In b (filter (str_eqb i) l)) by (rewrite F; now left).
  apply filter_In in Hb as [Hb Eb]. now apply str_eqb_eq in Eb as ->.
Qed.

Definition lens (d : dict (list nat)) (i : str) : list nat := match dget d i with Some l => l | None => [] end.
Lemma lens_dset d k v i : lens (dset d k v) i = if str_eqb i k then v else lens d i.
Proof.
  unfold lens, dget, dset. induction d as [|[k' v'] d IH]; cbn.
  - destruct (str_eqb i k); reflexivity.
  - destruct (str_eqb k k') eqn:E; cbn.
    + apply str_eqb_eq in E as ->. destruct (str_eqb i k'); reflexivity.
    + destruct (str_eqb i k') eqn:F; [|exact IH]. apply str_eqb_eq in F as ->.
      destruct (str_eqb k' k) eqn:G; [|reflexivity]. apply str_eqb_eq in G as ->. rewrite str_eqb_refl in E. discriminate.
Qed.
Lemma dset_in {A} (d : dict A) k v kv : In kv (dset d k v) -> In kv d \/ kv = (k, v).
Proof.
  unfold dset. induction d as [|[k' v'] d IH]; cbn; [intuition|]. destruct (str_eqb k k') eqn:E; cbn.
  - apply str_eqb_eq in E as ->. intuition.
  - intuition.
Qed.
Lemma lens_in d i l : lens d i = l -> l <> [] -> In (i, l) d.
Proof.
  unfold lens, dget. induction d as [|[k' v'] d IH]; cbn; [now intros <-|]. destruct (str_eqb i k') eqn:E.
  - apply str_eqb_eq in E as ->. intros -> _. now left.
  - intros H1 H2. right. auto.
Qed.

Lemma fold_lens g rt i tgt v toks : the_member item_id (t_items rt) i tgt -> shows fuel g rt tgt v -> is_delimiter i = false ->
  forall d d', foldM (count_span fuel g rt) toks d = Ok d' -> lens d' i = lens d i ++ repeat (length v) (cnt i toks).
Proof.
  intros Ht Hv Hd. induction toks as [|k toks IH]; intros d d' H; cbn [foldM] in H.
  - inv_ok. cbn. now rewrite app_nil_r.
  - inv_ok. rewrite (IH _ _ H), cnt_cons. clear IH H. unfold count_span in K.
    destruct (str_eqb i k) eqn:E.
    + apply str_eqb_eq in E as <-. rewrite Hd in K. rewrite (get_member _ _ _ _ Ht) in K. unfold item_value in K.
      change value_refattrs with [L "content"; L "segmentation"] in K. unfold shows in Hv. rewrite Hv in K. cbn [bind] in K. inv_ok.
      rewrite lens_dset, str_eqb_refl. unfold lens. rewrite <- app_assoc. reflexivity.
    + cbn [Nat.add]. destruct (is_delimiter k); [inv_ok; reflexivity|]. destruct (container_get _ _ k); [|inv_ok; reflexivity].
      inv_ok. destruct x0; inv_ok; [|reflexivity]. rewrite lens_dset, E. reflexivity.
Qed.

Definition counted (rt : tier) (toks : list str) (kv : str * list nat) : Prop :=
  length (snd kv) <= cnt (fst kv) toks /\ is_delimiter (fst kv) = false /\ container_get item_id (t_items rt) (fst kv) <> None.
Lemma fold_counted g rt toks : forall done d d', Forall (counted rt done) d -> foldM (count_span fuel g rt) toks d = Ok d' ->
  Forall (counted rt (done ++ toks)) d'.
Proof.
  induction toks as [|k toks IH]; intros done d d' Hd H; cbn [foldM] in H.
  - inv_ok. now rewrite app_nil_r.
  - inv_ok. replace (done ++ k :: toks) with ((done ++ [k]) ++ toks) by (rewrite <- app_assoc; reflexivity). apply (IH _ x); [|exact H].
    assert (Hd' : Forall (counted rt (done ++ [k])) d).
    { eapply Forall_impl; [|exact Hd]. intros kv (H1 & H2 & H3). split; [|auto]. rewrite cnt_app. lia. }
    unfold count_span in K. destruct (is_delimiter k) eqn:Ek; [inv_ok; exact Hd'|]. destruct (container_get _ _ k) eqn:Ec; [|inv_ok; exact Hd'].
    inv_ok. destruct x0 as [sv|]; inv_ok; [|exact Hd']. apply Forall_forall. intros kv Hkv. apply dset_in in Hkv as [Hkv| ->].
    + rewrite Forall_forall in Hd'. auto.
    + unfold counted. cbn [fst snd]. split; [|split; [exact Ek|congruence]]. rewrite app_length, cnt_app, cnt_cons, str_eqb_refl. cbn [length cnt filter].
      destruct (dget d k) as [ns|] eqn:El; [|cbn; lia]. assert (Hin : In (k, ns) d \/ ns = []).
      { destruct ns; [now right|left]. apply lens_in; [unfold lens; now rewrite El|easy]. }
      destruct Hin as [Hin| ->]; [|cbn; lia]. rewrite Forall_forall in Hd. destruct (Hd _ Hin) as [Hl _]. cbn [fst snd] in Hl. lia.
Qed.
Lemma counted_twice_len l : counted_twice l = true -> 2 <= length l.
Proof.
  unfold counted_twice. intros H. apply existsb_exists in H as (c & _ & H). apply Nat.ltb_lt in H.
  assert (length (filter (Nat.ltb c) l) <= length l) by (clear; induction l as [|a l IH]; cbn [filter length]; [lia|destruct (Nat.ltb c a); cbn [length]; lia]). lia.
Qed.
Lemma counted_repeat v m : v <> [] -> 2 <= m -> counted_twice (repeat (length (A := N) v) m) = true.
Proof.
  intros Hv Hm. unfold counted_twice. apply existsb_exists. exists 0. destruct v as [|c v]; [easy|]. cbn [length]. split.
  - destruct m; [lia|]. cbn. now left.
  - apply Nat.ltb_lt. assert (E : forall k, filter (Nat.ltb 0) (repeat (S (length v)) k) = repeat (S (length v)) k) by (induction k; cbn; congruence).
    rewrite E, repeat_length. lia.
Qed.

Lemma lbr_not_in i : id_shape i -> ~ In (Ch "[") i.
Proof.
  intros (c & t & -> & Hc & Ht) [E|Hd].
  - subst. unfold ascii_letter, Ch in Hc. cbn in Hc. lia.
  - rewrite Forall_forall in Ht. apply Ht in Hd. apply id_char_b in Hd. rewrite lbr_not_id in Hd. discriminate.
Qed.
Lemma show_sel_id s : id_shape (sl_id s) -> id_shape (show_sel s) -> sl_spans s = [] /\ show_sel s = sl_id s.
Proof.
  intros Hi Hs. rewrite show_sel_eq in *. destruct (sl_spans s); [split; [easy|]; cbn; apply app_nil_r|]. exfalso.
  apply lbr_not_in in Hs. apply Hs. apply in_or_app. right. unfold show_tail. now left.
Qed.

Lemma whole_app a b : whole_ids (a ++ b) = whole_ids a ++ whole_ids b.
Proof. unfold whole_ids. now rewrite filter_app, map_app. Qed.
Lemma whole_expand x : whole_ids (expand_expr x) = whole_ids x.
Proof.
  induction x as [|s x IH]; [easy|]. change (expand_expr (s :: x)) with (expand_sel s ++ expand_expr x). change (s :: x) with ([s] ++ x).
  rewrite !whole_app, IH. f_equal. unfold expand_sel, whole_ids. destruct (sl_spans s) as [|sp l] eqn:E; cbn [filter map].
  - reflexivity.
  - rewrite E. cbn [sl_spans]. clear. induction l as [|sp' l IH]; cbn; [easy|exact IH].
Qed.
Lemma cnt_tokens i y : Forall fine y -> id_shape i -> cnt i (expr_selections true y) = cnt i (whole_ids y).
Proof.
  intros Hf Hi. induction Hf as [|s y (Hd & (f & _ & Hs & _) & _) Hf IH]; [reflexivity|].
  change (s :: y) with ([s] ++ y). unfold expr_selections. rewrite flat_map_app. fold (expr_selections true y). fold (expr_selections true [s]).
  rewrite cnt_app, whole_app, cnt_app, IH. f_equal. unfold expr_selections. cbn [flat_map]. rewrite app_nil_r, cnt_app, cnt_cons.
  assert (Hdel : cnt i (match sl_delim s with [] => [] | n :: l => [n :: l] end) = 0).
  { destruct (sl_delim s) as [|c d] eqn:E; [easy|]. rewrite cnt_cons. destruct (str_eqb i (c :: d)) eqn:F; [|easy].
    apply str_eqb_eq in F. exfalso. apply (show_sel_no_delim {| sl_delim := []; sl_id := i; sl_spans := [] |}) in Hi.
    unfold show_sel in Hi. cbn in Hi. rewrite app_nil_r, F, plain_delim_token in Hi by easy. discriminate. }
  rewrite Hdel. unfold whole_ids. cbn [filter]. destruct (str_eqb i (show_sel s)) eqn:E.
  - apply str_eqb_eq in E. rewrite E in Hi. destruct (show_sel_id _ Hs Hi) as [E1 E2]. rewrite E1. cbn [map]. rewrite cnt_cons.
    rewrite E, E2, str_eqb_refl. reflexivity.
  - destruct (sl_spans s) eqn:E1; [|reflexivity]. cbn [map]. rewrite cnt_cons. replace (show_sel s) with (sl_id s) in E; [rewrite E; reflexivity|].
    rewrite show_sel_eq, E1. cbn. now rewrite app_nil_r.
Qed.

Lemma tokens_in y k : Forall fine y -> In k (expr_selections true y) -> is_delimiter k = true \/ exists s, In s y /\ k = show_sel s.
Proof.
  intros Hf Hk. unfold expr_selections in Hk. apply in_flat_map in Hk as (s & Hs & Hk). apply in_app_or in Hk as [Hk|Hk].
  - left. rewrite Forall_forall in Hf. destruct (Hf _ Hs) as [Hd _]. destruct (sl_delim s) eqn:E; [destruct Hk|]. destruct Hk as [<-|[]].
    now apply plain_delim_token.
  - right. exists s. destruct Hk as [<-|[]]. auto.
Qed.
Lemma plain_fine x : plain x -> Forall fine (expand_expr x).
Proof. intros H. eapply Forall_impl; [|apply (expand_fine x H)]. cbn. tauto. Qed.
Lemma fine_lit s : fine s -> lit (show_sel s).
Proof. exact (show_sel_lit s). Qed.

Lemma overlap_keys g rt x d k : plain x -> foldM (count_span fuel g rt) (spans (show x) true) [] = Ok d ->
  In k (map fst (filter (fun kv => counted_twice (snd kv)) d)) ->
  2 <= cnt k (expr_selections true (expand_expr x)) /\ container_get item_id (t_items rt) k <> None
  /\ exists s, In s (expand_expr x) /\ k = show_sel s.
Proof.
  intros Hp Hd Hk. rewrite spans_show in Hd by apply Hp. apply (fold_counted _ _ _ [] []) in Hd; [|constructor]. cbn [app] in Hd.
  apply in_map_iff in Hk as ([k' l] & <- & Hk). apply filter_In in Hk as [Hk Hc]. cbn [fst snd] in *.
  rewrite Forall_forall in Hd. destruct (Hd _ Hk) as (H1 & H2 & H3). cbn [fst snd] in *. apply counted_twice_len in Hc.
  assert (H4 : 2 <= cnt k' (expr_selections true (expand_expr x))) by lia. split; [exact H4|]. split; [exact H3|].
  destruct (tokens_in (expand_expr x) k') as [H5|H5]; [now apply plain_fine|apply cnt_in; lia|congruence|exact H5].
Qed.

Theorem overlap_found ci gs e n ids_ r i j k g t it l ra x rt a p q tgt v : validate_corpus fuel ci gs e n ids_ = Ok r ->
  item_at gs i j k g t it -> records_at r [i; j; k] l -> refattr ra -> refers g t it ra (show x) rt -> plain x ->
  p <> q -> nth_error (whole_ids x) p = Some a -> nth_error (whole_ids x) q = Some a ->
  the_member item_id (t_items rt) a tgt -> shows fuel g rt tgt v -> v <> [] ->
  exists lst, In a lst /\ In (overlapping lst) l.
Proof.
  intros H Hg Hl Hra Href Hp Hpq Ha Hb Ht Hsh Hne. destruct (item_records _ _ _ _ _ _ _ _ _ _ _ _ H Hg) as (recs & u & w & Hr & Hv & _).
  rewrite (records_at_fun _ _ _ _ Hl Hr).
  assert (Hcond : exists res, In (SHOULD, algnexpr_spans_do_not_overlap fuel g t it ra) (item_conditions fuel g t it)
     /\ algnexpr_spans_do_not_overlap fuel g t it ra = Ok res).
  { assert (Hin : In (SHOULD, algnexpr_spans_do_not_overlap fuel g t it ra) (item_conditions fuel g t it))
      by (eapply item_condition_in; [exact Hra|]; right; right; now left).
    destruct (algnexpr_spans_do_not_overlap fuel g t it ra) as [res|ex] eqn:E; [eauto|]. exfalso.
    revert Hin Hv. clear. generalize (item_conditions fuel g t it) as cs. intros cs. revert recs. induction cs as [|[m c] cs IH]; intros recs Hin Hv; [destruct Hin|].
    cbn [validate] in Hv. inv_ok. destruct Hin as [Hin|Hin]; [|eapply IH; eauto]. pair_inv Hin. cbn in K. discriminate. }
  destruct Hcond as (res & Hin & Hres). unfold algnexpr_spans_do_not_overlap in Hres. rewrite (refers_reference _ _ _ _ _ _ Href) in Hres.
  apply bind_ok in Hres as (d & Hd & Hres). set (lst := map fst (filter (fun kv => counted_twice (snd kv)) d)) in *.
  assert (Hia : id_shape a).
  { assert (Hain := nth_error_In _ _ Ha). unfold whole_ids in Hain. apply in_map_iff in Hain as (s & <- & Hs). apply filter_In in Hs as [Hs _].
    destruct Hp as [Hwf _]. apply wf_sels_forall in Hwf. rewrite Forall_forall in Hwf. destruct (Hwf _ Hs) as (f & _ & Hi & _). exact Hi. }
  assert (Hal : In a lst).
  { assert (Hln : lens d a = [] ++ repeat (length v) (cnt a (spans (show x) true))).
    { apply (fold_lens g rt a tgt v _ Ht Hsh) with (d := []); [|exact Hd].
      apply (show_sel_no_delim {| sl_delim := []; sl_id := a; sl_spans := [] |}) in Hia. unfold show_sel in Hia. cbn in Hia. now rewrite app_nil_r in Hia. }
    assert (Hc : 2 <= cnt a (spans (show x) true)).
    { rewrite spans_show by apply Hp. rewrite cnt_tokens by (easy || now apply plain_fine). rewrite whole_expand. now apply (cnt_two a _ p q). }
    unfold lst. apply in_map_iff. exists (a, repeat (length v) (cnt a (spans (show x) true))). split; [reflexivity|]. apply filter_In. split.
    - apply lens_in; [exact Hln|]. destruct (cnt _ _); [lia|easy].
    - now apply counted_repeat. }
  exists lst. split; [exact Hal|]. rewrite !in_app_iff. left. left.
  destruct (validate_in _ _ SHOULD (L "Alignment expression spans " ++ L "{modal}" ++
     L " NOT overlap. Spans for the following <item> elements overlap: " ++ join (L ", ") lst) _ Hv) as (msg & Hm & Hrec).
  - unfold algnexpr_spans_do_not_overlap in Hin. rewrite (refers_reference _ _ _ _ _ _ Href), Hd in Hin. cbn [bind] in Hin. fold lst in Hin.
    destruct lst; [destruct Hal|]. exact Hin.
  - easy.
  - apply template_ok in Hm as (s & Hm & Hs); [|lits]. rewrite format_end in Hm.
    2:{ apply lit_app; [lits|]. apply lit_join. intros y Hy. destruct (overlap_keys _ _ _ _ _ Hp Hd Hy) as (_ & _ & s' & Hs' & ->).
        apply fine_lit. assert (He := plain_fine x Hp). rewrite Forall_forall in He. auto. }
    apply Ok_inj in Hm. unfold overlapping, overlap_prefix, warning.
    assert (Hq : L "Alignment expression spans SHOULD NOT overlap. Spans for the following <item> elements overlap: " ++ join (L ", ") lst = msg);
      [|rewrite Hq; exact Hrec]. rewrite Hs, <- Hm. reflexivity.
Qed.

Theorem overlap_sound ci gs e n ids_ r i j k g t it l s : validate_corpus fuel ci gs e n ids_ = Ok r ->
  item_at gs i j k g t it -> records_at r [i; j; k] l ->
  (forall ra, refattr ra -> attr (it_attrs it) ra <> None -> exists x rt, refers g t it ra (show x) rt /\ plain x
     /\ plain_ids rt /\ NoDup (whole_ids x)) ->
  ~ In (warning (overlap_prefix ++ s)) l.
Proof.
  intros H Hg Hl Hall Hin. destruct (item_records _ _ _ _ _ _ _ _ _ _ _ _ H Hg) as (recs & u & v & Hr & Hv & Hu & Hv').
  rewrite (records_at_fun _ _ _ _ Hl Hr), !in_app_iff in Hin. destruct Hin as [[Hin|Hin]|Hin].
  - assert (Hm := item_messages _ _ _ _ _ _ Hv Hin). remember (warning (overlap_prefix ++ s)) as q eqn:Hs.
    destruct Hm as [s'|ra' e' rt' s' Hra' Hrf' Hne _|ra' e' rt' l' s' Hra' Hrf' Hf Hne _|ra' e' rt' d' l' s' Hra' Hrf' Hf Hl' Hne _];
      apply (f_equal rec_msg) in Hs; cbn [rec_msg bad_spans not_unique error warning] in Hs.
    + differ Hs 0.
    + differ Hs 0.
    + differ Hs 20.
    + destruct (Hall ra' Hra') as (x & rt & Href & Hp & (Hun & Hids) & Hno).
      { unfold reference in Hrf'. unfold attr. destruct (dget _ _); easy. }
      rewrite (refers_reference _ _ _ _ _ _ Href) in Hrf'. injection Hrf' as <- <-.
      destruct l' as [|a l']; [easy|]. assert (Ha : In a (map fst (filter (fun kv => counted_twice (snd kv)) d'))) by (rewrite <- Hl'; now left).
      destruct (overlap_keys _ _ _ _ _ Hp Hf Ha) as (Hc & Hget & s0 & Hs0 & ->).
      assert (Hf0 := plain_fine x Hp). rewrite Forall_forall in Hf0. destruct (Hf0 _ Hs0) as (_ & (f & _ & Hi & _) & _).
      assert (Hsh : id_shape (show_sel s0)).
      { unfold container_get in Hget. destruct (find_id item_id (t_items rt) (show_sel s0)) as [y|] eqn:E.
        - apply find_id_some in E as [Hy Ey]. eapply Hids; eauto.
        - now rewrite show_sel_not_int in Hget by exact Hi. }
      rewrite cnt_tokens in Hc by (easy || now apply plain_fine). rewrite whole_expand in Hc. assert (Hn := cnt_nodup (show_sel s0) _ Hno). lia.
  - apply Hu in Hin as [Hin _]. apply (f_equal rec_msg) in Hin; cbn [rec_msg bad_spans not_unique error warning] in Hin. differ Hin 0.
  - apply Hv' in Hin as [Hin _]. apply (f_equal rec_msg) in Hin; cbn [rec_msg bad_spans not_unique error warning] in Hin. differ Hin 0.
Qed.

(* ---------- C34: validation ends with a report ---------- *)

Lemma condition_ok m cx c : (c = Ok None \/ exists t msg, c = Ok (Some t) /\ format m cx None t = Ok msg) ->
  exists r, validate_condition m cx c = Ok r.
Proof.
  intros [->|(t & msg & -> & Hf)]; [eexists; reflexivity|]. unfold validate_condition. cbn [bind]. destruct t; [eexists; reflexivity|].
  rewrite Hf. eexists. reflexivity.
Qed.
Lemma has_id_ok m i idx name scope o : exists r, validate_condition m (make_context i idx name scope) (has_id o) = Ok r.
Proof.
  apply condition_ok. unfold has_id. destruct (truthy o); [now left|right].
  do 2 eexists. split; [reflexivity|]. change (L "Each {name} {modal} specify an id.") with (L "Each " ++ L "{name}" ++ L " " ++ L "{modal}" ++ L " specify an id.").
  rewrite format_lit by lits. change (format m (make_context i idx name scope) None (L "{name}" ++ ?s)) with
    (do r <- format m (make_context i idx name scope) None s; Ok (name ++ r)). rewrite format_lit, format_modal, format_end by lits. reflexivity.
Qed.
Lemma has_type_ok m i idx name scope o : exists r, validate_condition m (make_context i idx name scope) (has_type o) = Ok r.
Proof.
  apply condition_ok. unfold has_type. destruct (truthy o); [now left|right].
  do 2 eexists. split; [reflexivity|]. change (L "Each {name} {modal} specify a type.") with (L "Each " ++ L "{name}" ++ L " " ++ L "{modal}" ++ L " specify a type.").
  rewrite format_lit by lits. change (format m (make_context i idx name scope) None (L "{name}" ++ ?s)) with
    (do r <- format m (make_context i idx name scope) None s; Ok (name ++ r)). rewrite format_lit, format_modal, format_end by lits. reflexivity.
Qed.

(* what a checkable reference gives *)
Lemma checkable_reference g t it ra e rt : checkable fuel g t it ra -> reference g t it ra = Some (e, rt) ->
  exists rid x, tier_id rt = Some rid /\ no_braces rid /\ e = show x /\ plain x /\ plain_ids rt
    /\ forall s it, In s x -> the_member item_id (t_items rt) (sl_id s) it -> exists v, shows fuel g rt it v.
Proof.
  unfold reference, get_referred_tier, checkable, attr. intros [H|[H|(rid & e' & H1 & H2 & H)]] Hr.
  - rewrite H in Hr. discriminate.
  - rewrite H in Hr. destruct (dget (a_dict (it_attrs it)) ra) as [[|]|]; discriminate.
  - rewrite H1, H2 in Hr. destruct e' as [|c e']; [discriminate|]. destruct rid as [|c' rid]; [discriminate|].
    destruct H as [H|[H|[[Hn Hz]|(rt' & Ht & H)]]]; try discriminate.
    + rewrite get_no_member in Hr by easy. discriminate.
    + rewrite (get_member _ _ _ _ Ht) in Hr. destruct (t_items rt') eqn:E; [discriminate|]. injection Hr as <- <-.
      destruct H as [H|(Hrd & Hb & Hi)]; [discriminate|]. destruct Hrd as (x & Hx & Hp & Hv). exists (c' :: rid), x.
      split; [apply Ht|]. auto.
Qed.

Lemma item_conditions_ok g t it i idx scope : (forall ra, refattr ra -> checkable fuel g t it ra) ->
  exists recs, validate (make_context i idx (L "<item>") scope) (item_conditions fuel g t it) = Ok recs.
Proof.
  intros Hck. apply validate_ok. intros m c [Hin|Hin].
  - pair_inv Hin. apply has_id_ok.
  - apply in_flat_map in Hin as (ra & Hra & Hin). apply refattr_in in Hra. specialize (Hck ra Hra).
    destruct (reference g t it ra) as [[e rt]|] eqn:Hr.
    2:{ destruct Hin as [Hin|[Hin|[Hin|[]]]]; pair_inv Hin; apply condition_ok; left.
        - unfold algnexpr_ids_in_referred_tier. now rewrite Hr.
        - unfold algnexpr_spans_in_aligned_item. now rewrite Hr.
        - unfold algnexpr_spans_do_not_overlap. now rewrite Hr. }
    destruct (checkable_reference _ _ _ _ _ _ Hck Hr) as (rid & x & Hid & Hb & -> & Hp & (Hu & Hids) & Hv).
    destruct Hin as [Hin|[Hin|[Hin|[]]]]; pair_inv Hin; apply condition_ok.
    + destruct (algnexpr_ids_in_referred_tier g t it ra) as [[tm|]|ex] eqn:E; [|now left|discriminate]. right.
      apply missing_template in E as (e & rt' & Hr' & Hne & ->). rewrite Hr in Hr'. injection Hr' as <- <-.
      do 2 eexists. split; [reflexivity|]. rewrite Hid. cbn [str_of]. rewrite format_template, format_end; [reflexivity| |].
      * unfold missing_rest. apply lit_app; [lits|]. apply lit_app; [now apply no_braces_lit|]. apply lit_app; [lits|]. apply lit_join.
        intros a Ha. apply id_shape_lit. eapply missing_ids_shape; eauto.
      * apply lit_app; [lits|]. apply lit_app; [now apply refattr_lit|lits].
    + destruct (readable_outside g rt x Hp Hu Hv) as (bad & Hf & Hbad). unfold algnexpr_spans_in_aligned_item. rewrite Hr, Hf. cbn [bind].
      destruct (map show_sel bad) as [|b l] eqn:E; [now left|]. right. do 2 eexists. split; [reflexivity|].
      change (L "Alignment expressions {modal} select spans within the aligned <item> elements. The following spans are not valid: ") with
        (L "Alignment expressions " ++ L "{modal}" ++ L " select spans within the aligned <item> elements. The following spans are not valid: ").
      rewrite <- !app_assoc, format_template, format_end; [reflexivity| |lits]. apply lit_app; [lits|]. apply lit_join. rewrite <- E.
      intros y Hy. apply in_map_iff in Hy as (s' & <- & Hs'). apply show_sel_lit.
      apply (picks_in _ _ _ Hbad) in Hs' as [Hs' _]. assert (He := plain_fine x Hp). rewrite Forall_forall in He. auto.
    + assert (Hfold : forall toks d, (forall k, In k toks -> In k (spans (show x) true)) -> exists d', foldM (count_span fuel g rt) toks d = Ok d').
      { induction toks as [|k toks IH]; intros d Hk; [eexists; reflexivity|]. cbn [foldM].
        assert (Hstep : exists d1, count_span fuel g rt d k = Ok d1).
        { unfold count_span. destruct (is_delimiter k) eqn:Ek; [eauto|]. destruct (container_get item_id (t_items rt) k) as [tgt|] eqn:Eg; [|eauto].
          assert (Hkin := Hk k (or_introl eq_refl)). rewrite spans_show in Hkin by apply Hp.
          destruct (tokens_in _ _ (plain_fine x Hp) Hkin) as [Hd|(s & Hs & ->)]; [congruence|].
          assert (Hf := expand_fine x Hp). rewrite Forall_forall in Hf. destruct (Hf _ Hs) as ((_ & (f & _ & Hi & _) & _) & s0 & Hs0 & Es).
          unfold container_get in Eg. rewrite show_sel_not_int in Eg by exact Hi. destruct (find_id _ _ _) as [y|] eqn:Ey; [|discriminate]. injection Eg as ->.
          apply find_id_some in Ey as [Hy Ey]. destruct (show_sel_id _ Hi (Hids _ _ Hy Ey)) as [_ E2]. rewrite E2 in Ey.
          destruct (Hv s0 tgt Hs0) as [v Hsh].
          { destruct (Hu (sl_id s)) as [Hno|(z & Hz)]; [exfalso; exact (Hno _ Hy Ey)|]. rewrite <- Es. assert (tgt = z) as -> by (apply Hz; auto). exact Hz. }
          unfold item_value. change value_refattrs with [L "content"; L "segmentation"]. unfold shows in Hsh. rewrite Hsh. cbn [bind]. eauto. }
        destruct Hstep as [d1 ->]. cbn [bind]. apply IH. intros k' Hk'. apply Hk. now right. }
      destruct (Hfold (spans (show x) true) [] (fun k H => H)) as [d Hd]. unfold algnexpr_spans_do_not_overlap. rewrite Hr, Hd. cbn [bind].
      destruct (map fst _) as [|b l] eqn:E; [now left|]. right. do 2 eexists. split; [reflexivity|].
      change (L "Alignment expression spans {modal} NOT overlap. Spans for the following <item> elements overlap: ") with
        (L "Alignment expression spans " ++ L "{modal}" ++ L " NOT overlap. Spans for the following <item> elements overlap: ").
      rewrite <- !app_assoc, format_template, format_end; [reflexivity| |lits]. apply lit_app; [lits|]. apply lit_join. rewrite <- E.
      intros y Hy. destruct (overlap_keys _ _ _ _ _ Hp Hd Hy) as (_ & _ & s' & Hs' & ->).
      apply fine_lit. assert (He := plain_fine x Hp). rewrite Forall_forall in He. auto.
Qed.

Lemma tier_conditions_ok g t i idx scope : exists recs, validate (make_context i idx (L "<tier>") scope) (tier_conditions g t) = Ok recs.
Proof.
  apply validate_ok. intros m c Hin. unfold tier_conditions in Hin. apply in_app_or in Hin as [[Hin|[Hin|[Hin|[]]]]|Hin].
  - pair_inv Hin. apply has_id_ok.
  - pair_inv Hin. apply has_type_ok.
  - pair_inv Hin. apply condition_ok. unfold item_refattrs_specified_on_tier.
    destruct (filter _ _) as [|a l] eqn:E; [now left|]. right. do 2 eexists. split; [reflexivity|].
    change (L "Reference attributes on <item> elements {modal} be specified on their <tier> as well. The following are not: ") with
      (L "Reference attributes on <item> elements " ++ L "{modal}" ++ L " be specified on their <tier> as well. The following are not: ").
    rewrite <- !app_assoc, format_template, format_end; [reflexivity| |lits]. apply lit_app; [lits|]. apply lit_join. rewrite <- E.
    intros x Hx. apply filter_In in Hx as [Hx _]. apply refattr_lit. cbn in Hx |- *. tauto.
  - apply in_map_iff in Hin as (ra & Hin & Hra). pair_inv Hin. apply refattr_in in Hra. apply condition_ok. unfold reference_id_in_igt.
    destruct (dget _ ra) as [[|ch rid]|]; [now left| |now left]. destruct (container_get _ _ _); [now left|]. right. do 2 eexists. split; [reflexivity|].
    replace (L "The reference attribute """ ++ ra ++ L """ {modal} select an available <tier> id.") with
      ((L "The reference attribute """ ++ ra ++ L """ ") ++ L "{modal}" ++ L " select an available <tier> id.") by (rewrite <- !app_assoc; reflexivity).
    rewrite format_template, format_end; [reflexivity|lits|]. apply lit_app; [lits|]. apply lit_app; [now apply refattr_lit|lits].
Qed.
Lemma unique_ok i idx name scope o seen :
  In name [L "<igt>"; L "<tier>"; L "<item>"; L "<xigt-corpus>"] -> In scope [L "<igt>"; L "<tier>"; L "<xigt-corpus>"; L "collection"] ->
  exists u, unique_in (make_context i idx name scope) o seen = Ok u.
Proof.
  intros H1 H2. destruct (unique_in_ok (make_context i idx name scope) o seen name scope eq_refl eq_refl H1 H2) as (u & Hu & _). eauto.
Qed.

Lemma tier_items_ok g t l : (forall it ra, In it l -> refattr ra -> checkable fuel g t it ra) ->
  forall n seen, exists rs, tier_items fuel g t n seen l = Ok rs.
Proof.
  induction l as [|it l IH]; intros Hc n seen; [eexists; reflexivity|]. cbn [tier_items]. unfold validate_item.
  destruct (item_conditions_ok g t it (item_id it) n (L "<tier>")) as [recs ->]; [intros; apply Hc; auto; now left|]. cbn [bind].
  destruct (unique_ok (item_id it) n (L "<item>") (L "<tier>") (item_id it) seen) as [u ->]; [cbn; tauto|cbn; tauto|]. cbn [bind].
  destruct (IH (fun it' ra H => Hc it' ra (or_intror H)) (S n) (add_id seen (item_id it))) as [rs ->]. cbn [bind]. eauto.
Qed.
Lemma igt_items_ok l : forall n seen rs, exists p, igt_items n seen l rs = Ok p.
Proof.
  induction l as [|it l IH]; intros n seen rs; [eexists; reflexivity|]. destruct rs as [|r rs]; [eexists; reflexivity|]. cbn [igt_items].
  destruct (unique_ok (item_id it) n (L "<item>") (L "<igt>") (item_id it) seen) as [u ->]; [cbn; tauto|cbn; tauto|]. cbn [bind].
  destruct (IH (S n) (add_id seen (item_id it)) rs) as [p ->]. cbn [bind]. eauto.
Qed.
Lemma igt_tiers_ok g l : (forall t it ra, In t l -> In it (t_items t) -> refattr ra -> checkable fuel g t it ra) ->
  forall n a b, exists rs, igt_tiers fuel g n a b l = Ok rs.
Proof.
  induction l as [|t l IH]; intros Hc n a b; [eexists; reflexivity|]. cbn [igt_tiers]. unfold validate_tier.
  destruct (tier_conditions_ok g t (tier_id t) n (L "<igt>")) as [recs ->]. cbn [bind].
  destruct (tier_items_ok g t (t_items t)) with (n := 0) (seen := @nil str) as [kids ->]; [intros; apply Hc; auto; now left|]. cbn [bind].
  destruct (unique_ok (tier_id t) n (L "<tier>") (L "<igt>") (tier_id t) a) as [u ->]; [cbn; tauto|cbn; tauto|]. cbn [bind report_kids].
  destruct (igt_items_ok (t_items t) 0 b kids) as [p ->]. cbn [bind].
  destruct (IH (fun t' it ra H => Hc t' it ra (or_intror H)) (S n) (add_id a (tier_id t)) (snd p)) as [rs ->]. cbn [bind]. eauto.
Qed.
Lemma corpus_igts_ok l : (forall g t it ra, In g l -> In t (g_tiers g) -> In it (t_items t) -> refattr ra -> checkable fuel g t it ra) ->
  forall n seen, exists rs, corpus_igts fuel n seen l None = Ok rs.
Proof.
  induction l as [|g l IH]; intros Hc n seen; [eexists; reflexivity|]. cbn [corpus_igts]. unfold validate_igt. cbn [validate].
  destruct (has_id_ok SHOULD (igt_id g) n (L "<igt>") (L "<xigt-corpus>") (igt_id g)) as [recs ->]. cbn [bind].
  destruct (igt_tiers_ok g (g_tiers g)) with (n := 0) (a := @nil str) (b := @nil str) as [kids ->]; [intros; apply Hc; auto; now left|]. cbn [bind].
  destruct (unique_ok (igt_id g) n (L "<igt>") (L "<xigt-corpus>") (igt_id g) seen) as [u ->]; [cbn; tauto|cbn; tauto|]. cbn [bind].
  destruct (IH (fun g' t it ra H => Hc g' t it ra (or_intror H)) (S n) (add_id seen (igt_id g))) as [rs ->]. cbn [bind]. eauto.
Qed.
Theorem validation_ends ci gs n ids_ :
  (forall g t it ra, In g gs -> In t (g_tiers g) -> In it (t_items t) -> refattr ra -> checkable fuel g t it ra) ->
  exists r, validate_corpus fuel ci gs None n ids_ = Ok r.
Proof.
  intros Hc. unfold validate_corpus. cbn [validate].
  destruct (has_id_ok MAY ci n (L "<xigt-corpus>") (L "collection") ci) as [recs ->]. cbn [bind].
  destruct (unique_ok ci n (L "<xigt-corpus>") (L "collection") ci ids_) as [u Hu]; [cbn; tauto|cbn; tauto|]. unfold unique_in in Hu. rewrite Hu. cbn [bind].
  destruct (corpus_igts_ok gs Hc 0 []) as [kids ->]. cbn [bind]. eauto.
Qed.

(* ---------- C33 ---------- *)

Lemma report_rect' (P : report -> Prop) : (forall recs kids i n, Forall P kids -> P (Report recs kids i n)) -> forall r, P r.
Proof.
  intros H. fix rec 1. intros [recs kids i n]. apply H. induction kids as [|k kids IH]; constructor; [apply rec|exact IH].
Qed.
Lemma all_below_kids m recs kids i n : all_below m (Report recs kids i n) <->
  (forall x, In x recs -> (rec_level x < m)%Z) /\ Forall (all_below m) kids.
Proof.
  split.
  - intros H. split.
    + intros x Hx. apply (H [] recs); [|exact Hx]. eexists. split; reflexivity.
    + apply Forall_forall. intros k Hk path l x (k' & H1 & H2) Hx. apply In_nth_error in Hk as [j Hj].
      apply (H (j :: path) l); [|exact Hx]. exists k'. cbn. now rewrite Hj.
  - intros [H1 H2] [|j path] l x (k' & H3 & H4) Hx; cbn in H3.
    + injection H3 as <-. cbn in H4. subst. auto.
    + destruct (nth_error kids j) as [k|] eqn:E; [|discriminate]. rewrite Forall_forall in H2.
      apply (H2 k (nth_error_In _ _ E) path l x); [|exact Hx]. exists k'. auto.
Qed.
Lemma filter_empty m r : filter_empty_reports (Some m) r = FEmpty <-> all_below m r.
Proof.
  induction r as [recs kids i n IH] using report_rect'. rewrite all_below_kids. cbn [filter_empty_reports report_is_empty].
  destruct (existsb (at_level (Some m)) recs) eqn:E1; cbn [orb negb].
  - split; [easy|]. intros [H _]. apply existsb_exists in E1 as (x & Hx & Hm). cbn in Hm. apply Z.leb_le in Hm. specialize (H x Hx). lia.
  - destruct (existsb (fun k => negb (is_dict_empty k)) (map (filter_empty_reports (Some m)) kids)) eqn:E2; cbn [orb negb].
    + split; [easy|]. intros [_ H]. apply existsb_exists in E2 as (x & Hx & Hm). apply in_map_iff in Hx as (k & <- & Hk).
      rewrite Forall_forall in IH, H. specialize (proj2 (IH k Hk) (H k Hk)) as Hz. now rewrite Hz in Hm.
    + split; [intros _|easy]. split.
      * intros x Hx. destruct (Z.lt_ge_cases (rec_level x) m) as [|G]; [easy|]. exfalso.
        assert (existsb (at_level (Some m)) recs = true); [|congruence]. apply existsb_exists. exists x. split; [easy|]. cbn. now apply Z.leb_le.
      * apply Forall_forall. intros k Hk. rewrite Forall_forall in IH. apply (IH k Hk). destruct (filter_empty_reports (Some m) k) eqn:F; [easy|].
        exfalso. assert (Ht : existsb (fun k => negb (is_dict_empty k)) (map (filter_empty_reports (Some m)) kids) = true); [|congruence].
        apply existsb_exists. eexists. split; [apply in_map_iff; exists k; split; [exact F|exact Hk]|]. reflexivity.
Qed.
Theorem filter_verdict m r : report_is_empty None (filter_empty_reports (Some m) r) = true <-> all_below m r.
Proof.
  rewrite <- filter_empty. destruct r as [recs kids i n]. cbn [filter_empty_reports report_is_empty].
  destruct (existsb (at_level (Some m)) recs) eqn:E1; cbn [orb negb].
  - cbn [report_is_empty]. split; [|easy]. intros H. apply negb_true_iff in H. apply orb_false_iff in H as [H _].
    apply existsb_exists in E1 as (x & Hx & _). exfalso. assert (existsb (at_level None) recs = true); [|congruence]. apply existsb_exists. eauto.
  - destruct (existsb (fun k => negb (is_dict_empty k)) (map (filter_empty_reports (Some m)) kids)) eqn:E2; cbn [negb report_is_empty].
    + split; [|easy]. intros H. apply negb_true_iff in H. apply orb_false_iff in H as [_ H]. congruence.
    + easy.
Qed.

(* every record has one of the three levels *)
Definition low (r : report) : Prop := all_below 41 r.
Lemma validate_low cx conds recs : validate cx conds = Ok recs -> forall x, In x recs -> (rec_level x < 41)%Z.
Proof. intros H x Hx. destruct (validate_recs _ _ _ _ H Hx) as (m & c & t & _ & _ & _ & -> & _). destruct m; cbn; lia. Qed.
Lemma unique_low cx i s u : unique_in cx i s = Ok u -> forall x, In x u -> (rec_level x < 41)%Z.
Proof.
  unfold unique_in. intros H x Hx. apply condition_recs in H as [(t & msg & _ & _ & _ & ->)|(_ & ->)]; [|destruct Hx].
  destruct Hx as [<-|[]]. cbn. lia.
Qed.
Lemma extend_low r u : low r -> (forall x, In x u -> (rec_level x < 41)%Z) -> low (extend_recs r u).
Proof.
  destruct r as [recs kids i n]. unfold low. cbn [extend_recs]. rewrite !all_below_kids. intros [H1 H2] H3. split; [|easy].
  intros x Hx. apply in_app_or in Hx as [Hx|Hx]; auto.
Qed.
Lemma tier_items_low g t l : forall n seen rs, tier_items fuel g t n seen l = Ok rs -> Forall low rs.
Proof.
  induction l as [|it l IH]; intros n seen rs H; cbn [tier_items] in H; inv_ok; [constructor|]. unfold validate_item in K. inv_ok.
  constructor; [|eapply IH; eassumption]. apply extend_low; [|eapply unique_low; eassumption].
  apply all_below_kids. split; [eapply validate_low; eassumption|constructor].
Qed.
Lemma igt_items_low l : forall n seen rs p, igt_items n seen l rs = Ok p -> Forall low rs -> Forall low (fst p).
Proof.
  induction l as [|it l IH]; intros n seen rs p H Hl; cbn [igt_items] in H; [inv_ok; constructor|]. destruct rs as [|r rs]; [inv_ok; constructor|].
  inv_ok. inversion Hl; subst. cbn [fst]. constructor; [|eapply IH; eassumption]. apply extend_low; [easy|eapply unique_low; eassumption].
Qed.
Lemma igt_tiers_low g l : forall n a b rs, igt_tiers fuel g n a b l = Ok rs -> Forall low rs.
Proof.
  induction l as [|t l IH]; intros n a b rs H; cbn [igt_tiers] in H; inv_ok; [constructor|]. unfold validate_tier in K. inv_ok.
  cbn [report_recs report_kids] in *. constructor; [|eapply IH; eassumption]. apply all_below_kids. split.
  - intros y Hy. apply in_app_or in Hy as [Hy|Hy]; [eapply validate_low; eassumption|eapply unique_low; eassumption].
  - eapply igt_items_low; [eassumption|]. eapply tier_items_low; eassumption.
Qed.
Lemma corpus_igts_low l : forall n seen e rs, corpus_igts fuel n seen l e = Ok rs -> Forall low rs.
Proof.
  induction l as [|g l IH]; intros n seen e rs H; cbn [corpus_igts] in H; [destruct e; inv_ok; [discriminate|constructor]|]. inv_ok.
  unfold validate_igt in K. inv_ok. constructor; [|eapply IH; eassumption]. apply extend_low; [|eapply unique_low; eassumption].
  apply all_below_kids. split; [eapply validate_low; eassumption|]. eapply igt_tiers_low; eassumption.
Qed.
Lemma corpus_low ci gs e n ids_ r : validate_corpus fuel ci gs e n ids_ = Ok r -> all_below 41 r.
Proof.
  unfold validate_corpus. intros H. inv_ok. apply all_below_kids. split; [eapply validate_low; eassumption|]. eapply corpus_igts_low; eassumption.
Qed.

(* the verdict over the files *)
Definition clean (m : Z) (n : nat) (idset : list str) (f : file) : Prop :=
  f = Unparsable \/ exists ci gs r, f = Loaded ci gs None /\ validate_corpus fuel ci gs None n idset = Ok r /\ all_below m r.

Lemma corpus_end ci gs e n ids_ r : validate_corpus fuel ci gs (Some e) n ids_ <> Ok r.
Proof.
  unfold validate_corpus. intros H. inv_ok. clear K. revert x0 K0. generalize (@nil str) as seen. generalize 0 as k.
  induction gs as [|g gs IH]; intros k seen rs H; cbn [corpus_igts] in H; [discriminate|]. inv_ok. eapply IH; eassumption.
Qed.
Lemma corpus_end_none ci gs e n ids_ r : validate_corpus fuel ci gs e n ids_ = Ok r -> e = None.
Proof. destruct e; [|easy]. intros H. now apply corpus_end in H. Qed.

Lemma add_id_given s ci gs e : add_id s ci = s ++ given_ids [Loaded ci gs e].
Proof. destruct ci; cbn; [easy|now rewrite app_nil_r]. Qed.

Lemma run_files_verdict m l : forall n s bs, run_files fuel m n s l = Ok bs ->
  (forallb (fun b => b) bs = true <-> forall k f, nth_error l k = Some f -> clean m (n + k) (s ++ given_ids (firstn k l)) f)
  /\ (forall k f, nth_error l k = Some f -> f = Unparsable \/ exists ci gs r, f = Loaded ci gs None
        /\ validate_corpus fuel ci gs None (n + k) (s ++ given_ids (firstn k l)) = Ok r).
Proof.
  induction l as [|f l IH]; intros n s bs H; cbn [run_files] in H.
  - inv_ok. split; [split; [|reflexivity]; intros _ k f; destruct k; discriminate|intros k f; destruct k; discriminate].
  - destruct f as [|e|ci gs e].
    + destruct (IH _ _ _ H) as [IH1 IH2]. rewrite IH1. split; [split|].
      * intros Hc [|k] f Hf; cbn in Hf; [injection Hf as <-; now left|]. rewrite <- Nat.add_succ_comm. exact (Hc k f Hf).
      * intros Hc k f Hf. rewrite Nat.add_succ_comm. exact (Hc (S k) f Hf).
      * intros [|k] f Hf; cbn in Hf; [injection Hf as <-; now left|]. rewrite <- Nat.add_succ_comm. exact (IH2 k f Hf).
    + discriminate.
    + inv_ok. rename x into r. rename x0 into bs'. assert (e = None) as -> by (eapply corpus_end_none; eassumption).
      rewrite (add_id_given s ci gs None) in K0. destruct (IH _ _ _ K0) as [IH1 IH2]. cbn [forallb]. rewrite andb_true_iff, filter_verdict, IH1.
      assert (Hg : forall k, (s ++ given_ids [Loaded ci gs None]) ++ given_ids (firstn k l) = s ++ given_ids (firstn (S k) (Loaded ci gs None :: l))).
      { intros k. rewrite <- app_assoc. f_equal. unfold given_ids. rewrite <- flat_map_app. reflexivity. }
      split; [split|].
      * intros [H1 H2] [|k] f Hf; cbn [nth_error] in Hf.
        -- injection Hf as <-. right. exists ci, gs, r. cbn [firstn given_ids flat_map]. rewrite Nat.add_0_r, app_nil_r. auto.
        -- rewrite <- Hg, <- Nat.add_succ_comm. auto.
      * intros Hc. split.
        -- destruct (Hc 0 _ eq_refl) as [?|(ci' & gs' & r' & [= <- <-] & H1 & H2)]; [discriminate|].
           cbn [firstn given_ids flat_map] in H1. rewrite Nat.add_0_r, app_nil_r, K in H1. injection H1 as <-. exact H2.
        -- intros k f Hf. rewrite Hg, Nat.add_succ_comm. exact (Hc (S k) f Hf).
      * intros [|k] f Hf; cbn [nth_error] in Hf.
        -- injection Hf as <-. right. exists ci, gs, r. cbn [firstn given_ids flat_map]. rewrite Nat.add_0_r, app_nil_r. auto.
        -- rewrite <- Hg, <- Nat.add_succ_comm. auto.
Qed.
Lemma run_files_ok m l : forall n s, (forall k f, nth_error l k = Some f -> f = Unparsable \/ exists ci gs r, f = Loaded ci gs None
        /\ validate_corpus fuel ci gs None (n + k) (s ++ given_ids (firstn k l)) = Ok r) -> exists bs, run_files fuel m n s l = Ok bs.
Proof.
  induction l as [|f l IH]; intros n s H; cbn [run_files]; [eauto|]. destruct (H 0 f eq_refl) as [->|(ci & gs & r & -> & Hr)].
  - apply IH. intros k f Hf. rewrite Nat.add_succ_comm. exact (H (S k) f Hf).
  - cbn [firstn given_ids flat_map] in Hr. rewrite Nat.add_0_r, app_nil_r in Hr. rewrite Hr. cbn [bind].
    rewrite (add_id_given s ci gs None). destruct (IH (S n) (s ++ given_ids [Loaded ci gs None])) as [bs ->]; [|cbn [bind]; eauto].
    intros k f Hf. rewrite Nat.add_succ_comm, <- app_assoc. 
    replace (given_ids [Loaded ci gs None] ++ given_ids (firstn k l)) with (given_ids (firstn (S k) (Loaded ci gs None :: l)))
      by (unfold given_ids; rewrite <- flat_map_app; reflexivity). exact (H (S k) f Hf).
Qed.

Theorem run_verdict m l : run fuel m l = Ok true <->
  forall k f, nth_error l k = Some f -> f = Unparsable
    \/ exists ci gs r, f = Loaded ci gs None /\ validate_corpus fuel ci gs None k (given_ids (firstn k l)) = Ok r /\ all_below m r.
Proof.
  unfold run. split.
  - intros H. apply bind_ok in H as (bs & K & H). apply Ok_inj in H. destruct (run_files_verdict _ _ _ _ _ K) as [H1 _]. intros k f Hf. exact (proj1 H1 H k f Hf).
  - intros H. destruct (run_files_ok m l 0 []) as [bs Hbs].
    { intros k f Hf. destruct (H k f Hf) as [?|(ci & gs & r & H1 & H2 & _)]; [now left|right; eauto]. }
    rewrite Hbs. cbn [bind]. destruct (run_files_verdict _ _ _ _ _ Hbs) as [H1 _]. f_equal. apply H1. exact H.
Qed.
Theorem run_fails m l : run fuel m l = Ok false ->
  exists k ci gs r path recs x, nth_error l k = Some (Loaded ci gs None)
    /\ validate_corpus fuel ci gs None k (given_ids (firstn k l)) = Ok r
    /\ records_at r path recs /\ In x recs /\ (m <= rec_level x)%Z.
Proof.
  unfold run. intros H. apply bind_ok in H as (bs & K & H). apply Ok_inj in H.
  assert (Hex : forall l n s bs, run_files fuel m n s l = Ok bs -> forallb (fun b => b) bs = false ->
     exists k ci gs r, nth_error l k = Some (Loaded ci gs None) /\ validate_corpus fuel ci gs None (n + k) (s ++ given_ids (firstn k l)) = Ok r
       /\ report_is_empty None (filter_empty_reports (Some m) r) = false).
  { clear. induction l as [|f l IH]; intros n s bs H Hb; cbn [run_files] in H; [inv_ok; discriminate|]. destruct f as [|e|ci gs e].
    - destruct (IH _ _ _ H Hb) as (k & ci & gs & r & H1 & H2 & H3). exists (S k), ci, gs, r. rewrite Nat.add_succ_comm in H2. auto.
    - discriminate.
    - inv_ok. rename x into r. rename x0 into bs'. assert (e = None) as -> by (eapply corpus_end_none; eassumption).
      cbn [forallb] in Hb. apply andb_false_iff in Hb as [Hb|Hb].
      + exists 0, ci, gs, r. cbn [firstn given_ids flat_map]. rewrite Nat.add_0_r, app_nil_r. auto.
      + rewrite (add_id_given s ci gs None) in K0. destruct (IH _ _ _ K0 Hb) as (k & ci' & gs' & r' & H1 & H2 & H3). exists (S k), ci', gs', r'.
        split; [exact H1|]. split; [|exact H3]. rewrite Nat.add_succ_comm in H2. rewrite <- H2. f_equal. rewrite <- app_assoc. f_equal.
        unfold given_ids. rewrite <- flat_map_app. reflexivity. }
  destruct (Hex _ _ _ _ K H) as (k & ci & gs & r & H1 & H2 & H3). exists k, ci, gs, r. cbn [Nat.add app] in H2.
  assert (Hn : exists path recs x, records_at r path recs /\ In x recs /\ (m <= rec_level x)%Z).
  { revert H3. clear. revert r. induction r as [recs kids i n IH] using report_rect'. cbn [filter_empty_reports report_is_empty].
    destruct (existsb (at_level (Some m)) recs) eqn:E1; cbn [orb negb].
    - intros _. apply existsb_exists in E1 as (x & Hx & Hm). cbn in Hm. apply Z.leb_le in Hm. exists [], recs, x. split; [eexists; split; reflexivity|auto].
    - destruct (existsb (fun k => negb (is_dict_empty k)) (map (filter_empty_reports (Some m)) kids)) eqn:E2; cbn [negb report_is_empty]; [|discriminate]. intros _.
      apply existsb_exists in E2 as (x & Hx & Hm). apply in_map_iff in Hx as (kd & <- & Hk). apply In_nth_error in Hk as [j Hj].
      rewrite Forall_forall in IH. destruct (IH kd (nth_error_In _ _ Hj)) as (path & l & x & (k' & H1 & H2) & H3).
      + destruct (report_is_empty None (filter_empty_reports (Some m) kd)) eqn:E; [|easy]. apply filter_verdict, filter_empty in E. now rewrite E in Hm.
      + exists (j :: path), l, x. split; [|exact H3]. exists k'. cbn. now rewrite Hj. }
  destruct Hn as (path & recs & x & Hn). exists path, recs, x. tauto.
Qed.

Theorem quiet_passes l b : run fuel (level_of_verbosity 0) l = Ok b -> b = true.
Proof.
  intros H. destruct b; [easy|]. apply run_fails in H as (k & ci & gs & r & path & recs & x & _ & Hr & H1 & H2 & H3).
  apply corpus_low in Hr. specialize (Hr _ _ _ H1 H2). cbn in H3. lia.
Qed.

Theorem places ci gs e n ids_ r : validate_corpus fuel ci gs e n ids_ = Ok r ->
  (forall i g, nth_error gs i = Some g -> exists l, records_at r [i] l)
  /\ (forall i j g t, tier_at gs i j g t -> exists l, records_at r [i; j] l)
  /\ (forall i j k g t it, item_at gs i j k g t it -> exists l, records_at r [i; j; k] l).
Proof.
  intros H. split; [|split]; intros; [eapply report_igt|eapply report_tier|eapply report_item]; eassumption.
Qed.

End V.
