(* A corpus with every kind of mistake, and corpora the validator gets wrong. *)
From Verif Require Import PyStr PyStrFacts SpecRef Model ModelExamples Value SpecValue ValueProofs ValueExamples Validate SpecValidate.
From Verif Require ValidateProofs.

Definition sel_of (d i : str) (l : list span) : sel := {| sl_delim := d; sl_id := i; sl_spans := l |}.
Definition sp (a b : str) : span := {| sp_delim := []; sp_start := a; sp_end := b |}.
Definition mk_igt (i : str) (l : list tier) : igt := {| g_attrs := mk_attrs i []; g_md := []; g_tiers := l |}.

Definition vp : tier := mk_tier (L "p") [] [mk_item (L "p1") (L "abcdefgh")].
(* w1 fits; w2 leaves p1; w3 names a missing item; w4 selects p1 twice; p1 has the id of a phrase *)
Definition vw : tier := mk_tier (L "w") [(L "segmentation", L "p")]
  [ref_item (L "w1") [(L "segmentation", L "p1[0:3]")];
   ref_item (L "w2") [(L "segmentation", L "p1[3:5,6:9]")];
   ref_item (L "w3") [(L "segmentation", L "p1[0:1]+p2")];
   ref_item (L "w4") [(L "segmentation", L "p1+p1")];
   ref_item (L "p1") [(L "alignment", L "x1")]].
(* refers to a missing tier *)
Definition vg : tier := mk_tier (L "g") [(L "alignment", L "words")] [].
Definition v_igt : igt := mk_igt (L "i1") [vp; vw; vg; mk_tier (L "w") [] []].
Definition v_igts : list igt := [v_igt; mk_igt (L "i1") []].
Definition u0 : Unicode := ascii_unicode.

Definition no_type : record := warning (L "Each <tier> SHOULD specify a type.").
Definition v_report : report :=
  Report [] [Report [] [Report [no_type] [Report [] [] (Some (L "p1")) 0] (Some (L "p")) 0;
                        Report [no_type; unspecified [L "alignment"]]
                          [Report [] [] (Some (L "w1")) 0;
                           Report [bad_spans [L "p1[6:9]"]] [] (Some (L "w2")) 1;
                           Report [missing_items (L "segmentation") (L "p") [L "p2"]] [] (Some (L "w3")) 2;
                           Report [overlapping [L "p1"]] [] (Some (L "w4")) 3;
                           Report [not_unique (L "<item>") (L "<igt>")] [] (Some (L "p1")) 4] (Some (L "w")) 1;
                        Report [no_type; no_such_tier (L "alignment")] [] (Some (L "g")) 2;
                        Report [no_type; not_unique (L "<tier>") (L "<igt>")] [] (Some (L "w")) 3] (Some (L "i1")) 0;
             Report [not_unique (L "<igt>") (L "<xigt-corpus>")] [] (Some (L "i1")) 1] (Some (L "c")) 0.
Lemma v_validates : @validate_corpus u0 5 (Some (L "c")) v_igts None 0 [] = Ok v_report.
Proof. vm_compute. reflexivity. Qed.

Definition x2 : expr := [sel_of [] (L "p1") [sp (L "3") (L "5"); {| sp_delim := L ","; sp_start := L "6"; sp_end := L "9" |}]].
Definition x4 : expr := [sel_of [] (L "p1") []; sel_of (L "+") (L "p1") []].

Lemma one_tier : the_member tier_id (g_tiers v_igt) (L "p") vp.
Proof. apply the_member_by; reflexivity. Qed.
Lemma one_item : the_member item_id (t_items vp) (L "p1") (mk_item (L "p1") (L "abcdefgh")).
Proof. apply the_member_by; reflexivity. Qed.
Lemma vp_unambiguous i : unambiguous item_id (t_items vp) i.
Proof.
  destruct (str_eqb i (L "p1")) eqn:E.
  - apply str_eqb_eq in E as ->. right. eexists. exact one_item.
  - left. intros y [<-|[]] H. injection H as <-. vm_compute in E. discriminate.
Qed.
Lemma vp_ids : @plain_ids u0 vp.
Proof. split; [exact vp_unambiguous|]. intros y i [<-|[]] H. injection H as <-. apply (@id_p1 u0). Qed.
Lemma w2_refers : refers v_igt vw (ref_item (L "w2") [(L "segmentation", L "p1[3:5,6:9]")]) (L "segmentation") (show x2) vp.
Proof. exists (L "p"). split; [reflexivity|]. split; [easy|]. split; [exact one_tier|]. split; [reflexivity|]. split; easy. Qed.
Lemma w4_refers : refers v_igt vw (ref_item (L "w4") [(L "segmentation", L "p1+p1")]) (L "segmentation") (show x4) vp.
Proof. exists (L "p"). split; [reflexivity|]. split; [easy|]. split; [exact one_tier|]. split; [reflexivity|]. split; easy. Qed.
Lemma dig c : In c (L "0123456789") -> @num_shape u0 [c].
Proof. apply (@lit_digit u0). Qed.
Lemma delim_ok c : In c (L "+,") -> @delim_char u0 c.
Proof. intros H. vm_compute in H. destruct H as [<-|[<-|[]]]; (split; [reflexivity|split; [|discriminate]]); vm_compute; intuition discriminate. Qed.
Ltac delims := repeat match goal with
  | |- Forall _ _ => constructor
  | |- _ /\ _ => split
  | |- plain_delim _ => first [now left|right; now left|right; now right]
  end.
Lemma x2_plain : @plain u0 x2.
Proof.
  split; [|split].
  - cbn. repeat split; try (apply dig; vm_compute; now auto 20); try apply (@id_p1 u0); try discriminate.
    constructor; [apply delim_ok; right; now left|constructor].
  - delims.
  - repeat constructor; vm_compute; discriminate.
Qed.
Lemma x4_plain : @plain u0 x4.
Proof.
  split; [|split].
  - cbn. repeat split; try apply (@id_p1 u0); try discriminate. constructor; [apply delim_ok; now left|constructor].
  - delims.
  - repeat constructor.
Qed.
Lemma vp_shows : @shows u0 5 v_igt vp (mk_item (L "p1") (L "abcdefgh")) (L "abcdefgh").
Proof. reflexivity. Qed.
Lemma vp_values (x : expr) s it : In s x -> the_member item_id (t_items vp) (sl_id s) it -> exists v, @shows u0 5 v_igt vp it v.
Proof. intros _ [[<-|[]] _]. eexists. exact vp_shows. Qed.
Definition w2_bad : list sel := [sel_of (L ",") (L "p1") [sp (L "6") (L "9")]].
Lemma w2_picks : picks (@outside_of u0 5 v_igt vp) (expand_expr x2) w2_bad.
Proof.
  apply P_skip; [|apply P_keep; [|constructor]].
  - intros H. inversion H as [s sp0 it v E1 E0 E2 E3]; subst. destruct E0 as [[<-|[]] _]. injection E1 as <-. unfold shows in E2. vm_compute in E2. injection E2 as <-.
    vm_compute in E3. discriminate.
  - eapply Outside; [reflexivity|exact one_item|exact vp_shows|reflexivity].
Qed.
Lemma w3_pieces : @id_pieces u0 (L "p1[0:1]+p2") [L "p1"; L "p2"].
Proof. apply (proj1 (@RefLossless.ids_pieces u0 _ _)). vm_compute. reflexivity. Qed.
Lemma w3_refers : refers v_igt vw (ref_item (L "w3") [(L "segmentation", L "p1[0:1]+p2")]) (L "segmentation") (L "p1[0:1]+p2") vp.
Proof. exists (L "p"). split; [reflexivity|]. split; [easy|]. split; [exact one_tier|]. split; [reflexivity|]. split; easy. Qed.

(* ---------- what goes unnoticed ---------- *)

(* spans of the same item that overlap *)
Definition lap_igt : igt := mk_igt (L "i1") [vp; mk_tier (L "w") [(L "segmentation", L "p")]
  [ref_item (L "w1") [(L "segmentation", L "p1[0:4]+p1[2:6]")]]].
(* ids of an empty tier *)
Definition empty_igt : igt := mk_igt (L "i1") [mk_tier (L "p") [] []; mk_tier (L "w") [(L "segmentation", L "p")]
  [ref_item (L "w1") [(L "segmentation", L "p1[0:4]")]]].
(* a tier reference that is the position of a tier *)
Definition pos_igt : igt := mk_igt (L "i1") [vp; mk_tier (L "w") [(L "segmentation", L "0")]
  [ref_item (L "w1") [(L "segmentation", L "p1[0:4]")]]].

(* ---------- what stops validation with an exception ---------- *)

Definition space_igt : igt := mk_igt (L "i1") [vp; mk_tier (L "w") [(L "alignment", L "p")]
  [ref_item (L "w1") [(L "alignment", L "p1 p1")]]].
Definition valueless_igt : igt := mk_igt (L "i1") [mk_tier (L "p") [] [ref_item (L "p1") []]; mk_tier (L "w") [(L "alignment", L "p")]
  [ref_item (L "w1") [(L "alignment", L "p1[0:1]")]]].
Definition brace_igt : igt := mk_igt (L "i1") [mk_tier (L "p{1}") [] [mk_item (L "p1") (L "abc")]; mk_tier (L "w") [(L "alignment", L "p{1}")]
  [ref_item (L "w1") [(L "alignment", L "p2")]]].

Fixpoint errors (r : report) : nat :=
  match r with Report recs kids _ _ => length (filter (fun x => Z.eqb (rec_level x) 40) recs) + list_sum (map errors kids) end.

(* the references of lap_igt can be checked *)
Definition x_lap : expr := [sel_of [] (L "p1") [sp (L "0") (L "4")]; sel_of (L "+") (L "p1") [sp (L "2") (L "6")]].
Lemma x_lap_plain : @plain u0 x_lap.
Proof.
  split; [|split].
  - cbn. repeat split; try (apply dig; vm_compute; now auto 20); try apply (@id_p1 u0); try discriminate.
    constructor; [apply delim_ok; now left|constructor].
  - delims.
  - repeat constructor; vm_compute; discriminate.
Qed.
Lemma lap_checkable g t it ra : In g [lap_igt] -> In t (g_tiers g) -> In it (t_items t) -> refattr ra -> @checkable u0 5 g t it ra.
Proof.
  intros [<-|[]] [<-|[<-|[]]] [<-|[]] [<-|[<-|[<-|[]]]]; try (now left).
  right. right. exists (L "p"), (L "p1[0:4]+p1[2:6]"). split; [reflexivity|]. split; [reflexivity|]. right. right. right.
  exists vp. split; [apply the_member_by; reflexivity|]. right. split.
  - exists x_lap. split; [reflexivity|]. split; [exact x_lap_plain|]. intros s it _ [[<-|[]] _]. eexists. reflexivity.
  - split; [split; vm_compute; intuition discriminate|exact vp_ids].
Qed.

(* proofs of the statements in PropValidate.v about these corpora *)
Lemma unparsable_passes : exists l, l <> [] /\ (forall f, In f l -> f = Unparsable)
  /\ forall (U : Unicode) (fuel : nat) m, run fuel m l = Ok true.
Proof. exists [Unparsable]. split; [easy|]. split; [intros f [<-|[]]; reflexivity|]. reflexivity. Qed.
Lemma lap_passes : exists r, @validate_corpus u0 5 (Some (L "c")) [lap_igt] None 0 [] = Ok r
  /\ records_at r [0; 1; 0] []
  /\ exists it, item_at [lap_igt] 0 1 0 lap_igt (nth 1 (g_tiers lap_igt) vp) it
     /\ attr (it_attrs it) (L "segmentation") = Some (L "p1[0:4]+p1[2:6]").
Proof.
  eexists. split; [vm_compute; reflexivity|]. split; [eexists; split; reflexivity|]. eexists. split; [split; [split|]; reflexivity|reflexivity].
Qed.
Ltac below := apply (proj1 (ValidateProofs.filter_verdict _ _)); vm_compute; reflexivity.
Lemma empty_passes : exists r, @validate_corpus u0 5 (Some (L "c")) [empty_igt] None 0 [] = Ok r
  /\ all_below 31 r
  /\ exists it t, item_at [empty_igt] 0 1 0 empty_igt t it /\ attr (it_attrs it) (L "segmentation") = Some (L "p1[0:4]")
     /\ attr (t_attrs t) (L "segmentation") = Some (L "p")
     /\ forall t' it', In t' (g_tiers empty_igt) -> In it' (t_items t') -> item_id it' <> Some (L "p1").
Proof.
  eexists. split; [vm_compute; reflexivity|]. split; [below|]. do 2 eexists. split; [split; [split|]; reflexivity|]. split; [reflexivity|].
  split; [reflexivity|]. intros t' it' [<-|[<-|[]]]; [intros []|]. intros [<-|[]]. discriminate.
Qed.
Lemma position_passes : exists r, @validate_corpus u0 5 (Some (L "c")) [pos_igt] None 0 [] = Ok r
  /\ all_below 31 r
  /\ exists t, tier_at [pos_igt] 0 1 pos_igt t /\ attr (t_attrs t) (L "segmentation") = Some (L "0")
     /\ no_member tier_id (g_tiers pos_igt) (L "0").
Proof.
  eexists. split; [vm_compute; reflexivity|]. split; [below|]. eexists. split; [split; reflexivity|]. split; [reflexivity|].
  intros y [<-|[<-|[]]]; discriminate.
Qed.
Lemma crashes :
  @validate_corpus u0 5 (Some (L "c")) [space_igt] None 0 [] = Err AttributeError
  /\ @validate_corpus u0 5 (Some (L "c")) [valueless_igt] None 0 [] = Err TypeError
  /\ @validate_corpus u0 5 (Some (L "c")) [brace_igt] None 0 [] = Err IndexError.
Proof. vm_compute. auto. Qed.
