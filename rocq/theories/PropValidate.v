(* Properties C32, C33 and C34: xigt-validate. *)
From Verif Require Import PyStr SpecRef Model ModelExamples Value SpecValue ValueExamples Validate SpecValidate.
From Verif Require ValidateProofs ValidateExamples.
Import ValidateExamples.

(* ---------- C32: ids ---------- *)

(* The error "must be unique within its corpus" is recorded on an igt exactly if
   its id is given and an earlier igt of the corpus has it. *)
Theorem C32_igt : forall (U : Unicode) (fuel : nat) ci gs e n idset r i g l,
  validate_corpus fuel ci gs e n idset = Ok r -> nth_error gs i = Some g -> records_at r [i] l ->
  (In (not_unique (L "<igt>") (L "<xigt-corpus>")) l <-> repeats igt_id gs i).
Proof. exact @ValidateProofs.unique_igt. Qed.
Print Assumptions C32_igt.

(* likewise a tier in its igt *)
Theorem C32_tier : forall (U : Unicode) (fuel : nat) ci gs e n idset r i j g t l,
  validate_corpus fuel ci gs e n idset = Ok r -> tier_at gs i j g t -> records_at r [i; j] l ->
  (In (not_unique (L "<tier>") (L "<igt>")) l <-> repeats tier_id (g_tiers g) j).
Proof. exact @ValidateProofs.unique_tier. Qed.
Print Assumptions C32_tier.

(* likewise an item in its tier, and among all items of its igt *)
Theorem C32_item : forall (U : Unicode) (fuel : nat) ci gs e n idset r i j k g t it l,
  validate_corpus fuel ci gs e n idset = Ok r -> item_at gs i j k g t it -> records_at r [i; j; k] l ->
  (In (not_unique (L "<item>") (L "<tier>")) l <-> repeats item_id (t_items t) k)
  /\ (In (not_unique (L "<item>") (L "<igt>")) l
      <-> repeats item_id (flat_map t_items (g_tiers g)) (length (flat_map t_items (firstn j (g_tiers g))) + k)).
Proof. exact @ValidateProofs.unique_item. Qed.
Print Assumptions C32_item.

(* likewise a corpus among the files given *)
Theorem C32_corpus : forall (U : Unicode) (fuel : nat) ci gs e n idset r l,
  validate_corpus fuel ci gs e n idset = Ok r -> records_at r [] l ->
  (In (not_unique (L "<xigt-corpus>") (L "collection")) l <-> exists i, i <> [] /\ ci = Some i /\ In i idset).
Proof. exact @ValidateProofs.unique_corpus. Qed.
Print Assumptions C32_corpus.

(* every element has its place in the report *)
Theorem C32_places : forall (U : Unicode) (fuel : nat) ci gs e n idset r,
  validate_corpus fuel ci gs e n idset = Ok r ->
  (forall i g, nth_error gs i = Some g -> exists l, records_at r [i] l)
  /\ (forall i j g t, tier_at gs i j g t -> exists l, records_at r [i; j] l)
  /\ (forall i j k g t it, item_at gs i j k g t it -> exists l, records_at r [i; j; k] l).
Proof. exact @ValidateProofs.places. Qed.
Print Assumptions C32_places.
(* igt 1, tier 3 of igt 0 and item 4 of its tier 1 repeat an id *)
Example C32_example : @validate_corpus ascii_unicode 5 (Some (L "c")) v_igts None 0 [] = Ok v_report
  /\ records_at v_report [1] [not_unique (L "<igt>") (L "<xigt-corpus>")]
  /\ records_at v_report [0; 1; 4] [not_unique (L "<item>") (L "<igt>")]
  /\ repeats item_id (flat_map t_items (g_tiers v_igt)) (length (flat_map t_items (firstn 1 (g_tiers v_igt))) + 4).
Proof.
  split; [exact v_validates|]. split; [eexists; split; reflexivity|]. split; [eexists; split; reflexivity|].
  exists (L "p1"). eexists. exists 0. eexists. split; [easy|]. split; [reflexivity|]. split; [reflexivity|]. split; [cbn; auto with arith|]. split; reflexivity.
Qed.

(* ---------- C33: the verdict ---------- *)

(* a filtered report is empty exactly if every record anywhere is below the level *)
Theorem C33_filter : forall (m : Z) (r : report),
  report_is_empty None (filter_empty_reports (Some m) r) = true <-> all_below m r.
Proof. exact ValidateProofs.filter_verdict. Qed.
Print Assumptions C33_filter.
Example C33_errors_below : ~ all_below 40 v_report.
Proof. intros H. apply C33_filter in H. vm_compute in H. discriminate. Qed.

(* The run succeeds exactly if every file that could be parsed was read to the
   end and has no record at the level or above. *)
Theorem C33_run : forall (U : Unicode) (fuel : nat) (m : Z) (l : list file),
  run fuel m l = Ok true <->
  forall k f, nth_error l k = Some f -> f = Unparsable
    \/ exists ci gs r, f = Loaded ci gs None
       /\ validate_corpus fuel ci gs None k (given_ids (firstn k l)) = Ok r /\ all_below m r.
Proof. exact @ValidateProofs.run_verdict. Qed.
Print Assumptions C33_run.
(* and when it fails without an exception, some record is at the level or above *)
Theorem C33_fails : forall (U : Unicode) (fuel : nat) (m : Z) (l : list file),
  run fuel m l = Ok false ->
  exists k ci gs r path recs x, nth_error l k = Some (Loaded ci gs None)
    /\ validate_corpus fuel ci gs None k (given_ids (firstn k l)) = Ok r
    /\ records_at r path recs /\ In x recs /\ (m <= rec_level x)%Z.
Proof. exact @ValidateProofs.run_fails. Qed.
Print Assumptions C33_fails.
Example C33_two_files : @run ascii_unicode 5 40 [Loaded (Some (L "c")) [mk_igt (L "i1") [vp]] None; Unparsable] = Ok true
  /\ @run ascii_unicode 5 40 [Loaded (Some (L "c")) [mk_igt (L "i1") [vp]] None; Loaded (Some (L "c")) [] None] = Ok false
  /\ @run ascii_unicode 5 30 [Loaded (Some (L "c")) [mk_igt (L "i1") [vp]] None] = Ok false.
Proof. vm_compute. auto. Qed.

(* "exit status 0 means every file was checked" does not hold: a file that is
   not XML is passed over *)
Theorem C33_unparsable_refuted : exists l, l <> [] /\ (forall f, In f l -> f = Unparsable)
  /\ forall (U : Unicode) (fuel : nat) m, run fuel m l = Ok true.
Proof. exact unparsable_passes. Qed.
Print Assumptions C33_unparsable_refuted.
(* and with --quiet the verdict is success whatever the records *)
Theorem C33_quiet : forall (U : Unicode) (fuel : nat) (l : list file) (b : bool),
  run fuel (level_of_verbosity 0) l = Ok b -> b = true.
Proof. exact @ValidateProofs.quiet_passes. Qed.
Print Assumptions C33_quiet.
Example C33_quiet_errors : @run ascii_unicode 5 (level_of_verbosity 0) [Loaded (Some (L "c")) v_igts None] = Ok true
  /\ @run ascii_unicode 5 (level_of_verbosity 2) [Loaded (Some (L "c")) v_igts None] = Ok false.
Proof. vm_compute. auto. Qed.

(* ---------- C34: references ---------- *)

(* A tier reference is reported exactly if it is given and names neither the id
   of a tier nor the position of one. *)
Theorem C34_tiers : forall (U : Unicode) (fuel : nat) ci gs e n idset r i j g t l ra,
  validate_corpus fuel ci gs e n idset = Ok r -> tier_at gs i j g t -> records_at r [i; j] l -> refattr ra ->
  (In (no_such_tier ra) l <-> exists rid, attr (t_attrs t) ra = Some rid /\ rid <> []
     /\ no_member tier_id (g_tiers g) rid /\ ~ is_position (length (g_tiers g)) rid).
Proof. exact @ValidateProofs.missing_tier. Qed.
Print Assumptions C34_tiers.
(* Item references for which the tier has no reference of the same kind are
   reported, and which. *)
Theorem C34_unspecified : forall (U : Unicode) (fuel : nat) ci gs e n idset r i j g t l,
  validate_corpus fuel ci gs e n idset = Ok r -> tier_at gs i j g t -> records_at r [i; j] l ->
  ((exists ra, lacks t ra) -> exists lst, In (unspecified lst) l /\ (forall ra, In ra lst <-> lacks t ra))
  /\ (forall lst, In (unspecified lst) l -> exists ra, lacks t ra).
Proof. exact @ValidateProofs.unspecified_attrs. Qed.
Print Assumptions C34_unspecified.
Example C34_tiers_example : tier_at v_igts 0 2 v_igt vg /\ attr (t_attrs vg) (L "alignment") = Some (L "words")
  /\ records_at v_report [0; 2] [no_type; no_such_tier (L "alignment")] /\ lacks vw (L "alignment").
Proof.
  split; [split; reflexivity|]. split; [reflexivity|]. split; [eexists; split; reflexivity|].
  split; [now left|]. split; [reflexivity|]. eexists. split; [do 4 right; now left|discriminate].
Qed.

(* For a reference to a non-empty tier: the ids missing from the tier are
   reported exactly if there are some, and all of them in order. *)
Theorem C34_items : forall (U : Unicode) (fuel : nat) ci gs e n idset r i j k g t it l ra x rt lst,
  validate_corpus fuel ci gs e n idset = Ok r -> item_at gs i j k g t it -> records_at r [i; j; k] l ->
  refattr ra -> refers g t it ra x rt -> id_pieces x lst ->
  ((exists s, In (error (missing_prefix ra ++ s)) l) <-> exists a, In a lst /\ no_member item_id (t_items rt) a)
  /\ (forall rid, attr (t_attrs t) ra = Some rid -> no_braces rid -> absent (t_items rt) lst <> [] ->
      In (missing_items ra rid (absent (t_items rt) lst)) l).
Proof. exact @ValidateProofs.missing_items_found. Qed.
Print Assumptions C34_items.
Example C34_items_example : exists it, item_at v_igts 0 1 2 v_igt vw it
  /\ refers v_igt vw it (L "segmentation") (L "p1[0:1]+p2") vp
  /\ @id_pieces ascii_unicode (L "p1[0:1]+p2") [L "p1"; L "p2"]
  /\ absent (t_items vp) [L "p1"; L "p2"] = [L "p2"]
  /\ records_at v_report [0; 1; 2] [missing_items (L "segmentation") (L "p") [L "p2"]].
Proof.
  eexists. split; [split; [split|]; reflexivity|]. split; [exact w3_refers|]. split; [exact w3_pieces|]. split; [reflexivity|].
  eexists; split; reflexivity.
Qed.

(* For an expression with '+' and ',' between its parts, over items that have a
   value: the spans that end after the value are reported, all of them in order. *)
Theorem C34_spans : forall (U : Unicode) (fuel : nat) ci gs e n idset r i j k g t it l ra x rt bad,
  validate_corpus fuel ci gs e n idset = Ok r -> item_at gs i j k g t it -> records_at r [i; j; k] l ->
  refattr ra -> refers g t it ra (show x) rt -> plain x ->
  (forall i, unambiguous item_id (t_items rt) i) ->
  (forall s it, In s x -> the_member item_id (t_items rt) (sl_id s) it -> exists v, shows fuel g rt it v) ->
  picks (outside_of fuel g rt) (expand_expr x) bad -> bad <> [] -> In (bad_spans (map show_sel bad)) l.
Proof. exact @ValidateProofs.spans_outside_found. Qed.
Print Assumptions C34_spans.
(* and nothing is reported if there are none *)
Theorem C34_spans_sound : forall (U : Unicode) (fuel : nat) ci gs e n idset r i j k g t it l lst,
  validate_corpus fuel ci gs e n idset = Ok r -> item_at gs i j k g t it -> records_at r [i; j; k] l ->
  (forall ra, refattr ra -> attr (it_attrs it) ra <> None -> exists x rt, refers g t it ra (show x) rt /\ plain x
     /\ (forall i, unambiguous item_id (t_items rt) i)
     /\ (forall s it, In s x -> the_member item_id (t_items rt) (sl_id s) it -> exists v, shows fuel g rt it v)
     /\ forall s, In s (expand_expr x) -> ~ outside_of fuel g rt s) ->
  ~ In (bad_spans lst) l.
Proof. exact @ValidateProofs.spans_outside_sound. Qed.
Print Assumptions C34_spans_sound.
Example C34_spans_example : exists it, item_at v_igts 0 1 1 v_igt vw it
  /\ refers v_igt vw it (L "segmentation") (show x2) vp /\ @plain ascii_unicode x2
  /\ picks (@outside_of ascii_unicode 5 v_igt vp) (expand_expr x2) w2_bad
  /\ map show_sel w2_bad = [L "p1[6:9]"]
  /\ records_at v_report [0; 1; 1] [bad_spans [L "p1[6:9]"]].
Proof.
  eexists. split; [split; [split|]; reflexivity|]. split; [exact w2_refers|]. split; [exact x2_plain|]. split; [exact w2_picks|].
  split; [reflexivity|]. eexists; split; reflexivity.
Qed.

(* Overlap.  The full statement: an expression is reported exactly if it selects
   some character twice.  It holds only for items selected as a whole: *)
Theorem C34_overlap_partial : forall (U : Unicode) (fuel : nat) ci gs e n idset r i j k g t it l ra x rt a p q tgt v,
  validate_corpus fuel ci gs e n idset = Ok r -> item_at gs i j k g t it -> records_at r [i; j; k] l ->
  refattr ra -> refers g t it ra (show x) rt -> plain x ->
  p <> q -> nth_error (whole_ids x) p = Some a -> nth_error (whole_ids x) q = Some a ->
  the_member item_id (t_items rt) a tgt -> shows fuel g rt tgt v -> v <> [] ->
  exists lst, In a lst /\ In (overlapping lst) l.
Proof. exact @ValidateProofs.overlap_found. Qed.
Print Assumptions C34_overlap_partial.
(* no expression that selects no item twice as a whole is ever reported, ... *)
Theorem C34_overlap_sound : forall (U : Unicode) (fuel : nat) ci gs e n idset r i j k g t it l s,
  validate_corpus fuel ci gs e n idset = Ok r -> item_at gs i j k g t it -> records_at r [i; j; k] l ->
  (forall ra, refattr ra -> attr (it_attrs it) ra <> None -> exists x rt, refers g t it ra (show x) rt /\ plain x
     /\ plain_ids rt /\ NoDup (whole_ids x)) ->
  ~ In (warning (overlap_prefix ++ s)) l.
Proof. exact @ValidateProofs.overlap_sound. Qed.
Print Assumptions C34_overlap_sound.
Example C34_overlap_example : exists it, item_at v_igts 0 1 3 v_igt vw it
  /\ refers v_igt vw it (L "segmentation") (show x4) vp /\ @plain ascii_unicode x4
  /\ whole_ids x4 = [L "p1"; L "p1"] /\ records_at v_report [0; 1; 3] [overlapping [L "p1"]].
Proof.
  eexists. split; [split; [split|]; reflexivity|]. split; [exact w4_refers|]. split; [exact x4_plain|]. split; [reflexivity|].
  eexists; split; reflexivity.
Qed.
(* ... so overlapping spans pass *)
Theorem C34_overlap_refuted : exists r, @validate_corpus ascii_unicode 5 (Some (L "c")) [lap_igt] None 0 [] = Ok r
  /\ records_at r [0; 1; 0] []
  /\ exists it, item_at [lap_igt] 0 1 0 lap_igt (nth 1 (g_tiers lap_igt) vp) it
     /\ attr (it_attrs it) (L "segmentation") = Some (L "p1[0:4]+p1[2:6]").
Proof. exact lap_passes. Qed.
Print Assumptions C34_overlap_refuted.
(* references into an empty tier pass *)
Theorem C34_empty_tier_refuted : exists r, @validate_corpus ascii_unicode 5 (Some (L "c")) [empty_igt] None 0 [] = Ok r
  /\ all_below 31 r
  /\ exists it t, item_at [empty_igt] 0 1 0 empty_igt t it /\ attr (it_attrs it) (L "segmentation") = Some (L "p1[0:4]")
     /\ attr (t_attrs t) (L "segmentation") = Some (L "p")
     /\ forall t' it', In t' (g_tiers empty_igt) -> In it' (t_items t') -> item_id it' <> Some (L "p1").
Proof. exact empty_passes. Qed.
Print Assumptions C34_empty_tier_refuted.
(* a tier reference that is no id but the position of a tier passes *)
Theorem C34_position_refuted : exists r, @validate_corpus ascii_unicode 5 (Some (L "c")) [pos_igt] None 0 [] = Ok r
  /\ all_below 31 r
  /\ exists t, tier_at [pos_igt] 0 1 pos_igt t /\ attr (t_attrs t) (L "segmentation") = Some (L "0")
     /\ no_member tier_id (g_tiers pos_igt) (L "0").
Proof. exact position_passes. Qed.
Print Assumptions C34_position_refuted.

(* Validation of a corpus whose references can be checked ends with a report ... *)
Theorem C34_ends : forall (U : Unicode) (fuel : nat) ci gs n idset,
  (forall g t it ra, In g gs -> In t (g_tiers g) -> In it (t_items t) -> refattr ra -> checkable fuel g t it ra) ->
  exists r, validate_corpus fuel ci gs None n idset = Ok r.
Proof. exact @ValidateProofs.validation_ends. Qed.
Print Assumptions C34_ends.
Example C34_ends_example : forall g t it ra, In g [lap_igt] -> In t (g_tiers g) -> In it (t_items t) -> refattr ra ->
  @checkable ascii_unicode 5 g t it ra.
Proof. exact lap_checkable. Qed.
(* ... but ids separated by a space, an item without a value, or a brace in the
   id of a tier end it with an exception *)
Theorem C34_ends_refuted :
  @validate_corpus ascii_unicode 5 (Some (L "c")) [space_igt] None 0 [] = Err AttributeError
  /\ @validate_corpus ascii_unicode 5 (Some (L "c")) [valueless_igt] None 0 [] = Err TypeError
  /\ @validate_corpus ascii_unicode 5 (Some (L "c")) [brace_igt] None 0 [] = Err IndexError.
Proof. exact crashes. Qed.
Print Assumptions C34_ends_refuted.
