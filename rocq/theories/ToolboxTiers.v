(* Proofs about make_tier, make_phrase_tier and make_all_tiers: what they make,
   when they do, and where the references lead. *)
From Verif Require Import PyStr PyStrFacts DecFacts Ref SpecRef RefProofs RefLaws Model Xml SpecXml XmlProofs Odin OdinProofs Value SpecValue ValueProofs Toolbox SpecToolbox ToolboxProofs.

Section Tiers.
Context {U : Unicode} (lower : str -> str).

Lemma accepted_dec tid n : accepted_id (tid ++ dec_nat n) <-> accepted_id tid.
Proof.
  split.
  - intros (c & r & E & Hc). destruct tid as [|c' tid]; [|injection E as -> _; now exists c, tid].
    cbn [app] in E. pose proof (dec_nat_ascii n) as H. rewrite E in H. inversion_clear H as [|? ? Hd _].
    unfold ascii_digit, ascii_letter in *. lia.
  - intros (c & r & -> & Hc). now exists c, (r ++ dec_nat n).
Qed.
Lemma new_item_iff tid n text d x : new_item (tid ++ dec_nat n) text d = Ok x <->
  accepted_id tid /\ x = {| it_attrs := mk_attrs (Some (tid ++ dec_nat n)) None d; it_text := Some text |}.
Proof.
  unfold new_item, check_id. rewrite <- (accepted_dec tid n), <- accepted_iff. destruct (id_accepted (tid ++ dec_nat n)); cbn [bind].
  - split; [intros E; split; [easy|congruence]|intros [_ ->]; easy].
  - split; [discriminate|intros [? _]; discriminate].
Qed.

(* the items that carry the tokens, numbered from n *)
Definition item_of (tid : str) (n : nat) (tok : str) (d : dict str) : item :=
  {| it_attrs := mk_attrs (Some (tid ++ dec_nat n)) None d; it_text := Some tok |}.
Definition numbered (tid : str) (n : nat) (toks : list str) (l : list item) : Prop :=
  length l = length toks /\ forall k tok, nth_error toks k = Some tok -> exists d, nth_error l k = Some (item_of tid (n + k) tok d).
Lemma numbered_app tid n a la b lb : numbered tid n a la -> numbered tid (n + length a) b lb -> numbered tid n (a ++ b) (la ++ lb).
Proof.
  intros [H1 H2] [H3 H4]. split; [rewrite !app_length; lia|]. intros k tok E.
  destruct (Nat.lt_ge_cases k (length a)) as [Hk|Hk].
  - rewrite nth_error_app1 in E by easy. rewrite nth_error_app1 by lia. now apply H2.
  - rewrite nth_error_app2 in E by easy. rewrite nth_error_app2 by lia. destruct (H4 _ _ E) as (d & Hd). exists d. rewrite H1, Hd.
    now replace (n + length a + (k - length a)) with (n + k) by lia.
Qed.
Lemma numbered_ids tid n toks l : numbered tid n toks l -> map (fun i => a_id (it_attrs i)) l = map (fun k => Some (tid ++ dec_nat k)) (seq n (length l)).
Proof.
  intros [H1 H2]. apply nth_error_ext_. intros k. rewrite !nth_error_map. destruct (nth_error l k) as [i|] eqn:E.
  - assert (Hk : k < length l) by (apply nth_error_Some; congruence).
    destruct (nth_error toks k) as [tok|] eqn:Et; [|apply nth_error_None in Et; lia].
    destruct (H2 k tok Et) as (d & Hd). rewrite E in Hd. injection Hd as ->. cbn.
    rewrite nth_error_nth' with (d := 0) by now rewrite seq_length. rewrite seq_nth by easy. reflexivity.
  - apply nth_error_None in E. assert (E' : nth_error (seq n (length l)) k = None) by (apply nth_error_None; rewrite seq_length; lia).
    now rewrite E'.
Qed.
Lemma numbered_nodup tid n toks l : numbered tid n toks l -> NoDup (some_ids (map (fun i => a_id (it_attrs i)) l)).
Proof.
  intros H. rewrite (numbered_ids _ _ _ _ H), some_ids_map. apply nodup_map_some; [|apply seq_NoDup].
  intros x y E. apply app_inv_head in E. now apply dec_nat_inj.
Qed.

(* ---------- new_tier ---------- *)

Definition tier_of (tid : str) (ty : option str) (d : dict str) (l : list item) : tier :=
  {| t_attrs := mk_attrs (Some tid) ty d; t_md := []; t_items := l |}.
Lemma new_tier_ok tid ty d l : accepted_id tid -> NoDup (some_ids (map (fun i => a_id (it_attrs i)) l)) ->
  new_tier tid ty d l = Ok (tier_of tid ty d l).
Proof.
  intros Ha Hn. unfold new_tier, check_id. apply accepted_iff in Ha. rewrite Ha. cbn [bind].
  unfold new_container. rewrite check_ids_ok by auto. reflexivity.
Qed.
Lemma new_tier_inv tid ty d l t : new_tier tid ty d l = Ok t -> accepted_id tid /\ t = tier_of tid ty d l.
Proof.
  unfold new_tier, check_id. destruct (id_accepted tid) eqn:E; [|discriminate]. cbn [bind].
  unfold new_container. destruct (check_ids _ _); [|discriminate]. cbn [bind]. intros E'. split; [now apply accepted_iff|]. unfold tier_of. congruence.
Qed.

(* ---------- items without reference ---------- *)

Lemma plain_toks_iff tid toks : forall n l, plain_toks tid toks n = Ok l <->
  (toks <> [] -> accepted_id tid) /\ l = map (fun p => item_of tid (fst p) (snd p) []) (combine (seq n (length toks)) toks).
Proof.
  induction toks as [|t toks IH]; intros n l; cbn [plain_toks].
  - cbn. split; [intros E; split; [easy|congruence]|intros [_ ->]; easy].
  - cbn [length seq combine map fst snd]. destruct (new_item (tid ++ dec_nat n) t []) as [i|e] eqn:Ei.
    + apply new_item_iff in Ei as [Ha ->]. cbn [bind].
      assert (E : plain_toks tid toks (S n) = Ok (map (fun p => item_of tid (fst p) (snd p) []) (combine (seq (S n) (length toks)) toks))).
      { apply IH. split; [easy|reflexivity]. }
      rewrite E. cbn [bind]. split; [intros E'; split; [easy|]|intros [_ ->]; reflexivity]. unfold item_of in *. congruence.
    + split; [discriminate|]. intros [Ha _]. exfalso. assert (Ht : t :: toks <> []) by easy. specialize (Ha Ht).
      assert (H := proj2 (new_item_iff tid n t [] _) (conj Ha eq_refl)). congruence.
Qed.
Lemma plain_toks_numbered tid toks n l : plain_toks tid toks n = Ok l -> numbered tid n toks l.
Proof.
  intros E. apply plain_toks_iff in E as [_ ->]. split; [rewrite map_length, combine_length, seq_length; lia|].
  intros k tok Ek. exists []. rewrite nth_error_map.
  assert (Hk : k < length toks) by (apply nth_error_Some; congruence).
  assert (E : nth_error (combine (seq n (length toks)) toks) k = Some (n + k, tok)).
  { clear -Ek. revert n k Ek; induction toks as [|t toks IH]; intros n [|k] Ek; try discriminate; cbn in *.
    - injection Ek as ->. do 2 f_equal. lia.
    - rewrite (IH (S n) k Ek). do 2 f_equal. lia. }
  now rewrite E.
Qed.
Lemma plain_items_numbered tid aln : forall n l, plain_items tid aln n = Ok l -> numbered tid n (sources aln) l.
Proof.
  induction aln as [|[p [toks|]] aln IH]; intros n l; cbn [plain_items]; [|destruct (plain_toks tid toks n) as [l1|] eqn:E1; [|discriminate]; cbn [bind];
    destruct (plain_items tid aln (n + length toks)) as [l2|] eqn:E2; [|discriminate]; cbn [bind]|discriminate].
  - intros [= <-]. split; [easy|]. intros [|k]; discriminate.
  - intros [= <-]. cbn [sources flat_map snd]. apply numbered_app; [now apply plain_toks_numbered|]. apply IH. exact E2.
Qed.
Lemma plain_items_ok tid aln : accepted_id tid -> (forall p src, In (p, src) aln -> src <> None) -> forall n, exists l, plain_items tid aln n = Ok l.
Proof.
  intros Ha. induction aln as [|[p [toks|]] aln IH]; intros H n; cbn [plain_items].
  - eauto.
  - rewrite (proj2 (plain_toks_iff tid toks n _) (conj (fun _ => Ha) eq_refl)). cbn [bind].
    destruct (IH (fun p src Hin => H p src (or_intror Hin)) (n + length toks)) as (l & ->). cbn [bind]. eauto.
  - exfalso. now apply (H p None); [left|].
Qed.
Lemma plain_items_none tid aln n l : plain_items tid aln n = Ok l -> forall p src, In (p, src) aln -> src <> None.
Proof.
  revert n l; induction aln as [|[p [toks|]] aln IH]; intros n l E p' src Hin; [easy| |discriminate].
  cbn [plain_items] in E. destruct (plain_toks tid toks n) as [l1|]; [|discriminate]. cbn [bind] in E.
  destruct (plain_items tid aln (n + length toks)) as [l2|] eqn:E2; [|discriminate].
  destruct Hin as [[= <- <-]|Hin]; [easy|]. exact (IH _ _ E2 _ _ Hin).
Qed.

(* ---------- items with reference ---------- *)

Definition segmented (ty : option str) : Prop := ty = Some (L "words") \/ ty = Some (L "morphemes").
Lemma segmented_dec ty : {segmented ty} + {~ segmented ty}.
Proof.
  destruct ty as [ty|]; [|right; intros [|]; discriminate]. destruct (str_eq_dec ty (L "words")) as [->|H1]; [now left; left|].
  destruct (str_eq_dec ty (L "morphemes")) as [->|H2]; [now left; right|]. right. intros [E|E]; injection E as E; auto.
Qed.
Definition span_ref (i : str) (b e : Z) : str := if Z.eqb b (-1) then i else i ++ L "[" ++ dec_Z b ++ L ":" ++ dec_Z e ++ L "]".

Lemma reference_plain ty tgt p toks s : ~ segmented ty -> reference lower ty tgt p toks s =
  match tgt with Some it => Ok (id_text (a_id (it_attrs it))) | None => Err AttributeError end.
Proof.
  intros H. unfold reference. destruct ty as [ty|]; [|destruct tgt; reflexivity].
  destruct (str_eqb_spec ty (L "words")) as [->|H1]; [exfalso; apply H; now left|].
  destruct (str_eqb_spec ty (L "morphemes")) as [->|H2]; [exfalso; apply H; now right|]. destruct tgt; reflexivity.
Qed.
Lemma reference_seg ty tgt p toks s : ty = L "words" \/ ty = L "morphemes" -> reference lower (Some ty) tgt p toks s =
  bind (align_word lower ty s p toks) (fun x => match tgt with Some it => Ok (span_ref (id_text (a_id (it_attrs it))) (fst (fst x)) (snd (fst x)))
                                                | None => Err AttributeError end).
Proof.
  intros H. unfold reference. replace (str_eqb ty (L "words") || str_eqb ty (L "morphemes"))%bool with true.
  - destruct (align_word lower ty s p toks) as [[[b e] c]|]; [|easy]. destruct tgt; reflexivity.
  - destruct H as [-> | ->]; reflexivity.
Qed.
Lemma reference_names ty tgt p toks s r : reference lower ty tgt p toks s = Ok r ->
  exists it, tgt = Some it /\ names (id_text (a_id (it_attrs it))) r.
Proof.
  destruct (segmented_dec ty) as [[->| ->]|H].
  1, 2: rewrite reference_seg by auto; destruct (align_word _ _ _ _ _) as [[[b e] c]|]; [|discriminate]; cbn [bind fst snd];
    destruct tgt as [it|]; [|discriminate]; intros E; exists it; split; [easy|]; unfold span_ref, names in *;
    destruct (b =? -1)%Z; [left; congruence|right; exists b, e; congruence].
  rewrite reference_plain by easy. destruct tgt as [it|]; [|discriminate]. intros E. exists it. split; [easy|]. left. congruence.
Qed.
Lemma align_ok ty s w toks tok : nth_error toks s = Some tok -> exists x, align_word lower ty s (Some w) toks = Ok x.
Proof.
  intros E. assert (Hs : s < length toks) by (apply nth_error_Some; congruence).
  unfold align_word. destruct (str_eqb ty (L "words")).
  - rewrite mapM_index by lia. cbn [bind]. unfold index. rewrite E. cbn [bind]. eauto.
  - destruct (str_eqb ty (L "morphemes")); [|eauto]. unfold index. rewrite E. cbn [bind].
    destruct (length toks =? 1); [eauto|]. destruct (s =? 0); [destruct (startswith _ _); eauto|].
    destruct (amalgam _ _ _ _) as [[|] p]; [|eauto]. destruct (startswith p _); [|eauto].
    destruct (s =? _); [eauto|]. destruct (startswith _ _); eauto.
Qed.
Lemma reference_iff ty tgt p toks s tok : nth_error toks s = Some tok ->
  (exists r, reference lower ty tgt p toks s = Ok r) <-> tgt <> None /\ (segmented ty -> p <> None).
Proof.
  intros Et.
  assert (Hseg : forall ty, ty = L "words" \/ ty = L "morphemes" ->
    (exists r, reference lower (Some ty) tgt p toks s = Ok r) <-> tgt <> None /\ (segmented (Some ty) -> p <> None)).
  { intros y Hy. rewrite reference_seg by easy. destruct p as [w|].
    - destruct (align_ok y s w toks tok Et) as (x & ->). cbn [bind]. destruct tgt; split; [easy|eauto|intros (r & E); discriminate|easy].
    - split; [intros (r & E); discriminate|]. intros [_ H]. exfalso. apply H; [|easy]. destruct Hy as [-> | ->]; [now left|now right]. }
  destruct (segmented_dec ty) as [[->| ->]|H]; [apply Hseg; auto|apply Hseg; auto|].
  rewrite reference_plain by easy. destruct tgt; split; [easy|eauto|intros (r & E); discriminate|easy].
Qed.

Definition ref_at ty tid ra tgt p (toks : list str) (s n : nat) (tok : str) (l : list item) (k : nat) : Prop :=
  exists r, reference lower ty tgt p toks s = Ok r /\ nth_error l k = Some (item_of tid n tok [(ra, r)]).
Lemma ref_items_inv ty tid ra tgt p toks todo : forall s n l, ref_items lower ty tid ra tgt p toks s todo n = Ok l ->
  length l = length todo /\ (todo <> [] -> accepted_id tid)
  /\ forall k tok, nth_error todo k = Some tok -> ref_at ty tid ra tgt p toks (s + k) (n + k) tok l k.
Proof.
  induction todo as [|t todo IH]; intros s n l; cbn [ref_items].
  - intros [= <-]. split; [easy|]. split; [easy|]. intros [|k]; discriminate.
  - destruct (reference lower ty tgt p toks s) as [r|] eqn:Er; [|discriminate]. cbn [bind].
    destruct (new_item (tid ++ dec_nat n) t [(ra, r)]) as [i|] eqn:Ei; [|discriminate]. cbn [bind]. apply new_item_iff in Ei as [Ha ->].
    destruct (ref_items lower ty tid ra tgt p toks (S s) todo (S n)) as [l'|] eqn:E; [|discriminate]. cbn [bind].
    destruct (IH _ _ _ E) as (H1 & _ & H2). intros El.
    assert (El' : l = item_of tid n t [(ra, r)] :: l') by (unfold item_of; congruence). clear El. subst l. split; [cbn; now rewrite H1|]. split; [easy|].
    intros [|k] tok Ek.
    + injection Ek as ->. rewrite !Nat.add_0_r. now exists r.
    + destruct (H2 k tok Ek) as (r' & Hr' & Hn). exists r'. rewrite !Nat.add_succ_r. cbn in *. now split.
Qed.
Lemma ref_items_ok ty tid ra tgt p toks : accepted_id tid -> (toks <> [] -> tgt <> None /\ (segmented ty -> p <> None)) ->
  forall todo s n, todo = skipn s toks -> exists l, ref_items lower ty tid ra tgt p toks s todo n = Ok l.
Proof.
  intros Ha Ht. induction todo as [|t todo IH]; intros s n E; cbn [ref_items]; [eauto|].
  assert (Hn : nth_error toks s = Some t /\ todo = skipn (S s) toks).
  { clear -E. revert toks E; induction s as [|s IHs]; intros [|x toks] E; try discriminate; [now injection E as -> ->|]. now apply IHs. }
  destruct Hn as [Hn Hk]. assert (Htoks : toks <> []) by (intros ->; now destruct s).
  destruct (proj2 (reference_iff ty tgt p toks s t Hn) (Ht Htoks)) as (r & ->). cbn [bind].
  rewrite (proj2 (new_item_iff tid n t [(ra, r)] _) (conj Ha eq_refl)). cbn [bind].
  destruct (IH (S s) (S n) Hk) as (l & ->). cbn [bind]. eauto.
Qed.

(* position of the s-th token of the k-th pair *)
Definition position (aln : list pair) (k s : nat) : nat := length (sources (firstn k aln)) + s.
Lemma zip_items_inv ty tid ra aln : forall tgts n l, zip_items lower ty tid ra tgts aln n = Ok l ->
  numbered tid n (sources aln) l /\ length tgts <= length aln /\ (forall p src, In (p, src) aln -> src <> None)
  /\ forall k p toks s tok, nth_error aln k = Some (p, Some toks) -> nth_error toks s = Some tok ->
       ref_at ty tid ra (nth_error tgts k) p toks s (n + position aln k s) tok l (position aln k s).
Proof.
  induction aln as [|[p [toks|]] aln IH]; intros tgts n l; cbn [zip_items].
  - destruct tgts; [|discriminate]. intros [= <-]. split; [split; [easy|intros [|k]; discriminate]|]. split; [easy|]. split; [easy|].
    intros [|k]; discriminate.
  - destruct (ref_items lower ty tid ra (hd_error tgts) p toks 0 toks n) as [l1|] eqn:E1; [|discriminate]. cbn [bind].
    destruct (zip_items lower ty tid ra (tl tgts) aln (n + length toks)) as [l2|] eqn:E2; [|discriminate]. cbn [bind]. intros El.
    assert (El' : l = l1 ++ l2) by congruence. clear El. subst l.
    apply ref_items_inv in E1 as (H1 & _ & H2). apply IH in E2 as (H3 & H4 & H5 & H6).
    split; [|split; [|split]].
    + cbn [sources flat_map snd]. apply numbered_app; [|exact H3]. split; [easy|]. intros k tok Ek.
      destruct (H2 k tok Ek) as (r & _ & Hn). eauto.
    + destruct tgts; cbn in *; lia.
    + intros p' src [[= <- <-]|Hin]; [easy|]. exact (H5 _ _ Hin).
    + intros [|k] p' toks' s tok Ek Et.
      * cbn in Ek. injection Ek as <- <-. unfold position. cbn [firstn sources flat_map length]. cbn [plus].
        destruct (H2 s tok Et) as (r & Hr & Hn). exists r. split; [now destruct tgts|]. rewrite nth_error_app1; [easy|].
        apply nth_error_Some. congruence.
      * cbn in Ek. destruct (H6 k p' toks' s tok Ek Et) as (r & Hr & Hn).
        assert (Ep : position ((p, Some toks) :: aln) (S k) s = length toks + position aln k s).
        { unfold position, sources. cbn [firstn flat_map snd]. rewrite app_length. lia. }
        exists r. split; [destruct tgts as [|x tgts]; [destruct k; exact Hr|exact Hr]|]. unfold pair in *. rewrite !Ep. rewrite nth_error_app2 by lia.
        replace (length toks + position aln k s - length l1) with (position aln k s) by lia. rewrite Hn. do 2 f_equal. lia.
  - discriminate.
Qed.
Lemma zip_items_ok ty tid ra aln : accepted_id tid -> forall tgts n, length tgts <= length aln -> (forall p src, In (p, src) aln -> src <> None) ->
  (forall k p toks, nth_error aln k = Some (p, Some toks) -> toks <> [] -> k < length tgts /\ (segmented ty -> p <> None)) ->
  exists l, zip_items lower ty tid ra tgts aln n = Ok l.
Proof.
  intros Ha. induction aln as [|[p [toks|]] aln IH]; intros tgts n Hl Hs Hk; cbn [zip_items].
  - destruct tgts; [eauto|cbn in Hl; lia].
  - destruct (ref_items_ok ty tid ra (hd_error tgts) p toks Ha) with (todo := toks) (s := 0) (n := n) as (l1 & ->); [|easy|].
    { intros Ht. destruct (Hk 0 p toks eq_refl Ht) as [H1 H2]. split; [|exact H2]. destruct tgts; [cbn in H1; lia|easy]. }
    cbn [bind]. destruct (IH (tl tgts) (n + length toks)) as (l2 & ->).
    + destruct tgts; cbn in *; lia.
    + intros p' src Hin. apply (Hs p' src). now right.
    + intros k p' toks' Ek Ht. destruct (Hk (S k) p' toks' Ek Ht) as [H1 H2]. split; [|easy]. destruct tgts; cbn in *; lia.
    + cbn [bind]. eauto.
  - exfalso. now apply (Hs p None); [left|].
Qed.

(* ---------- make_tier ---------- *)

Lemma not_none_pair (aln : list pair) : aln = [(None, None)] \/ aln <> [(None, None)].
Proof.
  destruct aln as [|[[w|] [toks|]] [|x aln]]; try (right; discriminate). now left.
Qed.
Lemma make_tier_eq ty tid refattr aln algn : aln <> [(None, None)] -> make_tier lower ty tid refattr aln algn =
  match refattr, algn with
  | Some ra, Some t => do items <- zip_items lower ty tid ra (t_items t) aln 1; new_tier tid ty [(ra, id_text (a_id (t_attrs t)))] items
  | _, _ => do items <- plain_items tid aln 1; new_tier tid ty [] items
  end.
Proof. intros H. unfold make_tier. destruct aln as [|[[w|] [toks|]] [|x aln]]; easy. Qed.

Lemma make_tier_inv ty tid refattr aln algn t : make_tier lower ty tid refattr aln algn = Ok t ->
  exists d, accepted_id tid /\ t = tier_of tid ty d (t_items t) /\ numbered tid 1 (sources aln) (t_items t)
    /\ (aln = [(None, None)] \/ refattr = None \/ algn = None -> d = [])
    /\ forall ra rt, aln <> [(None, None)] -> refattr = Some ra -> algn = Some rt ->
        d = [(ra, id_text (a_id (t_attrs rt)))] /\ zip_items lower ty tid ra (t_items rt) aln 1 = Ok (t_items t).
Proof.
  destruct (not_none_pair aln) as [->|Hn].
  - unfold make_tier. intros E. apply new_tier_inv in E as [Ha ->]. exists []. split; [easy|]. split; [easy|].
    split; [split; [easy|intros [|k]; discriminate]|]. split; [easy|]. now intros ra rt [].
  - rewrite make_tier_eq by easy. destruct refattr as [ra|], algn as [rt|].
    1: { destruct (zip_items lower ty tid ra (t_items rt) aln 1) as [l|] eqn:El; [|discriminate]. cbn [bind]. intros E.
      apply new_tier_inv in E as [Ha ->]. eexists. split; [easy|]. split; [reflexivity|]. cbn [t_items tier_of]. apply zip_items_inv in El as Hz. destruct Hz as (H1 & _).
      split; [easy|]. split; [intros [?|[?|?]]; easy|]. intros ra' rt' _ [= <-] [= <-]. now split. }
    all: destruct (plain_items tid aln 1) as [l|] eqn:El; [|discriminate]; cbn [bind]; intros E;
      apply new_tier_inv in E as [Ha ->]; exists []; split; [easy|]; split; [reflexivity|]; cbn [t_items tier_of];
      split; [now apply plain_items_numbered|]; split; [easy|]; intros; discriminate.
Qed.

Theorem tier_numbered ty tid refattr aln algn t : make_tier lower ty tid refattr aln algn = Ok t ->
  tier_id t = Some tid /\ a_type (t_attrs t) = ty /\ length (t_items t) = length (sources aln)
  /\ NoDup (map item_id (t_items t))
  /\ forall n tok, nth_error (sources aln) n = Some tok ->
       exists it, nth_error (t_items t) n = Some it /\ it_text it = Some tok /\ item_id it = Some (tid ++ dec_nat (n + 1)).
Proof.
  intros E. destruct (make_tier_inv _ _ _ _ _ _ E) as (d & _ & -> & Hn & _). cbn [t_items tier_of] in *.
  split; [easy|]. split; [easy|]. split; [apply Hn|]. split.
  - change item_id with (fun i => a_id (it_attrs i)). rewrite (numbered_ids _ _ _ _ Hn). apply FinFun.Injective_map_NoDup; [|apply seq_NoDup].
    intros x y Exy. assert (Exy' : tid ++ dec_nat x = tid ++ dec_nat y) by congruence. apply app_inv_head in Exy'. now apply dec_nat_inj.
  - intros n tok Et. destruct Hn as [_ Hn]. destruct (Hn n tok Et) as (d' & Hd). eexists. split; [exact Hd|]. cbn.
    rewrite (Nat.add_comm n 1). now split.
Qed.

Theorem tier_made ty tid refattr aln algn :
  (exists t, make_tier lower ty tid refattr aln algn = Ok t) <-> makes ty tid refattr aln algn.
Proof.
  split.
  - intros (t & E). destruct (make_tier_inv _ _ _ _ _ _ E) as (d & Ha & _). split; [exact Ha|].
    destruct (not_none_pair aln) as [->|Hn]; [now left|]. right. rewrite make_tier_eq in E by easy.
    destruct refattr as [ra|], algn as [rt|].
    1: { destruct (zip_items lower ty tid ra (t_items rt) aln 1) as [l|] eqn:El; [|discriminate]. apply zip_items_inv in El as (H1 & H2 & H3 & H4).
      split; [exact H3|]. intros ra' rt' [= <-] [= <-]. split; [exact H2|]. intros k p toks Ek Ht.
      destruct toks as [|tok toks]; [easy|]. destruct (H4 k p (tok :: toks) 0 tok Ek eq_refl) as (r & Hr & _).
      destruct (proj1 (reference_iff ty (nth_error (t_items rt) k) p (tok :: toks) 0 tok eq_refl) (ex_intro _ r Hr)) as [H5 H6].
      split; [now apply nth_error_Some|exact H6]. }
    all: destruct (plain_items tid aln 1) as [l|] eqn:El; [|discriminate]; split; [exact (plain_items_none _ _ _ _ El)|intros; discriminate].
  - intros (Ha & H). destruct (not_none_pair aln) as [->|Hn].
    + eexists. unfold make_tier. apply new_tier_ok; [exact Ha|constructor].
    + destruct H as [|[H1 H2]]; [easy|]. rewrite make_tier_eq by easy. destruct refattr as [ra|], algn as [rt|].
      1: { destruct (H2 ra rt eq_refl eq_refl) as [H3 H4]. destruct (zip_items_ok ty tid ra aln Ha (t_items rt) 1 H3 H1 H4) as (l & El).
        rewrite El. cbn [bind]. eexists. apply new_tier_ok; [exact Ha|]. apply zip_items_inv in El as (Hn' & _). exact (numbered_nodup _ _ _ _ Hn'). }
      all: destruct (plain_items_ok tid aln Ha H1 1) as (l & El); rewrite El; cbn [bind]; eexists; apply new_tier_ok; [exact Ha|];
        apply plain_items_numbered in El; exact (numbered_nodup _ _ _ _ El).
Qed.

Theorem tier_refers ty tid ra aln rt t : make_tier lower ty tid (Some ra) aln (Some rt) = Ok t -> aln <> [(None, None)] ->
  attr (t_attrs t) ra = Some (id_text (tier_id rt))
  /\ forall k p toks s tok, nth_error aln k = Some (p, Some toks) -> nth_error toks s = Some tok ->
       exists it e tg, nth_error (t_items t) (length (sources (firstn k aln)) + s) = Some it
         /\ attr (it_attrs it) ra = Some e /\ nth_error (t_items rt) k = Some tg
         /\ names (id_text (item_id tg)) e
         /\ (ty <> Some (L "words") -> ty <> Some (L "morphemes") -> e = id_text (item_id tg)).
Proof.
  intros E Hn. destruct (make_tier_inv _ _ _ _ _ _ E) as (d & Ha & Et & _ & _ & H). destruct (H ra rt Hn eq_refl eq_refl) as [-> El].
  split. { rewrite Et. unfold attr, tier_of, mk_attrs, dget. cbn [t_attrs a_dict dget_]. now rewrite str_eqb_refl. }
  intros k p toks s tok Ek Es. apply zip_items_inv in El as (_ & _ & _ & H4). destruct (H4 k p toks s tok Ek Es) as (r & Hr & Hnth).
  destruct (reference_names _ _ _ _ _ _ Hr) as (tg & Etg & Hnm). rewrite Etg in Hr.
  exists (item_of tid (1 + position aln k s) tok [(ra, r)]), r, tg. split; [exact Hnth|].
  split; [unfold attr, item_of, mk_attrs, dget; cbn [it_attrs a_dict dget_]; now rewrite str_eqb_refl|]. split; [exact Etg|]. split; [exact Hnm|].
  intros H5 H6. rewrite reference_plain in Hr; [unfold item_id; congruence|]. intros [|]; easy.
Qed.

End Tiers.
