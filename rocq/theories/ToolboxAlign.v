(* Proofs about _make_tb_alignments. *)
From Verif Require Import PyStr PyStrFacts Model Toolbox SpecToolboxDoc.

Lemma dget_dset_ {A} (d : dict A) k v k' : dget (dset d k v) k' = if str_eqb k' k then Some v else dget d k'.
Proof. exact (dget_dset str_eqb str_eqb_spec d k v k'). Qed.
Lemma dget_iff {A} (d : dict A) k v : NoDup (map fst d) -> (dget d k = Some v <-> In (k, v) d).
Proof.
  intros H. split; [apply (dget_in str_eqb str_eqb_spec)|]. now apply (dget_nodup str_eqb str_eqb_spec).
Qed.

(* the inverse of a map: of several markers of a tier, the last *)
Definition last_mark (m : dict str) (t mk : str) : Prop := exists a b, m = a ++ (mk, t) :: b /\ ~ In t (map snd b).
Lemma inverse_spec m t mk : dget (inverse m) t = Some mk <-> last_mark m t mk.
Proof.
  unfold inverse. induction m as [|[k v] m IH] using rev_ind.
  - split; [discriminate|]. intros (a & b & E & _). now destruct a.
  - rewrite fold_left_app. cbn [fold_left fst snd]. rewrite dget_dset_. destruct (str_eqb_spec t v) as [->|Hn].
    + split.
      * intros [= <-]. exists m, []. now split.
      * intros (a & b & E & Hb). destruct b as [|x b] using rev_ind; [apply app_inj_tail in E as [_ E]; congruence|].
        rewrite app_comm_cons, app_assoc in E. apply app_inj_tail in E as [_ <-]. exfalso. apply Hb. rewrite map_app. apply in_or_app. right. now left.
    + rewrite IH. split; intros (a & b & E & Hb).
      * exists a, (b ++ [(k, v)]). split; [rewrite E, <- app_assoc; easy|]. rewrite map_app. intros H. apply in_app_or in H as [H|[H|[]]]; [easy|]. now apply Hn.
      * destruct b as [|x b _] using rev_ind; [apply app_inj_tail in E as [_ E]; congruence|].
        rewrite app_comm_cons, app_assoc in E. apply app_inj_tail in E as [-> E]. subst x. exists a, b. split; [easy|].
        intros H. apply Hb. rewrite map_app. apply in_or_app. now left.
Qed.
Lemma marked_last m t : (exists mk, In (mk, t) m) <-> exists mk, last_mark m t mk.
Proof.
  split; [|intros (mk & a & b & -> & _); exists mk; apply in_or_app; right; now left].
  intros (mk & H). apply in_split in H as (a & b & ->). destruct (dget (inverse (a ++ (mk, t) :: b)) t) as [k|] eqn:E.
  - exists k. now apply inverse_spec.
  - exfalso. clear - E. unfold inverse in E. rewrite fold_left_app in E. cbn [fold_left fst snd] in E.
    revert E. generalize (fold_left (fun d kv => dset d (snd kv) (fst kv)) a []) as d. clear a.
    assert (H : forall d : dict str, dget d t <> None -> dget (fold_left (fun d kv => dset d (snd kv) (fst kv)) b d) t <> None).
    { induction b as [|[k v] b IH]; intros d Hd; [easy|]. cbn [fold_left fst snd]. apply IH. rewrite dget_dset_. now destruct (str_eqb t v). }
    intros d E. apply H in E; [easy|]. rewrite dget_dset_. now destruct (str_eqb_spec t t).
Qed.
Lemma last_unique m t mk : NoDup (map snd m) -> (last_mark m t mk <-> In (mk, t) m).
Proof.
  intros H. split; [intros (a & b & -> & _); apply in_or_app; right; now left|]. intros Hin. apply in_split in Hin as (a & b & ->).
  exists a, b. split; [easy|]. rewrite map_app in H. cbn [map snd] in H. apply NoDup_remove_2 in H. intros Hi. apply H. apply in_or_app. now right.
Qed.

Lemma interlinear_iff o t : interlinear o t = true <-> is_interlinear o t.
Proof.
  unfold interlinear, is_interlinear. destruct (dget (o_types o) t) as [[ty b]|]; split; try discriminate.
  - intros ->. now exists ty.
  - intros (ty' & [= -> ->]). easy.
  - intros (ty & [=]).
Qed.

(* the pairs of markers of the alignments l *)
Definition pairs (o : tb_options) (l : dict (str * str)) (m1 m2 : str) : Prop :=
  exists t1 ra t2, In (t1, (ra, t2)) l /\ is_interlinear o t1 /\ is_interlinear o t2
    /\ last_mark (o_tier_map o) t1 m1 /\ last_mark (o_tier_map o) t2 m2.
Definition functional_from (o : tb_options) (l : dict (str * str)) : Prop :=
  forall m1 m2 m2', pairs o l m1 m2 -> pairs o l m1 m2' -> m2 = m2'.

Lemma pairs_app o a b m1 m2 : pairs o (a ++ b) m1 m2 <-> pairs o a m1 m2 \/ pairs o b m1 m2.
Proof.
  split.
  - intros (u & v & w & Hi & H). apply in_app_or in Hi as [Hi|Hi]; [left|right]; now exists u, v, w.
  - intros [(u & v & w & Hi & H)|(u & v & w & Hi & H)]; exists u, v, w; (split; [apply in_or_app; auto|easy]).
Qed.
Lemma pairs_one o t1 ra t2 m1 m2 : pairs o [(t1, (ra, t2))] m1 m2 <->
  interlinear o t1 && interlinear o t2 = true /\ last_mark (o_tier_map o) t1 m1 /\ last_mark (o_tier_map o) t2 m2.
Proof.
  rewrite andb_true_iff, !interlinear_iff. split.
  - intros (u & v & w & [Q|[]] & Hq). injection Q as <- <- <-. tauto.
  - intros H. exists t1, ra, t2. split; [now left|tauto].
Qed.

Lemma aligned_loop o l : forall done d d', tb_alignments_ o l d = Ok d' -> functional_from o (done ++ l) ->
  (forall m1 m2, dget d m1 = Some m2 <-> pairs o done m1 m2) ->
  forall m1 m2, dget d' m1 = Some m2 <-> pairs o (done ++ l) m1 m2.
Proof.
  induction l as [|[t1 [ra t2]] l IH]; intros done d d'; cbn [tb_alignments_].
  - intros [= <-] _. now rewrite app_nil_r.
  - intros E F Hd. replace (done ++ (t1, (ra, t2)) :: l) with ((done ++ [(t1, (ra, t2))]) ++ l) in * by (now rewrite <- app_assoc).
    assert (P := pairs_one o t1 ra t2).
    destruct (interlinear o t1 && interlinear o t2).
    + destruct (dget (inverse (o_tier_map o)) t2) as [k2|] eqn:E2; [|easy]. destruct (dget (inverse (o_tier_map o)) t1) as [k1|] eqn:E1; [|easy].
      refine (IH _ _ _ E F _). intros m1 m2. rewrite dget_dset_, pairs_app, P, <- !inverse_spec, E1, E2.
      destruct (str_eqb_spec m1 k1) as [->|Hn].
      * split; [intros [= ->]; now right|]. intros [H|(_ & _ & H)]; [|easy]. f_equal. apply (F k1).
        -- rewrite !pairs_app. left. right. rewrite P, <- !inverse_spec. auto.
        -- rewrite !pairs_app. auto.
      * rewrite Hd. split; [now left|]. intros [H|(_ & [= ->] & _)]; easy.
    + refine (IH _ _ _ E F _). intros m1 m2. rewrite Hd, pairs_app, P. split; [now left|]. now intros [H|[[=] _]].
Qed.
Lemma loop_ok o l : forall d, (exists d', tb_alignments_ o l d = Ok d') <->
  forall t1 ra t2, In (t1, (ra, t2)) l -> is_interlinear o t1 -> is_interlinear o t2 -> (exists m, marks o m t1) /\ exists m, marks o m t2.
Proof.
  unfold marks. induction l as [|[t1 [ra t2]] l IH]; intros d; cbn [tb_alignments_]; [split; [easy|]; intros _; now exists d|].
  assert (I : interlinear o t1 && interlinear o t2 = true <-> is_interlinear o t1 /\ is_interlinear o t2) by (now rewrite andb_true_iff, !interlinear_iff).
  destruct (interlinear o t1 && interlinear o t2).
  - split.
    + intros (d' & E). destruct (dget (inverse (o_tier_map o)) t2) as [k2|] eqn:E2; [|easy]. destruct (dget (inverse (o_tier_map o)) t1) as [k1|] eqn:E1; [|easy].
      intros u v w [[= <- <- <-]|H].
      * intros _ _. apply inverse_spec in E1, E2. split; apply marked_last; eauto.
      * now apply (proj1 (IH (dset d k1 k2)) (ex_intro _ d' E) u v).
    + intros H. assert (Hm := H t1 ra t2 (or_introl eq_refl)). destruct (Hm (proj1 (proj1 I eq_refl)) (proj2 (proj1 I eq_refl))) as [M1 M2].
      apply marked_last in M1 as (k1 & M1). apply marked_last in M2 as (k2 & M2). apply inverse_spec in M1, M2. rewrite M1, M2.
      apply IH. intros u v w Hi. apply (H u v w). now right.
  - rewrite IH. split; intros H u v w; [|intros Hi; apply (H u v w); now right]. intros [[= <- <- <-]|Hi]; [|now apply (H u v w)].
    intros J1 J2. assert (false = true) by (apply I; auto). discriminate.
Qed.
Lemma loop_err o l : forall d e, tb_alignments_ o l d = Err e -> e = KeyError.
Proof.
  induction l as [|[t1 [ra t2]] l IH]; intros d e; cbn [tb_alignments_]; [discriminate|].
  destruct (_ && _); [|apply IH]. destruct (dget _ t2); [|congruence]. destruct (dget _ t1); [apply IH|congruence].
Qed.

Theorem alignments_made o d : dicts o -> NoDup (map snd (o_tier_map o)) -> tb_alignments o = Ok d ->
  forall m1 m2, dget d m1 = Some m2 <-> exists t1 t2, marks o m1 t1 /\ marks o m2 t2 /\ aligns o t1 t2.
Proof.
  intros (D1 & D2 & D3) D E m1 m2. unfold tb_alignments in E. rewrite (aligned_loop o (o_alignments o) [] [] d E); cbn [app].
  - unfold pairs, aligns, marks. split.
    + intros (t1 & ra & t2 & H1 & H2 & H3 & H4 & H5). exists t1, t2. rewrite <- !(last_unique _ _ _ D). repeat split; auto. now exists ra.
    + intros (t1 & t2 & H1 & H2 & H3 & H4 & ra & H5). exists t1, ra, t2. rewrite !(last_unique _ _ _ D). auto.
  - intros a b c (u & v & w & Hi & _ & _ & Ha & Hb) (u' & v' & w' & Hi' & _ & _ & Ha' & Hb').
    rewrite last_unique in Ha, Ha' by easy. apply (dget_iff _ _ _ D1) in Ha, Ha'. rewrite Ha in Ha'. injection Ha' as <-.
    apply (dget_iff _ _ _ D3) in Hi, Hi'. rewrite Hi in Hi'. injection Hi' as <- <-. apply inverse_spec in Hb, Hb'. congruence.
  - intros a b. split; [discriminate|]. now intros (? & ? & ? & [] & _).
Qed.
Theorem alignments_iff o : (exists d, tb_alignments o = Ok d) <->
  forall t1 t2, aligns o t1 t2 -> (exists m, marks o m t1) /\ exists m, marks o m t2.
Proof.
  unfold tb_alignments. rewrite loop_ok. unfold aligns. split.
  - intros H t1 t2 (H1 & H2 & ra & H3). now apply (H t1 ra).
  - intros H t1 ra t2 H1 H2 H3. apply H. repeat split; auto. now exists ra.
Qed.
Theorem alignments_err o e : tb_alignments o = Err e -> e = KeyError.
Proof. apply loop_err. Qed.
