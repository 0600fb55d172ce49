From Verif Require Import PyStr PyStrFacts PySort Ref SpecRef Container SpecContainer ContainerProofs ContainerLaws Live SpecLive.

Section P.
Context {U : Unicode} {B : Type} (beq : B -> B -> bool).
Notation state := (state (B := B)). Notation obj := (obj (B := B)). Notation source := (source (B := B)).
Notation step := (step beq). Notation run := (run beq).

Lemma append_objs (s : state) k a b : objs (fst (append s k a)) b = objs s b
  \/ exists q, objs (fst (append s k a)) b = set_parent (objs s b) q.
Proof.
  unfold append, add_at. destruct (negb _); [now left|].
  destruct (create_id_mapping _ _ _); cbn; unfold upd; destruct (Nat.eqb_spec b a) as [->|]; eauto.
Qed.
Lemma append_p (s : state) k a (p : obj -> bool) : (forall o q, p (set_parent o q) = p o) ->
  forall b, p (objs (fst (append s k a)) b) = p (objs s b).
Proof. intros Hp b. destruct (append_objs s k a b) as [->|[q ->]]; [easy|apply Hp]. Qed.
Lemma append_id (s : state) k a b : the_id (fst (append s k a)) b = the_id s b.
Proof. unfold the_id. destruct (append_objs s k a b) as [->|[q ->]]; reflexivity. Qed.
Lemma append_kind (s : state) k a b : o_kind (objs (fst (append s k a)) b) = o_kind (objs s b).
Proof. destruct (append_objs s k a b) as [->|[q ->]]; reflexivity. Qed.
Lemma append_ctype (s : state) k a k' : c_type (conts (fst (append s k a)) k') = c_type (conts s k').
Proof.
  unfold append, add_at. destruct (negb _); [easy|]. destruct (create_id_mapping _ _ _) as [c|e] eqn:E; [|easy].
  cbn. unfold upd. destruct (Nat.eqb_spec k' k) as [->|]; [|easy].
  unfold create_id_mapping in E. destruct (o_id _); [destruct (dmem _ _); [easy|]|]; injection E as <-; reflexivity.
Qed.
Lemma append_other (s : state) k a k' : k' <> k -> conts (fst (append s k a)) k' = conts s k'.
Proof.
  intros H. unfold append, add_at. destruct (negb _); [easy|]. destruct (create_id_mapping _ _ _) as [c|e] eqn:E; [|easy].
  cbn. now rewrite upd_other.
Qed.

Lemma nth_skipn {A} (l : list A) i a : nth_error l i = Some a -> skipn i l = a :: skipn (S i) l.
Proof.
  revert i. induction l as [|b l IH]; intros [|i]; cbn; try easy; [now intros [= ->]|]. intros H. now rewrite (IH i H).
Qed.

(* another container as the source: the same as adding what it holds *)
Lemma extend_from_other k k' p : k' <> k -> (forall o q, p (set_parent o q) = p o) ->
  forall n fuel (s : state) i, length (c_items (conts s k')) - i <= n -> n < fuel ->
  extend_from fuel s k k' p i
  = let '(s', r) := extend s k (filter (fun a => p (objs s a)) (skipn i (c_items (conts s k')))) in (s', Some r).
Proof.
  intros Hne Hp. induction n as [|n IH]; intros fuel s i Hl Hf; destruct fuel as [|fuel]; try lia; cbn [extend_from].
  - assert (E : nth_error (c_items (conts s k')) i = None) by (apply nth_error_None; lia).
    rewrite E, skipn_all2 by lia. reflexivity.
  - destruct (nth_error (c_items (conts s k')) i) as [a|] eqn:E.
    + rewrite (nth_skipn _ _ _ E). cbn [filter].
      assert (i < length (c_items (conts s k'))) by (apply nth_error_Some; congruence).
      destruct (p (objs s a)) eqn:Hpa.
      * cbn [extend]. assert (Ha := append_p s k a p Hp). assert (Ho := append_other s k a k' Hne).
        destruct (append s k a) as [s1 r] eqn:Eap. cbn [fst] in *.
        assert (forall l, filter (fun a => p (objs s1 a)) l = filter (fun a => p (objs s a)) l) as Hfl
          by (intros; apply filter_ext; intros; apply Ha).
        destruct r; try reflexivity; (rewrite IH by (rewrite ?Ho; lia); now rewrite Ho, Hfl).
      * apply IH; lia.
    + apply nth_error_None in E. rewrite skipn_all2 by lia. reflexivity.
Qed.

Lemma extend_src_other (s : state) k (v : source) fuel : ~ reads v k -> blind v -> v <> SNone -> rounds s v < fuel ->
  extend_src fuel s k v = let '(s', r) := extend s k (holds s v) in (s', Some r).
Proof.
  intros Hr Hb Hn Hf. destruct v as [l|k'|k' p|]; cbn [extend_src holds reads blind rounds] in *; try easy.
  - rewrite (extend_from_other k k' (fun _ => true)) with (n := length (members s k')); auto; try (unfold members in *; lia).
    cbn [skipn]. replace (filter _ _) with (c_items (conts s k')); [reflexivity|].
    induction (c_items (conts s k')) as [|a l IH]; [easy|]. cbn. now rewrite <- IH.
  - rewrite (extend_from_other k k' p) with (n := length (members s k')); auto; unfold members in *; lia.
Qed.

Lemma clear_other (s : state) k k' : k' <> k -> conts (fst (clear s k)) k' = conts s k'.
Proof. intros H. cbn. now rewrite upd_other. Qed.
Lemma holds_clear (s : state) k v : ~ reads v k -> holds (fst (clear s k)) v = holds s v.
Proof.
  intros H. destruct v as [l|k'|k' p|]; cbn [holds reads] in *; try easy; unfold members; rewrite clear_other by easy; reflexivity.
Qed.
Lemma rounds_clear (s : state) k v : ~ reads v k -> rounds (fst (clear s k)) v = rounds s v.
Proof.
  intros H. destruct v as [l|k'|k' p|]; cbn [rounds reads] in *; try easy; unfold members; rewrite clear_other by easy; reflexivity.
Qed.

Theorem assign_other (s : state) k (v : source) fuel : ~ reads v k -> blind v -> rounds s v < fuel ->
  assign fuel s k v = let '(s', r) := assign_all s k (holds s v) in (s', Some r).
Proof.
  intros Hr Hb Hf. unfold assign, assign_all. rewrite <- (holds_clear s k v Hr). rewrite <- (rounds_clear s k v Hr) in Hf.
  set (s0 := fst (clear s k)) in *. destruct v as [l|k'|k' p|].
  - reflexivity.
  - cbn [or_empty]. destruct (c_items (conts s0 k')) eqn:E.
    + cbn [holds]. unfold members. rewrite E. reflexivity.
    + apply extend_src_other; easy.
  - apply extend_src_other; easy.
  - reflexivity.
Qed.
Theorem assign_metadata_other is_md (s : state) k (v : source) fuel : ~ reads v k -> blind v -> rounds s v < fuel ->
  (forall k', v = SObj k' -> is_md k' = false) -> v <> SNone ->
  assign_metadata is_md fuel s k v = let '(s', r) := assign_all s k (holds s v) in (s', Some r).
Proof.
  intros Hr Hb Hf Hm Hn. unfold assign_metadata, assign_all. rewrite <- (holds_clear s k v Hr). rewrite <- (rounds_clear s k v Hr) in Hf.
  replace (match v with SObj k' => is_md k' | _ => false end) with false; [now apply extend_src_other|].
  destruct v; try easy. symmetry. now apply Hm.
Qed.

Theorem replaces (s : state) k (v : source) fuel : ~ reads v k -> blind v -> rounds s v < fuel ->
  (snd (assign fuel s k v) = Some RNone /\ members (fst (assign fuel s k v)) k = holds s v
   \/ exists e u a w, snd (assign fuel s k v) = Some (RExn e) /\ holds s v = u ++ a :: w
        /\ members (fst (assign fuel s k v)) k = u)
  /\ (forall k', k' <> k -> members (fst (assign fuel s k v)) k' = members s k').
Proof.
  intros Hr Hb Hf. rewrite assign_other by easy. unfold assign_all.
  destruct (extend_members (holds s v) (fst (clear s k)) k) as [H1 H2].
  destruct (extend (fst (clear s k)) k (holds s v)) as [s' r] eqn:E. cbn [fst snd] in *.
  assert (Hm : members (fst (clear s k)) k = []) by (unfold members; cbn; now rewrite upd_same). rewrite Hm in H1. split.
  - destruct H1 as [[-> H]|([e ->] & u & a & w & Hu & H)]; [left|right; exists e, u, a, w]; auto.
  - intros k' Hne. rewrite (H2 k' Hne). unfold members. now rewrite clear_other.
Qed.

(* when adding a list of objects succeeds *)
Lemma class_ok_type (s : state) k a : class_ok s k a <-> type_ok (conts s k) (objs s a) = true.
Proof.
  unfold class_ok, type_ok. destruct (c_type (conts s k)) as [t|]; [|intuition].
  rewrite Nat.eqb_eq. split; [intros [?|[= ->]]; easy|intros ->; auto].
Qed.
Lemma uniq_iff (s : state) l : list_ids_unique s l <-> NoDup (idlist (the_id s) l).
Proof.
  split; [apply unique_nodup|]. intros H p q a b i. apply (nth_unique (the_id s) l H).
Qed.
Lemma uniq_app (s : state) l m : list_ids_unique s (l ++ m) -> list_ids_unique s l.
Proof.
  rewrite !uniq_iff, idlist_app. intros H. induction (idlist (the_id s) l) as [|x r IH]; [constructor|].
  inversion H as [|? ? H1 H2]; subst. constructor; [rewrite in_app_iff in H1; tauto|auto].
Qed.

Lemma extend_succeeds l : forall (s : state) k, (forall k', coherent s k') ->
  (snd (extend s k l) = RNone <-> (forall a, In a l -> class_ok s k a) /\ list_ids_unique s (members s k ++ l)).
Proof.
  induction l as [|a l IH]; intros s k Hc; cbn [extend].
  - rewrite app_nil_r. split; [|easy]. intros _. split; [easy|]. rewrite uniq_iff. apply Hc.
  - assert (Hs := add_at_succeeds s k (fun l => l ++ [a]) a (Hc k)).
    assert (H1 := add_at_members s k (fun l => l ++ [a]) a).
    assert (Hk : forall k', coherent (fst (append s k a)) k')
      by (apply add_at_coherent; [intros; apply append_perm|exact Hc]).
    assert (Hid := append_id s k a). assert (Hkd := append_kind s k a). assert (Hct := append_ctype s k a).
    fold (append s k a) in *.
    destruct (add_at_outcome s k (fun l => l ++ [a]) a) as [Ho|[e Ho]]; fold (append s k a) in Ho;
      destruct (append s k a) as [s1 r]; cbn [fst snd] in *; subst r.
    + destruct (H1 eq_refl) as [M _]. rewrite (IH s1 k Hk), M, <- app_assoc. cbn [app].
      destruct Hs as [Hs _]. specialize (Hs eq_refl) as [Hca _].
      unfold class_ok, list_ids_unique in *. setoid_rewrite Hid. rewrite Hct. setoid_rewrite Hkd.
      split; intros [Q1 Q2]; (split; [|exact Q2]).
      * intros b [<-|Hb]; [exact Hca|]. auto.
      * intros b Hb. apply Q1. now right.
    + split; [easy|]. intros [Q1 Q2]. exfalso. enough (RExn e = RNone) by discriminate. apply Hs. split; [apply Q1; now left|].
      intros b i Hb Hbi Hai. apply In_nth_error in Hb as [p Hp].
      assert (Hl : p < length (members s k)) by (apply nth_error_Some; congruence).
      assert (p = length (members s k)); [|lia].
      apply (Q2 p _ b a i); auto; [now rewrite nth_error_app1 by easy|].
      rewrite nth_error_app2, Nat.sub_diag by lia. reflexivity.
Qed.

Lemma clear_coh (s : state) k : (forall k', coherent s k') -> forall k', coherent (fst (clear s k)) k'.
Proof. intros H. now apply clear_coherent. Qed.

Theorem assign_succeeds_iff s h k (v : source) fuel : empty_conts s -> managed_history h -> no_dirty beq s h ->
  let s := run s h in ~ reads v k -> blind v -> rounds s v < fuel ->
  (snd (assign fuel s k v) = Some RNone <->
   (forall a, In a (holds s v) -> class_ok s k a) /\ list_ids_unique s (holds s v)).
Proof.
  intros He Hm Hd s1 Hr Hb Hf. assert (Hc : forall k', coherent s1 k') by now apply reach_coherent.
  rewrite assign_other by easy. unfold assign_all.
  assert (E := extend_succeeds (holds s1 v) (fst (clear s1 k)) k (clear_coh s1 k Hc)).
  destruct (extend (fst (clear s1 k)) k (holds s1 v)) as [s' r]. cbn [snd] in *.
  transitivity (r = RNone); [split; [now intros [= ->]|now intros ->]|]. rewrite E.
  assert (Hmem : members (fst (clear s1 k)) k = []) by (unfold members; cbn; now rewrite upd_same). rewrite Hmem. cbn [app].
  unfold class_ok. cbn. rewrite upd_same. cbn. reflexivity.
Qed.

Lemma extend_coherent' l (s : state) k : (forall k', coherent s k') -> forall k', coherent (fst (extend s k l)) k'.
Proof. apply extend_coherent. Qed.

Lemma extend_ids l : forall (s : state) k b, the_id (fst (extend s k l)) b = the_id s b.
Proof.
  induction l as [|a l IH]; intros s k b; cbn [extend]; [easy|]. assert (Hid := append_id s k a b).
  destruct (append s k a) as [s1 r]; cbn [fst] in *. destruct r; cbn [fst]; rewrite ?IH; exact Hid.
Qed.

(* x.tiers = x.tiers keeps everything *)
Theorem assign_copy s h k fuel : empty_conts s -> managed_history h -> no_dirty beq s h -> classes_ok (run s h) ->
  let s := run s h in
  snd (assign fuel s k (get_copy s k)) = Some RNone
  /\ (forall k', members (fst (assign fuel s k (get_copy s k))) k' = members s k')
  /\ (forall k', lookup_exact (fst (assign fuel s k (get_copy s k))) k').
Proof.
  intros He Hm Hd Hcl s1. assert (Hc : forall k', coherent s1 k') by now apply reach_coherent.
  assert (Ha : assign fuel s1 k (get_copy s1 k) = let '(s', r) := assign_all s1 k (members s1 k) in (s', Some r)) by reflexivity.
  rewrite Ha. unfold assign_all.
  assert (E := extend_succeeds (members s1 k) (fst (clear s1 k)) k (clear_coh s1 k Hc)).
  assert (Hco := extend_coherent (members s1 k) _ k (clear_coh s1 k Hc)).
  destruct (extend_members (members s1 k) (fst (clear s1 k)) k) as [H1 H2].
  destruct (extend (fst (clear s1 k)) k (members s1 k)) as [s' r]. cbn [fst snd] in *.
  assert (Hmem : members (fst (clear s1 k)) k = []) by (unfold members; cbn; now rewrite upd_same).
  assert (r = RNone) as ->.
  { apply E. rewrite Hmem. cbn [app]. split.
    - intros a Hin. specialize (Hcl k a Hin). unfold class_ok in *. cbn. rewrite upd_same. exact Hcl.
    - apply uniq_iff. destruct (Hc k) as [_ Hn]. exact Hn. }
  split; [easy|]. split; [|intros; now apply coherent_lookup].
  intros k'. destruct (Nat.eq_dec k' k) as [->|Hne].
  - destruct H1 as [[_ H]|[[e H] _]]; [|discriminate]. rewrite H, Hmem. reflexivity.
  - rewrite (H2 k' Hne). unfold members. now rewrite clear_other.
Qed.

(* x.tiers += l adds l at the end *)
Theorem iadd_adds s h k l fuel : empty_conts s -> managed_history h -> no_dirty beq s h -> classes_ok (run s h) ->
  let s := run s h in
  (forall a, In a l -> class_ok s k a) -> list_ids_unique s (members s k ++ l) ->
  snd (iadd_copy fuel s k l) = Some RNone /\ members (fst (iadd_copy fuel s k l)) k = members s k ++ l
  /\ (forall k', lookup_exact (fst (iadd_copy fuel s k l)) k').
Proof.
  intros He Hm Hd Hcl s1 Hl Hu. assert (Hc : forall k', coherent s1 k') by now apply reach_coherent.
  assert (Ha : iadd_copy fuel s1 k l = let '(s', r) := assign_all s1 k (members s1 k ++ l) in (s', Some r)) by reflexivity.
  rewrite Ha. unfold assign_all.
  assert (E := extend_succeeds (members s1 k ++ l) (fst (clear s1 k)) k (clear_coh s1 k Hc)).
  assert (Hco := extend_coherent (members s1 k ++ l) _ k (clear_coh s1 k Hc)).
  destruct (extend_members (members s1 k ++ l) (fst (clear s1 k)) k) as [H1 H2].
  destruct (extend (fst (clear s1 k)) k (members s1 k ++ l)) as [s' r]. cbn [fst snd] in *.
  assert (Hmem : members (fst (clear s1 k)) k = []) by (unfold members; cbn; now rewrite upd_same).
  assert (r = RNone) as ->.
  { apply E. rewrite Hmem. cbn [app]. split; [|exact Hu].
    intros a Hin. enough (Q : class_ok s1 k a) by (unfold class_ok in *; cbn; rewrite upd_same; exact Q).
    apply in_app_iff in Hin as [Hin|Hin]; [now apply Hcl|now apply Hl]. }
  split; [easy|]. split; [|intros; now apply coherent_lookup].
  destruct H1 as [[_ H]|[[e H] _]]; [|discriminate]. rewrite H, Hmem. reflexivity.
Qed.

(* ---------- the container itself as the source ---------- *)

Lemma cleared (s : state) k : c_items (conts (fst (clear s k)) k) = [].
Proof. cbn. now rewrite upd_same. Qed.
Theorem assign_self (s : state) k (v : source) fuel : reads v k ->
  snd (assign (S fuel) s k v) = Some RNone /\ members (fst (assign (S fuel) s k v)) k = [].
Proof.
  intros H. unfold assign. assert (Hc := cleared s k). set (s0 := fst (clear s k)) in *.
  destruct v as [l|k'|k' p|]; cbn [reads] in H; try easy; subst k'; cbn [or_empty].
  - rewrite Hc. cbn. auto.
  - cbn [extend_src extend_from]. rewrite Hc. cbn. auto.
Qed.
Theorem assign_metadata_self is_md (s : state) k (v : source) fuel : reads v k -> is_md k = false ->
  snd (assign_metadata is_md (S fuel) s k v) = Some RNone
  /\ members (fst (assign_metadata is_md (S fuel) s k v)) k = [].
Proof.
  intros H Hm. unfold assign_metadata. assert (Hc := cleared s k). set (s0 := fst (clear s k)) in *.
  destruct v as [l|k'|k' p|]; cbn [reads] in H; try easy; subst k'; rewrite ?Hm; cbn [extend_src extend_from]; rewrite Hc; cbn; auto.
Qed.
Theorem iadd_metadata_erases is_md (s : state) k l fuel : is_md k = false ->
  snd (iadd_metadata is_md (S fuel) s k l) = Some RNone
  /\ members (fst (iadd_metadata is_md (S fuel) s k l)) k = [].
Proof. intros H. apply assign_metadata_self; [reflexivity|exact H]. Qed.
Theorem metadata_none is_md (s : state) k fuel :
  snd (assign_metadata is_md fuel s k SNone) = Some (RExn TypeError)
  /\ members (fst (assign_metadata is_md fuel s k SNone)) k = [].
Proof. split; [easy|]. exact (cleared s k). Qed.
Theorem metadata_object is_md (s : state) k k' fuel : is_md k' = true ->
  assign_metadata is_md fuel s k (SObj k') = (s, Some (RExn XigtError)).
Proof. intros H. unfold assign_metadata. now rewrite H. Qed.

(* extend with the container itself or a selection of it *)
Definition own (v : source) (k : nat) (p : obj -> bool) : Prop :=
  v = SObj k /\ p = (fun _ => true) \/ v = SSelect k p.
Lemma own_extend v k p fuel (s : state) : own v k p -> extend_src fuel s k v = extend_from fuel s k k p 0.
Proof. intros [[-> ->]| ->]; reflexivity. Qed.
Lemma own_blind v k p : own v k p -> blind v -> forall o q, p (set_parent o q) = p o.
Proof. intros [[-> ->]| ->]; [easy|]. cbn. auto. Qed.

Lemma append_noid (s : state) k a : class_ok s k a -> the_id s a = None ->
  snd (append s k a) = RNone /\ members (fst (append s k a)) k = members s k ++ [a]
  /\ c_dict (conts (fst (append s k a)) k) = c_dict (conts s k).
Proof.
  intros Hc Hi. apply class_ok_type in Hc. unfold append, add_at, create_id_mapping. rewrite Hc. unfold the_id in Hi. rewrite Hi.
  cbn. unfold members. cbn. rewrite !upd_same. auto.
Qed.

(* no member that matches has an id, and there is one: it never ends *)
Lemma extend_own_diverges k p (Hp : forall o q, p (set_parent o q) = p o) : forall fuel (s : state) i,
  (forall a, In a (members s k) -> p (objs s a) = true -> the_id s a = None /\ class_ok s k a) ->
  (exists j a, i <= j /\ nth_error (members s k) j = Some a /\ p (objs s a) = true) ->
  snd (extend_from fuel s k k p i) = None.
Proof.
  induction fuel as [|fuel IH]; intros s i H1 (j & a & Hij & Hj & Ha); [easy|]. cbn [extend_from].
  fold (members s k).
  destruct (nth_error (members s k) i) as [b|] eqn:E.
  - destruct (p (objs s b)) eqn:Hb.
    + destruct (H1 b (nth_error_In _ _ E) Hb) as [Hid Hcl].
      destruct (append_noid s k b Hcl Hid) as (Q1 & Q2 & _).
      assert (Hpp := append_p s k b p Hp). assert (Hid' := append_id s k b).
      assert (Hkd := append_kind s k b). assert (Hct := append_ctype s k b).
      destruct (append s k b) as [s1 r]. cbn [fst snd] in *. subst r. apply IH.
      * intros c Hin Hc. rewrite Q2 in Hin. rewrite Hpp in Hc. rewrite Hid'. unfold class_ok in *. rewrite Hct, Hkd.
        apply in_app_iff in Hin as [Hin|[<-|[]]]; [now apply H1|now apply H1; [apply (nth_error_In _ _ E)|]].
      * exists (length (members s k)), b. rewrite Q2, Hpp. split.
        -- enough (i < length (members s k)) by lia. apply nth_error_Some. congruence.
        -- split; [|exact Hb]. rewrite nth_error_app2, Nat.sub_diag by lia. reflexivity.
    + apply IH; [exact H1|]. exists j, a. split; [|auto].
      enough (i <> j) by lia. intros ->. congruence.
  - exfalso. apply nth_error_None in E. assert (j < length (members s k)) by (apply nth_error_Some; congruence). lia.
Qed.

Lemma extend_own_fails k p (Hp : forall o q, p (set_parent o q) = p o) a v : forall u w fuel (s : state),
  members s k = w ++ u ++ a :: v -> length u < fuel ->
  (forall b, In b u -> p (objs s b) = true -> the_id s b = None /\ class_ok s k b) ->
  p (objs s a) = true -> class_ok s k a -> (exists i, the_id s a = Some i /\ dmem (c_dict (conts s k)) i = true) ->
  snd (extend_from fuel s k k p (length w)) = Some (RExn XigtError)
  /\ members (fst (extend_from fuel s k k p (length w))) k = members s k ++ filter (fun b => p (objs s b)) u.
Proof.
  intros u. revert v. induction u as [|b u IH]; intros v w fuel s Hm Hf Hu Ha Hca (i & Hi & Hd); destruct fuel as [|fuel]; cbn in Hf; try lia;
    cbn [extend_from]; fold (members s k).
  - rewrite Hm. cbn [app]. rewrite nth_error_app2, Nat.sub_diag by lia. cbn [nth_error]. rewrite Ha.
    apply class_ok_type in Hca. unfold append, add_at, create_id_mapping. unfold the_id in Hi. rewrite Hca, Hi, Hd. cbn.
    split; [easy|]. unfold members. cbn. fold (members s k). now rewrite app_nil_r.
  - rewrite Hm. cbn [app]. rewrite nth_error_app2, Nat.sub_diag by lia. cbn [nth_error filter].
    assert (Hlen : S (length w) = length (w ++ [b])) by (rewrite app_length; cbn; lia).
    destruct (p (objs s b)) eqn:Hb.
    + destruct (Hu b (or_introl eq_refl) Hb) as [Hid Hcl].
      destruct (append_noid s k b Hcl Hid) as (Q1 & Q2 & Q3).
      assert (Hpp := append_p s k b p Hp). assert (Hid' := append_id s k b).
      assert (Hkd := append_kind s k b). assert (Hct := append_ctype s k b).
      destruct (append s k b) as [s1 r]. cbn [fst snd] in *. subst r. rewrite Hlen.
      destruct (IH (v ++ [b]) (w ++ [b]) fuel s1) as [I1 I2].
      * rewrite Q2, Hm, <- !app_assoc. cbn [app]. rewrite <- ?app_assoc. reflexivity.
      * lia.
      * intros c Hin Hc. rewrite Hpp in Hc. rewrite Hid'. unfold class_ok in *. rewrite Hct, Hkd. apply Hu; [now right|exact Hc].
      * now rewrite Hpp.
      * unfold class_ok in *. now rewrite Hct, Hkd.
      * exists i. now rewrite Hid', Q3.
      * split; [exact I1|]. rewrite I2, Q2, Hm.
        rewrite (filter_ext _ (fun c => p (objs s c)) Hpp). rewrite <- app_assoc. reflexivity.
    + rewrite Hlen. destruct (IH v (w ++ [b]) fuel s) as [I1 I2]; auto.
      * rewrite Hm, <- app_assoc. reflexivity.
      * lia.
      * intros c Hin. apply Hu. now right.
      * exists i. auto.
      * split; [exact I1|]. now rewrite I2, Hm.
Qed.

Lemma extend_own_nothing k p : forall n fuel (s : state) i,
  (forall a, In a (members s k) -> p (objs s a) = false) -> length (members s k) - i <= n -> n < fuel ->
  extend_from fuel s k k p i = (s, Some RNone).
Proof.
  induction n as [|n IH]; intros fuel s i H Hl Hf; destruct fuel as [|fuel]; try lia; cbn [extend_from]; fold (members s k).
  - assert (E : nth_error (members s k) i = None) by (apply nth_error_None; lia). now rewrite E.
  - destruct (nth_error (members s k) i) as [a|] eqn:E; [|easy]. rewrite (H a (nth_error_In _ _ E)).
    assert (i < length (members s k)) by (apply nth_error_Some; congruence). apply IH; [exact H|lia|lia].
Qed.

Lemma holds_own (s : state) k p v : own v k p -> holds s v = filter (fun a => p (objs s a)) (members s k).
Proof.
  intros [[-> ->]| ->]; cbn; [|easy]. induction (members s k) as [|a l IH]; [easy|]. cbn. now rewrite <- IH.
Qed.
Lemma own_ex (v : source) k : reads v k -> exists p, own v k p.
Proof.
  destruct v as [l|k'|k' p|]; cbn; try easy; intros ->; [exists (fun _ => true)|exists p]; unfold own; auto.
Qed.

(* the first member with an id *)
Lemma first_id (s : state) l : (forall a, In a l -> the_id s a = None)
  \/ exists u a v i, l = u ++ a :: v /\ the_id s a = Some i /\ forall b, In b u -> the_id s b = None.
Proof.
  induction l as [|a l IH]; [now left|]. destruct (the_id s a) as [i|] eqn:E.
  - right. exists [], a, l, i. easy.
  - destruct IH as [H|(u & b & v & i & -> & Hb & Hu)].
    + left. intros b [<-|Hb]; auto.
    + right. exists (a :: u), b, v, i. split; [easy|]. split; [easy|]. intros c [<-|Hc]; auto.
Qed.
Lemma filter_split {A} (f : A -> bool) l u a v : filter f l = u ++ a :: v ->
  exists l1 l2, l = l1 ++ a :: l2 /\ filter f l1 = u /\ f a = true.
Proof.
  revert u. induction l as [|b l IH]; cbn; intros u H; [now destruct u|]. destruct (f b) eqn:E.
  - destruct u as [|c u]; cbn in H; injection H as -> H.
    + exists [], l. auto.
    + destruct (IH u H) as (l1 & l2 & -> & <- & Ha). exists (c :: l1), l2. cbn. rewrite E. auto.
  - destruct (IH u H) as (l1 & l2 & -> & <- & Ha). exists (b :: l1), l2. cbn. rewrite E. auto.
Qed.

Theorem extend_self s h k (v : source) : empty_conts s -> managed_history h -> no_dirty beq s h -> classes_ok (run s h) ->
  let s := run s h in reads v k -> blind v ->
  (holds s v = [] /\ forall fuel, rounds s v < fuel -> extend_src fuel s k v = (s, Some RNone))
  \/ (exists u a w, holds s v = u ++ a :: w /\ the_id s a <> None /\ (forall b, In b u -> the_id s b = None)
      /\ forall fuel, rounds s v < fuel ->
         snd (extend_src fuel s k v) = Some (RExn XigtError)
         /\ members (fst (extend_src fuel s k v)) k = members s k ++ u)
  \/ (holds s v <> [] /\ (forall a, In a (holds s v) -> the_id s a = None)
      /\ forall fuel, snd (extend_src fuel s k v) = None).
Proof.
  intros He Hm Hd Hcl s1 Hr Hb. assert (Hc : forall k', coherent s1 k') by now apply reach_coherent.
  destruct (own_ex v k Hr) as [p Hown]. assert (Hp := own_blind v k p Hown Hb).
  assert (Hrd : rounds s1 v = length (members s1 k)) by (destruct Hown as [[-> _]| ->]; reflexivity).
  setoid_rewrite (fun fuel => own_extend v k p fuel s1 Hown). rewrite (holds_own s1 k p v Hown), Hrd.
  destruct (first_id s1 (filter (fun a => p (objs s1 a)) (members s1 k))) as [H|(u & a & w & i & E & Hi & Hu)].
  - destruct (filter (fun a => p (objs s1 a)) (members s1 k)) as [|a l] eqn:E.
    + left. split; [easy|]. intros fuel Hf. apply (extend_own_nothing k p (length (members s1 k))); [|lia|lia].
      intros a Ha. destruct (p (objs s1 a)) eqn:Epa; [|easy].
      assert (Q : In a []) by (rewrite <- E; now apply filter_In). easy.
    + right. right. split; [easy|]. split; [exact H|]. intros fuel. apply extend_own_diverges; [exact Hp| |].
      * intros b Hin Hpb. split; [|now apply Hcl]. apply H. rewrite <- E. now apply filter_In.
      * assert (Q : In a (a :: l)) by now left. rewrite <- E in Q. apply filter_In in Q as [Q1 Q2].
        apply In_nth_error in Q1 as [j Hj]. exists j, a. split; [lia|auto].
  - right. left. exists u, a, w. split; [exact E|]. split; [congruence|]. split; [exact Hu|]. intros fuel Hf.
    destruct (filter_split _ _ _ _ _ E) as (l1 & l2 & El & Ef & Ha).
    destruct (extend_own_fails k p Hp a l2 l1 [] fuel s1) as [I1 I2]; auto.
    + rewrite El, app_length in Hf. cbn in Hf. lia.
    + intros b Hin Hpb. split; [|apply Hcl; fold s1; rewrite El; apply in_app_iff; now left].
      apply Hu. rewrite <- Ef. now apply filter_In.
    + apply Hcl. fold s1. rewrite El. apply in_app_iff. right. now left.
    + exists i. split; [exact Hi|]. destruct (Hc k) as [Hget _].
      assert (Q : dget (c_dict (conts s1 k)) i = Some a).
      { apply Hget. split; [|exact Hi]. change (In a (members s1 k)). rewrite El. apply in_app_iff. right. now left. }
      unfold dmem. now rewrite Q.
    + cbn [length] in *. split; [exact I1|]. now rewrite I2, Ef.
Qed.
End P.
