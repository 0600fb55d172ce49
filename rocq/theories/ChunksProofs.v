(* Reading a file in pieces: how far the parser is ahead does not matter. *)
From Verif Require Import PyStr PyStrFacts SpecRef Model SpecModel XmlStd Xml SpecXml SpecReload SpecChunks XmlProofs.
From Verif Require LoadProofs.
Import LoadProofs.
Require Import Lia.

Section Chunks.
Context {U : Unicode}.

(* ---------- names ---------- *)

Lemma read_name_tag scope t t' : read_name scope true t = Ok t' -> t' = t \/ exists r, t' = Ch "{" :: r.
Proof.
  unfold read_name. destruct (split1 (Ch ":") t) as [[p l]|].
  - destruct (ncname p && ncname l); [|discriminate]. destruct (str_eqb p (L "xml")).
    + intros H. right. eexists. assert (t' = in_ns XML_URI l) by congruence. subst. reflexivity.
    + destruct (dget scope p) as [u|]; [|discriminate]. intros H. right. assert (t' = in_ns u l) by congruence. subst.
      eexists. reflexivity.
  - destruct (ncname t); [|discriminate]. destruct (dget scope []) as [[|x u]|].
    + intros [= <-]. now left.
    + intros H. right. assert (t' = in_ns (x :: u) t) by congruence. subst. eexists. reflexivity.
    + intros [= <-]. now left.
Qed.
Inductive calm : pelem -> Prop :=
| Calm tag d m text tail kids : tag <> L "xigt-corpus" -> Forall calm kids -> calm (PElem tag d m text tail kids).
Lemma reread_tag e scope p : reread scope e = Ok p -> p_tag p = x_tag e \/ exists r, p_tag p = Ch "{" :: r.
Proof.
  destruct e as [tag d text tail kids]. cbn [reread]. intros E. do 6 inv_bind E. injection E as <-. cbn.
  now apply (read_name_tag x).
Qed.
Lemma reread_quiet e : forall scope p, no_igt e -> reread scope e = Ok p -> quiet p.
Proof.
  induction e as [tag d text tail kids IH] using xelem_rec'. intros scope p Hn E.
  inversion_clear Hn as [? ? ? ? ? N1 N2 N3]. pose proof (reread_tag _ _ _ E) as Ht. cbn [x_tag] in Ht.
  cbn [reread] in E. do 6 inv_bind E. injection E as <-. cbn [p_tag] in Ht. constructor.
  - destruct Ht as [->|[r ->]]; [easy|]. intros X. now vm_compute in X.
  - destruct Ht as [->|[r ->]]; [easy|]. intros X. now vm_compute in X.
  - clear -IH N3 E4. revert x3 E4. induction kids as [|k kids IHk]; cbn; intros ps E; [now injection E as <-|].
    inv_bind E. inv_bind E. injection E as <-. inversion_clear IH. inversion_clear N3. constructor; eauto.
Qed.
Lemma reread_calm e : forall scope p, no_corpus e -> reread scope e = Ok p -> calm p.
Proof.
  induction e as [tag d text tail kids IH] using xelem_rec'. intros scope p Hn E.
  inversion_clear Hn as [? ? ? ? ? N1 N3]. pose proof (reread_tag _ _ _ E) as Ht. cbn [x_tag] in Ht.
  cbn [reread] in E. do 6 inv_bind E. injection E as <-. cbn [p_tag] in Ht. constructor.
  - destruct Ht as [->|[r ->]]; [easy|]. intros X. now vm_compute in X.
  - clear -IH N3 E4. revert x3 E4. induction kids as [|k kids IHk]; cbn; intros ps E; [now injection E as <-|].
    inv_bind E. inv_bind E. injection E as <-. inversion_clear IH. inversion_clear N3. constructor; eauto.
Qed.
Lemma calm_ends p : calm p -> forall q, In (EvEnd q) (events p) -> p_tag q <> L "xigt-corpus".
Proof.
  induction p as [tag d m text tail kids IH] using pelem_rec'. intros H q Hq. inversion_clear H as [? ? ? ? ? ? H1 Hk].
  rewrite events_eq in Hq. destruct Hq as [Hq|Hq]; [discriminate|]. apply in_app_or in Hq as [Hq|[Hq|[]]].
  - apply in_flat_map in Hq as (k & Hin & Hq). rewrite Forall_forall in IH, Hk. exact (IH k Hin (Hk k Hin) q Hq).
  - injection Hq as <-. easy.
Qed.

(* ---------- where the loop stops ---------- *)

Lemma skip_split stop evs e rest : skip_to stop evs = Some (e, rest) ->
  exists a, evs = a ++ e :: rest /\ stop e = true /\ Forall (fun x => stop x = false) a.
Proof.
  induction evs as [|x evs IH]; cbn [skip_to]; [discriminate|]. destruct (stop x) eqn:E.
  - intros [= <- <-]. now exists [].
  - intros H. destruct (IH H) as (a & -> & Hs & Ha). exists (x :: a). repeat split; auto.
Qed.
Lemma expect_fails p gs : (forall ns, expect_tag (L "xigt-corpus") p <> Ok ns) ->
  forall q gs', p_tag q = p_tag p -> decode_xigtcorpus p gs = decode_xigtcorpus q gs'.
Proof.
  intros H q gs' E. unfold decode_xigtcorpus, expect_tag. rewrite E. unfold expect_tag in H.
  destruct (qname_split (p_tag p)) as [[ns t]|e]; [|easy]. cbn [bind] in *. destruct (str_eqb t (L "xigt-corpus")); [|easy].
  now destruct (H ns).
Qed.
Lemma metadatas_first a b root pre post : p_kids root = pre ++ post -> Forall quiet pre ->
  Forall (fun p => p_tag p <> L "metadata" /\ calm p) post -> decode a root = decode b root.
Proof.
  intros Hk Hq Hp. destruct root as [tag d m text tail kids]. cbn [p_kids] in Hk. subst kids. set (p := PElem _ _ _ _ _ _).
  assert (Hcase : (forall ns, expect_tag (L "xigt-corpus") p <> Ok ns) \/ p_tag p <> L "igt").
  { destruct (str_eqb_spec tag (L "igt")) as [->|Hn]; [left|now right]. intros ns. vm_compute. discriminate. }
  destruct Hcase as [Hf|Hn].
  { unfold decode, decode_with. fold stop_at. cbv zeta. destruct (skip_to stop_at (events p)) as [[[g|g] rest]|]; [| |easy].
    - destruct (iter_elements _ _ _); [|easy]. set (n := _ - _). transitivity (decode_xigtcorpus p (map at_end l)).
      + symmetry. apply expect_fails; [easy|]. now rewrite view_tag.
      + apply expect_fails; [easy|]. now rewrite view_tag.
    - set (n := _ - _). transitivity (decode_xigtcorpus p []).
      + symmetry. apply expect_fails; [easy|]. now rewrite view_tag.
      + apply expect_fails; [easy|]. now rewrite view_tag. }
  assert (Ev : events p = EvStart p :: flat_map events pre ++ flat_map events post ++ [EvEnd p]).
  { unfold p. now rewrite events_eq, flat_map_app, <- app_assoc. }
  unfold decode, decode_with. fold stop_at. cbv zeta.
  assert (Es : skip_to stop_at (events p) = skip_to stop_at (flat_map events post ++ [EvEnd p])).
  { rewrite Ev. cbn [skip_to]. unfold stop_at at 1. cbn [is_start is_end].
    destruct (str_eqb_spec (p_tag p) (L "igt")); [easy|]. cbn [orb]. now apply quiet_skips. }
  rewrite Es. destruct (skip_to stop_at (flat_map events post ++ [EvEnd p])) as [[e rest]|] eqn:E; [|easy].
  apply skip_split in E as (l & E & Hs & _).
  assert (El : length (events p) - length rest = S (S (length (flat_map events pre) + length l))).
  { rewrite Ev, E. cbn [length]. rewrite !app_length. cbn [length]. lia. }
  rewrite El. destruct e as [g|g].
  - destruct (iter_elements _ _ _) as [gs|]; [|easy]. unfold p. rewrite !view_eq. apply decode_same; try easy.
    unfold find_kids. cbn [p_kids]. rewrite !views_app by lia. rewrite !filter_app. f_equal.
    rewrite !views_tags; [easy| |]; (eapply Forall_impl; [|exact Hp]; now intros ? []).
  - assert (rest = []); [|subst rest].
    { destruct (rev rest) as [|y r] eqn:Er; [now rewrite <- (rev_involutive rest), Er|]. exfalso.
      assert (Er' : rest = rev r ++ [y]) by (rewrite <- (rev_involutive rest), Er; reflexivity). rewrite Er' in E.
      change (l ++ EvEnd g :: rev r ++ [y]) with (l ++ (EvEnd g :: rev r) ++ [y]) in E. rewrite app_assoc in E.
      apply app_inj_tail in E as [E _].
      assert (Hin : In (EvEnd g) (flat_map events post)) by (rewrite E; apply in_or_app; right; now left).
      apply in_flat_map in Hin as (k & Hk & Hin). rewrite Forall_forall in Hp. destruct (Hp k Hk) as [_ Hc].
      apply (calm_ends k Hc g) in Hin. unfold stop_at in Hs. cbn in Hs. now destruct (str_eqb_spec (p_tag g) (L "xigt-corpus")). }
    rewrite !view_all; [easy| | | |]; try lia; rewrite Ev, E; cbn [length]; rewrite !app_length; cbn [length]; lia.
Qed.
Lemma traverse_app {A B} (f : A -> res B) a b ys : traverse f (a ++ b) = Ok ys ->
  exists y1 y2, traverse f a = Ok y1 /\ traverse f b = Ok y2 /\ ys = y1 ++ y2.
Proof.
  revert ys. induction a as [|x a IH]; cbn; intros ys E; [exists [], ys; auto|].
  inv_bind E. inv_bind E. injection E as <-. destruct (IH _ E1) as (y1 & y2 & Ha & Hb & ->).
  exists (x0 :: y1), y2. rewrite E0. cbn. fold (traverse f). rewrite Ha. now split.
Qed.
Lemma traverse_forall {A B} (f : A -> res B) (P : A -> Prop) (Q : B -> Prop) l ys : traverse f l = Ok ys -> Forall P l ->
  (forall x y, P x -> f x = Ok y -> Q y) -> Forall Q ys.
Proof.
  revert ys. induction l as [|x l IH]; cbn; intros ys E H Hf; [injection E as <-; constructor|].
  inv_bind E. inv_bind E. injection E as <-. inversion_clear H. constructor; eauto.
Qed.
Theorem chunks a b e : metadata_first e -> xml_load a e = xml_load b e.
Proof.
  intros (pre & post & Ek & H1 & H2). unfold xml_load. destruct (reread [] e) as [p|] eqn:E; [|easy]. cbn [bind].
  destruct e as [tag d text tail kids]. cbn [x_kids] in Ek. subst kids. cbn [reread] in E. do 6 inv_bind E. injection E as <-.
  apply traverse_app in E4 as (y1 & y2 & T1 & T2 & ->).
  apply (metadatas_first a b _ y1 y2); [easy| |].
  - apply (traverse_forall _ _ _ _ _ T1 H1). intros k q Hk Eq. now apply (reread_quiet k x).
  - apply (traverse_forall _ _ _ _ _ T2 H2). intros k q [Hk Hc] Eq. split; [|now apply (reread_calm k x)].
    destruct (reread_tag _ _ _ Eq) as [->|[r ->]]; [easy|]. intros X. now vm_compute in X.
Qed.


(* ---------- seeing less ---------- *)

Definition dead (p : pelem) : Prop := p_nsmap p = None.
Inductive lk (R : pelem -> pelem -> Prop) : list pelem -> list pelem -> Prop :=
| lk_nil : lk R [] []
| lk_cons p q l l' : R p q -> lk R l l' -> lk R (p :: l) (q :: l')
| lk_drop l : Forall dead l -> lk R l [].
Inductive less : pelem -> pelem -> Prop :=
| Less tag d m t t' tail kids kids' : m = None \/ t = t' \/ Exists dead kids -> lk less kids kids' ->
    less (PElem tag d m t tail kids) (PElem tag d m t' tail kids').

Lemma decode_attrs_dead id type ig ns p a : dead p -> decode_attrs id type ig ns p <> Ok a.
Proof. unfold dead, decode_attrs. now intros ->. Qed.
Lemma child_dead p y : dead p -> decode_child p <> Ok y.
Proof.
  intros H E. destruct p as [tag d m text tail kids]. cbn [decode_child] in E. inv_bind E. destruct x. do 2 inv_bind E.
  now apply decode_attrs_dead in E2.
Qed.
Lemma meta_dead p y : dead p -> decode_meta p <> Ok y.
Proof. intros H E. unfold decode_meta in E. do 3 inv_bind E. now apply decode_attrs_dead in E2. Qed.
Lemma metadata_dead p y : dead p -> decode_metadata p <> Ok y.
Proof. intros H E. unfold decode_metadata in E. do 3 inv_bind E. now apply decode_attrs_dead in E2. Qed.
Lemma igt_dead p y : dead p -> decode_igt p <> Ok y.
Proof. intros H E. unfold decode_igt in E. do 4 inv_bind E. now apply decode_attrs_dead in E3. Qed.

Lemma traverse_ok {A B} (f : A -> res B) l ys : traverse f l = Ok ys -> Forall (fun x => exists y, f x = Ok y) l.
Proof.
  revert ys. induction l as [|x l IH]; cbn; intros ys E; [constructor|]. inv_bind E. inv_bind E. constructor; eauto.
Qed.
Lemma none_dead {B} (dec : pelem -> res B) l ys : (forall p y, dead p -> dec p <> Ok y) -> traverse dec l = Ok ys -> ~ Exists dead l.
Proof.
  intros Hd E H. apply traverse_ok in E. apply Exists_exists in H as (p & Hp & H). rewrite Forall_forall in E.
  destruct (E p Hp) as [y Ey]. now apply (Hd p y).
Qed.
Lemma traverse_lk {B} (dec : pelem -> res B) R l l' : (forall p y, dead p -> dec p <> Ok y) -> lk R l l' ->
  forall ys, (forall p q y, In p l -> R p q -> dec p = Ok y -> dec q = Ok y) -> traverse dec l = Ok ys -> traverse dec l' = Ok ys.
Proof.
  intros Hd H. induction H as [|p q l l' HR _ IH|l Hl]; intros ys HD E; [easy| |].
  - cbn in E |- *. inv_bind E. inv_bind E. injection E as <-. rewrite (HD p q x (or_introl eq_refl) HR E0). cbn [bind].
    fold (traverse dec). erewrite IH; [reflexivity| |exact E1]. intros p' q' y Hin. apply HD. now right.
  - destruct l as [|p l]; [easy|]. exfalso. apply (none_dead dec (p :: l) ys Hd E). inversion_clear Hl. now constructor.
Qed.
Lemma lk_filter (R : pelem -> pelem -> Prop) name l l' : (forall p q, R p q -> p_tag p = p_tag q) -> lk R l l' ->
  lk R (filter (fun k => str_eqb (p_tag k) name) l) (filter (fun k => str_eqb (p_tag k) name) l').
Proof.
  intros Ht H. induction H as [|p q l l' HR _ IH|l Hl]; cbn [filter]; [constructor| |].
  - rewrite <- (Ht p q HR). destruct (str_eqb (p_tag p) name); [now constructor|easy].
  - apply lk_drop. rewrite Forall_forall in *. intros x Hx. apply filter_In in Hx as [Hx _]. auto.
Qed.

Lemma child_less p : forall q y, less p q -> decode_child p = Ok y -> decode_child q = Ok y.
Proof.
  induction p as [tag d m text tail kids IH] using pelem_rec'. intros q y H E.
  inversion H as [? ? ? ? t' ? ? kids' Hc Hk]; subst. cbn [decode_child] in E |- *. inv_bind E. destruct x as [ns n].
  rewrite E0. cbn [bind]. inv_bind E. inv_bind E.
  rewrite (traverse_lk decode_child less kids kids' child_dead Hk x); [|rewrite Forall_forall in IH; eauto|easy]. cbn [bind].
  unfold decode_attrs in *. cbn [p_nsmap p_attrib] in *. destruct m as [m|]; [|discriminate]. rewrite E2. cbn [bind].
  destruct Hc as [Hc|[<-|Hc]]; [discriminate| |now apply (none_dead _ _ _ child_dead E1) in Hc].
  unfold meta_text in *. exact E.
Qed.
Lemma meta_less p q y : less p q -> decode_meta p = Ok y -> decode_meta q = Ok y.
Proof.
  intros H E. inversion H as [tag d m t t' tail kids kids' Hc Hk]; subst. unfold decode_meta in *. cbn [p_kids] in *.
  inv_bind E. change (expect_tag _ (PElem tag d m t' tail kids')) with (expect_tag (L "meta") (PElem tag d m t tail kids)).
  rewrite E0. cbn [bind]. inv_bind E. inv_bind E.
  rewrite (traverse_lk decode_child less kids kids' child_dead Hk x0); [|intros; eapply child_less; eassumption|easy]. cbn [bind].
  unfold decode_attrs, pget in *. cbn [p_nsmap p_attrib] in *. destruct m as [m|]; [|discriminate]. rewrite E2. cbn [bind].
  destruct Hc as [Hc|[<-|Hc]]; [discriminate| |now apply (none_dead _ _ _ child_dead E1) in Hc].
  unfold meta_text in *. exact E.
Qed.
Definition less_md (p q : pelem) : Prop := p_tag p = p_tag q /\ p_attrib p = p_attrib q /\ p_nsmap p = p_nsmap q
  /\ lk less (find_kids (L "meta") p) (find_kids (L "meta") q).
Definition less_root (p q : pelem) : Prop := p_tag p = p_tag q /\ p_attrib p = p_attrib q /\ p_nsmap p = p_nsmap q
  /\ lk less_md (find_kids (L "metadata") p) (find_kids (L "metadata") q).
Lemma less_tag p q : less p q -> p_tag p = p_tag q.
Proof. now inversion 1. Qed.
Lemma lk_impl (R R' : pelem -> pelem -> Prop) l l' : (forall p q, R p q -> R' p q) -> lk R l l' -> lk R' l l'.
Proof. induction 2; constructor; auto. Qed.
Lemma less_less_md p q : less p q -> less_md p q.
Proof.
  intros H. inversion H as [tag d m t t' tail kids kids' Hc Hk]; subst. repeat split. unfold find_kids. cbn [p_kids].
  apply lk_filter; [exact less_tag|easy].
Qed.
Lemma less_less_root p q : less p q -> less_root p q.
Proof.
  intros H. inversion H as [tag d m t t' tail kids kids' Hc Hk]; subst. repeat split. unfold find_kids. cbn [p_kids].
  apply (lk_impl less); [exact less_less_md|]. apply lk_filter; [exact less_tag|easy].
Qed.
Lemma metadata_less p q y : less_md p q -> decode_metadata p = Ok y -> decode_metadata q = Ok y.
Proof.
  intros (H1 & H2 & H3 & Hk) E. unfold decode_metadata, expect_tag, decode_attrs, pget in *. rewrite <- H1, <- H2, <- H3.
  inv_bind E. rewrite E0. cbn [bind]. inv_bind E.
  rewrite (traverse_lk decode_meta less _ _ meta_dead Hk x0); [|intros; eapply meta_less; eassumption|easy]. exact E.
Qed.
Lemma corpus_less p q gs y : less_root p q -> decode_xigtcorpus p gs = Ok y -> decode_xigtcorpus q gs = Ok y.
Proof.
  intros (H1 & H2 & H3 & Hk) E. unfold decode_xigtcorpus, expect_tag, decode_metadatas, decode_attrs, pget in *. rewrite <- H1, <- H2, <- H3.
  inv_bind E. rewrite E0. cbn [bind]. inv_bind E. inv_bind E1.
  rewrite (traverse_lk decode_metadata less_md _ _ metadata_dead Hk x1); [|intros; eapply metadata_less; eassumption|easy].
  cbn [bind]. rewrite E1. exact E.
Qed.

(* ---------- the views ---------- *)

Fixpoint starts (s : nat) (l : list pelem) : list (nat * pelem) :=
  match l with [] => [] | k :: l => (s, k) :: starts (s + length (events k)) l end.
Lemma starts_split l : forall s s' k, In (s', k) (starts s l) ->
  exists l1 l2, l = l1 ++ k :: l2 /\ s' = s + length (flat_map events l1).
Proof.
  induction l as [|x l IH]; intros s s' k H; [easy|]. cbn [starts] in H. destruct H as [[= -> ->]|H].
  - exists [], l. cbn. split; [easy|lia].
  - destruct (IH _ _ _ H) as (l1 & l2 & -> & ->). exists (x :: l1), l2. cbn [flat_map]. rewrite app_length. split; [easy|lia].
Qed.
Lemma views_in c a l : forall s x, In x (views c a s l) -> exists s' k, In (s', k) (starts s l) /\ x = view c a s' k.
Proof.
  induction l as [|k l IH]; intros s x H; [easy|]. cbn [views] in H. destruct (s <? a); [|easy]. destruct H as [<-|H].
  - exists s, k. split; [now left|easy].
  - destruct (IH _ _ H) as (s' & k' & Hin & ->). exists s', k'. split; [now right|easy].
Qed.
Lemma views_dead c a l : forall s, c <= s -> Forall dead (views c a s l).
Proof.
  induction l as [|k l IH]; intros s H; cbn [views]; [constructor|]. destruct (s <? a); constructor.
  - destruct k. rewrite view_eq. unfold dead. cbn [p_nsmap]. now rewrite (proj2 (Nat.ltb_ge s c)).
  - apply IH. lia.
Qed.
Lemma views_lk (R : pelem -> pelem -> Prop) (f : pelem -> bool) c A B : c <= B -> B <= A ->
  (forall a s k, f (view c a s k) = f k) -> forall l s,
  (forall s' k, In (s', k) (starts s l) -> f k = true -> R (view c A s' k) (view c B s' k)) ->
  lk R (filter f (views c A s l)) (filter f (views c B s l)).
Proof.
  intros HB HA Hf. induction l as [|k l IH]; intros s H; cbn [views filter]; [constructor|].
  destruct (s <? B) eqn:Eb.
  - apply Nat.ltb_lt in Eb. rewrite (proj2 (Nat.ltb_lt s A)) by lia. cbn [filter]. rewrite !Hf. destruct (f k) eqn:E.
    + constructor; [apply H; [now left|easy]|]. apply IH. intros s' k' Hin. apply H. now right.
    + apply IH. intros s' k' Hin. apply H. now right.
  - apply Nat.ltb_ge in Eb. apply lk_drop.
    assert (D : Forall dead (views c A s (k :: l))) by (apply views_dead; lia). cbn [views] in D.
    rewrite Forall_forall in *. intros x Hx. apply filter_In in Hx as [Hx _]. auto.
Qed.
Lemma filter_true {A} (l : list A) : filter (fun _ => true) l = l.
Proof. induction l; cbn; congruence. Qed.
Lemma event_kid tag d m text tail l1 k l2 i e : nth_error (events k) i = Some e ->
  nth_error (events (PElem tag d m text tail (l1 ++ k :: l2))) (S (length (flat_map events l1) + i)) = Some e.
Proof.
  intros H. rewrite events_eq. cbn [nth_error]. rewrite flat_map_app. cbn [flat_map]. rewrite <- app_assoc.
  rewrite nth_error_app2 by lia. replace (_ + i - _) with i by lia. rewrite <- app_assoc.
  rewrite nth_error_app1; [easy|]. apply nth_error_Some. congruence.
Qed.
Lemma less_view c A B : c <= B -> B <= A -> forall p s,
  (forall i q, S (s + i) = c -> nth_error (events p) i = Some (EvStart q) -> p_kids q <> []) ->
  less (view c A s p) (view c B s p).
Proof.
  intros HB HA p. induction p as [tag d m text tail kids IH] using pelem_rec'. intros s H. rewrite !view_eq. constructor.
  - destruct (s <? c) eqn:Es; [|now left]. right. apply Nat.ltb_lt in Es.
    destruct (Nat.eq_dec (S s) c) as [Ec|Ec].
    + assert (Hk : kids <> []).
      { apply (H 0 (PElem tag d m text tail kids)); [lia|]. now rewrite events_eq. }
      destruct (S s <? A) eqn:Ea.
      * right. destruct kids as [|k kids]; [easy|]. cbn [views]. rewrite Ea. left. destruct k. rewrite view_eq. unfold dead. cbn [p_nsmap].
        now rewrite (proj2 (Nat.ltb_ge (S s) c)) by lia.
      * left. apply Nat.ltb_ge in Ea. now rewrite (proj2 (Nat.ltb_ge (S s) B)) by lia.
    + left. now rewrite (proj2 (Nat.ltb_lt (S s) A)), (proj2 (Nat.ltb_lt (S s) B)) by lia.
  - assert (G : lk less (filter (fun _ => true) (views c A (S s) kids)) (filter (fun _ => true) (views c B (S s) kids))).
    { apply views_lk; auto. intros s' k Hin _. apply starts_split in Hin as (l1 & l2 & -> & ->).
      rewrite Forall_forall in IH. apply IH; [apply in_or_app; right; now left|]. intros i q Hi Hq.
      apply (H (S (length (flat_map events l1) + i)) q); [lia|]. now apply event_kid. }
    now rewrite !filter_true in G.
Qed.

(* the first igt *)
Lemma has_igt_event p : has_igt p = true <-> exists i q, nth_error (events p) i = Some (EvStart q) /\ p_tag q = L "igt".
Proof.
  induction p as [tag d m text tail kids IH] using pelem_rec'. cbn [has_igt]. split.
  - intros H. apply orb_prop in H as [H|H].
    + exists 0, (PElem tag d m text tail kids). rewrite events_eq. split; [easy|]. now apply str_eqb_eq.
    + apply existsb_exists in H as (k & Hk & H). rewrite Forall_forall in IH. apply (IH k Hk) in H as (i & q & Hi & Hq).
      apply in_split in Hk as (l1 & l2 & ->). exists (S (length (flat_map events l1) + i)), q. split; [|easy]. now apply event_kid.
  - intros (i & q & Hi & Hq). apply nth_error_In in Hi. rewrite events_eq in Hi. destruct Hi as [Hi|Hi].
    + injection Hi as <-. cbn in Hq. subst tag. now rewrite str_eqb_refl.
    + apply in_app_or in Hi as [Hi|[Hi|[]]]; [|discriminate]. apply in_flat_map in Hi as (k & Hk & Hi).
      apply In_nth_error in Hi as [j Hj]. apply orb_true_intro. right. apply existsb_exists. exists k. split; [easy|].
      rewrite Forall_forall in IH. apply (IH k Hk). eauto.
Qed.
Lemma event_len p i e : nth_error (events p) i = Some e -> i < length (events p).
Proof. intros H. apply nth_error_Some. congruence. Qed.
Lemma find_first (f : pelem -> bool) l1 k l2 : (forall x, In x l1 -> f x = false) -> f k = true -> find f (l1 ++ k :: l2) = Some k.
Proof.
  induction l1 as [|x l1 IH]; cbn; intros H Hk; [now rewrite Hk|]. rewrite (H x) by now left. apply IH; auto.
Qed.
(* n is the start of the first igt *)
Definition first_igt (p : pelem) (n : nat) (g : pelem) : Prop :=
  nth_error (events p) n = Some (EvStart g) /\ p_tag g = L "igt"
  /\ forall i q, i < n -> nth_error (events p) i = Some (EvStart q) -> p_tag q <> L "igt".
Lemma first_kid tag d m text tail l1 k l2 i n q : first_igt (PElem tag d m text tail (l1 ++ k :: l2)) n q ->
  n = S (length (flat_map events l1) + i) -> nth_error (events k) i = Some (EvStart q) ->
  first_igt k i q /\ find has_igt (l1 ++ k :: l2) = Some k.
Proof.
  intros (F1 & F2 & F3) -> Hi. split.
  - split; [easy|]. split; [easy|]. intros j q' Hj Hq'. apply (F3 (S (length (flat_map events l1) + j)) q'); [lia|].
    now apply event_kid.
  - apply find_first.
    + intros x Hx. destruct (has_igt x) eqn:E; [|easy]. exfalso. apply has_igt_event in E as (j & q' & Hj & Hq').
      apply in_split in Hx as (a & b & ->). apply (F3 (S (length (flat_map events a) + j)) q'); [|now rewrite <- app_assoc; apply event_kid|easy].
      pose proof (event_len _ _ _ Hj). rewrite flat_map_app, app_length. cbn [flat_map]. rewrite app_length. lia.
    + apply has_igt_event. eauto.
Qed.
Lemma view_f c a s name k : str_eqb (p_tag (view c a s k)) name = str_eqb (p_tag k) name.
Proof. now rewrite view_tag. Qed.
Lemma root_view c A B p g : c <= B -> B <= A -> first_igt p (c - 1) g -> 1 <= c -> igt_in_meta p = false ->
  less_root (view c A 0 p) (view c B 0 p).
Proof.
  intros HB HA Hf Hc Hm. destruct p as [tag d m text tail kids]. rewrite !view_eq. repeat split. unfold find_kids. cbn [p_kids].
  apply views_lk; auto; [intros; apply view_f|]. intros s' k Hin Hk. apply starts_split in Hin as (l1 & l2 & -> & ->).
  destruct k as [tag' d' m' text' tail' kids']. rewrite !view_eq. repeat split. unfold find_kids. cbn [p_kids].
  apply views_lk; auto; [intros; apply view_f|]. intros s' k Hin Hk'. apply starts_split in Hin as (l1' & l2' & -> & ->).
  apply less_view; auto. intros i q Hi Hq. exfalso.
  assert (Q : q = g).
  { destruct Hf as (F1 & _). assert (X := event_kid tag' d' m' text' tail' l1' k l2' i _ Hq).
    apply (event_kid tag d m text tail l1 _ l2) in X.
    replace (S (length (flat_map events l1) + S (length (flat_map events l1') + i))) with (c - 1) in X by lia. congruence. }
  subst q.
  destruct (first_kid tag d m text tail l1 _ l2 (S (length (flat_map events l1') + i)) (c - 1) g Hf) as [Hf' E1]; [lia|now apply event_kid|].
  destruct (first_kid tag' d' m' text' tail' l1' k l2' i _ g Hf') as [_ E2]; [lia|easy|].
  unfold igt_in_meta in Hm. cbn [p_kids] in Hm. rewrite E1 in Hm. cbn [p_kids p_tag] in Hm, Hk. rewrite E2, Hk, Hk' in Hm. discriminate.
Qed.

(* ---------- reading less is never worse ---------- *)

Lemma leaf_next p : forall n g, p_kids g = [] -> nth_error (events p) n = Some (EvStart g) ->
  nth_error (events p) (S n) = Some (EvEnd g).
Proof.
  induction p as [tag d m text tail kids IH] using pelem_rec'. intros n g Hg H. rewrite events_eq in *. destruct n as [|n].
  - injection H as <-. cbn in Hg. subst kids. reflexivity.
  - set (e := EvEnd _) in *. change (nth_error (flat_map events kids ++ [e]) n = Some (EvStart g)) in H.
    change (nth_error (flat_map events kids ++ [e]) (S n) = Some (EvEnd g)). assert (He : forall q, e <> EvStart q) by discriminate. clearbody e.
    revert n H. induction IH as [|k kids Hk _ IHk]; cbn [flat_map]; intros n H.
    + destruct n as [|[|n]]; cbn in H; try discriminate. injection H as H. now destruct (He g).
    + rewrite <- app_assoc in *. destruct (Nat.lt_ge_cases n (length (events k))) as [C|C].
      * rewrite nth_error_app1 in H by easy. apply Hk in H; [|easy]. rewrite nth_error_app1; [easy|]. apply nth_error_Some. congruence.
      * rewrite nth_error_app2 in H |- * by lia. apply IHk in H. now replace (S n - length (events k)) with (S (n - length (events k))) by lia.
Qed.

Lemma less_reading a b root x : b <= a -> decode a root = Ok x -> decode b root = Ok x.
Proof.
  intros Hab E. unfold decode, decode_with in *. fold stop_at in *. cbv zeta in *.
  destruct (skip_to stop_at (events root)) as [[e rest]|] eqn:Es; [|discriminate].
  apply skip_split in Es as (l & Es & Hs & Hl).
  assert (El : length (events root) - length rest = S (length l)) by (rewrite Es, app_length; cbn; lia).
  rewrite El in *. set (c := S (length l)) in *.
  assert (Hn : nth_error (events root) (length l) = Some e) by (rewrite Es, nth_error_app2, Nat.sub_diag by lia; reflexivity).
  assert (Hi : forall i q, i < length l -> nth_error (events root) i = Some (EvStart q) -> p_tag q <> L "igt").
  { intros i q Hi Hq. rewrite Es, nth_error_app1 in Hq by easy. apply nth_error_In in Hq. rewrite Forall_forall in Hl.
    specialize (Hl _ Hq). unfold stop_at in Hl. cbn in Hl. now destruct (str_eqb_spec (p_tag q) (L "igt")). }
  destruct e as [g|g].
  - destruct (iter_elements _ _ _) as [gs|] eqn:Eg; [|discriminate].
    assert (Hg : p_tag g = L "igt").
    { unfold stop_at in Hs. cbn in Hs. rewrite orb_false_r in Hs. now apply str_eqb_eq. }
    assert (Hleaf : p_kids g <> [] \/ p_kids g = []) by (destruct (p_kids g); [now right|now left]).
    destruct Hleaf as [Hleaf|Hleaf].
    + eapply corpus_less; [|exact E]. apply less_less_root, less_view; [lia|lia|]. intros i q Hi' Hq.
      replace i with (length l) in Hq by (unfold c in Hi'; lia). rewrite Hn in Hq. now injection Hq as <-.
    + destruct (igt_in_meta root) eqn:Em.
      * exfalso. destruct g as [tag d m text tail kids]. cbn in Hleaf. subst kids.
        assert (Hr : exists r, rest = EvEnd (PElem tag d m text tail []) :: r).
        { apply leaf_next in Hn; [|easy]. rewrite Es, nth_error_app2 in Hn by lia. replace (S (length l) - length l) with 1 in Hn by lia.
          cbn [nth_error] in Hn. destruct rest as [|y r]; [discriminate|]. injection Hn as ->. eauto. }
        destruct Hr as [r ->]. replace (length (events (PElem tag d m text tail [])) - 2) with 0 in Eg by (rewrite events_len; reflexivity).
        cbn [spend] in Eg. cbn in Hg. subst tag. cbn [iter_elements is_end spent p_tag] in Eg.
        change (str_eqb (L "igt") (L "xigt-corpus")) with false in Eg. rewrite str_eqb_refl in Eg.
        destruct (iter_elements (L "igt") _ r) as [gs'|]; [|discriminate]. injection Eg as <-.
        unfold decode_xigtcorpus in E. do 4 inv_bind E. cbn [map] in E3. apply traverse_ok in E3. inversion_clear E3 as [|? ? [y Hy] _].
        now apply igt_dead in Hy.
      * eapply corpus_less; [|exact E]. apply (root_view c _ _ root g); auto; try lia.
        unfold c. cbn. rewrite Nat.sub_0_r. split; [easy|]. split; easy.
  - assert (HL : less (view c (c + a) 0 root) (view c (c + b) 0 root)).
    { apply less_view; [lia|lia|]. intros i q Hi' Hq. replace i with (length l) in Hq by (unfold c in Hi'; lia). congruence. }
    assert (D : Forall dead (find_kids (L "igt") (view c (c + a) 0 root))).
    { apply Forall_forall. intros k Hk. apply filter_In in Hk as [Hk Htk]. apply str_eqb_eq in Htk.
      destruct root as [tag d m text tail kids]. rewrite view_eq in Hk. cbn [p_kids] in Hk.
      apply views_in in Hk as (s' & k' & Hin & ->). rewrite view_tag in Htk. apply starts_split in Hin as (l1 & l2 & -> & ->).
      destruct (Nat.lt_ge_cases (1 + length (flat_map events l1)) c) as [Hc|Hc].
      - exfalso. assert (N : nth_error (events k') 0 = Some (EvStart k')) by (destruct k'; now rewrite events_eq).
        apply (event_kid tag d m text tail l1 k' l2) in N. rewrite Nat.add_0_r in N.
        destruct (Nat.eq_dec (S (length (flat_map events l1))) (length l)) as [Eq|Eq]; [congruence|].
        apply (Hi (S (length (flat_map events l1))) k'); [unfold c in Hc; lia|easy|easy].
      - destruct k'. rewrite view_eq. unfold dead. cbn [p_nsmap]. now rewrite (proj2 (Nat.ltb_ge _ c)) by lia. }
    assert (Z : find_kids (L "igt") (view c (c + a) 0 root) = []).
    { destruct (find_kids (L "igt") (view c (c + a) 0 root)) as [|k ks]; [easy|]. exfalso.
      unfold decode_xigtcorpus in E. do 4 inv_bind E. apply (none_dead _ _ _ igt_dead E3). inversion_clear D. now constructor. }
    assert (Z' : find_kids (L "igt") (view c (c + b) 0 root) = []).
    { assert (K : lk less (find_kids (L "igt") (view c (c + a) 0 root)) (find_kids (L "igt") (view c (c + b) 0 root))).
      { unfold find_kids. apply lk_filter; [exact less_tag|]. clear -HL. destruct HL. easy. }
      rewrite Z in K. now inversion K. }
    rewrite Z in E. rewrite Z'. eapply corpus_less; [|exact E]. now apply less_less_root.
Qed.
Theorem loads_agree a b e x y : xml_load a e = Ok x -> xml_load b e = Ok y -> x = y.
Proof.
  unfold xml_load. destruct (reread [] e) as [p|]; [|discriminate]. cbn [bind]. intros Ea Eb.
  destruct (Nat.le_ge_cases a b) as [H|H].
  - apply (less_reading b a p y H) in Eb. congruence.
  - apply (less_reading a b p x H) in Ea. congruence.
Qed.
Theorem smaller_pieces a b e x : b <= a -> xml_load a e = Ok x -> xml_load b e = Ok x.
Proof.
  unfold xml_load. destruct (reread [] e) as [p|]; [|discriminate]. cbn [bind]. apply less_reading.
Qed.

(* checking the order *)
Fixpoint no_igtb (e : xelem) : bool :=
  match e with XElem tag _ _ _ kids => negb (str_eqb tag (L "igt")) && negb (str_eqb tag (L "xigt-corpus")) && forallb no_igtb kids end.
Fixpoint no_corpusb (e : xelem) : bool :=
  match e with XElem tag _ _ _ kids => negb (str_eqb tag (L "xigt-corpus")) && forallb no_corpusb kids end.
Fixpoint firstb (l : list xelem) : bool :=
  match l with
  | [] => true
  | k :: l' => no_igtb k && firstb l' || forallb (fun k => negb (str_eqb (x_tag k) (L "metadata")) && no_corpusb k) l
  end.
Lemma no_igtb_ok e : no_igtb e = true -> no_igt e.
Proof.
  induction e as [tag d text tail kids IH] using XmlProofs.xelem_rec'. cbn. intros H.
  apply andb_prop in H as [H Hk]. apply andb_prop in H as [H1 H2].
  destruct (str_eqb_spec tag (L "igt")); [discriminate|]. destruct (str_eqb_spec tag (L "xigt-corpus")); [discriminate|].
  constructor; auto. rewrite Forall_forall in *. rewrite forallb_forall in Hk. auto.
Qed.
Lemma no_corpusb_ok e : no_corpusb e = true -> no_corpus e.
Proof.
  induction e as [tag d text tail kids IH] using XmlProofs.xelem_rec'. cbn. intros H. apply andb_prop in H as [H Hk].
  destruct (str_eqb_spec tag (L "xigt-corpus")); [discriminate|].
  constructor; auto. rewrite Forall_forall in *. rewrite forallb_forall in Hk. auto.
Qed.
Lemma firstb_ok e : firstb (x_kids e) = true -> metadata_first e.
Proof.
  unfold metadata_first. induction (x_kids e) as [|k l IH]; intros H; [exists [], []; repeat split; constructor|].
  cbn [firstb] in H. apply orb_prop in H as [H|H].
  - apply andb_prop in H as [Hk H]. destruct (IH H) as (pre & post & -> & H1 & H2). exists (k :: pre), post.
    split; [easy|]. split; [|easy]. constructor; [now apply no_igtb_ok|easy].
  - exists [], (k :: l). split; [easy|]. split; [constructor|]. rewrite forallb_forall in H. apply Forall_forall. intros x Hx.
    specialize (H x Hx). apply andb_prop in H as [H1 H2]. split; [|now apply no_corpusb_ok].
    now destruct (str_eqb_spec (x_tag x) (L "metadata")).
Qed.
Lemma load_any e c : firstb (x_kids e) = true -> xml_load 0 e = Ok c -> forall ahead, xml_load ahead e = Ok c.
Proof. intros H E ahead. now rewrite (chunks ahead 0 e (firstb_ok e H)). Qed.

End Chunks.
