(* Proofs about the schema. *)
From Verif Require Import PyStr PyStrFacts Ref SpecRef Model SpecModel XmlStd Xml SpecXml SpecReload Schema SpecSchema.
From Verif Require RefProofs AttrProofs.
From Verif Require Import LoadProofs XmlProofs ReloadProofs.

(* ---------- patterns ---------- *)

Lemma m_chr f s : matches (PChr f) s -> exists c, s = [c] /\ f c = true.
Proof. inversion 1; subst. eauto. Qed.
Lemma m_seq p q s : matches (PSeq p q) s -> exists a b, s = a ++ b /\ matches p a /\ matches q b.
Proof. inversion 1; subst. eauto. Qed.
Lemma m_opt p s : matches (POpt p) s -> s = [] \/ matches p s.
Proof. inversion 1; subst; auto. Qed.
Lemma m_star p s : matches (PStar p) s -> exists l, s = List.concat l /\ Forall (matches p) l.
Proof.
  remember (PStar p) as q eqn:E. induction 1; try discriminate.
  - exists []. split; [easy|constructor].
  - injection E as ->. destruct IHmatches2 as (l & -> & Hl); [easy|]. exists (s :: l). split; [easy|now constructor].
Qed.
Lemma star_m p l : Forall (matches p) l -> matches (PStar p) (List.concat l).
Proof. induction 1; cbn; constructor; auto. Qed.
Lemma m_chars f s : matches (PStar (PChr f)) s <-> Forall (fun c => f c = true) s.
Proof.
  split.
  - intros H. apply m_star in H as (l & -> & Hl). induction Hl as [|x l H _ IH]; [constructor|].
    apply m_chr in H as (c & -> & Hc). cbn. now constructor.
  - induction 1 as [|c s H _ IH]; [constructor|]. change (c :: s) with ([c] ++ s). now constructor; [constructor|].
Qed.
Lemma m_plus f s : matches (PPlus (PChr f)) s <-> s <> [] /\ Forall (fun c => f c = true) s.
Proof.
  unfold PPlus. split.
  - intros H. apply m_seq in H as (a & b & -> & Ha & Hb). apply m_chr in Ha as (c & -> & Hc). split; [easy|].
    constructor; [easy|]. now apply m_chars.
  - intros [Hn H]. destruct H as [|c s Hc H]; [easy|]. change (c :: s) with ([c] ++ s). constructor; [now constructor|now apply m_chars].
Qed.
Lemma m_lit c s : matches (PLit c) s <-> s = [c].
Proof.
  split.
  - intros H. apply m_chr in H as (x & -> & E). now apply N.eqb_eq in E as ->.
  - intros ->. constructor. apply N.eqb_refl.
Qed.
Lemma letter_spec c : is_letter c = true <-> ascii_letter c.
Proof.
  unfold is_letter, ascii_letter, in_range. rewrite orb_true_iff, !andb_true_iff, !N.leb_le. reflexivity.
Qed.

Section SchemaProofs.
Context {U : Unicode} {X : XsdWord}.

Lemma id_pattern_spec s : matches id_pattern s <-> exists c t, s = c :: t /\ ascii_letter c /\ Forall (fun x => id_tail x = true) t.
Proof.
  unfold id_pattern. split.
  - intros H. apply m_seq in H as (a & b & -> & Ha & Hb). apply m_chr in Ha as (c & -> & Hc). exists c, b.
    split; [easy|]. split; [now apply letter_spec|now apply m_chars].
  - intros (c & t & -> & Hc & Ht). change (c :: t) with ([c] ++ t). constructor; [|now apply m_chars].
    constructor. now apply letter_spec.
Qed.
Lemma id_pattern_accepted s : matches id_pattern s -> accepted_id s.
Proof. intros H. apply id_pattern_spec in H as (c & t & -> & Hc & _). now exists c, t. Qed.

(* ---------- attributes ---------- *)

Lemma dget_ignoring ig d k : dget (ignoring ig d) k = if existsb (str_eqb k) ig then None else dget d k.
Proof.
  unfold ignoring, dget. induction d as [|[k' v] d IH]; cbn [filter fst]; [now destruct (existsb _ ig)|].
  destruct (existsb (str_eqb k') ig) eqn:E; cbn [negb dget_].
  - rewrite IH. destruct (str_eqb_spec k k') as [->|N]; [now rewrite E|reflexivity].
  - destruct (str_eqb_spec k k') as [->|N]; [now rewrite E|exact IH].
Qed.

Lemma decode_attrs_read p m : p_nsmap p = Some m -> may_have_id (p_attrib p) ->
  exists a, decode_attrs (pget ID p) (pget TYPE p) [ID; TYPE] None p = Ok a /\ attrs_read p a.
Proof.
  intros Em Hi. exists {| a_id := pget ID p; a_type := pget TYPE p; a_dict := ignoring [ID; TYPE] (p_attrib p); a_ns := None; a_nsmap := p_nsmap p |}. split.
  - unfold decode_attrs. rewrite Em. destruct (pget ID p) as [i|] eqn:E; [|easy].
    assert (A : id_accepted i = true) by (apply RefProofs.id_accepted_spec, id_pattern_accepted, Hi, E). now rewrite A.
  - repeat (split; [easy|]). intros k. cbn [a_dict]. rewrite dget_ignoring. cbn [existsb]. now rewrite orb_false_r.
Qed.

(* ---------- reading ---------- *)

Lemma traverse_read {B} (dec : pelem -> res B) (R : pelem -> B -> Prop) l :
  (forall p, In p l -> exists y, dec p = Ok y /\ R p y) -> exists ys, traverse dec l = Ok ys /\ Forall2 R l ys.
Proof.
  induction l as [|p l IH]; intros H; [exists []; split; [easy|constructor]|].
  destruct (H p) as (y & E & Hy); [now left|]. destruct IH as (ys & Es & Hs); [intros q Hq; apply H; now right|].
  exists (y :: ys). cbn. rewrite E. cbn [bind]. rewrite Es. split; [easy|now constructor].
Qed.
Lemma distinct_nodup n l : (forall l1 a l2 b l3, l = l1 ++ a :: l2 ++ b :: l3 -> called n a -> called n b -> the_id a <> None -> the_id a <> the_id b) ->
  NoDup (some_ids (map the_id (filter (fun k => str_eqb (p_tag k) n) l))).
Proof.
  induction l as [|x l IH]; intros H; [constructor|]. assert (IH' : NoDup (some_ids (map the_id (filter (fun k => str_eqb (p_tag k) n) l)))).
  { apply IH. intros l1 a l2 b l3 ->. apply (H (x :: l1) a l2 b l3). reflexivity. }
  cbn [filter]. destruct (str_eqb_spec (p_tag x) n) as [Ex|_]; [|exact IH'].
  cbn [map some_ids flat_map]. destruct (the_id x) as [i|] eqn:Ei; [|exact IH']. cbn [app]. constructor; [|exact IH'].
  intros Hin. unfold some_ids in Hin. apply in_flat_map in Hin as (o & Ho & Hin). destruct o as [j|]; [|easy]. destruct Hin as [->|[]].
  apply in_map_iff in Ho as (y & Ey & Hy). apply filter_In in Hy as [Hy Ty]. apply str_eqb_eq in Ty.
  apply in_split in Hy as (l2 & l3 & ->). apply (H [] x l2 y l3); [reflexivity|easy|easy|congruence|congruence].
Qed.
Lemma container_read {B} (idb : B -> option str) (R : pelem -> B -> Prop) n p ps ys : distinct_kids n p ->
  filter (fun k => str_eqb (p_tag k) n) (p_kids p) = ps -> Forall2 R ps ys -> (forall q y, R q y -> the_id q = idb y) ->
  new_container idb ys = Ok ys.
Proof.
  intros Hd E HF HR. apply (new_container_ok the_id idb R ps ys); [|easy|easy].
  rewrite <- E. now apply distinct_nodup.
Qed.
Lemma expect_plain tag p : ncname tag = true -> p_tag p = tag -> expect_tag tag p = Ok None.
Proof. intros Hn E. unfold expect_tag. rewrite E, qname_plain by easy. cbn [bind]. now rewrite str_eqb_refl. Qed.
Lemma live_kid p k : live_above p -> In k (p_kids p) -> live_above k.
Proof. intros H. inversion_clear H as [? ? ? ? ? ? F]. cbn. rewrite Forall_forall in F. auto. Qed.
Lemma live_map p : live_above p -> exists m, p_nsmap p = Some m.
Proof. inversion_clear 1. cbn. eauto. Qed.
Lemma tag_split tag ns n : tag_is tag ns n -> python_name n -> qname_split tag = Ok (ns, n).
Proof.
  intros H (c & r & -> & Hw & _). destruct ns as [u|]; cbn in H.
  - destruct H as [-> Hu]. now apply qname_clark.
  - subst tag. unfold qname_split. destruct (N.eqb_spec c (Ch "{")) as [->|_]; [|easy]. vm_compute in Hw. discriminate.
Qed.
Lemma meta_text_read p : meta_text p = nonblank (p_text p).
Proof.
  unfold meta_text. destruct (blank (p_text p)) eqn:B.
  - apply blank_spec in B. now rewrite nonblank_blank.
  - apply blank_not in B. now rewrite nonblank_not.
Qed.

Lemma child_reads p : live_above p -> readable_child p -> exists m, decode_child p = Ok m /\ child_read p m.
Proof.
  induction p as [tag d m text tail kids IH] using pelem_rec'. intros Hl Hr.
  inversion_clear Hr as [? ? ? ? ? ? ns n Ht Hn _ _ Hk]. inversion Hl as [? ? m' ? ? ? F]; subst.
  cbn [decode_child]. rewrite (tag_split _ _ _ Ht Hn). cbn [bind].
  destruct (traverse_read decode_child child_read kids) as (ks & -> & HF).
  { rewrite Forall_forall in IH, F, Hk. intros q Hq. apply IH; auto. }
  cbn [bind]. unfold decode_attrs. cbn [p_nsmap bind]. rewrite (name_accepted_ok _ Hn).
  eexists. split; [reflexivity|]. rewrite meta_text_read. cbn [p_text]. constructor; auto.
  intros k. cbn [a_dict p_attrib]. rewrite dget_ignoring. cbn [existsb]. now rewrite orb_false_r.
Qed.
Lemma readable_other p n : readable_kids p -> called n p -> n <> L "meta" -> Forall readable_kids (p_kids p)
  /\ distinct_kids (L "meta") p /\ distinct_kids (L "metadata") p /\ distinct_kids (L "item") p
  /\ distinct_kids (L "tier") p /\ distinct_kids (L "igt") p.
Proof.
  intros H Hn N. inversion H as [? Hm _|]; subst; [|easy]. unfold called in *. congruence.
Qed.
Lemma meta_reads p : live_above p -> readable_kids p -> valid_meta p -> exists m, decode_meta p = Ok m /\ meta_read p m.
Proof.
  intros Hl Hr (Et & Hi & _ & _). destruct (live_map _ Hl) as (nm & Em). unfold decode_meta. rewrite expect_plain by easy. cbn [bind].
  inversion Hr as [? _ Hk|? Hn]; subst; [|destruct (Hn Et)].
  destruct (traverse_read decode_child child_read (p_kids p)) as (ks & -> & HF).
  { rewrite Forall_forall in Hk. intros q Hq. apply child_reads; auto. now apply (live_kid p). }
  cbn [bind]. destruct (decode_attrs_read p nm Em Hi) as (a & -> & Ha). cbn [bind]. eexists. split; [reflexivity|].
  split; [easy|]. split; [easy|]. split; [apply meta_text_read|easy].
Qed.
Lemma filter_front n n' l l' : n <> n' -> Forall (called n) l -> Forall (called n') l' ->
  filter (fun k => str_eqb (p_tag k) n) (l ++ l') = l /\ filter (fun k => str_eqb (p_tag k) n') (l ++ l') = l'.
Proof.
  intros N H H'. rewrite !filter_app. split.
  - rewrite (filter_tag_all n) by easy. rewrite (filter_tag_none n' n) by auto. apply app_nil_r.
  - rewrite (filter_tag_none n n') by easy. now rewrite (filter_tag_all n').
Qed.
Lemma metadata_reads p : live_above p -> readable_kids p -> valid_metadata p -> exists m, decode_metadata p = Ok m /\ metadata_read p m.
Proof.
  intros Hl Hr (Et & Hi & _ & _ & Hv). destruct (live_map _ Hl) as (nm & Em). unfold decode_metadata. rewrite expect_plain by easy. cbn [bind].
  destruct (readable_other p _ Hr Et) as (Hk & Hd & _); [discriminate|].
  assert (Ek : find_kids (L "meta") p = p_kids p).
  { unfold find_kids. apply filter_tag_all. eapply Forall_impl; [|exact Hv]. now intros q [? _]. }
  rewrite Ek. destruct (traverse_read decode_meta meta_read (p_kids p)) as (ks & -> & HF).
  { rewrite Forall_forall in Hk, Hv. intros q Hq. apply meta_reads; auto. now apply (live_kid p). }
  cbn [bind]. destruct (decode_attrs_read p nm Em Hi) as (a & -> & Ha). cbn [bind].
  rewrite (container_read _ meta_read (L "meta") p (p_kids p) ks Hd Ek HF) by (intros q y (_ & (E & _) & _); now rewrite E).
  cbn [bind]. eexists. split; [reflexivity|]. split; [easy|]. now split.
Qed.
Lemma metadatas_reads p ms rest n : live_above p -> Forall readable_kids (p_kids p) -> distinct_kids (L "metadata") p ->
  p_kids p = ms ++ rest -> Forall valid_metadata ms -> n <> L "metadata" -> Forall (called n) rest ->
  exists l, decode_metadatas p = Ok l /\ Forall2 metadata_read ms l.
Proof.
  intros Hl Hk Hd Ek Hv N Hn. unfold decode_metadatas.
  assert (Ef : find_kids (L "metadata") p = ms).
  { unfold find_kids. rewrite Ek. apply (filter_front _ n); auto. eapply Forall_impl; [|exact Hv]. now intros q [? _]. }
  rewrite Ef. destruct (traverse_read decode_metadata metadata_read ms) as (ys & -> & HF).
  { rewrite Forall_forall in Hk, Hv. intros q Hq. assert (Hq' : In q (p_kids p)) by (rewrite Ek; apply in_or_app; now left).
    apply metadata_reads; auto. now apply (live_kid p). }
  cbn [bind]. rewrite (container_read _ metadata_read (L "metadata") p ms ys Hd Ef HF) by (intros q y (_ & (E & _) & _); now rewrite E).
  eauto.
Qed.
Lemma has_may d : has_id d -> may_have_id d.
Proof. intros (i & E & H) j E'. congruence. Qed.
Lemma item_reads p : live_above p -> valid_item p -> exists i, decode_item p = Ok i /\ item_read p i.
Proof.
  intros Hl (Et & Hi & _). destruct (live_map _ Hl) as (nm & Em). unfold decode_item. rewrite expect_plain by easy. cbn [bind].
  destruct (decode_attrs_read p nm Em (has_may _ Hi)) as (a & -> & Ha). cbn [bind]. eexists. split; [reflexivity|]. split; [easy|]. now split.
Qed.
Lemma tier_reads p : live_above p -> readable_kids p -> valid_tier p -> exists t, decode_tier p = Ok t /\ tier_read p t.
Proof.
  intros Hl Hr (Et & Hi & _ & _ & _ & ms & l & Ek & Hm & Hv). destruct (live_map _ Hl) as (nm & Em).
  unfold decode_tier. rewrite expect_plain by easy. cbn [bind].
  destruct (readable_other p _ Hr Et) as (Hk & _ & Hd & Hd' & _); [discriminate|].
  assert (Hn : Forall (called (L "item")) l) by (eapply Forall_impl; [|exact Hv]; now intros q [? _]).
  assert (Hn' : Forall (called (L "metadata")) ms) by (eapply Forall_impl; [|exact Hm]; now intros q [? _]).
  destruct (metadatas_reads p ms l (L "item") Hl Hk Hd Ek Hm) as (md & -> & HF1); [discriminate|easy|]. cbn [bind].
  assert (Ef : find_kids (L "item") p = l) by (unfold find_kids; rewrite Ek; now apply (filter_front (L "metadata") (L "item"))).
  rewrite Ef. destruct (traverse_read decode_item item_read l) as (ys & -> & HF).
  { rewrite Forall_forall in Hv. intros q Hq. assert (Hq' : In q (p_kids p)) by (rewrite Ek; apply in_or_app; now right).
    apply item_reads; auto. now apply (live_kid p). }
  cbn [bind]. destruct (decode_attrs_read p nm Em (has_may _ Hi)) as (a & -> & Ha). cbn [bind].
  rewrite (container_read _ item_read (L "item") p l ys Hd' Ef HF) by (intros q y (_ & (E & _) & _); now rewrite E).
  cbn [bind]. eexists. split; [reflexivity|]. split; [easy|]. split; [easy|]. now exists ms, l.
Qed.
Lemma igt_reads p : live_above p -> readable_kids p -> valid_igt p -> exists g, decode_igt p = Ok g /\ igt_read p g.
Proof.
  intros Hl Hr (Et & Hi & _ & _ & ms & l & Ek & Hm & Hv). destruct (live_map _ Hl) as (nm & Em).
  unfold decode_igt. rewrite expect_plain by easy. cbn [bind].
  destruct (readable_other p _ Hr Et) as (Hk & _ & Hd & _ & Hd' & _); [discriminate|].
  assert (Hn : Forall (called (L "tier")) l) by (eapply Forall_impl; [|exact Hv]; now intros q [? _]).
  assert (Hn' : Forall (called (L "metadata")) ms) by (eapply Forall_impl; [|exact Hm]; now intros q [? _]).
  destruct (metadatas_reads p ms l (L "tier") Hl Hk Hd Ek Hm) as (md & -> & HF1); [discriminate|easy|]. cbn [bind].
  assert (Ef : find_kids (L "tier") p = l) by (unfold find_kids; rewrite Ek; now apply (filter_front (L "metadata") (L "tier"))).
  rewrite Ef. destruct (traverse_read decode_tier tier_read l) as (ys & -> & HF).
  { rewrite Forall_forall in Hv, Hk. intros q Hq. assert (Hq' : In q (p_kids p)) by (rewrite Ek; apply in_or_app; now right).
    apply tier_reads; auto. now apply (live_kid p). }
  cbn [bind]. destruct (decode_attrs_read p nm Em (has_may _ Hi)) as (a & -> & Ha). cbn [bind].
  rewrite (container_read _ tier_read (L "tier") p l ys Hd' Ef HF) by (intros q y (_ & (E & _) & _); now rewrite E).
  cbn [bind]. eexists. split; [reflexivity|]. split; [easy|]. split; [easy|]. now exists ms, l.
Qed.

(* nothing in a valid element is taken for an igt *)
Lemma child_calm p : readable_child p -> quiet p.
Proof.
  induction p as [tag d m text tail kids IH] using pelem_rec'. intros H. inversion_clear H as [? ? ? ? ? ? ns n _ _ H1 H2 Hk].
  constructor; auto. rewrite Forall_forall in *. auto.
Qed.
Lemma quiet_intro p : p_tag p <> L "igt" -> p_tag p <> L "xigt-corpus" -> Forall quiet (p_kids p) -> quiet p.
Proof. destruct p as [tag d m text tail kids]. now constructor. Qed.
Lemma meta_calm p : readable_kids p -> valid_meta p -> quiet p.
Proof.
  intros Hr (Et & _). inversion Hr as [? _ Hk|? Hn]; subst; [|destruct (Hn Et)].
  apply quiet_intro; [rewrite Et; discriminate..|]. eapply Forall_impl; [|exact Hk]. exact child_calm.
Qed.
Lemma metadata_calm p : readable_kids p -> valid_metadata p -> quiet p.
Proof.
  intros Hr (Et & _ & _ & _ & Hv). destruct (readable_other p _ Hr Et) as (Hk & _); [discriminate|].
  apply quiet_intro; [rewrite Et; discriminate..|]. rewrite Forall_forall in *. intros q Hq. apply meta_calm; auto.
Qed.
Lemma item_calm p : valid_item p -> quiet p.
Proof. intros (Et & _ & _ & Ek). apply quiet_intro; [rewrite Et; discriminate..|]. rewrite Ek. constructor. Qed.
Lemma tier_calm p : readable_kids p -> valid_tier p -> quiet p.
Proof.
  intros Hr (Et & _ & _ & _ & _ & ms & l & Ek & Hm & Hv). destruct (readable_other p _ Hr Et) as (Hk & _); [discriminate|].
  apply quiet_intro; [rewrite Et; discriminate..|]. rewrite Ek in *. apply Forall_app in Hk as [Hk1 Hk2]. apply Forall_app.
  rewrite !Forall_forall in *. split; intros q Hq; [apply metadata_calm|apply item_calm]; auto.
Qed.
Lemma igt_calm p : readable_kids p -> valid_igt p -> p_tag p = L "igt" /\ Forall quiet (p_kids p).
Proof.
  intros Hr (Et & _ & _ & _ & ms & l & Ek & Hm & Hv). destruct (readable_other p _ Hr Et) as (Hk & _); [discriminate|].
  split; [easy|]. rewrite Ek in *. apply Forall_app in Hk as [Hk1 Hk2]. apply Forall_app.
  rewrite !Forall_forall in *. split; intros q Hq; [apply metadata_calm|apply tier_calm]; auto.
Qed.
Lemma corpus_reads p : live_above p -> readable_kids p -> valid_corpus p ->
  exists c, (forall ahead, decode ahead p = Ok c) /\ corpus_read p c.
Proof.
  intros Hl Hr (Et & Hi & _ & _ & ms & l & Ek & Hm & Hv). destruct (live_map _ Hl) as (nm & Em).
  destruct (readable_other p _ Hr Et) as (Hk & _ & Hd & _ & _ & Hd'); [discriminate|].
  assert (Hn : Forall (called (L "igt")) l) by (eapply Forall_impl; [|exact Hv]; now intros q [? _]).
  assert (Hn' : Forall (called (L "metadata")) ms) by (eapply Forall_impl; [|exact Hm]; now intros q [? _]).
  assert (Hdec : forall ahead, decode ahead p = decode_xigtcorpus p l).
  { intros ahead. apply (decode_igts ahead p ms l); auto; rewrite Ek in Hk; apply Forall_app in Hk as [Hk1 Hk2]; rewrite !Forall_forall in *;
    intros q Hq; [apply metadata_calm|apply igt_calm]; auto. }
  enough (G : exists c, decode_xigtcorpus p l = Ok c /\ corpus_read p c).
  { destruct G as (c & E & Hc). exists c. split; [|easy]. intros ahead. now rewrite Hdec. }
  unfold decode_xigtcorpus. rewrite expect_plain by easy. cbn [bind].
  destruct (metadatas_reads p ms l (L "igt") Hl Hk Hd Ek Hm) as (md & -> & HF1); [discriminate|easy|]. cbn [bind].
  assert (Ea : decode_attrs (pget ID p) None [ID] None p = Ok {| a_id := pget ID p; a_type := None; a_dict := ignoring [ID] (p_attrib p); a_ns := None; a_nsmap := p_nsmap p |}).
  { unfold decode_attrs. rewrite Em. destruct (pget ID p) as [i|] eqn:E; [|easy].
    assert (A : id_accepted i = true) by (apply RefProofs.id_accepted_spec, id_pattern_accepted, Hi, E). now rewrite A. }
  rewrite Ea. cbn [bind].
  assert (Ef : find_kids (L "igt") p = l) by (unfold find_kids; rewrite Ek; now apply (filter_front (L "metadata") (L "igt"))).
  destruct (traverse_read decode_igt igt_read l) as (ys & -> & HF).
  { rewrite Forall_forall in Hv, Hk. intros q Hq. assert (Hq' : In q (p_kids p)) by (rewrite Ek; apply in_or_app; now right).
    apply igt_reads; auto. now apply (live_kid p). }
  cbn [bind].
  rewrite (container_read _ igt_read (L "igt") p l ys Hd' Ef HF) by (intros q y (_ & (E & _) & _); now rewrite E).
  cbn [bind]. eexists. split; [reflexivity|]. do 5 (split; [easy|]).
  split; [|now exists ms, l]. intros k. cbn [c_attrs a_dict]. rewrite dget_ignoring. cbn [existsb]. now rewrite orb_false_r.
Qed.
Theorem valid_reads e p : reread [] e = Ok p -> valid_corpus p -> readable_kids p ->
  exists c, (forall ahead, xml_load ahead e = Ok c) /\ corpus_read p c.
Proof.
  intros E Hv Hr. destruct (corpus_reads p (reread_live e [] p E) Hr Hv) as (c & Ec & Hc). exists c. split; [|easy].
  intros ahead. unfold xml_load. rewrite E. apply Ec.
Qed.

(* ---------- what is read, from success ---------- *)

Lemma traverse_got {B} (dec : pelem -> res B) (R : pelem -> B -> Prop) l ys : traverse dec l = Ok ys ->
  (forall p y, In p l -> dec p = Ok y -> R p y) -> Forall2 R l ys.
Proof.
  revert ys. induction l as [|p l IH]; cbn; intros ys E H; [injection E as <-; constructor|].
  inv_bind E. inv_bind E. injection E as <-. constructor; [apply H; auto|]. apply IH; auto.
Qed.
Lemma attrs_got p a : decode_attrs (pget ID p) (pget TYPE p) [ID; TYPE] None p = Ok a -> attrs_read p a.
Proof.
  intros E. apply decode_attrs_inv in E as [-> _]. repeat (split; [easy|]). intros k. cbn [a_dict]. rewrite dget_ignoring. cbn [existsb].
  now rewrite orb_false_r.
Qed.
Lemma expect_got tag p ns : ncname tag = true -> p_tag p = tag -> expect_tag tag p = Ok ns -> ns = None.
Proof. intros Hn Et E. rewrite expect_plain in E by easy. congruence. Qed.
Ltac got_tag := match goal with E : expect_tag ?t ?p = Ok ?x |- _ => let H := fresh in pose proof E as H; apply expect_got in H; [subst x|reflexivity|assumption] end.
Lemma split_got tag ns n : qname_split tag = Ok (ns, n) -> tag_is tag ns n.
Proof.
  unfold qname_split. destruct tag as [|c r]; [intros [= <- <-]; reflexivity|]. destruct (N.eqb_spec c (Ch "{")) as [->|_]; [|intros [= <- <-]; reflexivity].
  destruct (split1 (Ch "}") r) as [[u m]|] eqn:E; [|discriminate]. intros [= <- <-]. cbn. split.
  - apply split1_app in E. now rewrite E.
  - clear -E. revert u m E. induction r as [|x r IH]; cbn; intros u m E; [discriminate|].
    destruct (N.eqb_spec x (Ch "}")) as [->|N]; [injection E as <- <-; easy|].
    destruct (split1 (Ch "}") r) as [[a b]|]; [|discriminate]. injection E as <- <-. intros [->|H]; [easy|]. now apply (IH a b).
Qed.
Lemma child_got p : forall m, decode_child p = Ok m -> child_read p m.
Proof.
  induction p as [tag d nm text tail kids IH] using pelem_rec'. intros m E. cbn [decode_child] in E. inv_bind E. destruct x as [ns n].
  inv_bind E. inv_bind E. destruct (name_accepted n); [|discriminate]. injection E as <-. apply decode_attrs_inv in E2 as [-> _].
  rewrite meta_text_read. cbn [p_text]. constructor; auto.
  - now apply split_got.
  - intros k. cbn [a_dict p_attrib]. rewrite dget_ignoring. cbn [existsb]. now rewrite orb_false_r.
  - rewrite Forall_forall in IH. apply (traverse_got decode_child); auto.
Qed.
Lemma meta_got p m : valid_meta p -> decode_meta p = Ok m -> meta_read p m.
Proof.
  intros (Et & _) E. unfold decode_meta in E. inv_bind E. got_tag. inv_bind E. inv_bind E. injection E as <-.
  split; [easy|]. split; [now apply attrs_got|]. split; [apply meta_text_read|]. cbn. apply (traverse_got decode_child); [easy|]. intros. now apply child_got.
Qed.
Lemma metadata_got p m : valid_metadata p -> decode_metadata p = Ok m -> metadata_read p m.
Proof.
  intros (Et & _ & _ & _ & Hv) E. unfold decode_metadata in E. inv_bind E. got_tag. inv_bind E. inv_bind E. inv_bind E.
  injection E as <-. apply container_ids in E3 as [-> _]. split; [easy|]. split; [now apply attrs_got|]. cbn [md_metas].
  assert (Ek : find_kids (L "meta") p = p_kids p).
  { unfold find_kids. apply filter_tag_all. eapply Forall_impl; [|exact Hv]. now intros q [? _]. }
  rewrite Ek in E1. apply (traverse_got decode_meta); [easy|]. rewrite Forall_forall in Hv. intros. apply meta_got; auto.
Qed.
Lemma metadatas_got p ms rest n l : p_kids p = ms ++ rest -> Forall valid_metadata ms -> n <> L "metadata" -> Forall (called n) rest ->
  decode_metadatas p = Ok l -> Forall2 metadata_read ms l.
Proof.
  intros Ek Hv N Hn E. unfold decode_metadatas in E. inv_bind E. apply container_ids in E as [-> _].
  assert (Ef : find_kids (L "metadata") p = ms).
  { unfold find_kids. rewrite Ek. apply (filter_front _ n); auto. eapply Forall_impl; [|exact Hv]. now intros q [? _]. }
  rewrite Ef in E0. apply (traverse_got decode_metadata); [easy|]. rewrite Forall_forall in Hv. intros. apply metadata_got; auto.
Qed.
Lemma item_got p i : valid_item p -> decode_item p = Ok i -> item_read p i.
Proof.
  intros (Et & _) E. unfold decode_item in E. inv_bind E. got_tag. inv_bind E. injection E as <-.
  split; [easy|]. split; [now apply attrs_got|easy].
Qed.
Lemma tier_got p t : valid_tier p -> decode_tier p = Ok t -> tier_read p t.
Proof.
  intros (Et & _ & _ & _ & _ & ms & l & Ek & Hm & Hv) E. unfold decode_tier in E. inv_bind E. got_tag.
  inv_bind E. inv_bind E. inv_bind E. inv_bind E. injection E as <-. apply container_ids in E4 as [-> _].
  assert (Hn : Forall (called (L "item")) l) by (eapply Forall_impl; [|exact Hv]; now intros q [? _]).
  assert (Hn' : Forall (called (L "metadata")) ms) by (eapply Forall_impl; [|exact Hm]; now intros q [? _]).
  assert (Ef : find_kids (L "item") p = l) by (unfold find_kids; rewrite Ek; now apply (filter_front (L "metadata") (L "item"))).
  rewrite Ef in E2. split; [easy|]. split; [now apply attrs_got|]. exists ms, l. split; [easy|]. cbn. split.
  - apply (metadatas_got p ms l (L "item")); auto. discriminate.
  - apply (traverse_got decode_item); [easy|]. rewrite Forall_forall in Hv. intros. apply item_got; auto.
Qed.
Lemma igt_got p g : valid_igt p -> decode_igt p = Ok g -> igt_read p g.
Proof.
  intros (Et & _ & _ & _ & ms & l & Ek & Hm & Hv) E. unfold decode_igt in E. inv_bind E. got_tag.
  inv_bind E. inv_bind E. inv_bind E. inv_bind E. injection E as <-. apply container_ids in E4 as [-> _].
  assert (Hn : Forall (called (L "tier")) l) by (eapply Forall_impl; [|exact Hv]; now intros q [? _]).
  assert (Hn' : Forall (called (L "metadata")) ms) by (eapply Forall_impl; [|exact Hm]; now intros q [? _]).
  assert (Ef : find_kids (L "tier") p = l) by (unfold find_kids; rewrite Ek; now apply (filter_front (L "metadata") (L "tier"))).
  rewrite Ef in E2. split; [easy|]. split; [now apply attrs_got|]. exists ms, l. split; [easy|]. cbn. split.
  - apply (metadatas_got p ms l (L "tier")); auto. discriminate.
  - apply (traverse_got decode_tier); [easy|]. rewrite Forall_forall in Hv. intros. apply tier_got; auto.
Qed.
Lemma corpus_got p gs c : valid_corpus p -> find_kids (L "igt") p = gs -> decode_xigtcorpus p gs = Ok c -> corpus_read p c.
Proof.
  intros (Et & _ & _ & _ & ms & l & Ek & Hm & Hv) Eg E. unfold decode_xigtcorpus in E. inv_bind E. got_tag.
  inv_bind E. inv_bind E. inv_bind E. inv_bind E. injection E as <-. apply container_ids in E4 as [-> _].
  assert (Hn : Forall (called (L "igt")) l) by (eapply Forall_impl; [|exact Hv]; now intros q [? _]).
  assert (Hn' : Forall (called (L "metadata")) ms) by (eapply Forall_impl; [|exact Hm]; now intros q [? _]).
  assert (Ef : find_kids (L "igt") p = l) by (unfold find_kids; rewrite Ek; now apply (filter_front (L "metadata") (L "igt"))).
  rewrite <- Eg, Ef in E3. apply decode_attrs_inv in E2 as [-> _]. do 5 (split; [easy|]). split.
  - intros k. cbn [c_attrs a_dict]. rewrite dget_ignoring. cbn [existsb]. now rewrite orb_false_r.
  - exists ms, l. split; [easy|]. cbn. split.
    + apply (metadatas_got p ms l (L "igt")); auto. discriminate.
    + apply (traverse_got decode_igt); [easy|]. rewrite Forall_forall in Hv. intros. apply igt_got; auto.
Qed.

(* ---------- writing ---------- *)

Definition p_is (t : xtree) (p : pelem) : Prop :=
  let 'XT tag a text kids := t in p_tag p = full_tag (a_ns a) tag /\ p_attrib p = shown_attrs a /\ Forall2 mirrors kids (p_kids p)
  /\ layout (p_tail p) /\ shown_text (match kids with [] => true | _ => false end) text (p_text p).
Lemma mirrors_is t p : mirrors t p -> p_is t p.
Proof. now inversion_clear 1. Qed.
Lemma layout_space t : layout t -> xml_space t.
Proof. intros H s c E Hc. destruct (H s c E Hc) as [->| ->]; cbn; auto. Qed.
Lemma space_blank t : xml_space t -> blank_text t.
Proof. intros H s c E Hc. destruct (H s c E Hc) as [<-|[<-|[<-|[<-|[]]]]]; reflexivity. Qed.
Lemma tails_space kids ps : Forall2 mirrors kids ps -> Forall (fun k => xml_space (p_tail k)) ps.
Proof. induction 1 as [|t p kids ps H _ IH]; constructor; [|easy]. inversion_clear H. now apply layout_space. Qed.
Lemma no_text_space leaf t : shown_text leaf None t -> xml_space t.
Proof.
  destruct leaf; cbn; [intros ->; intros ? ? [=]|]. intros [H _]. destruct H as [->|H]; [intros ? ? [=]..| |]; [intros ? ? [=]|now apply layout_space].
Qed.
Lemma is_elements tag a kids p : p_is (XT tag a None kids) p -> only_elements p.
Proof. intros (_ & _ & HF & _ & Ht). split; [now apply no_text_space in Ht|now apply (tails_space kids)]. Qed.
Lemma F2_out {A} (tr : A -> xtree) (P : A -> Prop) (Q : pelem -> Prop) l ps : Forall2 mirrors (map tr l) ps ->
  (forall x p, P x -> mirrors (tr x) p -> Q p) -> Forall P l -> Forall Q ps.
Proof.
  revert ps. induction l as [|x l IH]; cbn; intros ps HF H HP; inversion HF; subst; constructor; inversion_clear HP; eauto.
Qed.
Lemma F2_in {A} (tr : A -> xtree) (P : A -> Prop) (Q : pelem -> Prop) l ps : Forall2 mirrors (map tr l) ps ->
  (forall x p, Q p -> mirrors (tr x) p -> P x) -> Forall Q ps -> Forall P l.
Proof.
  revert ps. induction l as [|x l IH]; cbn; intros ps HF H HQ; inversion HF; subst; constructor; inversion_clear HQ; eauto.
Qed.

Lemma meta_written m p : admitted_meta xml_space m -> mirrors (meta_tree m) p -> valid_meta p.
Proof.
  intros (Hf & Hi & Hr & Ht) H. apply mirrors_is in H as (Et & Ed & HF & _ & Hx). rewrite Hf in Et.
  unfold valid_meta. rewrite Ed. repeat (split; [easy|]). destruct (me_kids m) as [|k ks] eqn:Ek; cbn in HF; [left; now inversion HF|].
  destruct Ht as [Ht|Ht]; [discriminate|]. right. split; [|now apply (tails_space (map child_tree (k :: ks)))].
  cbn in Hx. destruct Hx as [Hx _]. destruct Hx as [->|Hx]; [now apply space_blank| |now apply layout_space].
  destruct (me_text m) as [[|]|]; easy.
Qed.
Lemma metadata_written m p : admitted_metadata xml_space m -> mirrors (metadata_tree m) p -> valid_metadata p.
Proof.
  intros (Hf & Hi & Hr & Hk) H. apply mirrors_is in H. pose proof (is_elements _ _ _ _ H) as He. destruct H as (Et & Ed & HF & _). rewrite Hf in Et.
  unfold valid_metadata. rewrite Ed. repeat (split; [easy|]). revert Hk. apply (F2_out meta_tree); [easy|]. exact meta_written.
Qed.
Lemma item_written i p : admitted_item i -> mirrors (item_tree i) p -> valid_item p.
Proof.
  intros (Hf & Hi & Hr) H. apply mirrors_is in H as (Et & Ed & HF & _). rewrite Hf in Et.
  unfold valid_item. rewrite Ed. repeat (split; [easy|]). now inversion HF.
Qed.
Lemma tier_written t p : admitted_tier xml_space t -> mirrors (tier_tree t) p -> valid_tier p.
Proof.
  intros (Hf & Hi & Hty & Hr & Hm & Hk) H. apply mirrors_is in H. pose proof (is_elements _ _ _ _ H) as He. destruct H as (Et & Ed & HF & _). rewrite Hf in Et.
  unfold valid_tier. rewrite Ed. repeat (split; [easy|]). apply Forall2_app_inv_l in HF as (ps1 & ps2 & HF1 & HF2 & E). exists ps1, ps2. split; [easy|]. split.
  - revert Hm. apply (F2_out metadata_tree); [easy|]. exact metadata_written.
  - revert Hk. apply (F2_out item_tree); [easy|]. exact item_written.
Qed.
Lemma igt_written g p : admitted_igt xml_space g -> mirrors (igt_tree g) p -> valid_igt p.
Proof.
  intros (Hf & Hi & Hr & Hm & Hk) H. apply mirrors_is in H. pose proof (is_elements _ _ _ _ H) as He. destruct H as (Et & Ed & HF & _). rewrite Hf in Et.
  unfold valid_igt. rewrite Ed. repeat (split; [easy|]). apply Forall2_app_inv_l in HF as (ps1 & ps2 & HF1 & HF2 & E). exists ps1, ps2. split; [easy|]. split.
  - revert Hm. apply (F2_out metadata_tree); [easy|]. exact metadata_written.
  - revert Hk. apply (F2_out tier_tree); [easy|]. exact tier_written.
Qed.
Lemma corpus_written c p : admitted xml_space c -> mirrors (corpus_tree c) p -> valid_corpus p.
Proof.
  intros (Hf & Hi & Hr & Hm & Hk) H. apply mirrors_is in H. pose proof (is_elements _ _ _ _ H) as He. destruct H as (Et & Ed & HF & _). rewrite Hf in Et.
  unfold valid_corpus. rewrite Ed. repeat (split; [easy|]). apply Forall2_app_inv_l in HF as (ps1 & ps2 & HF1 & HF2 & E). exists ps1, ps2. split; [easy|]. split.
  - revert Hm. apply (F2_out metadata_tree); [easy|]. exact metadata_written.
  - revert Hk. apply (F2_out igt_tree); [easy|]. exact igt_written.
Qed.
Theorem written c indent : tree_ok [] (corpus_tree c) -> admitted xml_space c ->
  exists e, xml_dump c indent = Ok e /\ schema_valid e.
Proof.
  intros Ht Ha. destruct (dump_mirrors c indent Ht) as (e & p & E & Er & Hm). exists e. split; [easy|]. exists p. split; [easy|].
  now apply (corpus_written c).
Qed.

(* the converse *)
Lemma full_free a tag tag' : full_tag (a_ns a) tag = tag' -> hd 0%N tag' <> Ch "{" -> free a.
Proof. unfold free, full_tag. destruct (a_ns a) as [u|]; [|easy]. intros <- H. now destruct H. Qed.
Ltac freed Et := apply full_free in Et; [|discriminate].
Lemma meta_admitted m p : valid_meta p -> mirrors (meta_tree m) p -> admitted_meta blank_text m.
Proof.
  intros (Et' & Hi & Hr & Ht) H. apply mirrors_is in H as (Et & Ed & HF & _ & Hx). rewrite Et' in Et. symmetry in Et. freed Et.
  rewrite Ed in *. repeat (split; [easy|]). destruct (me_kids m) as [|k ks] eqn:Ek; [now left|]. right.
  cbn in HF. destruct Ht as [Ht|[Ht _]]; [rewrite Ht in HF; inversion HF|]. cbn in Hx. destruct Hx as [_ Hx].
  destruct (blank (me_text m)) eqn:B; [now apply blank_spec|]. apply blank_not in B. rewrite Hx in Ht by easy. destruct B. now apply space_blank.
Qed.
Lemma metadata_admitted m p : valid_metadata p -> mirrors (metadata_tree m) p -> admitted_metadata blank_text m.
Proof.
  intros (Et' & Hi & Hr & _ & Hk) H. apply mirrors_is in H as (Et & Ed & HF & _). rewrite Et' in Et. symmetry in Et. freed Et.
  rewrite Ed in *. repeat (split; [easy|]). revert Hk. apply (F2_in meta_tree); [easy|]. exact meta_admitted.
Qed.
Lemma item_admitted i p : valid_item p -> mirrors (item_tree i) p -> admitted_item i.
Proof.
  intros (Et' & Hi & Hr & _) H. apply mirrors_is in H as (Et & Ed & HF & _). rewrite Et' in Et. symmetry in Et. freed Et.
  rewrite Ed in *. now repeat (split; [easy|]).
Qed.
(* metadata and the rest are told apart by their names *)
Lemma front_unique (P P' Q Q' : pelem -> Prop) n n' l1 l2 r1 r2 : n <> n' ->
  (forall p, P p -> p_tag p = n) -> (forall p, Q p -> p_tag p = n') -> Forall P l1 -> Forall Q l2 ->
  (forall p, In p r1 -> p_tag p <> n') -> (forall p, In p r2 -> p_tag p <> n) -> l1 ++ l2 = r1 ++ r2 -> l1 = r1 /\ l2 = r2.
Proof.
  intros N HP HQ H1 H2 G1 G2. revert r1 G1. induction H1 as [|x l1 Hx H1 IH]; intros r1 G1 E; cbn in E.
  - destruct r1 as [|y r1]; [easy|]. subst l2. cbn in H2. inversion_clear H2. destruct (G1 y); [now left|]. auto.
  - destruct r1 as [|y r1]; cbn in E.
    + subst r2. destruct (G2 x); [now left|]. auto.
    + injection E as <- E. destruct (IH r1) as [-> ->]; auto. intros p Hp. apply G1. now right.
Qed.
Lemma full_last a tag tag' : full_tag (a_ns a) tag = tag' -> hd 0%N tag' <> Ch "{" -> tag = tag'.
Proof. unfold full_tag. destruct (a_ns a) as [u|]; [|easy]. intros <- H. now destruct H. Qed.
Lemma tags_not {A} (tr : A -> xtree) tag tag' l ps : (forall x, exists a t k, tr x = XT tag a t k) -> tag <> tag' -> hd 0%N tag' <> Ch "{" ->
  Forall2 mirrors (map tr l) ps -> forall p, In p ps -> p_tag p <> tag'.
Proof.
  intros Htr N Hd. revert ps. induction l as [|x l IH]; cbn; intros ps HF; inversion HF as [|? q ? ps' Hq HF']; subst; [easy|].
  intros p [<-|Hp]; [|now apply (IH ps')]. destruct (Htr x) as (a & t & k & E). rewrite E in Hq. apply mirrors_is in Hq as (Et & _).
  intros Et'. rewrite Et' in Et. symmetry in Et. apply full_last in Et; auto.
Qed.
Lemma tier_admitted t p : valid_tier p -> mirrors (tier_tree t) p -> admitted_tier blank_text t.
Proof.
  intros (Et' & Hi & Hty & Hr & _ & ms & l & Ek & Hm & Hk) H. apply mirrors_is in H as (Et & Ed & HF & _). rewrite Et' in Et. symmetry in Et. freed Et.
  rewrite Ed in *. repeat (split; [easy|]). apply Forall2_app_inv_l in HF as (ps1 & ps2 & HF1 & HF2 & E).
  destruct (front_unique valid_metadata (fun _ => True) valid_item (fun _ => True) (L "metadata") (L "item") ms l ps1 ps2) as [-> ->]; auto.
  - discriminate.
  - now intros q [? _].
  - now intros q [? _].
  - apply (tags_not metadata_tree (L "metadata") _ (t_md t)); [intros x; do 3 eexists; reflexivity|discriminate|discriminate|easy].
  - apply (tags_not item_tree (L "item") _ (t_items t)); [intros x; do 3 eexists; reflexivity|discriminate|discriminate|easy].
  - now rewrite <- Ek.
  - split.
    + revert Hm. apply (F2_in metadata_tree); [easy|]. exact metadata_admitted.
    + revert Hk. apply (F2_in item_tree); [easy|]. exact item_admitted.
Qed.
Lemma igt_admitted g p : valid_igt p -> mirrors (igt_tree g) p -> admitted_igt blank_text g.
Proof.
  intros (Et' & Hi & Hr & _ & ms & l & Ek & Hm & Hk) H. apply mirrors_is in H as (Et & Ed & HF & _). rewrite Et' in Et. symmetry in Et. freed Et.
  rewrite Ed in *. repeat (split; [easy|]). apply Forall2_app_inv_l in HF as (ps1 & ps2 & HF1 & HF2 & E).
  destruct (front_unique valid_metadata (fun _ => True) valid_tier (fun _ => True) (L "metadata") (L "tier") ms l ps1 ps2) as [-> ->]; auto.
  - discriminate.
  - now intros q [? _].
  - now intros q [? _].
  - apply (tags_not metadata_tree (L "metadata") _ (g_md g)); [intros x; do 3 eexists; reflexivity|discriminate|discriminate|easy].
  - apply (tags_not tier_tree (L "tier") _ (g_tiers g)); [intros x; do 3 eexists; reflexivity|discriminate|discriminate|easy].
  - now rewrite <- Ek.
  - split.
    + revert Hm. apply (F2_in metadata_tree); [easy|]. exact metadata_admitted.
    + revert Hk. apply (F2_in tier_tree); [easy|]. exact tier_admitted.
Qed.
Lemma corpus_admitted c p : valid_corpus p -> mirrors (corpus_tree c) p -> admitted blank_text c.
Proof.
  intros (Et' & Hi & Hr & _ & ms & l & Ek & Hm & Hk) H. apply mirrors_is in H as (Et & Ed & HF & _). rewrite Et' in Et. symmetry in Et. freed Et.
  rewrite Ed in *. repeat (split; [easy|]). apply Forall2_app_inv_l in HF as (ps1 & ps2 & HF1 & HF2 & E).
  destruct (front_unique valid_metadata (fun _ => True) valid_igt (fun _ => True) (L "metadata") (L "igt") ms l ps1 ps2) as [-> ->]; auto.
  - discriminate.
  - now intros q [? _].
  - now intros q [? _].
  - apply (tags_not metadata_tree (L "metadata") _ (c_md c)); [intros x; do 3 eexists; reflexivity|discriminate|discriminate|easy].
  - apply (tags_not igt_tree (L "igt") _ (c_igts c)); [intros x; do 3 eexists; reflexivity|discriminate|discriminate|easy].
  - now rewrite <- Ek.
  - split.
    + revert Hm. apply (F2_in metadata_tree); [easy|]. exact metadata_admitted.
    + revert Hk. apply (F2_in igt_tree); [easy|]. exact igt_admitted.
Qed.
Theorem written_only c indent e : tree_ok [] (corpus_tree c) -> xml_dump c indent = Ok e -> schema_valid e -> admitted blank_text c.
Proof.
  intros Ht E (p & Er & Hv). destruct (dump_mirrors c indent Ht) as (e' & p' & E' & Er' & Hm). assert (e' = e) by congruence. subst e'.
  assert (p' = p) by congruence. subst p'. now apply (corpus_admitted c p).
Qed.

(* ---------- what was valid stays valid ---------- *)

Lemma dget_optional k k' v : dget (optional k v) k' = if str_eqb k' k then v else None.
Proof. destruct v; unfold dget; cbn; destruct (str_eqb k' k); auto. Qed.
Lemma dget_app (d d' : dict str) k : dget (d ++ d') k = match dget d k with Some v => Some v | None => dget d' k end.
Proof. unfold dget. induction d as [|[k' v] d IH]; cbn [app dget_]; [easy|]. now destruct (str_eqb k k'). Qed.
Lemma shown_read p a : attrs_read p a -> forall k, dget (shown_attrs a) k = dget (p_attrib p) k.
Proof.
  intros (Ei & Et & _ & _ & Ed) k. unfold shown_attrs. rewrite !dget_app, !dget_optional, Ed, Ei, Et.
  destruct (str_eqb_spec k ID) as [->|N]; cbn [orb].
  - change (str_eqb ID TYPE) with false. cbn iota. now destruct (dget (p_attrib p) ID).
  - destruct (str_eqb_spec k TYPE) as [->|N']; [now destruct (dget (p_attrib p) TYPE)|easy].
Qed.
Lemma has_id_ext d d' : (forall k, dget d' k = dget d k) -> has_id d -> has_id d'.
Proof. intros E (i & Hi & H). exists i. now rewrite E. Qed.
Lemma may_have_id_ext d d' : (forall k, dget d' k = dget d k) -> may_have_id d -> may_have_id d'.
Proof. intros E H i. rewrite E. apply H. Qed.
Lemma ref_attrs_ext d d' : (forall k, dget d' k = dget d k) -> ref_attrs d -> ref_attrs d'.
Proof. intros E [H G]. split; [|now rewrite !E]. intros k v. rewrite E. apply H. Qed.
Lemma no_refs_ext d d' : (forall k, dget d' k = dget d k) -> no_refs d -> no_refs d'.
Proof. intros E H k. rewrite E. apply H. Qed.
Lemma read_free p a : attrs_read p a -> free a.
Proof. now intros (_ & _ & H & _). Qed.
Lemma F2_carry {A B} (R : A -> B -> Prop) (P : A -> Prop) (Q : B -> Prop) l l' : Forall2 R l l' -> (forall x y, P x -> R x y -> Q y) -> Forall P l -> Forall Q l'.
Proof. induction 1; intros HH HP; inversion_clear HP; constructor; eauto. Qed.
Lemma nonblank_space t : blank_text t -> xml_space (nonblank t).
Proof. intros H. rewrite nonblank_blank by easy. intros ? ? [=]. Qed.

Lemma meta_stays p m : valid_meta p -> meta_read p m -> admitted_meta xml_space m.
Proof.
  intros (_ & Hi & Hr & Ht) (_ & Ha & Et & HF). pose proof (shown_read _ _ Ha) as Es. split; [now apply (read_free p)|].
  split; [now apply (may_have_id_ext (p_attrib p))|]. split; [now apply (no_refs_ext (p_attrib p))|].
  destruct Ht as [Ht|[Ht _]]; [left; rewrite Ht in HF; now inversion HF|]. right. rewrite Et. apply nonblank_space. now apply space_blank.
Qed.
Lemma metadata_stays p m : valid_metadata p -> metadata_read p m -> admitted_metadata xml_space m.
Proof.
  intros (_ & Hi & Hr & _ & Hk) (_ & Ha & HF). pose proof (shown_read _ _ Ha) as Es. split; [now apply (read_free p)|].
  split; [now apply (may_have_id_ext (p_attrib p))|]. split; [now apply (no_refs_ext (p_attrib p))|].
  revert Hk. apply (F2_carry meta_read); [easy|]. exact meta_stays.
Qed.
Lemma item_stays p i : valid_item p -> item_read p i -> admitted_item i.
Proof.
  intros (_ & Hi & Hr & _) (_ & Ha & _). pose proof (shown_read _ _ Ha) as Es. split; [now apply (read_free p)|].
  split; [now apply (has_id_ext (p_attrib p))|now apply (ref_attrs_ext (p_attrib p))].
Qed.
Lemma kinds_apart (R R' : pelem -> Prop) n n' ms l ms' l' : n <> n' -> (forall p, R p -> p_tag p = n) -> (forall p, R' p -> p_tag p = n') ->
  Forall R ms -> Forall R' l -> ms ++ l = ms' ++ l' -> (forall p, In p ms' -> p_tag p = n) -> (forall p, In p l' -> p_tag p = n') -> ms = ms' /\ l = l'.
Proof.
  intros N HR HR' H1 H2 E G G'. apply (front_unique R R R' R' n n' ms l ms' l'); auto.
  - intros p Hp. rewrite (G p Hp). auto.
  - intros p Hp. rewrite (G' p Hp). auto.
Qed.
Lemma F2_tags {B} (R : pelem -> B -> Prop) n l l' : Forall2 R l l' -> (forall p y, R p y -> p_tag p = n) -> forall p, In p l -> p_tag p = n.
Proof. induction 1 as [|x y l l' H _ IH]; intros HR p Hp; [easy|destruct Hp as [<-|Hp]; eauto]. Qed.
Ltac apart VA VB RA RB n n' F1 F2 ms l ms' l' :=
  destruct (kinds_apart VA VB n n' ms l ms' l') as [-> ->];
  [discriminate|now intros ? [? _]|now intros ? [? _]|assumption|assumption|congruence
  |apply (F2_tags RA n ms' _ F1); now intros ? ? [? _]|apply (F2_tags RB n' l' _ F2); now intros ? ? [? _]|].
Lemma tier_stays p t : valid_tier p -> tier_read p t -> admitted_tier xml_space t.
Proof.
  intros (_ & Hi & Hty & Hr & _ & ms & l & Ek & Hm & Hk) (_ & Ha & ms' & l' & Ek' & F1 & F2). pose proof (shown_read _ _ Ha) as Es.
  apart valid_metadata valid_item metadata_read item_read (L "metadata") (L "item") F1 F2 ms l ms' l'.
  split; [now apply (read_free p)|]. split; [now apply (has_id_ext (p_attrib p))|]. split; [now rewrite Es|].
  split; [now apply (ref_attrs_ext (p_attrib p))|]. split.
  - revert Hm. apply (F2_carry metadata_read); [easy|]. exact metadata_stays.
  - revert Hk. apply (F2_carry item_read); [easy|]. exact item_stays.
Qed.
Lemma igt_stays p g : valid_igt p -> igt_read p g -> admitted_igt xml_space g.
Proof.
  intros (_ & Hi & Hr & _ & ms & l & Ek & Hm & Hk) (_ & Ha & ms' & l' & Ek' & F1 & F2). pose proof (shown_read _ _ Ha) as Es.
  apart valid_metadata valid_tier metadata_read tier_read (L "metadata") (L "tier") F1 F2 ms l ms' l'.
  split; [now apply (read_free p)|]. split; [now apply (has_id_ext (p_attrib p))|].
  split; [now apply (no_refs_ext (p_attrib p))|]. split.
  - revert Hm. apply (F2_carry metadata_read); [easy|]. exact metadata_stays.
  - revert Hk. apply (F2_carry tier_read); [easy|]. exact tier_stays.
Qed.
Lemma dget_key (d : dict str) k : In k (map fst d) <-> dget d k <> None.
Proof.
  unfold dget. induction d as [|[k' v] d IH]; cbn; [easy|]. destruct (str_eqb_spec k k') as [->|N].
  - split; [easy|]. now left.
  - rewrite <- IH. split; [intros [->|H]; easy|now right].
Qed.
Lemma corpus_stays p c : valid_corpus p -> corpus_read p c -> admitted xml_space c.
Proof.
  intros (_ & Hi & Hr & _ & ms & l & Ek & Hm & Hk) (_ & Ei & Ety & En & _ & Ed & ms' & l' & Ek' & F1 & F2).
  assert (Es : forall k, dget (shown_attrs (c_attrs c)) k = dget (p_attrib p) k).
  { intros k. unfold shown_attrs. rewrite !dget_app, !dget_optional, Ed, Ei, Ety.
    destruct (str_eqb_spec k ID) as [->|N]; [now destruct (dget (p_attrib p) ID)|]. now destruct (str_eqb k TYPE). }
  apart valid_metadata valid_igt metadata_read igt_read (L "metadata") (L "igt") F1 F2 ms l ms' l'.
  split; [easy|]. split; [now apply (may_have_id_ext (p_attrib p))|].
  split; [intros k Hin; apply Hr; apply dget_key; rewrite <- Es; now apply dget_key|]. split.
  - revert Hm. apply (F2_carry metadata_read); [easy|]. exact metadata_stays.
  - revert Hk. apply (F2_carry igt_read); [easy|]. exact igt_stays.
Qed.

(* below the metas of a tidy document nothing is taken for an igt *)
Lemma good_meta m0 p : good m0 p -> live_above p -> valid_meta p -> quiet p.
Proof.
  intros H Hl (Et & _). apply quiet_intro; [rewrite Et; discriminate..|]. inversion H; subst; [cbn in *; auto|inversion Hl].
Qed.
Lemma good_metadata m0 p : good m0 p -> live_above p -> valid_metadata p -> quiet p.
Proof.
  intros H Hl (Et & _ & _ & _ & Hv). apply quiet_intro; [rewrite Et; discriminate..|]. destruct (live_map _ Hl) as (m & Em).
  rewrite Forall_forall in *. intros q Hq. apply (good_meta m); auto; [now apply (good_kid m0 p m)|now apply (live_kid p)].
Qed.
Lemma good_tier m0 p : good m0 p -> live_above p -> valid_tier p -> quiet p.
Proof.
  intros H Hl (Et & _ & _ & _ & _ & ms & l & Ek & Hm & Hv). apply quiet_intro; [rewrite Et; discriminate..|]. destruct (live_map _ Hl) as (m & Em).
  rewrite Ek, Forall_app, !Forall_forall in *. split; intros q Hq; assert (Hq' : In q (p_kids p)) by (rewrite Ek; apply in_or_app; auto).
  - apply (good_metadata m); auto; [now apply (good_kid m0 p m)|now apply (live_kid p)].
  - now apply item_calm, Hv.
Qed.
Lemma good_igt m0 p : good m0 p -> live_above p -> valid_igt p -> p_tag p = L "igt" /\ Forall quiet (p_kids p).
Proof.
  intros H Hl (Et & _ & _ & _ & ms & l & Ek & Hm & Hv). split; [easy|]. destruct (live_map _ Hl) as (m & Em).
  rewrite Ek, Forall_app, !Forall_forall in *. split; intros q Hq; assert (Hq' : In q (p_kids p)) by (rewrite Ek; apply in_or_app; auto).
  - apply (good_metadata m); auto; [now apply (good_kid m0 p m)|now apply (live_kid p)].
  - apply (good_tier m); auto; [now apply (good_kid m0 p m)|now apply (live_kid p)].
Qed.
Lemma valid_decode m0 p ahead c : good m0 p -> live_above p -> valid_corpus p -> decode ahead p = Ok c -> corpus_read p c.
Proof.
  intros Hg Hl Hv E. pose proof Hv as (Et & _ & _ & _ & ms & l & Ek & Hm & Hi). destruct (live_map _ Hl) as (m & Em).
  assert (Hn : Forall (called (L "igt")) l) by (eapply Forall_impl; [|exact Hi]; now intros q [? _]).
  assert (Hn' : Forall (called (L "metadata")) ms) by (eapply Forall_impl; [|exact Hm]; now intros q [? _]).
  apply (corpus_got p l c Hv).
  - unfold find_kids. rewrite Ek. now apply (filter_front (L "metadata") (L "igt")).
  - rewrite <- E. symmetry. assert (Hin : forall q, In q ms \/ In q l -> good m q /\ live_above q).
    { intros q Hq. assert (Hq' : In q (p_kids p)) by (rewrite Ek; apply in_or_app; auto). split; [now apply (good_kid m0 p m)|now apply (live_kid p)]. }
    apply (decode_igts ahead p ms l); auto; rewrite Forall_forall in *; intros q Hq.
    + destruct (Hin q) as [? ?]; [auto|]. apply (good_metadata m); auto.
    + destruct (Hin q) as [? ?]; [auto|]. apply (good_igt m); auto.
Qed.
Lemma tidy_good e p : tidy_document e -> reread [] e = Ok p -> good [] p.
Proof.
  intros [Ht _] E. apply (reread_good e); auto. split; [split; [constructor|easy]|easy].
Qed.
Lemma loaded_read ahead e p c : tidy_document e -> reread [] e = Ok p -> valid_corpus p -> xml_load ahead e = Ok c -> corpus_read p c.
Proof.
  intros Ht E Hv El. unfold xml_load in El. rewrite E in El. apply (valid_decode [] p ahead); auto; [now apply (tidy_good e)|now apply (reread_live e [])].
Qed.
Theorem stays_valid ahead e c indent : tidy_document e -> schema_valid e -> xml_load ahead e = Ok c ->
  exists e', xml_dump c indent = Ok e' /\ schema_valid e'.
Proof.
  intros Ht (p & E & Hv) El. pose proof (loaded_read ahead e p c Ht E Hv El) as Hr. destruct (load_good ahead e c Ht El) as ((Htr & _) & _ & _).
  apply written; [apply Htr|]. now apply (corpus_stays p).
Qed.

(* ---------- alignment expressions ---------- *)

Lemma digits_spec s : matches digits_pattern s <-> digits s.
Proof. apply m_plus. Qed.
Lemma sep_spec s : matches sep_pattern s <-> sep s.
Proof.
  unfold sep_pattern, sep. split.
  - intros H. apply m_chr in H as (c & -> & E). apply orb_prop in E as [E|E]; apply N.eqb_eq in E as ->; [now left|now right].
  - intros [->| ->]; now constructor.
Qed.
Lemma span_spec s : matches span_pattern s <-> exists sp, plain_span sp /\ sp_delim sp = [] /\ s = show_span sp.
Proof.
  unfold span_pattern. split.
  - intros H. apply m_seq in H as (a & r & -> & Ha & Hr). apply m_seq in Hr as (x & b & -> & Hx & Hb). apply m_lit in Hx as ->.
    exists {| sp_delim := []; sp_start := a; sp_end := b |}. split; [split; now apply digits_spec|]. now split.
  - intros (sp & [Ha Hb] & Hd & ->). unfold show_span. rewrite Hd. cbn [app]. constructor; [now apply digits_spec|].
    constructor; [now apply m_lit|now apply digits_spec].
Qed.
Lemma more_spans s : matches (PStar (PSeq sep_pattern span_pattern)) s <->
  exists l, Forall plain_span l /\ Forall (fun x => sep (sp_delim x)) l /\ s = show_range l.
Proof.
  split.
  - intros H. apply m_star in H as (l & -> & Hl). induction Hl as [|x l H _ IH]; [exists []; repeat split; constructor|].
    destruct IH as (l' & H1 & H2 & E). apply m_seq in H as (d & t & -> & Hd & Ht). apply span_spec in Ht as (sp & [Ha Hb] & Hs & ->).
    exists ({| sp_delim := d; sp_start := sp_start sp; sp_end := sp_end sp |} :: l'). split; [now constructor|]. split; [constructor; [now apply sep_spec|easy]|].
    cbn [List.concat]. rewrite E. unfold show_span. rewrite Hs. cbn [app]. unfold show_range. cbn [flat_map]. unfold show_span. cbn. now rewrite <- !app_assoc.
  - intros (l & H1 & H2 & ->). unfold show_range. rewrite flat_map_concat_map. apply star_m. apply Forall_forall. intros x Hx.
    apply in_map_iff in Hx as (sp & <- & Hin). rewrite Forall_forall in H1, H2. unfold show_span. constructor; [now apply sep_spec, H2|].
    apply span_spec. exists {| sp_delim := []; sp_start := sp_start sp; sp_end := sp_end sp |}. split; [exact (H1 _ Hin)|now split].
Qed.
Lemma range_spec s : matches range_pattern s <->
  exists l, l <> [] /\ after sp_delim l /\ Forall plain_span l /\ s = L "[" ++ show_range l ++ L "]".
Proof.
  unfold range_pattern. split.
  - intros H. apply m_seq in H as (a & r & -> & Ha & Hr). apply m_lit in Ha as ->. apply m_seq in Hr as (x & r' & -> & Hx & Hr').
    apply m_seq in Hr' as (y & b & -> & Hy & Hb). apply m_lit in Hb as ->. apply span_spec in Hx as (sp & Hp & Hd & ->). apply more_spans in Hy as (l & H1 & H2 & ->).
    exists (sp :: l). split; [easy|]. split; [now split|]. split; [now constructor|]. unfold show_range. cbn [flat_map]. now rewrite <- !app_assoc.
  - intros (l & Hn & Hd & Hl & ->). destruct Hl as [|sp l Hp Hl]; [easy|]. destruct Hd as [Hd Hd']. constructor; [now apply m_lit|].
    unfold show_range. cbn [flat_map]. rewrite <- app_assoc. constructor; [apply span_spec; now exists sp|]. constructor; [|now apply m_lit].
    apply more_spans. now exists l.
Qed.
Lemma selection_spec s : matches selection_pattern s <-> exists x, plain_sel (matches id_pattern) x /\ sl_delim x = [] /\ s = show_sel x.
Proof.
  unfold selection_pattern. split.
  - intros H. apply m_seq in H as (i & r & -> & Hi & Hr). apply m_opt in Hr as [->|Hr].
    + exists {| sl_delim := []; sl_id := i; sl_spans := [] |}. split; [split; [easy|split; [exact I|constructor]]|now split].
    + apply range_spec in Hr as (l & Hn & Hd & Hl & ->). exists {| sl_delim := []; sl_id := i; sl_spans := l |}. split; [easy|]. split; [easy|].
      unfold show_sel. cbn [sl_id sl_spans]. now destruct l.
  - intros (x & (Hi & Hd & Hl) & _ & ->). unfold show_sel. constructor; [easy|]. destruct (sl_spans x) as [|sp l] eqn:E; [constructor|].
    constructor. apply range_spec. exists (sp :: l). repeat (split; [easy|]). easy.
Qed.
Lemma more_selections s : matches (PStar (PSeq sep_pattern selection_pattern)) s <->
  exists l, Forall (plain_sel (matches id_pattern)) l /\ Forall (fun x => sep (sl_delim x)) l /\ s = show l.
Proof.
  split.
  - intros H. apply m_star in H as (l & -> & Hl). induction Hl as [|x l H _ IH]; [exists []; repeat split; constructor|].
    destruct IH as (l' & H1 & H2 & E). apply m_seq in H as (d & t & -> & Hd & Ht). apply selection_spec in Ht as (y & Hy & _ & ->).
    exists ({| sl_delim := d; sl_id := sl_id y; sl_spans := sl_spans y |} :: l'). split; [now constructor|]. split; [constructor; [now apply sep_spec|easy]|].
    cbn [List.concat]. rewrite E. unfold show. cbn [flat_map sl_delim]. reflexivity.
  - intros (l & H1 & H2 & ->). unfold show. rewrite flat_map_concat_map. apply star_m. apply Forall_forall. intros x Hx.
    apply in_map_iff in Hx as (y & <- & Hin). rewrite Forall_forall in H1, H2. constructor; [now apply sep_spec, H2|].
    apply selection_spec. exists {| sl_delim := []; sl_id := sl_id y; sl_spans := sl_spans y |}. split; [exact (H1 _ Hin)|now split].
Qed.
Theorem algnexpr_spec s : matches algnexpr_pattern s <-> exists e, plain_expr (matches id_pattern) e /\ s = show e.
Proof.
  unfold algnexpr_pattern. split.
  - intros H. apply m_seq in H as (a & b & -> & Ha & Hb). apply selection_spec in Ha as (x & Hx & Hd & ->). apply more_selections in Hb as (l & H1 & H2 & ->).
    exists (x :: l). split; [split; [easy|]; split; [now split|now constructor]|]. unfold show. cbn [flat_map]. now rewrite Hd.
  - intros (e & (Hn & Hd & He) & ->). destruct He as [|x l Hx Hl]; [easy|]. destruct Hd as [Hd Hd']. unfold show. cbn [flat_map]. rewrite Hd. cbn [app].
    constructor; [apply selection_spec; now exists x|]. apply more_selections. now exists l.
Qed.
End SchemaProofs.
