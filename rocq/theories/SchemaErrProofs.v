(* Proofs about the schema: which valid documents cannot be read, and how that fails. *)
From Verif Require Import PyStr PyStrFacts Ref SpecRef Model SpecModel XmlStd Xml SpecXml SpecReload Schema SpecSchema.
From Verif Require Import LoadProofs XmlProofs ReloadProofs SchemaProofs.
Require Import Lia.

Lemma traverse_in {A B} (f : A -> res B) l ys : traverse f l = Ok ys -> forall x, In x l -> exists y, f x = Ok y.
Proof.
  revert ys. induction l as [|a l IH]; cbn; intros ys E x Hx; [easy|]. destruct (f a) as [y|] eqn:Ea; [|easy]. cbn [bind] in E.
  destruct (traverse f l) as [zs|] eqn:El; [|easy]. destruct Hx as [<-|Hx]; [eauto|]. now apply (IH zs).
Qed.
Section SchemaErr.
Context {U : Unicode} {X : XsdWord}.

Lemma readable_iff p : readable_kids p <-> ids_apart p /\ names_read p.
Proof.
  split.
  - intros H. split.
    + intros q n Hb. revert H n. induction Hb as [p|p k q Hm Hk Hb IH]; intros H n Hq Hn.
      * inversion H; subst; [easy|]. destruct Hn as [<-|[<-|[<-|[<-|[<-|[]]]]]]; easy.
      * apply IH; auto. inversion H; subst; [easy|]. rewrite Forall_forall in *. auto.
    + intros q k Hb. revert H k. induction Hb as [p|p k q Hm Hk Hb IH]; intros H k' Hq Hk'.
      * inversion H; subst; [|easy]. rewrite Forall_forall in *. auto.
      * apply IH; auto. inversion H; subst; [easy|]. rewrite Forall_forall in *. auto.
  - induction p as [tag d m text tail kids IH] using pelem_rec'. intros [Hi Hn]. set (p := PElem _ _ _ _ _ _) in *.
    destruct (str_eqb_spec tag (L "meta")) as [E|N].
    + apply Readable_meta; [exact E|]. apply Forall_forall. intros k Hk. apply (Hn p k); [constructor|exact E|exact Hk].
    + apply Readable_other; [exact N|apply Hi; [constructor|exact N|cbn; tauto]..|]. rewrite Forall_forall in *. intros k Hk. apply IH; [exact Hk|]. split.
      * intros q n Hb. apply Hi. now apply (Below_kid p k).
      * intros q k' Hb. apply Hn. now apply (Below_kid p k).
Qed.

(* ---------- what was read could be read ---------- *)

Lemma name_accepted_inv n : ncname n = true -> name_accepted n = true -> python_name n.
Proof.
  intros Hn H. unfold name_accepted in H. apply orb_prop in H as [H|H].
  - destruct n as [|c r]; [easy|]. apply andb_prop in H as [H1 H2]. apply andb_prop in H1 as [H0 H1]. exists c, r. split; [easy|]. split; [easy|].
    split; [now destruct (is_digit c)|]. rewrite forallb_forall in H2. intros x Hx. apply H2 in Hx.
    apply orb_prop in Hx as [Hx|Hx]; [apply orb_prop in Hx as [Hx|Hx]|]; [auto|right; left|right; right]; now apply N.eqb_eq.
  - exfalso. destruct (rev n) as [|c r] eqn:E; [easy|]. apply andb_prop in H as [H _]. apply N.eqb_eq in H as ->.
    assert (Hin : In 10%N n) by (apply in_rev; rewrite E; now left). destruct n as [|c n]; [easy|]. cbn [ncname] in Hn. apply andb_prop in Hn as [H1 H2].
    destruct Hin as [->|Hin]; [vm_compute in H1; discriminate|]. rewrite forallb_forall in H2. apply H2 in Hin. vm_compute in Hin. discriminate.
Qed.
Lemma ncname_split tag ns n m : name_ok m tag -> qname_split tag = Ok (ns, n) -> ncname n = true.
Proof.
  intros [H|(u & n' & -> & Hn & _ & Hu & _)] E.
  - rewrite qname_plain in E by easy. now injection E as <- <-.
  - rewrite qname_clark in E by easy. now injection E as <- <-.
Qed.
Lemma child_could p : forall m0 y, good m0 p -> live_above p -> quiet p -> decode_child p = Ok y -> readable_child p.
Proof.
  induction p as [tag d m text tail kids IH] using pelem_rec'. intros m0 y Hg Hl Hq E. cbn [decode_child] in E. inv_bind E. destruct x as [ns n].
  inv_bind E. inv_bind E. destruct (name_accepted n) eqn:Ea; [|discriminate]. inversion Hl as [? ? m' ? ? ? F]; subst. inversion_clear Hq as [? ? ? ? ? ? Q1 Q2 Q3].
  inversion Hg as [? ? ? ? ? ? ? _ _ Hn _ _ _ _ _ Hk|]; subst. apply (Readable_child _ _ _ _ _ _ ns n); auto.
  - now apply split_got.
  - apply name_accepted_inv; [|easy]. now apply (ncname_split tag ns n m').
  - rewrite Forall_forall in *. intros k Hin. destruct (traverse_in decode_child kids x E1 k Hin) as (z & Hz). apply (IH k Hin m' z); auto.
Qed.

Lemma nodup_distinct n p : NoDup (some_ids (map the_id (find_kids n p))) -> distinct_kids n p.
Proof.
  unfold find_kids. intros H l1 a l2 b l3 E Ha Hb Hi Q. rewrite E in H. rewrite filter_app in H. cbn [filter] in H. unfold called in *. rewrite Ha, str_eqb_refl in H.
  rewrite filter_app in H. cbn [filter] in H. rewrite Hb, str_eqb_refl in H. rewrite map_app in H. cbn [map] in H. rewrite map_app in H. cbn [map] in H.
  rewrite <- Q in H. destruct (the_id a) as [i|]; [|easy]. unfold some_ids in H. rewrite flat_map_app in H. cbn [flat_map] in H. rewrite flat_map_app in H. cbn [flat_map app] in H.
  apply NoDup_remove in H as [_ H]. apply H. apply in_or_app. right. apply in_or_app. right. now left.
Qed.
Lemma same_ids {B} (R : pelem -> B -> Prop) (f : B -> option str) l ys : Forall2 R l ys -> (forall q y, R q y -> the_id q = f y) -> map the_id l = map f ys.
Proof. intros H HR. induction H as [|q y l ys Hq _ IH]; [easy|]. cbn. now rewrite IH, (HR q y). Qed.
Lemma apart_kids {B} (R : pelem -> B -> Prop) (f : B -> option str) n p ys : Forall2 R (find_kids n p) ys -> (forall q y, R q y -> the_id q = f y) ->
  NoDup (some_ids (map f ys)) -> distinct_kids n p.
Proof. intros H HR Hn. apply nodup_distinct. now rewrite (same_ids R f _ ys). Qed.
Lemma no_kids n p : Forall (fun k => ~ called n k) (p_kids p) -> distinct_kids n p.
Proof.
  intros H l1 a l2 b l3 E Ha. rewrite E, Forall_forall in H. destruct (H a); [|easy]. apply in_or_app. right. now left.
Qed.
Lemma two_kinds n n1 n2 p ms l : p_kids p = ms ++ l -> Forall (called n1) ms -> Forall (called n2) l -> n <> n1 -> n <> n2 -> distinct_kids n p.
Proof.
  intros E H1 H2 N1 N2. apply no_kids. rewrite E, Forall_app. unfold called in *. split; [eapply Forall_impl; [|exact H1]|eapply Forall_impl; [|exact H2]]; cbn; congruence.
Qed.
Lemma meta_could p m0 y : good m0 p -> live_above p -> valid_meta p -> decode_meta p = Ok y -> readable_kids p.
Proof.
  intros Hg Hl Hv E. pose proof (good_meta m0 p Hg Hl Hv) as Hq. destruct Hv as (Et & _). unfold decode_meta in E. inv_bind E. inv_bind E.
  apply Readable_meta; [easy|]. destruct (live_map _ Hl) as (m & Em). apply Forall_forall. intros k Hk.
  destruct (traverse_in decode_child _ _ E1 k Hk) as (z & Hz). apply (child_could k m z); auto; [now apply (good_kid m0 p m)|now apply (live_kid p)|].
  inversion Hq as [? ? ? ? ? ? _ _ F]; subst. cbn [p_kids] in Hk. rewrite Forall_forall in F. auto.
Qed.
Ltac kids_could m0 p m E :=
  let k := fresh "k" in let Hk := fresh "Hk" in intros k Hk;
  let z := fresh "z" in let Hz := fresh "Hz" in destruct (traverse_in _ _ _ E k Hk) as (z & Hz).
Lemma metadata_could p m0 y : good m0 p -> live_above p -> valid_metadata p -> decode_metadata p = Ok y -> readable_kids p.
Proof.
  intros Hg Hl Hv E. pose proof (metadata_got p y Hv E) as (_ & _ & HF). destruct Hv as (Et & Hi & _ & _ & Hv). destruct (live_map _ Hl) as (m & Em).
  assert (Hn : Forall (called (L "meta")) (p_kids p)) by (eapply Forall_impl; [|exact Hv]; now intros q [? _]).
  assert (Ek : find_kids (L "meta") p = p_kids p) by (unfold find_kids; now apply filter_tag_all).
  unfold decode_metadata in E. inv_bind E. inv_bind E. inv_bind E. inv_bind E. injection E as <-. apply container_ids in E3 as [-> Hnd]. rewrite Ek in E1. cbn [md_metas] in HF.
  assert (D : forall n, n <> L "meta" -> distinct_kids n p).
  { intros n N. apply (two_kinds n (L "meta") (L "meta") p [] (p_kids p)); auto. }
  apply Readable_other; [unfold called; rewrite Et; discriminate| |apply D; discriminate..|].
  - apply (apart_kids meta_read (fun m => a_id (me_attrs m)) _ _ x0); auto; [now rewrite Ek|]. now intros q y (_ & (E & _) & _).
  - rewrite Forall_forall in *. intros k Hk. destruct (traverse_in decode_meta _ _ E1 k Hk) as (z & Hz). apply (meta_could k m z); auto; [now apply (good_kid m0 p m)|now apply (live_kid p)].
Qed.
Lemma metadatas_could p m0 ms rest n l : good m0 p -> live_above p -> p_kids p = ms ++ rest -> Forall valid_metadata ms -> n <> L "metadata" -> Forall (called n) rest ->
  decode_metadatas p = Ok l -> Forall readable_kids ms /\ distinct_kids (L "metadata") p.
Proof.
  intros Hg Hl Ek Hv N Hn E. pose proof (metadatas_got p ms rest n l Ek Hv N Hn E) as HF. destruct (live_map _ Hl) as (m & Em).
  assert (Ef : find_kids (L "metadata") p = ms).
  { unfold find_kids. rewrite Ek. apply (filter_front _ n); auto. eapply Forall_impl; [|exact Hv]. now intros q [? _]. }
  unfold decode_metadatas in E. rewrite Ef in E. inv_bind E. apply container_ids in E as [-> Hnd]. split.
  - rewrite Forall_forall in *. intros k Hk. assert (Hk' : In k (p_kids p)) by (rewrite Ek; apply in_or_app; now left).
    destruct (traverse_in decode_metadata _ _ E0 k Hk) as (z & Hz). apply (metadata_could k m z); auto; [now apply (good_kid m0 p m)|now apply (live_kid p)].
  - apply (apart_kids metadata_read (fun m => a_id (md_attrs m)) _ _ x); auto; [now rewrite Ef|]. now intros q y (_ & (E & _) & _).
Qed.
Lemma item_could p : valid_item p -> readable_kids p.
Proof.
  intros (Et & _ & _ & Ek). apply Readable_other; [unfold called; rewrite Et; discriminate|apply no_kids; rewrite Ek; constructor..|]. rewrite Ek. constructor.
Qed.
Lemma tier_could p m0 y : good m0 p -> live_above p -> valid_tier p -> decode_tier p = Ok y -> readable_kids p.
Proof.
  intros Hg Hl Hv E. destruct Hv as (Et & _ & _ & _ & _ & ms & l & Ek & Hm & Hv). destruct (live_map _ Hl) as (m & Em).
  assert (Hn : Forall (called (L "item")) l) by (eapply Forall_impl; [|exact Hv]; now intros q [? _]).
  assert (Hn' : Forall (called (L "metadata")) ms) by (eapply Forall_impl; [|exact Hm]; now intros q [? _]).
  assert (Ef : find_kids (L "item") p = l) by (unfold find_kids; rewrite Ek; now apply (filter_front (L "metadata") (L "item"))).
  unfold decode_tier in E. inv_bind E. inv_bind E. inv_bind E. inv_bind E. inv_bind E. injection E as <-. apply container_ids in E4 as [-> Hnd]. rewrite Ef in E2.
  destruct (metadatas_could p m0 ms l (L "item") x0 Hg Hl Ek Hm) as [Hr Hd]; auto; [discriminate|].
  assert (D : forall n, n <> L "metadata" -> n <> L "item" -> distinct_kids n p) by (intros n; now apply (two_kinds n _ _ p ms l)).
  apply Readable_other; [unfold called; rewrite Et; discriminate|apply D; discriminate|exact Hd| |apply D; discriminate|apply D; discriminate|].
  - apply (apart_kids item_read (fun i => a_id (it_attrs i)) _ _ x1); auto.
    + rewrite Ef. apply (traverse_got decode_item); [easy|]. rewrite Forall_forall in Hv. intros. apply item_got; auto.
    + now intros q y (_ & (E & _) & _).
  - rewrite Ek, Forall_app. split; [easy|]. eapply Forall_impl; [|exact Hv]. exact item_could.
Qed.
Lemma igt_could p m0 y : good m0 p -> live_above p -> valid_igt p -> decode_igt p = Ok y -> readable_kids p.
Proof.
  intros Hg Hl Hv E. destruct Hv as (Et & _ & _ & _ & ms & l & Ek & Hm & Hv). destruct (live_map _ Hl) as (m & Em).
  assert (Hn : Forall (called (L "tier")) l) by (eapply Forall_impl; [|exact Hv]; now intros q [? _]).
  assert (Hn' : Forall (called (L "metadata")) ms) by (eapply Forall_impl; [|exact Hm]; now intros q [? _]).
  assert (Ef : find_kids (L "tier") p = l) by (unfold find_kids; rewrite Ek; now apply (filter_front (L "metadata") (L "tier"))).
  unfold decode_igt in E. inv_bind E. inv_bind E. inv_bind E. inv_bind E. inv_bind E. injection E as <-. apply container_ids in E4 as [-> Hnd]. rewrite Ef in E2.
  destruct (metadatas_could p m0 ms l (L "tier") x0 Hg Hl Ek Hm) as [Hr Hd]; auto; [discriminate|].
  assert (D : forall n, n <> L "metadata" -> n <> L "tier" -> distinct_kids n p) by (intros n; now apply (two_kinds n _ _ p ms l)).
  apply Readable_other; [unfold called; rewrite Et; discriminate|apply D; discriminate|exact Hd|apply D; discriminate| |apply D; discriminate|].
  - apply (apart_kids tier_read (fun i => a_id (t_attrs i)) _ _ x1); auto.
    + rewrite Ef. apply (traverse_got decode_tier); [easy|]. rewrite Forall_forall in Hv. intros. apply tier_got; auto.
    + now intros q y (_ & (E & _) & _).
  - rewrite Ek, Forall_app. split; [easy|]. rewrite Forall_forall in *. intros k Hk. assert (Hk' : In k (p_kids p)) by (rewrite Ek; apply in_or_app; now right).
    destruct (traverse_in decode_tier _ _ E2 k Hk) as (z & Hz). apply (tier_could k m z); auto; [now apply (good_kid m0 p m)|now apply (live_kid p)].
Qed.
Lemma corpus_could p m0 l y : good m0 p -> live_above p -> valid_corpus p -> find_kids (L "igt") p = l -> decode_xigtcorpus p l = Ok y -> readable_kids p.
Proof.
  intros Hg Hl Hv El E. destruct Hv as (Et & _ & _ & _ & ms & l' & Ek & Hm & Hv). destruct (live_map _ Hl) as (m & Em).
  assert (Hn : Forall (called (L "igt")) l') by (eapply Forall_impl; [|exact Hv]; now intros q [? _]).
  assert (Hn' : Forall (called (L "metadata")) ms) by (eapply Forall_impl; [|exact Hm]; now intros q [? _]).
  assert (Ef : find_kids (L "igt") p = l') by (unfold find_kids; rewrite Ek; now apply (filter_front (L "metadata") (L "igt"))).
  rewrite Ef in El. subst l'.
  unfold decode_xigtcorpus in E. inv_bind E. inv_bind E. inv_bind E. inv_bind E. inv_bind E. injection E as <-. apply container_ids in E4 as [-> Hnd].
  destruct (metadatas_could p m0 ms l (L "igt") x0 Hg Hl Ek Hm) as [Hr Hd]; auto; [discriminate|].
  assert (D : forall n, n <> L "metadata" -> n <> L "igt" -> distinct_kids n p) by (intros n; now apply (two_kinds n _ _ p ms l)).
  apply Readable_other; [unfold called; rewrite Et; discriminate|apply D; discriminate|exact Hd|apply D; discriminate|apply D; discriminate| |].
  - apply (apart_kids igt_read (fun i => a_id (g_attrs i)) _ _ x2); auto.
    + rewrite Ef. apply (traverse_got decode_igt); [easy|]. rewrite Forall_forall in Hv. intros. apply igt_got; auto.
    + now intros q y (_ & (E & _) & _).
  - rewrite Ek, Forall_app. split; [easy|]. rewrite Forall_forall in *. intros k Hk. assert (Hk' : In k (p_kids p)) by (rewrite Ek; apply in_or_app; now right).
    destruct (traverse_in decode_igt _ _ E3 k Hk) as (z & Hz). apply (igt_could k m z); auto; [now apply (good_kid m0 p m)|now apply (live_kid p)].
Qed.
Lemma decode_valid m0 p ahead : good m0 p -> live_above p -> valid_corpus p -> decode ahead p = decode_xigtcorpus p (find_kids (L "igt") p).
Proof.
  intros Hg Hl Hv. destruct Hv as (Et & _ & _ & _ & ms & l & Ek & Hm & Hi). destruct (live_map _ Hl) as (m & Em).
  assert (Hn : Forall (called (L "igt")) l) by (eapply Forall_impl; [|exact Hi]; now intros q [? _]).
  assert (Hn' : Forall (called (L "metadata")) ms) by (eapply Forall_impl; [|exact Hm]; now intros q [? _]).
  replace (find_kids (L "igt") p) with l by (unfold find_kids; rewrite Ek; symmetry; now apply (filter_front (L "metadata") (L "igt"))).
  assert (Hin : forall q, In q ms \/ In q l -> good m q /\ live_above q).
  { intros q Hq. assert (Hq' : In q (p_kids p)) by (rewrite Ek; apply in_or_app; auto). split; [now apply (good_kid m0 p m)|now apply (live_kid p)]. }
  apply (decode_igts ahead p ms l); auto; rewrite Forall_forall in *; intros q Hq.
  - destruct (Hin q) as [? ?]; [auto|]. apply (good_metadata m); auto.
  - destruct (Hin q) as [? ?]; [auto|]. apply (SchemaProofs.good_igt m); auto.
Qed.
Theorem reads_exactly ahead e p : tidy_document e -> reread [] e = Ok p -> valid_corpus p ->
  ((exists c, xml_load ahead e = Ok c) <-> ids_apart p /\ names_read p).
Proof.
  intros Ht E Hv. rewrite <- readable_iff. split.
  - intros (c & El). unfold xml_load in El. rewrite E in El. cbn [bind] in El. pose proof (tidy_good e p Ht E) as Hg. pose proof (reread_live e [] p E) as Hl.
    rewrite (decode_valid [] p ahead Hg Hl Hv) in El. now apply (corpus_could p [] _ c Hg Hl Hv eq_refl).
  - intros Hr. destruct (valid_reads e p E Hv Hr) as (c & Ec & _). eauto.
Qed.

(* ---------- how it fails ---------- *)

Definition bad (p : pelem) (x : exn) : Prop := x = XigtError /\ ~ ids_apart p \/ x = ValueError /\ ~ names_read p.
Lemma bad_kid p k x : ~ called (L "meta") p -> In k (p_kids p) -> bad k x -> bad p x.
Proof.
  intros Hn Hk [[-> H]|[-> H]]; [left|right]; (split; [easy|]); intros Hp; apply H.
  - intros q n Hb. apply Hp. now apply (Below_kid p k).
  - intros q k' Hb. apply Hp. now apply (Below_kid p k).
Qed.
Lemma traverse_err {A B} (f : A -> res B) l x : traverse f l = Err x -> exists q, In q l /\ f q = Err x.
Proof.
  induction l as [|q l IH]; cbn; [easy|]. destruct (f q) as [y|y] eqn:E; cbn [bind]; [|intros [= <-]; exists q; auto].
  destruct (traverse f l) as [ys|y']; cbn [bind]; [easy|]. intros [= <-]. destruct IH as (q' & Hq & E'); [easy|]. exists q'. auto.
Qed.
Lemma container_err {A} (f : A -> option str) l x : new_container f l = Err x -> x = XigtError.
Proof.
  unfold new_container. generalize (@nil str). generalize (map f l). intros ids. induction ids as [|[i|] ids IH]; cbn [check_ids]; intros seen; [easy| |apply IH].
  destruct (existsb _ seen); [|apply IH]. cbn [bind]. now intros [= <-].
Qed.
Lemma child_err p : forall x, live_above p -> decode_child p = Err x -> x = ValueError.
Proof.
  induction p as [tag d m text tail kids IH] using pelem_rec'. intros x Hl E. cbn [decode_child] in E. inversion Hl as [? ? m' ? ? ? F]; subst.
  destruct (qname_split tag) as [[ns n]|y] eqn:Eq; cbn [bind] in E.
  - destruct (traverse decode_child kids) as [ks|y] eqn:Et; cbn [bind] in E.
    + unfold decode_attrs in E. cbn [p_nsmap bind] in E. destruct (name_accepted n); [easy|]. now injection E as <-.
    + injection E as <-. apply traverse_err in Et as (q & Hq & Eq'). rewrite Forall_forall in *. apply (IH q Hq); auto.
  - injection E as <-. unfold qname_split in Eq. destruct tag as [|c r]; [easy|]. destruct (N.eqb c _); [|easy]. destruct (split1 _ r) as [[? ?]|]; [easy|]. now injection Eq as <-.
Qed.
Lemma meta_fails p x : live_above p -> valid_meta p -> decode_meta p = Err x -> bad p x.
Proof.
  intros Hl (Et & Hi & _) E. destruct (live_map _ Hl) as (m & Em). unfold decode_meta in E. rewrite expect_plain in E by easy. cbn [bind] in E.
  destruct (decode_attrs_read p m Em Hi) as (a & Ea & _). rewrite Ea in E.
  destruct (traverse decode_child (p_kids p)) as [ks|y] eqn:Ek; cbn [bind] in E; [easy|]. injection E as <-.
  apply traverse_err in Ek as (q & Hq & Eq). right. split; [apply (child_err q); [now apply (live_kid p)|easy]|].
  intros Hp. destruct (child_reads q) as (z & Hz & _); [now apply (live_kid p)|apply (Hp p q); [constructor|easy|easy]|]. congruence.
Qed.
Lemma metadata_fails p x : live_above p -> valid_metadata p -> decode_metadata p = Err x -> bad p x.
Proof.
  intros Hl (Et & Hi & _ & _ & Hv) E. destruct (live_map _ Hl) as (m & Em). assert (Hnm : ~ called (L "meta") p) by (unfold called; rewrite Et; discriminate).
  unfold decode_metadata in E. rewrite expect_plain in E by easy. cbn [bind] in E.
  assert (Ek : find_kids (L "meta") p = p_kids p) by (unfold find_kids; apply filter_tag_all; eapply Forall_impl; [|exact Hv]; now intros q [? _]).
  rewrite Ek in E. destruct (decode_attrs_read p m Em Hi) as (a & Ea & _). rewrite Ea in E.
  destruct (traverse decode_meta (p_kids p)) as [ks|y] eqn:Et'; cbn [bind] in E.
  - destruct (new_container _ ks) as [|y] eqn:Ec; cbn [bind] in E; [easy|]. injection E as <-. left. split; [now apply container_err in Ec|].
    intros Hp. rewrite (container_read _ meta_read (L "meta") p (p_kids p) ks) in Ec; [easy| |exact Ek| |].
    + apply Hp; [constructor|easy|cbn; tauto].
    + apply (traverse_got decode_meta); [easy|]. rewrite Forall_forall in Hv. intros. apply meta_got; auto.
    + now intros q y' (_ & (E' & _) & _).
  - injection E as <-. apply traverse_err in Et' as (q & Hq & Eq). rewrite Forall_forall in Hv. apply (bad_kid p q); auto. apply meta_fails; auto. now apply (live_kid p).
Qed.
Lemma metadatas_fails p ms rest n x : live_above p -> ~ called (L "meta") p -> p_kids p = ms ++ rest -> Forall valid_metadata ms -> n <> L "metadata" -> Forall (called n) rest ->
  decode_metadatas p = Err x -> bad p x.
Proof.
  intros Hl Hnm Ek Hv N Hn E. assert (Ef : find_kids (L "metadata") p = ms).
  { unfold find_kids. rewrite Ek. apply (filter_front _ n); auto. eapply Forall_impl; [|exact Hv]. now intros q [? _]. }
  unfold decode_metadatas in E. rewrite Ef in E. destruct (traverse decode_metadata ms) as [ks|y] eqn:Et'; cbn [bind] in E.
  - left. split; [now apply container_err in E|]. intros Hp. rewrite (container_read _ metadata_read (L "metadata") p ms ks) in E; [easy| |exact Ef| |].
    + apply Hp; [constructor|easy|cbn; tauto].
    + apply (traverse_got decode_metadata); [easy|]. rewrite Forall_forall in Hv. intros. apply metadata_got; auto.
    + now intros q y' (_ & (E' & _) & _).
  - injection E as <-. apply traverse_err in Et' as (q & Hq & Eq). rewrite Forall_forall in Hv. assert (Hq' : In q (p_kids p)) by (rewrite Ek; apply in_or_app; now left).
    apply (bad_kid p q); auto. apply metadata_fails; auto. now apply (live_kid p).
Qed.
Lemma tier_fails p x : live_above p -> valid_tier p -> decode_tier p = Err x -> bad p x.
Proof.
  intros Hl (Et & Hi & _ & _ & _ & ms & l & Ek & Hm & Hv) E. destruct (live_map _ Hl) as (m & Em). assert (Hnm : ~ called (L "meta") p) by (unfold called; rewrite Et; discriminate).
  assert (Hn : Forall (called (L "item")) l) by (eapply Forall_impl; [|exact Hv]; now intros q [? _]).
  assert (Hn' : Forall (called (L "metadata")) ms) by (eapply Forall_impl; [|exact Hm]; now intros q [? _]).
  assert (Ef : find_kids (L "item") p = l) by (unfold find_kids; rewrite Ek; now apply (filter_front (L "metadata") (L "item"))).
  unfold decode_tier in E. rewrite expect_plain in E by easy. cbn [bind] in E. rewrite Ef in E.
  destruct (decode_metadatas p) as [md|y] eqn:Ed; cbn [bind] in E; [|injection E as <-; now apply (metadatas_fails p ms l (L "item"))].
  destruct (decode_attrs_read p m Em (has_may _ Hi)) as (a & Ea & _). rewrite Ea in E.
  destruct (traverse decode_item l) as [ks|y] eqn:Et'; cbn [bind] in E.
  - destruct (new_container _ ks) as [|y] eqn:Ec; cbn [bind] in E; [easy|]. injection E as <-. left. split; [now apply container_err in Ec|].
    intros Hp. rewrite (container_read _ item_read (L "item") p l ks) in Ec; [easy| |exact Ef| |].
    + apply Hp; [constructor|easy|cbn; tauto].
    + apply (traverse_got decode_item); [easy|]. rewrite Forall_forall in Hv. intros. apply item_got; auto.
    + now intros q y' (_ & (E' & _) & _).
  - exfalso. apply traverse_err in Et' as (q & Hq & Eq). rewrite Forall_forall in Hv. assert (Hq' : In q (p_kids p)) by (rewrite Ek; apply in_or_app; now right).
    destruct (item_reads q) as (z & Hz & _); [now apply (live_kid p)|auto|congruence].
Qed.
Lemma igt_fails p x : live_above p -> valid_igt p -> decode_igt p = Err x -> bad p x.
Proof.
  intros Hl (Et & Hi & _ & _ & ms & l & Ek & Hm & Hv) E. destruct (live_map _ Hl) as (m & Em). assert (Hnm : ~ called (L "meta") p) by (unfold called; rewrite Et; discriminate).
  assert (Hn : Forall (called (L "tier")) l) by (eapply Forall_impl; [|exact Hv]; now intros q [? _]).
  assert (Hn' : Forall (called (L "metadata")) ms) by (eapply Forall_impl; [|exact Hm]; now intros q [? _]).
  assert (Ef : find_kids (L "tier") p = l) by (unfold find_kids; rewrite Ek; now apply (filter_front (L "metadata") (L "tier"))).
  unfold decode_igt in E. rewrite expect_plain in E by easy. cbn [bind] in E. rewrite Ef in E.
  destruct (decode_metadatas p) as [md|y] eqn:Ed; cbn [bind] in E; [|injection E as <-; now apply (metadatas_fails p ms l (L "tier"))].
  destruct (decode_attrs_read p m Em (has_may _ Hi)) as (a & Ea & _). rewrite Ea in E.
  destruct (traverse decode_tier l) as [ks|y] eqn:Et'; cbn [bind] in E.
  - destruct (new_container _ ks) as [|y] eqn:Ec; cbn [bind] in E; [easy|]. injection E as <-. left. split; [now apply container_err in Ec|].
    intros Hp. rewrite (container_read _ tier_read (L "tier") p l ks) in Ec; [easy| |exact Ef| |].
    + apply Hp; [constructor|easy|cbn; tauto].
    + apply (traverse_got decode_tier); [easy|]. rewrite Forall_forall in Hv. intros. apply tier_got; auto.
    + now intros q y' (_ & (E' & _) & _).
  - injection E as <-. apply traverse_err in Et' as (q & Hq & Eq). rewrite Forall_forall in Hv. assert (Hq' : In q (p_kids p)) by (rewrite Ek; apply in_or_app; now right).
    apply (bad_kid p q); auto. apply tier_fails; auto. now apply (live_kid p).
Qed.
Lemma corpus_fails p x : live_above p -> valid_corpus p -> decode_xigtcorpus p (find_kids (L "igt") p) = Err x -> bad p x.
Proof.
  intros Hl (Et & Hi & _ & _ & ms & l & Ek & Hm & Hv) E. destruct (live_map _ Hl) as (m & Em). assert (Hnm : ~ called (L "meta") p) by (unfold called; rewrite Et; discriminate).
  assert (Hn : Forall (called (L "igt")) l) by (eapply Forall_impl; [|exact Hv]; now intros q [? _]).
  assert (Hn' : Forall (called (L "metadata")) ms) by (eapply Forall_impl; [|exact Hm]; now intros q [? _]).
  assert (Ef : find_kids (L "igt") p = l) by (unfold find_kids; rewrite Ek; now apply (filter_front (L "metadata") (L "igt"))).
  unfold decode_xigtcorpus in E. rewrite expect_plain in E by easy. cbn [bind] in E. rewrite Ef in E.
  destruct (decode_metadatas p) as [md|y] eqn:Ed; cbn [bind] in E; [|injection E as <-; now apply (metadatas_fails p ms l (L "igt"))].
  assert (Ea : exists a, decode_attrs (pget ID p) None [ID] None p = Ok a).
  { unfold decode_attrs. rewrite Em. destruct (pget ID p) as [i|] eqn:E'; [|eauto].
    assert (A : id_accepted i = true) by (apply RefProofs.id_accepted_spec, id_pattern_accepted, Hi, E'). rewrite A. eauto. }
  destruct Ea as (a & Ea). rewrite Ea in E. cbn [bind] in E.
  destruct (traverse decode_igt l) as [ks|y] eqn:Et'; cbn [bind] in E.
  - destruct (new_container _ ks) as [|y] eqn:Ec; cbn [bind] in E; [easy|]. injection E as <-. left. split; [now apply container_err in Ec|].
    intros Hp. rewrite (container_read _ igt_read (L "igt") p l ks) in Ec; [easy| |exact Ef| |].
    + apply Hp; [constructor|easy|cbn; tauto].
    + apply (traverse_got decode_igt); [easy|]. rewrite Forall_forall in Hv. intros. apply igt_got; auto.
    + now intros q y' (_ & (E' & _) & _).
  - injection E as <-. apply traverse_err in Et' as (q & Hq & Eq). rewrite Forall_forall in Hv. assert (Hq' : In q (p_kids p)) by (rewrite Ek; apply in_or_app; now right).
    apply (bad_kid p q); auto. apply igt_fails; auto. now apply (live_kid p).
Qed.
Theorem reads_fails ahead e p x : tidy_document e -> reread [] e = Ok p -> valid_corpus p -> xml_load ahead e = Err x ->
  x = XigtError /\ ~ ids_apart p \/ x = ValueError /\ ~ names_read p.
Proof.
  intros Ht E Hv El. unfold xml_load in El. rewrite E in El. cbn [bind] in El. pose proof (tidy_good e p Ht E) as Hg. pose proof (reread_live e [] p E) as Hl.
  rewrite (decode_valid [] p ahead Hg Hl Hv) in El. now apply corpus_fails.
Qed.
End SchemaErr.
