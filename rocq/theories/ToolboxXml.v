(* The file written by the Toolbox importer can be read, if its igts have
   different ids. *)
From Verif Require Import PyStr PyStrFacts DecFacts Ref SpecRef Model SpecModel XmlStd Xml SpecXml XmlProofs Odin SpecOdin OdinProofs OdinXmlProofs ReloadProofs.
From Verif Require AttrProofs ValidateProofs.
From Verif Require Import Value SpecValue Toolbox SpecToolbox ToolboxProofs ToolboxTiers ToolboxIgts SpecToolboxDoc.

(* ---------- what the importer makes ---------- *)

(* the attributes: none, or a reference *)
Definition refs_fine (d : dict str) : Prop := d = [] \/ exists ra r, d = [(ra, r)] /\ plain_key ra /\ legal r.
Definition item_fine (i : item) : Prop :=
  exists id txt d, i = {| it_attrs := mk_attrs (Some id) None d; it_text := Some txt |}
    /\ accepted_id id /\ legal id /\ legal txt /\ no_return txt /\ refs_fine d.
Definition tier_fine (t : tier) : Prop :=
  exists id ty d l, t = {| t_attrs := mk_attrs (Some id) ty d; t_md := []; t_items := l |}
    /\ accepted_id id /\ legal id /\ (forall s, ty = Some s -> legal s) /\ refs_fine d
    /\ Forall item_fine l /\ NoDup (some_ids (map (fun i => a_id (it_attrs i)) l)).
Definition dict_fine (d : dict str) : Prop := NoDup (map fst d) /\ forall k v, In (k, v) d -> plain_key k /\ legal v.
Definition igt_fine (g : igt) : Prop :=
  exists id d ts, g = {| g_attrs := mk_attrs (Some id) None d; g_md := []; g_tiers := ts |}
    /\ accepted_id id /\ legal id /\ dict_fine d /\ Forall tier_fine ts /\ NoDup (some_ids (map (fun t => a_id (t_attrs t)) ts)).

Lemma refs_dict d : refs_fine d -> dict_fine d.
Proof.
  intros [->|(ra & r & -> & H1 & H2)]; (split; [repeat constructor; now intros []|]); intros k v H; [easy|].
  destruct H as [[= <- <-]|[]]. easy.
Qed.

Section Fine.
Context {U : Unicode} (lower : str -> str).

Lemma legal_dec n : legal (dec_nat n). Proof. apply legal_digits, dec_nat_ascii. Qed.
Lemma legal_dec_Z z : legal (dec_Z z).
Proof.
  unfold dec_Z. destruct z as [|p|p]; [apply legal_digits, dec_N_ascii|apply legal_digits, dec_N_ascii|].
  apply (legal_app [45%N]); [|apply legal_digits, dec_N_ascii]. intros c [<-|[]]. unfold xml_legal. lia.
Qed.

Lemma new_item_fine tid n txt d i : new_item (tid ++ dec_nat n) txt d = Ok i ->
  legal tid -> legal txt -> no_return txt -> refs_fine d -> item_fine i.
Proof.
  intros E H1 H2 H3 H4. apply new_item_iff in E as [Ha ->]. do 3 eexists. split; [reflexivity|].
  split; [now apply accepted_dec|]. split; [apply legal_app; [easy|apply legal_dec]|auto].
Qed.
Lemma new_tier_fine tid ty d l t : new_tier tid ty d l = Ok t -> legal tid -> (forall s, ty = Some s -> legal s) ->
  refs_fine d -> Forall item_fine l -> tier_fine t.
Proof.
  unfold new_tier. destruct (check_id (Some tid)) eqn:Ec; [|easy]. cbn [bind].
  destruct (new_container _ l) as [l'|] eqn:E; [|easy]. cbn [bind]. intros [= <-] H1 H2 H3 H4.
  apply container_ids in E as [-> E]. exists tid, ty, d, l. split; [easy|]. split; [|auto 6].
  cbn [check_id] in Ec. destruct (id_accepted tid) eqn:Ea; [|easy]. now apply accepted_iff.
Qed.

Definition toks_fine (aln : list pair) : Prop := forall p toks tok, In (p, Some toks) aln -> In tok toks -> legal tok /\ no_return tok.

Lemma plain_toks_fine tid toks : legal tid -> (forall tok, In tok toks -> legal tok /\ no_return tok) ->
  forall n l, plain_toks tid toks n = Ok l -> Forall item_fine l.
Proof.
  intros Ht. induction toks as [|t toks IH]; intros H n l; cbn [plain_toks]; [intros [= <-]; constructor|].
  destruct (new_item _ t []) as [i|] eqn:E; [|easy]. cbn [bind]. destruct (plain_toks tid toks (S n)) as [l'|] eqn:E'; [|easy]. cbn [bind].
  intros [= <-]. destruct (H t (or_introl eq_refl)) as [H1 H2]. constructor; [|apply IH in E'; [easy|]; intros tok Hk; apply H; now right].
  apply (new_item_fine _ _ _ _ _ E); auto. now left.
Qed.
Lemma plain_items_fine tid aln : legal tid -> toks_fine aln -> forall n l, plain_items tid aln n = Ok l -> Forall item_fine l.
Proof.
  intros Ht. induction aln as [|[p [toks|]] aln IH]; intros H n l; cbn [plain_items]; [intros [= <-]; constructor| |easy].
  destruct (plain_toks tid toks n) as [a|] eqn:E; [|easy]. cbn [bind]. destruct (plain_items tid aln _) as [b|] eqn:E'; [|easy]. cbn [bind].
  intros [= <-]. apply Forall_app. split.
  - apply (plain_toks_fine tid toks Ht) in E; [easy|]. intros tok Hk. apply (H p toks); [now left|easy].
  - apply IH in E'; [easy|]. intros q ts tok Hi. apply (H q ts tok). now right.
Qed.

Lemma id_legal (it : item) : item_fine it -> legal (id_text (a_id (it_attrs it))).
Proof. intros (id & txt & d & -> & _ & H & _). exact H. Qed.
Lemma reference_legal ty it p toks s r : reference lower ty (Some it) p toks s = Ok r -> item_fine it -> legal r.
Proof.
  intros E Hi. apply reference_names in E as (tg & Eg & Hn). assert (tg = it) as -> by congruence. apply id_legal in Hi.
  destruct Hn as [->|(b & n & ->)]; [easy|].
  apply legal_app; [easy|]. apply legal_app; [apply legal_lit; now vm_compute|]. apply legal_app; [apply legal_dec_Z|].
  apply legal_app; [apply legal_lit; now vm_compute|]. apply legal_app; [apply legal_dec_Z|apply legal_lit; now vm_compute].
Qed.
Lemma ref_items_fine ty tid ra tgt p toks todo : legal tid -> plain_key ra -> (forall it, tgt = Some it -> item_fine it) ->
  (forall tok, In tok todo -> legal tok /\ no_return tok) ->
  forall s n l, ref_items lower ty tid ra tgt p toks s todo n = Ok l -> Forall item_fine l.
Proof.
  intros Ht Hra Htg. induction todo as [|t todo IH]; intros H s n l; cbn [ref_items]; [intros [= <-]; constructor|].
  destruct (reference lower ty tgt p toks s) as [r|] eqn:Er; [|easy]. cbn [bind].
  destruct (new_item _ t [(ra, r)]) as [i|] eqn:E; [|easy]. cbn [bind]. destruct (ref_items _ _ _ _ _ _ _ _ _ _) as [l'|] eqn:E'; [|easy]. cbn [bind].
  intros [= <-]. destruct (H t (or_introl eq_refl)) as [H1 H2]. constructor; [|apply IH in E'; [easy|]; intros tok Hk; apply H; now right].
  apply (new_item_fine _ _ _ _ _ E); auto. right. exists ra, r. split; [easy|]. split; [easy|].
  assert (Er' := Er). apply reference_names in Er' as (it & -> & _). exact (reference_legal _ _ _ _ _ _ Er (Htg it eq_refl)).
Qed.
Lemma zip_items_fine ty tid ra aln : legal tid -> plain_key ra -> toks_fine aln ->
  forall tgts n l, Forall item_fine tgts -> zip_items lower ty tid ra tgts aln n = Ok l -> Forall item_fine l.
Proof.
  intros Ht Hra. induction aln as [|[p [toks|]] aln IH]; intros H tgts n l Hg; cbn [zip_items]; [destruct tgts; [intros [= <-]; constructor|easy]| |easy].
  destruct (ref_items _ _ _ _ _ _ _ _ _ _) as [a|] eqn:E; [|easy]. cbn [bind]. destruct (zip_items _ _ _ _ _ aln _) as [b|] eqn:E'; [|easy]. cbn [bind].
  intros [= <-]. apply Forall_app. split.
  - apply ref_items_fine in E; [easy|easy|easy| |].
    + intros it Ei. destruct tgts as [|x tgts]; [easy|]. cbn in Ei. injection Ei as <-. now inversion_clear Hg.
    + intros tok Hk. apply (H p toks); [now left|easy].
  - apply IH in E'; [easy| |].
    + intros q ts tok Hi. apply (H q ts tok). now right.
    + destruct Hg; [constructor|easy].
Qed.
Lemma make_tier_fine ty tid refattr aln algn t : make_tier lower ty tid refattr aln algn = Ok t ->
  legal tid -> (forall s, ty = Some s -> legal s) -> (forall ra, refattr = Some ra -> plain_key ra) ->
  toks_fine aln -> (forall t', algn = Some t' -> tier_fine t') -> tier_fine t.
Proof.
  intros E Ht Hty Hra Hk Hg. destruct (not_none_pair aln) as [->|Hn].
  - apply new_tier_fine in E; auto. now left.
  - rewrite make_tier_eq in E by easy.
    assert (Hp : bind (plain_items tid aln 1) (fun items => new_tier tid ty [] items) = Ok t -> tier_fine t).
    { destruct (plain_items tid aln 1) as [l|] eqn:El; [|easy]. cbn [bind]. intros E'. apply new_tier_fine in E'; auto; [now left|].
      now apply plain_items_fine in El. }
    destruct refattr as [ra|]; [|now apply Hp]. destruct algn as [t'|]; [|now apply Hp].
    destruct (zip_items _ _ _ _ _ _ _) as [l|] eqn:El; [|easy]. cbn [bind] in E.
    destruct (Hg t' eq_refl) as (id & ty' & d' & l' & -> & Ha & Hid & _ & _ & Hl & _). apply new_tier_fine in E; auto.
    + right. do 2 eexists. split; [reflexivity|]. split; [now apply Hra|exact Hid].
    + apply zip_items_fine in El; auto.
Qed.
Lemma join_fine l : (forall x, In x l -> legal x /\ no_return x) -> legal (join (L " ") l) /\ no_return (join (L " ") l).
Proof.
  induction l as [|x l IH]; intros H; [split; [intros ? []|intros []]|]. destruct (H x (or_introl eq_refl)) as [H1 H2].
  destruct l as [|y l]; [easy|]. cbn [join]. destruct IH as [I1 I2]; [intros; apply H; now right|]. split.
  - apply legal_app; [easy|]. apply legal_app; [apply legal_lit; now vm_compute|easy].
  - intros Hin. apply in_app_or in Hin as [Hin|Hin]; [easy|]. apply in_app_or in Hin as [Hin|Hin]; [|easy]. vm_compute in Hin. intuition discriminate.
Qed.
Lemma phrase_fine pid aln t : make_phrase_tier pid aln = Ok t -> legal pid -> toks_fine aln -> tier_fine t.
Proof.
  unfold make_phrase_tier. intros E Hp Hk. destruct (new_item _ _ []) as [i|] eqn:Ei; [|easy]. cbn [bind] in E.
  assert (Hj := join_fine (flat_map (fun p : pair => match snd p with Some l => l | None => [] end) aln)).
  destruct Hj as [J1 J2].
  { intros x Hx. apply in_flat_map in Hx as ([p [toks|]] & Hi & Hx); [|easy]. now apply (Hk p toks). }
  apply new_tier_fine in E; auto; [intros s [= <-]; apply legal_lit; now vm_compute|now left|].
  constructor; [|constructor]. apply (new_item_fine _ _ _ _ _ Ei); auto. now left.
Qed.

Lemma all_tiers_fine o fields : options_clean o -> (forall m aln, In (m, aln) fields -> toks_fine aln) ->
  forall prev ts, (forall k t, dget prev k = Some t -> tier_fine t) -> all_tiers lower o fields prev = Ok ts -> Forall tier_fine ts.
Proof.
  intros (O1 & O2 & O3 & O4 & _). induction fields as [|[mkr aln] fields IH]; intros Hf prev ts Hp; cbn [all_tiers]; [intros [= <-]; constructor|].
  assert (Hk : toks_fine aln) by (apply (Hf mkr); now left).
  assert (Hf' : forall m a, In (m, a) fields -> toks_fine a) by (intros m a Hi; apply (Hf m); now right).
  destruct (dget (o_tier_map o) mkr) as [tid|] eqn:Em; [|now apply IH].
  apply (dget_in str_eqb str_eqb_spec) in Em. apply O1 in Em.
  match goal with |- bind ?f _ = _ -> _ => set (F := f) end.
  assert (HF : forall first prev', F = Ok (first, prev') -> Forall tier_fine first /\ forall k t, dget prev' k = Some t -> tier_fine t).
  { unfold F. intros first prev'. destruct (o_phrase o) as [[src pid]|] eqn:Eo; [|intros [= <- <-]; split; [constructor|easy]].
    destruct (str_eqb src tid); [|intros [= <- <-]; split; [constructor|easy]].
    destruct (make_phrase_tier pid aln) as [t|] eqn:Et; [|easy]. cbn [bind]. intros [= <- <-].
    apply phrase_fine in Et; [|exact (O2 _ _ eq_refl)|easy]. split; [now constructor|]. intros k t'.
    rewrite AttrProofs.dget_set. destruct (str_eqb k pid); [now intros [= <-]|apply Hp]. }
  destruct F as [[first prev']|]; [|easy]. destruct (HF _ _ eq_refl) as [F1 F2]. cbn [bind].
  destruct (dget (o_types o) tid) as [[ty b]|] eqn:Ety; [|easy]. apply (dget_in str_eqb str_eqb_spec) in Ety.
  match goal with |- (let '(_, _) := ?f in _) = _ -> _ => set (G := f) end.
  assert (HG : (forall ra, fst G = Some ra -> plain_key ra) /\ forall t', snd G = Some t' -> tier_fine t').
  { unfold G. destruct (dget (o_alignments o) tid) as [[ra aid]|] eqn:Ea; [|easy]. cbn [fst snd]. apply (dget_in str_eqb str_eqb_spec) in Ea.
    split; [intros x [= <-]; exact (O4 _ _ _ Ea)|apply F2]. }
  destruct G as [refattr algn]. cbn [fst snd] in HG. destruct HG as [G1 G2].
  destruct (importing _) as [t|] eqn:Ei; [|easy]. cbn [bind]. apply importing_ok in Ei.
  destruct (all_tiers lower o fields _) as [rest|] eqn:Er; [|easy]. cbn [bind]. intros [= <-].
  assert (Ht : tier_fine t).
  { apply make_tier_fine in Ei; auto. intros s ->. exact (O3 _ _ _ Ety). }
  apply Forall_app. split; [easy|]. constructor; [easy|]. apply IH in Er; [easy|easy|].
  intros k t'. rewrite AttrProofs.dget_set. destruct (str_eqb k tid); [now intros [= <-]|apply F2].
Qed.

Context (isalpha : char -> bool).
Lemma igt_attrs_fine m l : (forall k a, In (k, a) m -> plain_key a) -> (forall k v, In (k, Some v) l -> legal v) ->
  forall d, dict_fine d -> dict_fine (igt_attrs m l d).
Proof.
  intros Hm. induction l as [|[mkr [v|]] l IH]; intros Hl d Hd; cbn [igt_attrs]; [easy| |apply IH; [|easy]; intros k w Hi; apply (Hl k); now right].
  apply IH; [intros k w Hi; apply (Hl k); now right|]. destruct (dget m mkr) as [a|] eqn:Ea; [|easy].
  apply (dget_in str_eqb str_eqb_spec) in Ea. destruct Hd as [D1 D2]. split; [now apply (dset_nodup str_eqb str_eqb_spec)|].
  intros k w Hi. apply ValidateProofs.dset_in in Hi as [Hi|[= -> ->]]; [now apply D2|]. split; [exact (Hm _ _ Ea)|apply (Hl mkr); now left].
Qed.
Lemma make_igt_fine_ key data context o fields g : options_clean o -> legal key ->
  (forall m v, In (m, Some v) (data ++ context) -> legal v) -> (forall m aln, In (m, aln) fields -> toks_fine aln) ->
  make_tb_igt lower isalpha key data context o fields = Ok (Some g) -> igt_fine g.
Proof.
  intros Ho Hkey Hd Hf. unfold make_tb_igt. destruct (igt_key isalpha key) as [k|] eqn:Ek; [|easy]. cbn [bind].
  destruct (check_id (Some k)) eqn:Ec; [|cbn [bind]; destruct e; easy]. cbn [bind].
  destruct (make_all_tiers lower o fields) as [ts|e] eqn:Et; [|cbn [bind]; destruct e; easy]. cbn [bind].
  destruct (new_container _ ts) as [ts'|e] eqn:En; [|cbn [bind]; destruct e; easy]. cbn [bind]. intros [= <-].
  apply container_ids in En as [-> En]. do 3 eexists. split; [reflexivity|].
  assert (Hk : accepted_id k) by (cbn [check_id] in Ec; destruct (id_accepted k) eqn:Ea; [now apply accepted_iff|easy]).
  split; [easy|]. split; [|split; [|split; [|exact En]]].
  - unfold igt_key in Ek. destruct key as [|c key]; [easy|]. destruct (isalpha c); injection Ek as <-; [easy|].
    apply (legal_app (L "igt") (c :: key)); [apply legal_lit; now vm_compute|easy].
  - apply igt_attrs_fine; [apply Ho|exact Hd|]. split; [constructor|intros ? ? []].
  - apply (all_tiers_fine o fields Ho Hf []); [discriminate|exact Et].
Qed.
Lemma igts_fine o pri rs : options_clean o -> Forall record_clean rs -> forall l, toolbox_igts_ lower isalpha o pri rs = Ok l -> Forall igt_fine l.
Proof.
  intros Ho. induction 1 as [|r rs (R1 & R2) Hrs IH]; intros l; cbn [toolbox_igts_]; [intros [= <-]; constructor|].
  destruct (dget (r_context r) pri) as [[key|]|] eqn:Ek; [|apply IH|apply IH].
  destruct (make_tb_igt _ _ _ _ _ _ _) as [g|] eqn:Eg; [|easy]. cbn [bind]. destruct (toolbox_igts_ _ _ _ _ rs) as [l'|] eqn:El; [|easy]. cbn [bind].
  intros [= <-]. assert (IH' := IH _ eq_refl). destruct g as [g|]; [|easy]. constructor; [|easy].
  apply make_igt_fine_ in Eg; [easy|easy| |easy|].
  - apply (R1 pri). apply in_or_app. right. exact (dget_in str_eqb str_eqb_spec _ _ _ Ek).
  - intros m aln Hm p toks tok Hp Hk. now apply (R2 m aln p toks).
Qed.

(* ---------- writing and reading ---------- *)

Lemma empty_map_ok : map_ok []. Proof. split; [constructor|intros ? ? []]. Qed.
Lemma attrs_fine_ok id ty d : legal id -> (forall s, ty = Some s -> legal s) -> dict_fine d ->
  attrs_ok [] (mk_attrs (Some id) ty d) /\ (accepted_id id -> plain (mk_attrs (Some id) ty d)).
Proof.
  intros H1 H2 [H3 H4].
  assert (N1 : ~ In ID (map fst d)).
  { intros Hin. apply in_map_iff in Hin as ([k v] & Ek & Hin). cbn in Ek. subst k. apply H4 in Hin as [(_ & _ & Hn & _) _]. now apply Hn. }
  assert (N2 : ~ In TYPE (map fst d)).
  { intros Hin. apply in_map_iff in Hin as ([k v] & Ek & Hin). cbn in Ek. subst k. apply H4 in Hin as [(_ & _ & _ & Hn) _]. now apply Hn. }
  split.
  - split; [exact empty_map_ok|]. cbn [mk_attrs a_dict a_id a_type a_ns]. split; [easy|]. split.
    { intros k v Hi. apply H4 in Hi as [Hk Hv]. split; [now apply plain_key_ok|now apply legal_chars]. }
    split; [intros i [= <-]; now apply legal_chars|]. split; [intros t Ht; now apply legal_chars, H2|]. split; [easy|]. split; [easy|discriminate].
  - intros Ha. split; [easy|]. cbn [mk_attrs a_dict a_id]. split; [intros i [= <-]; exact Ha|now split].
Qed.
Lemma item_doc i : item_fine i -> tree_ok [] (item_tree i) /\ item_ok i.
Proof.
  intros (id & txt & d & -> & Ha & Hi & Ht & Hr & Hd). apply refs_dict in Hd.
  destruct (attrs_fine_ok id None d Hi ltac:(discriminate) Hd) as [H1 H2]. split; [|now apply H2].
  constructor; [exact H1|now vm_compute| |constructor]. intros s [= <-]. split; [now apply legal_chars|easy].
Qed.
Lemma tier_doc t : tier_fine t -> tree_ok [] (tier_tree t) /\ tier_ok t.
Proof.
  intros (id & ty & d & l & -> & Ha & Hi & Hty & Hd & Hl & Hn). apply refs_dict in Hd.
  destruct (attrs_fine_ok id ty d Hi Hty Hd) as [H1 H2]. split.
  - constructor; [exact H1|now vm_compute|intros ? [=]|]. cbn [t_md t_items map app]. apply Forall_map. eapply Forall_impl; [|exact Hl].
    intros i Hf. now apply item_doc in Hf.
  - split; [now apply H2|]. split; [split; constructor|]. split; [|exact Hn]. eapply Forall_impl; [|exact Hl]. intros i Hf. now apply item_doc in Hf.
Qed.
Lemma igt_doc g : igt_fine g -> tree_ok [] (igt_tree g) /\ igt_ok g.
Proof.
  intros (id & d & ts & -> & Ha & Hi & Hd & Hl & Hn).
  destruct (attrs_fine_ok id None d Hi ltac:(discriminate) Hd) as [H1 H2]. split.
  - constructor; [exact H1|now vm_compute|intros ? [=]|]. cbn [g_md g_tiers map app]. apply Forall_map. eapply Forall_impl; [|exact Hl].
    intros i Hf. now apply tier_doc in Hf.
  - split; [now apply H2|]. split; [split; constructor|]. split; [|exact Hn]. eapply Forall_impl; [|exact Hl]. intros i Hf. now apply tier_doc in Hf.
Qed.

Theorem toolbox_readable o rs gs : options_clean o -> Forall record_clean rs -> toolbox_igts lower isalpha o rs = Ok gs ->
  NoDup (some_ids (map igt_id gs)) ->
  exists e c, xml_dump (corpus_of gs) (Some 2) = Ok e /\ (forall ahead, xml_load ahead e = Ok c) /\ same_corpus (back_corpus (corpus_of gs)) c.
Proof.
  intros Ho Hr E Hn. unfold toolbox_igts in E. destruct (rev (o_markers o)) as [|pri ms]; [easy|]. apply igts_fine in E; [|easy|easy].
  apply xml_reads_back.
  - constructor; [|now vm_compute|intros ? [=]|].
    + unfold in_force. cbn. split; [exact empty_map_ok|]. cbn. repeat split; try easy. constructor.
    + unfold in_force. cbn [c_attrs corpus_of a_nsmap c_md c_igts map app]. apply Forall_map. eapply Forall_impl; [|exact E]. intros g Hg. now apply igt_doc in Hg.
  - split; [easy|]. split; [easy|]. split; [intros []|]. split; [split; constructor|]. split; [|exact Hn].
    eapply Forall_impl; [|exact E]. intros g Hg. now apply igt_doc in Hg.
Qed.
End Fine.
