(* The file written by the ODIN importer can be read. *)
From Verif Require Import PyStr PyStrFacts DecFacts Ref SpecRef Model SpecModel XmlStd Xml SpecXml XmlProofs Odin SpecOdin OdinProofs ValueProofs.

Lemma all_some {A} (P : A -> Prop) x : P x -> forall y, Some x = Some y -> P y.
Proof. intros H y E. injection E as <-. exact H. Qed.
Lemma legal_chars s : legal s -> xml_chars s = true.
Proof.
  intros H. unfold xml_chars. apply forallb_forall. intros c Hc. apply H in Hc. unfold xml_char, in_any, in_range. cbn [existsb fst snd].
  unfold xml_legal in Hc. rewrite !orb_true_iff, !andb_true_iff, !N.leb_le. lia.
Qed.
Lemma legal_app a b : legal a -> legal b -> legal (a ++ b).
Proof. intros Ha Hb c H. apply in_app_or in H as [H|H]; auto. Qed.
Lemma legal_infix a s b : legal (a ++ s ++ b) -> legal s.
Proof. intros H c Hc. apply H. apply in_or_app. right. apply in_or_app. now left. Qed.
Lemma legal_digits s : Forall ascii_digit s -> legal s.
Proof. rewrite Forall_forall. intros H c Hc. apply H in Hc. unfold ascii_digit, xml_legal in *. lia. Qed.

Lemma odin_map_ok : map_ok odin_nsmap.
Proof.
  split; [repeat constructor; vm_compute; intuition discriminate|].
  intros p u [[= <- <-]|[[= <- <-]|[[= <- <-]|[]]]]; (split; [discriminate|now vm_compute]).
Qed.
Lemma uri_in p u : In (p, u) odin_nsmap -> uri_ok odin_nsmap u.
Proof.
  intros H. split; [|split; [|now exists p]]; destruct H as [[= <- <-]|[[= <- <-]|[[= <- <-]|[]]]]; vm_compute; intuition discriminate.
Qed.

Definition keys_ok (m : dict str) (d : dict str) : Prop :=
  NoDup (map fst d) /\ (forall k v, In (k, v) d -> key_ok m k /\ xml_chars v = true).
Lemma attrs_in a : a_nsmap a = None -> keys_ok odin_nsmap (a_dict a) ->
  (forall i, a_id a = Some i -> xml_chars i = true) -> (forall t, a_type a = Some t -> xml_chars t = true) ->
  ~ In ID (map fst (a_dict a)) -> ~ In TYPE (map fst (a_dict a)) ->
  (forall u, a_ns a = Some u -> uri_ok odin_nsmap u) -> attrs_ok (in_force a odin_nsmap) a.
Proof.
  intros E [H1 H2] H3 H4 H5 H6 H7. unfold in_force. rewrite E. split; [exact odin_map_ok|]. auto 10.
Qed.
Lemma keys_nil m : keys_ok m []. Proof. split; [constructor|intros ? ? []]. Qed.

Section Readable.
Context {U : Unicode} (title : str -> str).

Lemma legal_strip s : legal s -> legal (strip s).
Proof. intros H. destruct (strip_infix s) as (u & v & E). rewrite E in H. now apply legal_infix in H. Qed.

Lemma child_tree_ok name code text : ncname name = true -> legal code -> legal text -> no_return text ->
  tree_ok odin_nsmap (child_tree (language_child name code text)).
Proof.
  intros Hn Hc Ht Hr. constructor; [|exact Hn| |constructor].
  - apply attrs_in; cbn; [easy| |easy|easy|vm_compute; intuition discriminate|vm_compute; intuition discriminate|].
    + split; [repeat constructor; vm_compute; intuition discriminate|].
      intros k v [[= <- <-]|[[= <- <-]|[]]]; (split; [right|]).
      * exists XSI_URI, (L "type"). split; [easy|]. split; [now vm_compute|]. left; apply (uri_in (L "xsi")). cbn; auto.
      * now vm_compute.
      * exists OLAC_URI, (L "code"). split; [easy|]. split; [now vm_compute|]. left; apply (uri_in (L "olac")). cbn; auto.
      * now apply legal_chars.
    + intros u [= <-]. apply (uri_in (L "dc")). cbn; auto.
  - intros s [= <-]. split; [now apply legal_chars|easy].
Qed.

Lemma legal_lit s : forallb xml_char s = true -> legal s.
Proof.
  rewrite forallb_forall. intros H c Hc. apply H in Hc. unfold xml_char, in_any, in_range in Hc. cbn [existsb fst snd] in Hc.
  unfold xml_legal. rewrite !orb_true_iff, !andb_true_iff, !N.leb_le in Hc. intuition lia.
Qed.
Lemma legal_join l : (forall h, In h l -> legal h) -> legal (join [10%N] l).
Proof.
  induction l as [|x l IH]; intros H; [intros ? []|]. destruct l as [|y l]; [apply H; now left|]. cbn [join].
  apply legal_app; [apply H; now left|]. apply legal_app; [|apply IH; intros; apply H; now right].
  intros c [<-|[]]. unfold xml_legal. lia.
Qed.
Lemma return_join l : (forall h, In h l -> no_return h) -> no_return (join [10%N] l).
Proof.
  induction l as [|x l IH]; intros H; [intros []|]. destruct l as [|y l]; [apply H; now left|]. cbn [join].
  intros Hin. apply in_app_or in Hin as [Hin|Hin]; [exact (H x (or_introl eq_refl) Hin)|].
  apply in_app_or in Hin as [[Hin|[]]|Hin]; [discriminate|]. revert Hin. apply IH. intros; apply H; now right.
Qed.

Lemma meta_id_ok n : xml_chars (L "meta" ++ dec_nat n) = true.
Proof. apply legal_chars, legal_app; [apply legal_lit; now vm_compute|apply legal_digits, dec_nat_ascii]. Qed.

Lemma meta_attrs_ok i ty : xml_chars i = true -> (forall t, ty = Some t -> xml_chars t = true) ->
  attrs_ok (in_force (mk_attrs (Some i) ty []) odin_nsmap) (mk_attrs (Some i) ty []).
Proof. intros H H'. apply attrs_in; cbn; try easy; [apply keys_nil|]. now intros ? [= <-]. Qed.
Lemma metadata_tree_ok b o : block_clean title o b -> tree_ok odin_nsmap (metadata_tree (make_igt_metadata title b o)).
Proof.
  intros (_ & Hs & [Hl Hl'] & Hh & _). set (lang := title _) in *.
  assert (Hc : legal (strip (match b_iso b with Some c => c | None => L "und" end))).
  { destruct (b_iso b) as [c|] eqn:E; apply legal_strip; [apply Hs; auto|apply legal_lit; now vm_compute]. }
  unfold make_igt_metadata. fold lang. constructor; [|now vm_compute|intros ? [=]|].
  { apply attrs_in; cbn; try easy. apply keys_nil. }
  cbn [md_metas]. rewrite map_app. apply Forall_app. split.
  - destruct (o_keep_headers o) eqn:Ek; [|constructor]. destruct (b_headers b) as [|h hs] eqn:Eh; [constructor|].
    constructor; [|constructor]. constructor; [|now vm_compute| |constructor].
    + apply meta_attrs_ok; [apply (meta_id_ok 1)|]. intros t [= <-]. now vm_compute.
    + intros s Es. assert (s = join [10%N] (h :: hs)) as -> by (cbn [me_text] in Es; congruence). split; [apply legal_chars, legal_join|apply return_join]; intros x Hx; now apply (Hh x eq_refl).
  - constructor; [|constructor]. constructor; [|now vm_compute|intros ? [=]|].
    + apply meta_attrs_ok; [apply meta_id_ok|discriminate].
    + constructor; [|constructor; [|constructor]]; apply child_tree_ok; try easy; try (apply legal_lit; now vm_compute).
      vm_compute; intuition discriminate.
Qed.

Lemma plain_key_ok m k : plain_key k -> key_ok m k.
Proof. intros (H1 & H2 & _). left. auto. Qed.
Lemma replaced_return P r s t : replaced P r s t -> no_return r -> no_return s -> no_return t.
Proof.
  intros H Hr. unfold no_return in *. induction H as [|c s t Hc H IH|c s t Hc H IH]; intros Hs; [easy| |].
  - intros [->|Hin]; [apply Hs; now left|]. apply IH; [|easy]. intros Hi; apply Hs; now right.
  - intros Hin. apply in_app_or in Hin as [Hin|Hin]; [easy|]. apply IH; [|easy]. intros Hi; apply Hs; now right.
Qed.
Lemma replaced_legal r s t : replaced (fun c => ~ (xml_legal c /\ basic c)) r s t -> legal r -> legal t.
Proof. intros H Hr. rewrite (replaced_det _ _ _ _ _ H (replace_replaced s r)). now apply replace_legal. Qed.

Lemma raw_items_dict o lines : forall j l, raw_items j lines o = Ok l ->
  Forall2 (fun line i => a_dict (it_attrs i) = ddel line CONTENT) lines l.
Proof.
  induction lines as [|line lines IH]; intros j l; cbn [raw_items]; [intros [= <-]; constructor|].
  destruct (dmem line CONTENT); [|easy]. cbn [check_id]. rewrite rid_accepted. cbn [bind].
  destruct (raw_items (S j) lines o) as [l'|] eqn:E; [|easy]. cbn [bind]. intros [= <-]. constructor; [easy|]. now apply IH in E.
Qed.
Lemma raw_tier_dict b o t : make_igt_raw_tier b o = Ok t -> Forall2 (fun line i => a_dict (it_attrs i) = ddel line CONTENT) (b_lines b) (t_items t).
Proof.
  unfold make_igt_raw_tier. destruct (raw_items 0 (b_lines b) o) as [l|] eqn:E; [|easy]. cbn [bind]. unfold new_container.
  destruct (check_ids _ _); [|easy]. cbn [bind]. intros [= <-]. now apply raw_items_dict in E.
Qed.

Lemma in_ddel {A} (d : dict A) k k' v : In (k', v) (ddel d k) -> k' <> k /\ In (k', v) d.
Proof.
  unfold ddel. induction d as [|[k0 v0] d IH]; [intros []|]. cbn. destruct (str_eqb_spec k k0) as [->|Hn].
  - intros H. apply IH in H as [H1 H2]. auto.
  - intros [[= -> ->]|H]; [auto|]. apply IH in H as [H1 H2]. auto.
Qed.

Lemma item_tree_ok o n line i : legal (o_replacement o) -> no_return (o_replacement o) ->
  NoDup (map fst line) -> (forall s, dget line (L "content") = Some s -> no_return s) ->
  (forall k v, In (k, v) line -> k <> L "content" -> plain_key k /\ legal v) ->
  line_item o n line i -> a_dict (it_attrs i) = ddel line CONTENT ->
  tree_ok odin_nsmap (item_tree i) /\ plain (it_attrs i).
Proof.
  intros Hr Hr' Hd Hc Hk (text & text' & E & Hrep & Ht & Hid & Hty & Hns & Hnm & _ & _) Ed.
  assert (Hkeys : forall k v, In (k, v) (a_dict (it_attrs i)) -> plain_key k /\ legal v).
  { intros k v Hin. rewrite Ed in Hin. apply in_ddel in Hin as [H1 H2]. now apply (Hk k v H2). }
  assert (H1 : ~ In ID (map fst (a_dict (it_attrs i)))).
  { intros Hin. apply in_map_iff in Hin as ([k v] & Ek & Hin). cbn in Ek. subst k. apply Hkeys in Hin as [(_ & _ & Hn & _) _]. now apply Hn. }
  assert (H2 : ~ In TYPE (map fst (a_dict (it_attrs i)))).
  { intros Hin. apply in_map_iff in Hin as ([k v] & Ek & Hin). cbn in Ek. subst k. apply Hkeys in Hin as [(_ & _ & _ & Hn) _]. now apply Hn. }
  split.
  - constructor; [|now vm_compute| |constructor].
    + apply attrs_in; try easy.
      * split; [rewrite Ed; now apply (ddel_nodup str_eqb str_eqb_spec)|]. intros k v Hin. apply Hkeys in Hin as [Hp Hl].
        split; [now apply plain_key_ok|now apply legal_chars].
      * rewrite Hid. refine (all_some _ _ _). apply legal_chars, legal_app; [apply legal_lit; now vm_compute|apply legal_digits, dec_nat_ascii].
      * rewrite Hty. easy.
      * rewrite Hns. easy.
    + rewrite Ht. intros s [= <-]. split; [apply legal_chars; now apply replaced_legal in Hrep|].
      apply (replaced_return _ _ _ _ Hrep); [easy|now apply Hc].
  - split; [easy|]. split; [|auto]. rewrite Hid. refine (all_some _ _ _). exists (Ch "r"), (dec_nat n). split; [easy|]. vm_compute. intuition discriminate.
Qed.

Lemma nth_forall2 {A B} (P : A -> B -> Prop) l l' k x y : Forall2 P l l' -> nth_error l k = Some x -> nth_error l' k = Some y -> P x y.
Proof.
  intros H. revert k. induction H; intros [|k]; cbn; try discriminate; [intros [= <-] [= <-]; easy|]. apply IHForall2.
Qed.

Lemma child_ok_ name code text : (name = L "subject" \/ name = L "language") -> child_ok (language_child name code text).
Proof.
  intros H. constructor; [easy|easy|discriminate| |constructor].
  destruct H as [->| ->]; do 2 eexists; (split; [reflexivity|]); (split; [reflexivity|]); (split; [reflexivity|]);
    intros x Hx; left; repeat (destruct Hx as [<-|Hx]; [reflexivity|]); destruct Hx.
Qed.
Lemma accepted_meta n : accepted_id (L "meta" ++ dec_nat n).
Proof. exists (Ch "m"), (L "eta" ++ dec_nat n). split; [easy|]. vm_compute. intuition discriminate. Qed.
Lemma metadata_ok_ b o : metadata_ok (make_igt_metadata title b o).
Proof.
  assert (Hk : forall c t, Forall child_ok [language_child (L "subject") c t; language_child (L "language") (L "en") (L "English")]).
  { intros c t. constructor; [|constructor; [|constructor]]; apply child_ok_; auto. }
  assert (Hp : forall i ty, (forall j, i = Some j -> accepted_id j) -> plain (mk_attrs i ty [])) by (intros i ty H; repeat split; auto).
  unfold make_igt_metadata. split; [apply Hp; discriminate|]. cbn [md_metas].
  destruct (o_keep_headers o); [destruct (b_headers b) as [|h hs]|]; cbn [app length].
  - split; [constructor; [|constructor]; split; [apply Hp; refine (all_some _ _ _); apply accepted_meta|apply Hk]|]. repeat constructor; cbn; tauto.
  - split.
    + constructor; [|constructor; [|constructor]].
      * split; [apply Hp; refine (all_some _ _ _); apply (accepted_meta 1)|constructor].
      * split; [apply Hp; refine (all_some _ _ _); apply accepted_meta|apply Hk].
    + repeat constructor; vm_compute; intuition discriminate.
  - split; [constructor; [|constructor]; split; [apply Hp; refine (all_some _ _ _); apply accepted_meta|apply Hk]|]. repeat constructor; cbn; tauto.
Qed.

Lemma make_igt_tier b o g : make_igt title b o = Ok g -> exists t, g_tiers g = [t] /\ make_igt_raw_tier b o = Ok t.
Proof.
  unfold make_igt. destruct (make_igt_attributes b); [|easy]. cbn [bind]. destruct (make_igt_raw_tier b o) as [t|]; [|easy]. cbn [bind].
  destruct (check_id _); [|easy]. cbn [bind]. intros [= <-]. now exists t.
Qed.

Lemma igt_fine b o : legal (o_replacement o) -> no_return (o_replacement o) -> block_ok b -> block_clean title o b ->
  exists g, make_igt title b o = Ok g /\ block_igt o b g /\ tree_ok odin_nsmap (igt_tree g) /\ igt_ok g.
Proof.
  intros Hr Hr' Hb Hc. destruct (make_igt_ok title b o Hb) as (g & E & Hg & Hmd & Hty & Hns & Hnm & Hts). exists g.
  split; [easy|]. split; [easy|]. destruct (make_igt_tier b o g E) as (t & Et & Er). pose proof (raw_tier_dict b o t Er) as Hdict.
  pose proof Hg as (Hid & (doc & lr & types & s & e & E1 & E2 & E3 & Hw & Ed) & t' & Et' & Htid & Htty & Htd & Hlen & Hit).
  rewrite Et in Et'. injection Et' as <-. rewrite Et in Hts. apply Forall_inv in Hts as (Tmd & Tns & Tnm & Tnd).
  pose proof Hb as (Hai & _). pose proof Hc as (Hli & Hls & _ & _ & Hlines).
  assert (Hitems : Forall (fun i => tree_ok odin_nsmap (item_tree i) /\ plain (it_attrs i)) (t_items t)).
  { apply Forall_forall. intros i Hi. apply In_nth_error in Hi as [k Hk].
    destruct (nth_error (b_lines b) k) as [line|] eqn:El.
    2:{ apply nth_error_None in El. assert (k < length (t_items t)) by (apply nth_error_Some; congruence). lia. }
    destruct (Hit k line El) as (i' & Ei & Hx). rewrite Hk in Ei. injection Ei as <-.
    destruct (Hlines line (nth_error_In _ _ El)) as (L1 & L2 & L3).
    apply (item_tree_ok o (S k) line i); try easy. now apply (nth_forall2 _ _ _ _ _ _ Hdict El Hk). }
  assert (Hlr : legal (s ++ L "-" ++ e)).
  { assert (Hl : legal lr) by (apply Hls; auto). destruct Hw as (x & y & z & -> & _). 
    assert (legal s) by (apply legal_infix in Hl; exact Hl).
    assert (legal e).
    { intros c Hc'. apply Hl. do 3 (apply in_or_app; right). apply in_or_app. now left. }
    apply legal_app; [easy|]. apply legal_app; [apply legal_lit; now vm_compute|easy]. }
  split.
  - constructor; [|now vm_compute|intros ? [=]|].
    + apply attrs_in; try easy.
      * rewrite Ed. split; [repeat constructor; vm_compute; intuition discriminate|].
        intros k v [[= <- <-]|[[= <- <-]|[[= <- <-]|[]]]]; (split; [left; split; [now vm_compute|vm_compute; discriminate]|apply legal_chars]); auto 6.
      * rewrite Hid. intros i Ei. apply legal_chars. now apply Hli.
      * rewrite Hty. easy.
      * rewrite Ed. vm_compute; intuition discriminate.
      * rewrite Ed. vm_compute; intuition discriminate.
      * rewrite Hns. easy.
    + unfold in_force. rewrite Hnm, Hmd, Et. cbn [map app]. constructor; [now apply metadata_tree_ok|]. constructor; [|constructor].
      constructor; [|now vm_compute|intros ? [=]|].
      * apply attrs_in; try easy; rewrite ?Htd, ?Htid, ?Htty, ?Tns; try easy.
        -- split; [repeat constructor; vm_compute; intuition discriminate|]. intros k v [[= <- <-]|[]].
           split; [left; split; [now vm_compute|vm_compute; discriminate]|now vm_compute].
        -- intros i [= <-]. now vm_compute.
        -- intros i [= <-]. now vm_compute.
        -- vm_compute; intuition discriminate.
        -- vm_compute; intuition discriminate.
      * unfold in_force. rewrite Tnm, Tmd. cbn [map app]. apply Forall_map. eapply Forall_impl; [|exact Hitems]. now intros i [H _].
  - split; [|split; [|split]].
    + split; [easy|]. split; [rewrite Hid; exact Hai|]. rewrite Ed. split; vm_compute; intuition discriminate.
    + rewrite Hmd. split; [constructor; [apply metadata_ok_|constructor]|]. repeat constructor; cbn; tauto.
    + rewrite Et. constructor; [|constructor]. split; [|split; [|split]].
      * split; [easy|]. rewrite Htid, Htd. split; [|split; vm_compute; intuition discriminate]. intros i [= <-]. do 2 eexists. split; [reflexivity|]. vm_compute; intuition discriminate.
      * rewrite Tmd. split; constructor.
      * eapply Forall_impl; [|exact Hitems]. now intros i [_ H].
      * exact Tnd.
    + rewrite Et. cbn [map]. rewrite Htid. repeat constructor; cbn; tauto.
Qed.

Theorem odin_readable bs o : Forall block_ok bs -> Forall (block_clean title o) bs ->
  legal (o_replacement o) -> no_return (o_replacement o) -> NoDup (some_ids (map b_igt_id bs)) ->
  exists c e c', odin_corpus title bs o = Ok c /\ Forall2 (block_igt o) bs (c_igts c)
    /\ xml_dump c (Some 2) = Ok e /\ (forall ahead, xml_load ahead e = Ok c') /\ same_corpus (back_corpus c) c'.
Proof.
  intros Hb Hc Hr Hr' Hd.
  assert (Hgs : exists gs, odin_igts title bs o = Ok gs /\ Forall2 (block_igt o) bs gs
            /\ Forall (fun g => tree_ok odin_nsmap (igt_tree g) /\ igt_ok g) gs).
  { clear Hd. induction Hb as [|b bs Hb Hbs IH]; [exists []; repeat split; constructor|].
    inversion Hc as [|? ? Hc1 Hc2]; subst. destruct (IH Hc2) as (gs & E & H1 & H2). cbn [odin_igts].
    destruct (igt_fine b o Hr Hr' Hb Hc1) as (g & -> & Hg & Hg1 & Hg2). cbn [bind]. rewrite E. cbn [bind]. rewrite (has_r o b g Hg).
    eexists; split; [reflexivity|]. split; constructor; auto. }
  destruct Hgs as (gs & E & H1 & H2). unfold odin_corpus. rewrite E. cbn [bind].
  set (c := {| c_attrs := _; c_md := _; c_igts := gs |}).
  destruct (xml_reads_back c (Some 2)) as (e & c' & He & Hl & Hs).
  - constructor; [|now vm_compute|intros ? [=]|].
    + unfold in_force. cbn [c_attrs c a_nsmap]. split; [exact odin_map_ok|]. cbn. repeat split; try easy. constructor.
    + unfold in_force. cbn [c_attrs c a_nsmap c_md c_igts map app]. apply Forall_map. eapply Forall_impl; [|exact H2]. now intros g [H _].
  - split; [easy|]. split; [easy|]. split; [easy|]. split; [split; constructor|]. split; [eapply Forall_impl; [|exact H2]; now intros g [_ H]|].
    cbn [c c_igts]. replace (map (fun g => a_id (g_attrs g)) gs) with (map b_igt_id bs); [easy|].
    clear - H1. induction H1 as [|b g bs gs [H _] _ IH]; [easy|]. cbn [map]. now rewrite H, IH.
  - exists c, e, c'. auto.
Qed.
End Readable.
