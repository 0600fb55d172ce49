(* Saving what was loaded. *)
From Verif Require Import PyStr PyStrFacts Ref Model SpecRef XmlStd Xml SpecXml XmlProofs SpecReload.
From Verif Require LoadProofs RefProofs.
Import LoadProofs.

(* ---------- scopes ---------- *)

Definition ext (m0 m : dict str) : Prop := exists ks, map fst m = map fst m0 ++ ks.
Lemma ext_refl m : ext m m.
Proof. exists []. now rewrite app_nil_r. Qed.
Lemma ext_trans a b c : ext a b -> ext b c -> ext a c.
Proof. intros [k E] [k' E']. exists (k ++ k'). now rewrite E', E, app_assoc. Qed.
Lemma dset_keys (d : dict str) k v :
  map fst (dset d k v) = map fst d ++ if existsb (str_eqb k) (map fst d) then [] else [k].
Proof.
  unfold dset. induction d as [|[k' v'] d IH]; cbn; [easy|].
  destruct (str_eqb_spec k k') as [->|Hn]; cbn; [now rewrite app_nil_r|]. now rewrite IH.
Qed.
Lemma dset_ext d k v : ext d (dset d k v).
Proof. eexists. apply dset_keys. Qed.
Lemma existsb_in k l : existsb (str_eqb k) l = true <-> In k l.
Proof.
  rewrite existsb_exists. split; [intros (x & Hx & ->%str_eqb_eq); easy|]. intros H. exists k. split; [easy|]. apply str_eqb_refl.
Qed.
Lemma fold_keys (l : dict str) : forall s, NoDup (map fst l) ->
  map fst (fold_left (fun s kv => dset s (fst kv) (snd kv)) l s)
  = map fst s ++ filter (fun k => negb (existsb (str_eqb k) (map fst s))) (map fst l).
Proof.
  induction l as [|[k v] l IH]; cbn [fold_left map fst snd filter]; intros s H; [now rewrite app_nil_r|].
  inversion_clear H as [|? ? Hk Hnd]. rewrite IH, dset_keys by easy. rewrite <- app_assoc. f_equal.
  destruct (existsb (str_eqb k) (map fst s)) eqn:E; cbn [negb app].
  - now rewrite app_nil_r.
  - f_equal. apply filter_ext_in. intros x Hx. rewrite existsb_app. cbn. rewrite orb_false_r.
    destruct (str_eqb_spec x k) as [->|]; [easy|]. now rewrite orb_false_r.
Qed.
Lemma dict_ext (d d' : dict str) : NoDup (map fst d) -> map fst d = map fst d' -> (forall k, dget d k = dget d' k) -> d = d'.
Proof.
  revert d'. induction d as [|[k v] d IH]; intros [|[k' v'] d']; cbn [map fst]; try easy.
  intros Hnd [= <- E] H. inversion_clear Hnd as [|? ? Hk Hnd'].
  assert (Ev : v = v') by (specialize (H k); unfold dget in H; cbn in H; rewrite str_eqb_refl in H; congruence).
  subst v'. f_equal. apply IH; auto. intros x. specialize (H x). unfold dget in *. cbn in H.
  destruct (str_eqb_spec x k) as [Ex|]; [|easy]. subst x. fold (dget d k). fold (dget d' k).
  rewrite !dget_fresh; congruence.
Qed.
Lemma new_scope_ext m0 m : ext m0 m -> NoDup (map fst m) -> new_scope m0 m0 m = m.
Proof.
  intros [ks E] Hnd.
  assert (Hd : NoDup (map fst (declared m0 m))) by now apply declared_nodup.
  assert (K : map fst (new_scope m0 m0 m) = map fst m).
  { unfold new_scope. rewrite fold_keys by easy. rewrite E. f_equal. unfold declared.
    assert (G : forall l k0, (forall k, In k k0 -> In k (map fst m0)) -> map fst l = k0 ++ ks ->
      filter (fun k => negb (existsb (str_eqb k) (map fst m0)))
        (map fst (filter (fun kv => negb (opt_eqb str_eqb (dget m0 (fst kv)) (Some (snd kv)))) l)) = ks).
    { assert (B : forall k, In k ks -> ~ In k (map fst m0)).
      { intros k Hk H. rewrite E in Hnd. apply in_split in H as (x & y & Ex). rewrite Ex, <- app_assoc in Hnd. cbn in Hnd.
        apply NoDup_remove_2 in Hnd. apply Hnd. rewrite !in_app_iff. auto. }
      clear E Hnd Hd. intros l. induction l as [|[k v] l IH]; cbn [map fst]; intros k0 Hk El.
      - now destruct k0, ks.
      - destruct k0 as [|k1 k0]; cbn [app] in El.
        + destruct ks as [|k1 ks']; [discriminate|]. injection El as <- El. cbn [filter fst snd].
          assert (Hn : ~ In k (map fst m0)) by (apply B; now left).
          rewrite dget_fresh by easy. cbn [opt_eqb negb map filter fst].
          destruct (existsb (str_eqb k) (map fst m0)) eqn:Ex; [now apply existsb_in in Ex|]. cbn [negb]. f_equal.
          assert (El' : map fst l = [] ++ ks') by easy.
          clear -B El'. revert ks' B El'. induction l as [|[q w] l IH]; cbn [map fst app]; intros ks' B El; [easy|].
          destruct ks' as [|q' ks']; [discriminate|]. injection El as <- El. cbn [filter fst snd].
          assert (Hq : ~ In q (map fst m0)) by (apply B; right; now left).
          rewrite dget_fresh by easy. cbn [opt_eqb negb map filter fst].
          destruct (existsb (str_eqb q) (map fst m0)) eqn:Ex; [now apply existsb_in in Ex|]. cbn [negb]. f_equal.
          apply IH; [|easy]. intros x [<-|Hx]; apply B; [now left|right; now right].
        + injection El as <- El. specialize (IH k0 (fun x Hx => Hk x (or_intror Hx)) El). cbn [filter fst snd].
          destruct (negb (opt_eqb _ _ _)); [|exact IH]. cbn [map filter fst].
          assert (Hin : existsb (str_eqb k) (map fst m0) = true) by (apply existsb_in, Hk; now left).
          rewrite Hin. exact IH. }
    now apply (G m (map fst m0)). }
  apply dict_ext; [now rewrite K|easy|]. intros k. unfold new_scope. rewrite fold_scope by easy.
  destruct (dget (declared m0 m) k) as [u|] eqn:Eu.
  - apply dget_in in Eu; [|exact str_eqb_spec]. apply declared_in in Eu as [Hu _]. symmetry.
    apply dget_nodup; [exact str_eqb_spec|easy|easy].
  - destruct (dget m k) as [u|] eqn:Em.
    + apply dget_in in Em; [|exact str_eqb_spec].
      destruct (opt_eqb_spec str_eqb str_eqb_spec (dget m0 k) (Some u)) as [->|Hne]; [easy|].
      assert (I : In (k, u) (declared m0 m)) by now apply declared_in.
      assert (A : dget (declared m0 m) k = Some u) by (apply dget_nodup; [exact str_eqb_spec|easy|easy]). congruence.
    + destruct (dget m0 k) as [u|] eqn:E0; [|easy].
      apply dget_in in E0; [|exact str_eqb_spec].
      assert (I : In k (map fst m)) by (rewrite E; apply in_or_app; left; apply in_map_iff; now exists (k, u)).
      apply in_map_iff in I as ([k' w] & Ek & I). cbn in Ek. subst k'.
      assert (A : dget m k = Some w) by (apply dget_nodup; [exact str_eqb_spec|easy|easy]). congruence.
Qed.

(* ---------- what the reader delivers ---------- *)

Definition name_ok (m : dict str) (tag : str) : Prop :=
  ncname tag = true \/ exists u n, tag = in_ns u n /\ ncname n = true /\ uri_ok m u.
Inductive good : dict str -> pelem -> Prop :=
| Good m0 tag d m text tail kids :
    ext m0 m -> map_ok m -> name_ok m tag -> NoDup (map fst d) ->
    (forall k v, In (k, v) d -> key_ok m k /\ xml_chars v = true) -> text_ok text -> text <> Some [] ->
    (tag = L "meta" -> Forall quiet kids) -> Forall (good m) kids -> good m0 (PElem tag d (Some m) text tail kids)
| Dead m0 tag d text tail kids : good m0 (PElem tag d None text tail kids).

Definition scope_ok (m : dict str) : Prop := map_ok m /\ forall p u, In (p, u) m -> ~ In (Ch "}") u.
Lemma dset_in (m : dict str) k v p u : In (p, u) (dset m k v) -> In (p, u) m \/ p = k /\ u = v.
Proof.
  unfold dset. induction m as [|[k' v'] m IH]; cbn; [intros [[= <- <-]|[]]; now right|].
  destruct (str_eqb_spec k k') as [->|Hn]; cbn.
  - intros [[= <- <-]|H]; auto.
  - intros [[= <- <-]|H]; auto. destruct (IH H); auto.
Qed.
Lemma read_decls_scope d : forall scope scope', read_decls scope d = Ok scope' ->
  (forall v, ~ In (XMLNS, v) d) -> (forall p v, In (L "xmlns:" ++ p, v) d -> ~ In (Ch "}") v) ->
  scope_ok scope -> scope_ok scope' /\ ext scope scope'.
Proof.
  induction d as [|[k v] d IH]; cbn [read_decls]; intros scope scope' E H1 H2 Hs.
  - injection E as <-. split; [easy|apply ext_refl].
  - assert (H1' : forall w, ~ In (XMLNS, w) d) by (intros w H; apply (H1 w); now right).
    assert (H2' : forall p w, In (L "xmlns:" ++ p, w) d -> ~ In (Ch "}") w) by (intros p w H; apply (H2 p w); now right).
    unfold declares in E. destruct (str_eqb_spec k XMLNS) as [->|Hk]; [destruct (H1 v); now left|].
    destruct (startswith (L "xmlns:") k) eqn:Es; [|now apply (IH scope)].
    apply startswith_app in Es as [p ->]. change (skipn 6 (L "xmlns:" ++ p)) with p in E.
    destruct (valid_decl p v && _) eqn:Ev; [|discriminate]. apply andb_prop in Ev as [Ev Ep].
    destruct (IH _ _ E H1' H2') as [A B].
    + destruct Hs as [[Hnd Hm] Hb]. split; [split|].
      * now apply (dset_nodup str_eqb str_eqb_spec).
      * intros q u Hin. apply dset_in in Hin as [Hin|[-> ->]]; [now apply Hm|]. split; [|easy].
        intros ->. now vm_compute in Ep.
      * intros q u Hin. apply dset_in in Hin as [Hin|[-> ->]]; [now apply (Hb q)|]. apply (H2 p). now left.
    + split; [easy|]. apply (ext_trans _ (dset scope p v)); [apply dset_ext|easy].
Qed.

Lemma split1_app c s a b : split1 c s = Some (a, b) -> s = a ++ c :: b.
Proof.
  revert a. induction s as [|x s IH]; cbn; [discriminate|]. intros a.
  destruct (N.eqb_spec x c) as [->|_]; [now intros [= <- <-]|].
  destruct (split1 c s) as [[a' b']|]; [|discriminate]. intros [= <- <-]. cbn. f_equal. now apply IH.
Qed.
Lemma scope_uri m p u : scope_ok m -> dget m p = Some u -> uri_ok m u.
Proof.
  intros [[Hnd Hm] Hb] H. apply dget_in in H; [|exact str_eqb_spec]. split; [|split].
  - destruct (Hm _ _ H) as [Hp Hv]. intros ->. unfold valid_decl in Hv. destruct p; [easy|].
    apply andb_prop in Hv as [_ Hv]. now apply andb_prop in Hv as [_ Hv].
  - now apply (Hb p).
  - now exists p.
Qed.
Lemma read_key m k k' : scope_ok m -> declares k = None -> read_name m false k = Ok k' -> key_ok m k'.
Proof.
  intros Hm Hd. unfold read_name. destruct (split1 (Ch ":") k) as [[p l]|].
  - destruct (ncname p && ncname l) eqn:E; [|discriminate]. apply andb_prop in E as [_ El].
    destruct (str_eqb_spec p (L "xml")).
    + intros H. assert (k' = in_ns XML_URI l) by congruence. right. exists XML_URI, l. auto.
    + destruct (dget m p) as [u|] eqn:Eu; [|discriminate]. intros H. assert (k' = in_ns u l) by congruence.
      right. exists u, l. split; [easy|]. split; [easy|]. left. now apply (scope_uri _ p).
  - destruct (ncname k) eqn:E; [|discriminate]. intros [= <-]. left. split; [easy|]. intros ->. discriminate Hd.
Qed.
Lemma read_tag m t t' : scope_ok m -> (forall n, t <> L "xml:" ++ n) -> read_name m true t = Ok t' ->
  name_ok m t' /\ (forall n, ncname n = true -> (t' = n <-> t = n)).
Proof.
  intros Hm Hx. unfold read_name. destruct (split1 (Ch ":") t) as [[p l]|] eqn:Es.
  - apply split1_app in Es. destruct (ncname p && ncname l) eqn:E; [|discriminate]. apply andb_prop in E as [_ El].
    destruct (str_eqb_spec p (L "xml")) as [->|Hp].
    + destruct (Hx l). exact Es.
    + destruct (dget m p) as [u|] eqn:Eu; [|discriminate]. intros H. assert (t' = in_ns u l) by congruence.
      assert (Hu := scope_uri _ _ _ Hm Eu). subst t'. split.
      * right. exists u, l. auto.
      * intros n Hn. split; intros X.
        -- exfalso. apply (ncname_not_in n (Ch "{")); [easy|easy|]. rewrite <- X. now left.
        -- exfalso. apply (ncname_not_in n (Ch ":")); [easy|easy|]. rewrite <- X, Es. apply in_or_app. right. now left.
  - destruct (ncname t) eqn:E; [|discriminate]. cbv match.
    assert (H0 : dget m [] = None).
    { destruct (dget m []) as [w|] eqn:E0; [|easy]. apply dget_in in E0; [|exact str_eqb_spec]. now destruct Hm as [[_ Hm] _]; destruct (Hm _ _ E0). }
    rewrite H0. intros [= <-]. split; [now left|]. easy.
Qed.
Lemma read_attrs_good m d : forall d', scope_ok m -> read_attrs m d = Ok d' ->
  NoDup (map fst d') /\ forall k v, In (k, v) d' -> key_ok m k /\ xml_chars v = true.
Proof.
  induction d as [|[k v] d IH]; cbn [read_attrs]; intros d' Hm E.
  - injection E as <-. split; [constructor|easy].
  - destruct (declares k) eqn:Ed; [now apply IH|]. inv_bind E. inv_bind E. destruct (IH _ Hm E1) as [A B].
    destruct (xml_chars v) eqn:Ev; [|discriminate]. destruct (dmem x0 x) eqn:Em; [discriminate|]. cbn in E.
    injection E as <-. split.
    + cbn. constructor; [|easy]. intros H. apply in_map_iff in H as ([k' w] & Ek & H). cbn in Ek. subst k'.
      unfold dmem in Em. apply (dget_nodup str_eqb str_eqb_spec) in H; [|easy]. unfold dget in Em. now rewrite H in Em.
    + intros k' v' [[= <- <-]|H]; [|now apply B]. split; [now apply (read_key m k)|easy].
Qed.
Lemma eol_cr s : ~ In 13%N (eol s) /\ (xml_chars s = true -> xml_chars (eol s) = true).
Proof.
  assert (G : forall n s, length s <= n -> ~ In 13%N (eol s) /\ (xml_chars s = true -> xml_chars (eol s) = true)).
  2:{ exact (G _ s (le_n _)). }
  clear s. induction n as [|n IH]; intros s Hn; [destruct s; [now split|cbn in Hn; lia]|].
  destruct s as [|c s]; [now split|]. cbn in Hn. cbn [eol]. unfold xml_chars in *. cbn [forallb].
  destruct (N.eqb_spec c 13) as [->|Hc].
  - destruct s as [|c' s]; [split; [now intros [H|[]]|easy]|].
    assert (Hs : length s <= n) by (cbn in Hn; lia). destruct (N.eqb_spec c' 10) as [->|Hc'].
    + destruct (IH s Hs) as [A B]. split; [intros [H|H]; [discriminate|easy]|].
      cbn [forallb]. intros H. apply andb_prop in H as [_ H]. apply andb_prop in H as [_ H]. now rewrite B.
    + destruct (IH (c' :: s)) as [A B]; [cbn in *; lia|]. split; [intros [H|H]; [discriminate|easy]|].
      intros H. apply andb_prop in H as [_ H]. cbn [forallb]. now rewrite B.
  - destruct (IH s) as [A B]; [lia|]. split; [intros [H|H]; [congruence|easy]|].
    intros H. apply andb_prop in H as [H1 H]. cbn [forallb]. now rewrite H1, B.
Qed.
Lemma read_text_good t t' : read_text t = Ok t' -> text_ok t' /\ t' <> Some [].
Proof.
  destruct t as [[|c s]|]; cbn [read_text].
  - intros [= <-]. split; [now intros ? [=]|easy].
  - destruct (xml_chars (c :: s)) eqn:E; [|discriminate]. intros H. assert (Et : t' = Some (eol (c :: s))) by congruence. split.
    + intros x Ex. assert (x = eol (c :: s)) by congruence. subst x. destruct (eol_cr (c :: s)) as [A B]. auto.
    + rewrite Et. cbn [eol]. destruct (N.eqb c 13); [destruct s as [|c' s]; [easy|destruct (N.eqb c' 10); easy]|easy].
  - intros [= <-]. split; [now intros ? [=]|easy].
Qed.
Lemma no_igt_quiet e : forall scope p, no_igt e -> tidy e -> scope_ok scope -> reread scope e = Ok p -> quiet p.
Proof.
  induction e as [tag d text tail kids IH] using xelem_rec'. intros scope p Hn Ht Hs E.
  inversion_clear Hn as [? ? ? ? ? N1 N2 N3]. inversion_clear Ht as [? ? ? ? ? T1 T2 T3 T4 T5].
  cbn [reread] in E. inv_bind E. inv_bind E. inv_bind E. inv_bind E. inv_bind E. inv_bind E. injection E as <-.
  destruct (read_decls_scope _ _ _ E0 T1 T2 Hs) as [Hs' _]. destruct (read_tag _ _ _ Hs' T3 E1) as [_ Hq].
  constructor.
  - intros X. apply Hq in X; [easy|reflexivity].
  - intros X. apply Hq in X; [easy|reflexivity].
  - clear -IH N3 T5 Hs' E4. revert x3 E4. induction kids as [|k kids IHk]; cbn; intros ps E; [now injection E as <-|].
    inv_bind E. inv_bind E. injection E as <-. inversion_clear IH. inversion_clear N3. inversion_clear T5. constructor; eauto.
Qed.
Lemma reread_good e : forall scope p, tidy e -> scope_ok scope -> reread scope e = Ok p -> good scope p.
Proof.
  induction e as [tag d text tail kids IH] using xelem_rec'. intros scope p Ht Hs E.
  inversion_clear Ht as [? ? ? ? ? T1 T2 T3 T4 T5].
  cbn [reread] in E. inv_bind E. inv_bind E. inv_bind E. inv_bind E. inv_bind E. inv_bind E. injection E as <-.
  destruct (read_decls_scope _ _ _ E0 T1 T2 Hs) as [Hs' Hx]. destruct (read_tag _ _ _ Hs' T3 E1) as [Hq Hq'].
  destruct (read_attrs_good _ _ _ Hs' E2) as [Hd Hk]. destruct (read_text_good _ _ E3) as [Htx Hte].
  constructor; auto.
  - apply Hs'.
  - intros X. apply Hq' in X; [|reflexivity]. specialize (T4 X). clear -T4 T5 Hs' E4.
    revert x3 E4. induction kids as [|k kids IHk]; cbn; intros ps E; [now injection E as <-|].
    inv_bind E. inv_bind E. injection E as <-. inversion_clear T4. inversion_clear T5. constructor; [|auto].
    now apply (no_igt_quiet k x).
  - clear -IH T5 Hs' E4. revert x3 E4. induction kids as [|k kids IHk]; cbn; intros ps E; [now injection E as <-|].
    inv_bind E. inv_bind E. injection E as <-. inversion_clear IH. inversion_clear T5. constructor; eauto.
Qed.

Lemma good_kid m0 p m k : good m0 p -> p_nsmap p = Some m -> In k (p_kids p) -> good m k.
Proof.
  intros H E. inversion H as [? ? ? ? ? ? ? ? ? ? ? ? ? ? ? Hk|]; subst; [|discriminate].
  injection E as <-. rewrite Forall_forall in Hk. apply Hk.
Qed.
Lemma good_weak m0 m p : good m p -> ext m0 m -> good m0 p.
Proof. intros H He. inversion_clear H; constructor; auto. now apply (ext_trans _ m). Qed.
Lemma good_find m0 p m name k : good m0 p -> p_nsmap p = Some m -> In k (find_kids name p) -> good m k /\ p_tag k = name.
Proof.
  intros H Em Hk. apply filter_In in Hk as [Hk E]. split; [now apply (good_kid m0 p)|]. now apply str_eqb_eq.
Qed.

(* ---------- decoding ---------- *)

(* every object has its own prefixes, which extend those of its parent *)
Inductive nests : dict str -> xtree -> Prop :=
| Nests m0 tag a text kids m : a_nsmap a = Some m -> ext m0 m -> NoDup (map fst m) -> Forall (nests m) kids ->
    nests m0 (XT tag a text kids).
Definition fits (m0 : dict str) (t : xtree) : Prop := (forall outer, tree_ok outer t) /\ nests m0 t.

(* all elements have prefixes *)
Inductive live_above : pelem -> Prop :=
| Live tag d m text tail kids : Forall live_above kids -> live_above (PElem tag d (Some m) text tail kids).

Section Reload.
Context {U : Unicode}.

Lemma decode_attrs_inv id type ig ns p a : decode_attrs id type ig ns p = Ok a ->
  a = {| a_id := id; a_type := type; a_dict := ignoring ig (p_attrib p); a_ns := ns; a_nsmap := p_nsmap p |}
  /\ forall i, id = Some i -> accepted_id i.
Proof.
  unfold decode_attrs. destruct (p_nsmap p) as [m|]; [|discriminate]. destruct id as [i|].
  - destruct (id_accepted i) eqn:E; [|discriminate]. intros H. split; [congruence|]. intros j [= <-]. now apply accepted_p.
  - intros H. split; [congruence|easy].
Qed.
Lemma decode_live id type ig ns p a : decode_attrs id type ig ns p = Ok a -> exists m, p_nsmap p = Some m.
Proof. unfold decode_attrs. destruct (p_nsmap p) as [m|]; [|discriminate]. eauto. Qed.
Lemma ignoring_in ig d k v : In (k, v) (ignoring ig d) -> In (k, v) d /\ ~ In k ig.
Proof.
  unfold ignoring. intros H. apply filter_In in H as [H E]. split; [easy|]. intros Hin. cbn in E.
  apply existsb_in in Hin. now rewrite Hin in E.
Qed.
Lemma ignoring_nodup ig d : NoDup (map fst d) -> NoDup (map fst (ignoring ig d)).
Proof.
  unfold ignoring. induction d as [|[k v] d IH]; cbn [filter map fst]; intros H; [constructor|].
  inversion_clear H as [|? ? Hk Hnd]. destruct (negb _); [|auto]. cbn. constructor; [|auto].
  intros Hin. apply Hk. apply in_map_iff in Hin as (x & <- & Hx). apply filter_In in Hx as [Hx _]. now apply in_map.
Qed.
Lemma ignoring_absent ig d k : In k ig -> ~ In k (map fst (ignoring ig d)).
Proof. intros Hk H. apply in_map_iff in H as ([k' v] & Ek & H). cbn in Ek. subst k'. now apply ignoring_in in H. Qed.
Lemma find_attr (p : pelem) k v : pget k p = Some v -> In (k, v) (p_attrib p).
Proof. intros H. now apply (dget_in str_eqb str_eqb_spec) in H. Qed.

Lemma good_fits m0 p m id type ig ns a tag text kids : good m0 p -> p_nsmap p = Some m -> decode_attrs id type ig ns p = Ok a ->
  (forall i, id = Some i -> pget ID p = Some i /\ In ID ig) -> (forall t, type = Some t -> pget TYPE p = Some t /\ In TYPE ig) ->
  (forall u, ns = Some u -> uri_ok m u) -> ncname tag = true -> text_ok text ->
  Forall (fits m) kids -> fits m0 (XT tag a text kids).
Proof.
  intros Hg Em Ea Hi Ht Hns Htag Htx Hk. apply decode_attrs_inv in Ea as [-> _].
  inversion Hg as [? ptag d m' ptext tail pkids Hx Hm _ Hnd Hd _ _ _ _|]; subst; [|discriminate].
  cbn [p_nsmap p_attrib] in *. injection Em as ->. split.
  - intros outer. constructor; [|easy|easy|].
    + cbn [in_force a_nsmap]. split; [easy|]. cbn [a_dict a_id a_type a_ns]. split; [now apply ignoring_nodup|].
      split; [intros k v H; apply ignoring_in in H as [H _]; now apply Hd|].
      split; [intros i E; destruct (Hi i E) as [H _]; apply find_attr in H; apply (Hd _ _ H)|].
      split; [intros i E; destruct (Ht i E) as [H _]; apply find_attr in H; apply (Hd _ _ H)|].
      split; [|split; [|easy]].
      * intros H. destruct id as [i|]; [|easy]. apply ignoring_absent, (Hi i eq_refl).
      * intros H. destruct type as [i|]; [|easy]. apply ignoring_absent, (Ht i eq_refl).
    + eapply Forall_impl; [|exact Hk]. intros k [H _]. apply H.
  - apply (Nests _ _ _ _ _ m); [easy|easy|apply Hm|]. eapply Forall_impl; [|exact Hk]. now intros k [_ H].
Qed.
Lemma good_plain m0 p m ns a tag text kids : good m0 p -> p_nsmap p = Some m -> p_tag p = tag -> ncname tag = true -> expect_tag tag p = Ok ns ->
  decode_attrs (pget ID p) (pget TYPE p) [ID; TYPE] ns p = Ok a -> text_ok text ->
  Forall (fits m) kids -> fits m0 (XT tag a text kids) /\ plain a.
Proof.
  intros Hg Em Et Hn En Ea Htx Hk.
  assert (ns = None); [|subst ns].
  { unfold expect_tag in En. rewrite Et, qname_plain in En by easy. cbn in En. rewrite str_eqb_refl in En. congruence. }
  split.
  - eapply good_fits; eauto; try easy; intros i E; split; auto; [now left|right; now left].
  - apply decode_attrs_inv in Ea as [-> Hi]. split; [easy|]. split; [easy|]. cbn.
    split; apply ignoring_absent; [now left|right; now left].
Qed.
Lemma split_name m t ns n : name_ok m t -> qname_split t = Ok (ns, n) ->
  ncname n = true /\ (forall u, ns = Some u -> uri_ok m u) /\ (ns = None -> n = t).
Proof.
  intros [H|(u & l & -> & Hl & Hu)] E.
  - rewrite qname_plain in E by easy. injection E as <- <-. easy.
  - rewrite qname_clark in E by apply Hu. injection E as <- <-. split; [easy|]. split; [now intros ? [= <-]|easy].
Qed.
Lemma accepted_parts n : ncname n = true -> name_accepted n = true ->
  exists c r, n = c :: r /\ is_word c = true /\ is_digit c = false
    /\ forall x, In x r -> is_word x = true \/ x = Ch "-" \/ x = Ch ".".
Proof.
  intros Hn H. unfold name_accepted in H. apply orb_prop in H as [H|H].
  - destruct n as [|c r]; [discriminate|]. apply andb_prop in H as [H Hr]. apply andb_prop in H as [H1 H2].
    exists c, r. split; [easy|]. split; [easy|]. split; [now destruct (is_digit c)|].
    intros x Hx. rewrite forallb_forall in Hr. specialize (Hr x Hx). apply orb_prop in Hr as [Hr|Hr]; [|apply N.eqb_eq in Hr; auto].
    apply orb_prop in Hr as [Hr|Hr]; [auto|apply N.eqb_eq in Hr; auto].
  - exfalso. destruct (rev n) as [|c r] eqn:E; [discriminate|]. apply andb_prop in H as [H _]. apply N.eqb_eq in H. subst c.
    apply (ncname_not_in n 10%N); [easy|easy|]. rewrite <- (rev_involutive n), E. cbn. apply in_or_app. right. now left.
Qed.
Lemma meta_text_good m0 p m : good m0 p -> p_nsmap p = Some m -> text_ok (meta_text p) /\ (meta_text p <> None -> ~ blank_text (meta_text p)).
Proof.
  intros H Em. inversion H as [? ? ? ? ? ? ? ? ? ? ? ? Ht ? ? ?|]; subst; [|discriminate]. unfold meta_text. cbn [p_text].
  destruct (blank text) eqn:B; [split; [intros ? [=]|easy]|]. split; [easy|]. intros _. now apply blank_not.
Qed.

Lemma child_good p : forall m0 m, good m0 p -> quiet p -> decode_child p = Ok m ->
  fits m0 (child_tree m) /\ child_ok m /\ child_kept m.
Proof.
  induction p as [tag d nm text tail kids IH] using pelem_rec'. intros m0 m Hg Hq E. cbn [decode_child] in E.
  inv_bind E. destruct x as [ns name]. inv_bind E. inv_bind E.
  destruct (name_accepted name) eqn:En; [|discriminate].
  assert (Ey : m = MChild name x0 (meta_text (PElem tag d nm text tail kids)) x) by congruence. subst m. clear E.
  destruct (decode_live _ _ _ _ _ _ E2) as [m1 Em]. cbn in Em. subst nm. rename m1 into nm.
  assert (Hn : name_ok nm tag) by now inversion Hg.
  destruct (split_name _ _ _ _ Hn E0) as (Hname & Hns & Hpl).
  destruct (meta_text_good _ _ _ Hg eq_refl) as [Ht1 Ht2].
  inversion Hq as [? ? ? ? ? ? Q1 Q2 Q3]; subst.
  assert (F : Forall (fun m => fits nm (child_tree m) /\ child_ok m /\ child_kept m) x).
  { apply (traverse_all decode_child _ kids); [|easy]. intros q y Hin Ey. rewrite Forall_forall in IH, Q3.
    apply (IH q Hin); auto. now apply (good_kid m0 (PElem tag d (Some nm) text tail kids)). }
  split; [|split].
  - cbn [child_tree]. apply (good_fits m0 (PElem tag d (Some nm) text tail kids) nm None None [ID; TYPE] ns); auto; try easy.
    apply Forall_map. eapply Forall_impl; [|exact F]. now intros ? [].
  - apply decode_attrs_inv in E2 as [-> _]. constructor; auto; cbn.
    + intros En'. rewrite (Hpl En'). easy.
    + now apply accepted_parts.
    + eapply Forall_impl; [|exact F]. now intros ? (_ & ? & _).
  - apply decode_attrs_inv in E2 as [-> _]. constructor; auto; cbn [a_dict].
    + apply ignoring_absent. now left.
    + apply ignoring_absent. right. now left.
    + eapply Forall_impl; [|exact F]. now intros ? (_ & _ & ?).
Qed.
Lemma meta_good p m0 m : good m0 p -> p_tag p = L "meta" -> decode_meta p = Ok m ->
  fits m0 (meta_tree m) /\ meta_ok m /\ meta_kept m.
Proof.
  intros Hg Et E. unfold decode_meta in E. do 3 inv_bind E. injection E as <-.
  destruct (decode_live _ _ _ _ _ _ E2) as [nm Em].
  assert (Q : Forall quiet (p_kids p)) by (inversion Hg; subst; cbn in *; [auto|discriminate]).
  assert (F : Forall (fun m => fits nm (child_tree m) /\ child_ok m /\ child_kept m) x0).
  { apply (traverse_all decode_child _ (p_kids p)); [|easy]. intros q y Hin Ey. rewrite Forall_forall in Q.
    apply (child_good q); auto. now apply (good_kid m0 p). }
  destruct (meta_text_good _ _ _ Hg Em) as [Ht1 Ht2].
  destruct (good_plain m0 p nm x x1 (L "meta") (meta_text p) (map child_tree x0)) as [A B]; auto.
  { apply Forall_map. eapply Forall_impl; [|exact F]. now intros ? []. }
  split; [easy|]. split; split; cbn; auto; (eapply Forall_impl; [|exact F]; now intros ? (? & ? & ?)).
Qed.
Lemma container_ids {A} (f : A -> option str) l l' : new_container f l = Ok l' -> l' = l /\ NoDup (some_ids (map f l)).
Proof.
  unfold new_container. intros E. inv_bind E. destruct x. split; [congruence|]. now apply (check_ids_sound _ []).
Qed.
Lemma no_text : text_ok None. Proof. intros ? [=]. Qed.
Lemma metadata_good p m0 m : good m0 p -> p_tag p = L "metadata" -> decode_metadata p = Ok m ->
  fits m0 (metadata_tree m) /\ metadata_ok m /\ Forall meta_kept (md_metas m).
Proof.
  intros Hg Et E. unfold decode_metadata in E. do 4 inv_bind E. injection E as <-.
  apply container_ids in E3 as [-> Hnd]. destruct (decode_live _ _ _ _ _ _ E2) as [nm Em].
  assert (F : Forall (fun m => fits nm (meta_tree m) /\ meta_ok m /\ meta_kept m) x0).
  { apply (traverse_all decode_meta _ (find_kids (L "meta") p)); [|easy]. intros q y Hin Ey.
    destruct (good_find _ _ _ _ _ Hg Em Hin). now apply (meta_good q). }
  destruct (good_plain m0 p nm x x1 (L "metadata") None (map meta_tree x0)) as [A B]; auto using no_text.
  { apply Forall_map. eapply Forall_impl; [|exact F]. now intros ? []. }
  split; [easy|]. split; [split; [easy|split; [|easy]]|]; cbn; (eapply Forall_impl; [|exact F]; now intros ? (? & ? & ?)).
Qed.
Lemma metadatas_good p m0 nm l : good m0 p -> p_nsmap p = Some nm -> decode_metadatas p = Ok l ->
  Forall (fits nm) (map metadata_tree l) /\ metadatas_ok l /\ metadatas_kept l.
Proof.
  intros Hg Em E. unfold decode_metadatas in E. inv_bind E. apply container_ids in E as [-> Hnd].
  assert (F : Forall (fun m => fits nm (metadata_tree m) /\ metadata_ok m /\ Forall meta_kept (md_metas m)) x).
  { apply (traverse_all decode_metadata _ (find_kids (L "metadata") p)); [|easy]. intros q y Hin Ey.
    destruct (good_find _ _ _ _ _ Hg Em Hin). now apply (metadata_good q). }
  split; [apply Forall_map; eapply Forall_impl; [|exact F]; now intros ? []|].
  split; [split; [|easy]|]; (eapply Forall_impl; [|exact F]; now intros ? (? & ? & ?)).
Qed.
Lemma item_good p m0 i : good m0 p -> p_tag p = L "item" -> decode_item p = Ok i ->
  fits m0 (item_tree i) /\ item_ok i /\ it_text i <> Some [].
Proof.
  intros Hg Et E. unfold decode_item in E. do 2 inv_bind E. injection E as <-.
  destruct (decode_live _ _ _ _ _ _ E1) as [nm Em].
  assert (T : text_ok (p_text p) /\ p_text p <> Some []) by (inversion Hg; subst; [easy|discriminate]). destruct T as [T1 T2].
  destruct (good_plain m0 p nm x x0 (L "item") (p_text p) []) as [A B]; auto.
Qed.
Lemma tier_good p m0 t : good m0 p -> p_tag p = L "tier" -> decode_tier p = Ok t ->
  fits m0 (tier_tree t) /\ tier_ok t /\ tier_kept t.
Proof.
  intros Hg Et E. unfold decode_tier in E. do 5 inv_bind E. injection E as <-. apply container_ids in E4 as [-> Hnd].
  destruct (decode_live _ _ _ _ _ _ E3) as [nm Em]. destruct (metadatas_good _ _ _ _ Hg Em E1) as (M1 & M2 & M3).
  assert (F : Forall (fun i => fits nm (item_tree i) /\ item_ok i /\ it_text i <> Some []) x1).
  { apply (traverse_all decode_item _ (find_kids (L "item") p)); [|easy]. intros q y Hin Ey.
    destruct (good_find _ _ _ _ _ Hg Em Hin). now apply (item_good q). }
  destruct (good_plain m0 p nm x x2 (L "tier") None (map metadata_tree x0 ++ map item_tree x1)) as [A B]; auto using no_text.
  { apply Forall_app. split; [easy|]. apply Forall_map. eapply Forall_impl; [|exact F]. now intros ? []. }
  split; [easy|]. split; [split; [easy|split; [easy|split; [|easy]]]|split; [easy|]]; cbn;
    (eapply Forall_impl; [|exact F]; now intros ? (? & ? & ?)).
Qed.
Lemma igt_good p m0 g : good m0 p -> p_tag p = L "igt" -> decode_igt p = Ok g ->
  fits m0 (igt_tree g) /\ igt_ok g /\ metadatas_kept (g_md g) /\ Forall tier_kept (g_tiers g).
Proof.
  intros Hg Et E. unfold decode_igt in E. do 5 inv_bind E. injection E as <-. apply container_ids in E4 as [-> Hnd].
  destruct (decode_live _ _ _ _ _ _ E3) as [nm Em]. destruct (metadatas_good _ _ _ _ Hg Em E1) as (M1 & M2 & M3).
  assert (F : Forall (fun i => fits nm (tier_tree i) /\ tier_ok i /\ tier_kept i) x1).
  { apply (traverse_all decode_tier _ (find_kids (L "tier") p)); [|easy]. intros q y Hin Ey.
    destruct (good_find _ _ _ _ _ Hg Em Hin). now apply (tier_good q). }
  destruct (good_plain m0 p nm x x2 (L "igt") None (map metadata_tree x0 ++ map tier_tree x1)) as [A B]; auto using no_text.
  { apply Forall_app. split; [easy|]. apply Forall_map. eapply Forall_impl; [|exact F]. now intros ? []. }
  split; [easy|]. split; [split; [easy|split; [easy|split; [|easy]]]|split; [easy|]]; cbn;
    (eapply Forall_impl; [|exact F]; now intros ? (? & ? & ?)).
Qed.
Lemma corpus_good p m0 gs c : good m0 p -> p_tag p = L "xigt-corpus" ->
  (forall m, p_nsmap p = Some m -> Forall (fun q => good m q /\ p_tag q = L "igt") gs) -> decode_xigtcorpus p gs = Ok c ->
  fits m0 (corpus_tree c) /\ corpus_ok c /\ corpus_kept c.
Proof.
  intros Hg Et Hgs E. unfold decode_xigtcorpus in E. do 5 inv_bind E. injection E as <-. apply container_ids in E4 as [-> Hnd].
  destruct (decode_live _ _ _ _ _ _ E2) as [nm Em]. destruct (metadatas_good _ _ _ _ Hg Em E1) as (M1 & M2 & M3).
  assert (x = None); [|subst x].
  { unfold expect_tag in E0. rewrite Et, qname_plain in E0 by easy. cbn [bind] in E0. rewrite str_eqb_refl in E0. congruence. }
  assert (F : Forall (fun g => fits nm (igt_tree g) /\ igt_ok g /\ metadatas_kept (g_md g) /\ Forall tier_kept (g_tiers g)) x2).
  { apply (traverse_all decode_igt _ gs); [|easy]. intros q y Hin Ey. specialize (Hgs nm Em). rewrite Forall_forall in Hgs.
    destruct (Hgs _ Hin). now apply (igt_good q). }
  split; [|split].
  - unfold corpus_tree. cbn [c_attrs c_md c_igts].
    apply (good_fits m0 p nm (pget ID p) None [ID] None); auto using no_text; try easy.
    + intros i Ei. split; [easy|now left].
    + apply Forall_app. split; [easy|]. apply Forall_map. eapply Forall_impl; [|exact F]. now intros ? [].
  - apply decode_attrs_inv in E2 as [-> Hi]. split; [easy|]. split; [easy|]. cbn.
    split; [apply ignoring_absent; now left|]. split; [easy|]. split; [|easy].
    eapply Forall_impl; [|exact F]. now intros ? (? & ? & ?).
  - apply decode_attrs_inv in E2 as [-> Hi]. split; [easy|]. split; [easy|]. cbn.
    eapply Forall_impl; [|exact F]. now intros ? (? & ? & ?).
Qed.

(* the events *)
Lemma events_good p : forall m0 q, good m0 p -> In (EvEnd q) (events p) -> live_above p -> good m0 q.
Proof.
  induction p as [tag d nm text tail kids IH] using pelem_rec'. intros m0 q Hg H Hl. rewrite events_eq in H.
  destruct H as [H|H]; [discriminate|]. apply in_app_or in H as [H|[H|[]]].
  - apply in_flat_map in H as (k & Hk & H). rewrite Forall_forall in IH. destruct nm as [nm|].
    + apply (good_weak m0 nm); [|now inversion Hg]. apply (IH k Hk); auto; [now apply (good_kid m0 (PElem tag d (Some nm) text tail kids))|].
      inversion_clear Hl as [? ? ? ? ? ? F]. rewrite Forall_forall in F. now apply F.
    + inversion Hl.
  - now injection H as <-.
Qed.
Lemma iter_in tag stop evs : forall l, iter_elements tag stop evs = Some l ->
  Forall (fun q => In (EvEnd q) evs /\ p_tag q = tag) l.
Proof.
  induction evs as [|e evs IH]; cbn [iter_elements]; intros l E; [discriminate|].
  destruct (stop e); [injection E as <-; constructor|].
  assert (W : forall l', iter_elements tag stop evs = Some l' -> Forall (fun q => In (EvEnd q) (e :: evs) /\ p_tag q = tag) l').
  { intros l' E'. eapply Forall_impl; [|exact (IH _ E')]. intros q [H ?]. split; [now right|easy]. }
  destruct e as [p|p]; [now apply W|]. destruct (str_eqb_spec (p_tag p) tag) as [Ht|_]; [|now apply W].
  destruct (iter_elements tag stop evs) as [l'|] eqn:E'; [|discriminate]. injection E as <-. constructor; [|now apply W].
  split; [now left|easy].
Qed.
Lemma skip_incl stop evs e rest : skip_to stop evs = Some (e, rest) -> incl rest evs.
Proof.
  induction evs as [|x evs IH]; cbn [skip_to]; [discriminate|]. destruct (stop x).
  - intros [= <- <-] y Hy. now right.
  - intros E y Hy. right. now apply IH.
Qed.
Lemma view_quiet c a p : forall s, quiet p -> quiet (view c a s p).
Proof.
  induction p as [tag d m text tail kids IH] using pelem_rec'. intros s H. inversion_clear H as [? ? ? ? ? ? H1 H2 Hk].
  rewrite view_eq. constructor; auto. generalize (S s) as s'. induction kids as [|k kids IHk]; intros s'; cbn [views]; [constructor|].
  inversion_clear IH. inversion_clear Hk. destruct (s' <? a); constructor; auto.
Qed.
Lemma views_quiet c a l s : Forall quiet l -> Forall quiet (views c a s l).
Proof.
  intros H. revert s. induction H; intros s; cbn [views]; [constructor|]. destruct (s <? a); constructor; auto using view_quiet.
Qed.
Lemma view_good c a p : forall s m0, good m0 p -> good m0 (view c a s p).
Proof.
  induction p as [tag d m text tail kids IH] using pelem_rec'. intros s m0 H. rewrite view_eq.
  inversion H as [? ? ? nm ? ? ? ? ? ? ? ? ? ? ? Hk|]; subst; [|destruct (s <? c); constructor].
  destruct (s <? c); [|constructor]. constructor; auto.
  - destruct (S s <? a); [easy|]. intros ? [=].
  - destruct (S s <? a); easy.
  - intros E. apply views_quiet. auto.
  - clear -IH Hk. generalize (S s) as s'. induction kids as [|k kids IHk]; intros s'; cbn [views]; [constructor|].
    inversion_clear IH. inversion_clear Hk. destruct (s' <? a); constructor; auto.
Qed.
Lemma scrub_good p : forall m0, good m0 p -> good m0 (scrub p).
Proof.
  induction p as [tag d m text tail kids IH] using pelem_rec'. intros m0 H. cbn [scrub].
  destruct (str_eqb tag (L "igt")); [constructor|].
  inversion H as [? ? ? nm ? ? ? ? ? ? ? ? ? ? Hq Hk|]; subst; [|constructor]. constructor; auto.
  - intros E. specialize (Hq E). apply Forall_map. eapply Forall_impl; [|exact Hq]. intros k Hk'. now rewrite quiet_scrub.
  - apply Forall_map. rewrite Forall_forall in *. auto.
Qed.
Lemma at_end_good p m0 : good m0 p -> good m0 (at_end p).
Proof.
  destruct p as [tag d m text tail kids]. intros H. cbn [at_end].
  inversion H as [? ? ? nm ? ? ? ? ? ? ? ? ? ? Hq Hk|]; subst; [|constructor]. constructor; auto.
  - intros E. specialize (Hq E). apply Forall_map. eapply Forall_impl; [|exact Hq]. intros k Hk'. now rewrite quiet_scrub.
  - apply Forall_map. rewrite Forall_forall in *. auto using scrub_good.
Qed.
Lemma spend_in n : forall evs q, In (EvEnd q) (spend n evs) -> In (EvEnd q) evs \/ p_nsmap q = None.
Proof.
  induction n as [|n IH]; intros [|[p|p] evs] q H; cbn in H; auto.
  - destruct H as [H|H]; [|left; now right]. right. injection H as <-. now destruct p.
  - destruct H as [H|H]; [left; now left|]. destruct (IH _ _ H); [left; now right|now right].
  - destruct H as [H|H]; [left; now left|]. destruct (IH _ _ H); [left; now right|now right].
Qed.
Lemma decode_elements {A} (mk : pelem -> list pelem -> res A) ahead p m0 c : good m0 p -> live_above p -> p_tag p = L "xigt-corpus" ->
  decode_with mk ahead p = Ok c ->
  exists seen gs, mk seen gs = Ok c /\ good m0 seen /\ p_tag seen = L "xigt-corpus"
    /\ forall m, p_nsmap seen = Some m -> Forall (fun q => good m q /\ p_tag q = L "igt") gs.
Proof.
  intros Hg Hl Et E. unfold decode_with in E. fold stop_at in E. cbv zeta in E.
  destruct (skip_to stop_at (events p)) as [[[g|g] rest]|] eqn:Es; [| |discriminate];
    set (seen := view _ _ 0 p) in E;
    (assert (Hv : good m0 seen) by now apply view_good);
    (assert (Ev : p_tag seen = L "xigt-corpus") by (unfold seen; now rewrite view_tag)).
  - set (rest' := if igt_in_meta p then _ else rest) in E.
    destruct (iter_elements _ _ rest') as [gs|] eqn:Ei; [|discriminate].
    assert (Hn : forall m, p_nsmap seen = Some m -> p_nsmap p = Some m).
    { unfold seen. destruct p as [tag d nm text tail kids]. generalize (length (events (PElem tag d nm text tail kids)) - length rest). intros n. rewrite view_eq. cbn [p_nsmap]. now destruct (0 <? n). }
    exists seen, (map at_end gs). split; [exact E|split; [easy|split; [easy|]]]. intros m Hm. apply Hn in Hm. apply Forall_map.
    apply iter_in in Ei. eapply Forall_impl; [|exact Ei]. intros q [Hq Htq]. split; [|now destruct q].
    assert (Hq' : In (EvEnd q) rest \/ p_nsmap q = None).
    { unfold rest' in Hq. destruct (igt_in_meta p); [now apply spend_in in Hq|now left]. }
    destruct Hq' as [Hq'|Hq']; [|destruct q as [tag d nm text tail kids]; cbn in Hq'; subst nm; constructor].
    apply at_end_good. clear Hq. rename Hq' into Hq.
    apply (skip_incl _ _ _ _ Es) in Hq. destruct p as [tag d nm text tail kids]. rewrite events_eq in Hq.
    cbn in Hm. subst nm. destruct Hq as [Hq|Hq]; [discriminate|]. apply in_app_or in Hq as [Hq|[Hq|[]]].
    + apply in_flat_map in Hq as (k & Hk & Hq). apply (events_good k); auto.
      * now apply (good_kid m0 (PElem tag d (Some m) text tail kids)).
      * inversion_clear Hl as [? ? ? ? ? ? F]. rewrite Forall_forall in F. now apply F.
    + injection Hq as <-. cbn in Et, Htq. subst tag. discriminate.
  - exists seen, (find_kids (L "igt") seen). split; [exact E|split; [easy|split; [easy|]]].
    intros m Hm. apply Forall_forall. intros q Hq. now apply (good_find m0 seen).
Qed.
Lemma decode_good ahead p m0 c : good m0 p -> live_above p -> p_tag p = L "xigt-corpus" -> decode ahead p = Ok c ->
  fits m0 (corpus_tree c) /\ corpus_ok c /\ corpus_kept c.
Proof.
  intros Hg Hl Et E. destruct (decode_elements _ ahead p m0 c Hg Hl Et E) as (seen & gs & E' & Hv & Ev & H). now apply (corpus_good seen m0 gs).
Qed.
Lemma reread_live e : forall scope p, reread scope e = Ok p -> live_above p.
Proof.
  induction e as [tag d text tail kids IH] using xelem_rec'. intros scope p E.
  cbn [reread] in E. do 6 inv_bind E. injection E as <-. constructor.
  clear -IH E4. revert x3 E4. induction kids as [|k kids IHk]; cbn; intros ps E; [now injection E as <-|].
  inv_bind E. inv_bind E. injection E as <-. inversion_clear IH. constructor; eauto.
Qed.
Lemma load_good ahead e c : tidy_document e -> xml_load ahead e = Ok c -> fits [] (corpus_tree c) /\ corpus_ok c /\ corpus_kept c.
Proof.
  intros [Ht Etag] E. unfold xml_load in E. inv_bind E.
  assert (Hs : scope_ok []) by (split; [split; [constructor|easy]|easy]).
  apply (decode_good ahead x []); [now apply (reread_good e)|now apply (reread_live e [])| |easy].
  destruct e as [tag d text tail kids]. cbn [x_tag] in Etag. inversion_clear Ht as [? ? ? ? ? T1 T2 T3 T4 T5].
  cbn [reread] in E0. inv_bind E0. inv_bind E0. inv_bind E0. inv_bind E0. inv_bind E0. inv_bind E0. injection E0 as <-.
  destruct (read_decls_scope _ _ _ E1 T1 T2 Hs) as [Hs' _]. destruct (read_tag _ _ _ Hs' T3 E2) as [_ Hq].
  cbn. now apply Hq.
Qed.

(* ---------- reading what is written ---------- *)

Inductive nsm : xtree -> pelem -> Prop :=
| Nsm tag a text kids tag' d m text' tail ks : a_nsmap a = Some m -> Forall2 nsm kids ks ->
    nsm (XT tag a text kids) (PElem tag' d (Some m) text' tail ks).
Lemma ns_out t : forall m0 outer e e' p, nests m0 t -> tree_ok outer t -> dget m0 [] = None ->
  build_tree outer m0 t = Ok e -> dressed e e' -> reread m0 e' = Ok p -> nsm t p.
Proof.
  induction t as [tag a text kids IH] using xtree_rec'. intros m0 outer e e' p Hn Ht H0 Eb Hd Er.
  inversion Hn as [? ? ? ? ? m Ea Hx Hnd Hnk]; subst. inversion_clear Ht as [? ? ? ? ? Ha Htag Htx Hk].
  cbn [build_tree] in Eb. cbv zeta in Eb. change (eff a outer) with (in_force a outer) in Eb.
  assert (Em : in_force a outer = m) by (unfold in_force; now rewrite Ea). rewrite Em in *.
  rewrite build_elem_out in Eb by easy. cbn [bind] in Eb. inv_bind Eb. injection Eb as <-.
  inversion Hd as [? ? ? text' ? tail' ? kids' Hdk Ht' Htl]; subst.
  destruct (read_elem_out (in_force a outer) m0 m0 a tag Ha Htag) as (Rd & _ & _); [easy|easy|]. cbv zeta in Rd.
  rewrite new_scope_ext in Rd by easy. cbn [reread] in Er. rewrite Rd in Er. cbn [bind] in Er.
  do 5 inv_bind Er. injection Er as <-. constructor; [easy|].
  assert (H0' : dget (in_force a outer) [] = None).
  { rewrite <- (new_scope_ext _ _ Hx Hnd). now apply new_scope_default; [apply Ha|]. }
  clear -IH Hnk Hk H0' E Hdk E3. set (m := in_force a outer) in *. clearbody m. rename x into es, x3 into ps.
  revert es kids' ps E Hdk E3. induction kids as [|k kids IHk]; cbn; intros es kids' ps E Hdk E3.
  - injection E as <-. inversion Hdk; subst. cbn in E3. injection E3 as <-. constructor.
  - inv_bind E. inv_bind E. injection E as <-. inversion Hdk as [|? k' ? kids'' D1 D2]; subst. cbn in E3.
    inv_bind E3. inv_bind E3. injection E3 as <-. inversion_clear IH as [|? ? IH1 IH2].
    inversion_clear Hnk as [|? ? N1 N2]. inversion_clear Hk as [|? ? K1 K2]. constructor; [|now apply (IHk IH2 N2 K2 x0 kids'')].
    now apply (IH1 m m x k').
Qed.

(* decoding, with the prefixes *)
Lemma F2_len {A B} (R : A -> B -> Prop) l l' : Forall2 R l l' -> length l = length l'.
Proof. induction 1; cbn; congruence. Qed.
Lemma app_inj_len {A} (a a' b b' : list A) : a ++ b = a' ++ b' -> length a = length a' -> a = a' /\ b = b'.
Proof.
  revert a'. induction a as [|x a IH]; intros [|x' a']; cbn; try easy. intros [= <- E] [= El].
  destruct (IH a' E El) as [-> ->]. easy.
Qed.
Lemma traverse_exact {A} (tr : A -> xtree) (dec : pelem -> res A) l : forall ps ys,
  Forall2 mirrors (map tr l) ps -> Forall2 nsm (map tr l) ps -> traverse dec ps = Ok ys ->
  (forall x p y, In x l -> mirrors (tr x) p -> nsm (tr x) p -> dec p = Ok y -> y = x) -> ys = l.
Proof.
  induction l as [|x l IH]; cbn [map]; intros ps ys Hm Hn E H; inversion Hm as [|? p ? ps' M1 M2]; subst.
  - cbn in E. now injection E as <-.
  - inversion_clear Hn as [|? ? ? ? N1 N2]. cbn in E. inv_bind E. inv_bind E. injection E as <-. f_equal.
    + apply (H x p); auto. now left.
    + apply (IH ps'); auto. intros z q y Hz. apply H. now right.
Qed.
Lemma attrs_exact tag a text kids p id type ig a' : mirrors (XT tag a text kids) p -> nsm (XT tag a text kids) p ->
  decode_attrs id type ig (a_ns a) p = Ok a' -> id = a_id a -> type = a_type a -> ignoring ig (shown_attrs a) = a_dict a -> a' = a.
Proof.
  intros Hm Hn E Ei Et Ed. apply decode_attrs_inv in E as [-> _].
  inversion Hm as [? ? ? ? m text' tail ks Hs Hk]; subst. inversion Hn as [? ? ? ? ? ? ? ? ? ? En _]; subst.
  cbn [p_attrib p_nsmap]. rewrite Ed, <- En. now destruct a.
Qed.
Lemma plain_exact outer tag a text kids p ns a' : tree_ok outer (XT tag a text kids) -> mirrors (XT tag a text kids) p ->
  nsm (XT tag a text kids) p -> plain a -> expect_tag tag p = Ok ns ->
  decode_attrs (pget ID p) (pget TYPE p) [ID; TYPE] ns p = Ok a' -> a' = a.
Proof.
  intros Ht Hm Hn Hp Et Ed. destruct (plain_elem _ _ _ _ _ _ Ht Hm Hp) as (E & _ & _).
  rewrite E in Et. injection Et as <-. destruct Hp as (Hns & Hid & Hid' & Hty).
  assert (Ea : p_attrib p = shown_attrs a) by now inversion Hm.
  apply (attrs_exact tag a text kids p (pget ID p) (pget TYPE p) [ID; TYPE]); auto.
  - now rewrite Hns.
  - unfold pget. rewrite Ea. now apply shown_id.
  - unfold pget. rewrite Ea. now apply shown_type.
  - now apply shown_ignored.
Qed.
Lemma child_exact m : forall outer p y, tree_ok outer (child_tree m) -> child_ok m -> child_kept m ->
  mirrors (child_tree m) p -> nsm (child_tree m) p -> decode_child p = Ok y -> y = m.
Proof.
  induction m as [n a t kids IH] using mchild_rec'. intros outer p y Ht Hc Hk Hm Hn E. cbn [child_tree] in *.
  pose proof (tree_kids _ _ _ _ _ Ht) as Hkids. inversion_clear Ht as [? ? ? ? ? Ha Hname Htx _].
  inversion_clear Hc as [? ? ? ? Hid Hty Hnm Hacc Hck]. inversion_clear Hk as [? ? ? ? K1 K2 K3 K4].
  inversion Hm as [? ? ? ? ms text' tail ps Hsh HF]; subst. inversion Hn as [? ? ? ? ? ? ? ? ? ? En NF]; subst.
  cbn [decode_child] in E. rewrite (qname_full_tag _ _ _ Ha Hname) in E. cbn [bind] in E. inv_bind E. inv_bind E.
  rewrite name_accepted_ok in E by easy. set (p := PElem _ _ _ _ _ _) in *.
  assert (Ey : y = MChild n x0 (meta_text p) x) by congruence. clear E. subst y. f_equal.
  - apply (attrs_exact n a t (map child_tree kids) p None None [ID; TYPE]); auto. now apply shown_ignored.
  - rewrite (meta_text_ok _ t p Hsh). now apply nonblank_kept.
  - apply (traverse_exact child_tree decode_child kids ps); auto. rewrite Forall_forall in IH, Hck, K4. intros c q y Hx Hq Hqn Ey.
    apply (IH c Hx (in_force a outer) q); auto. apply Hkids. now apply in_map.
Qed.
Lemma meta_exact outer m p y : tree_ok outer (meta_tree m) -> meta_ok m -> meta_kept m ->
  mirrors (meta_tree m) p -> nsm (meta_tree m) p -> decode_meta p = Ok y -> y = m.
Proof.
  intros Ht (Hp & Hk) (Hkt & Hkk) Hm Hn E. pose proof (tree_kids _ _ _ _ _ Ht) as Hkids.
  unfold decode_meta in E. do 3 inv_bind E. injection E as <-.
  assert (Ea := plain_exact _ _ _ _ _ _ _ _ Ht Hm Hn Hp E0 E2). subst x1.
  inversion Hm as [? ? ? ? ms text' tail ps Hsh HF]; subst. inversion Hn as [? ? ? ? ? ? ? ? ? ? En NF]; subst. cbn [p_kids] in E1.
  rewrite (traverse_exact child_tree decode_child (me_kids m) ps x0); auto.
  - erewrite meta_text_ok by exact Hsh. rewrite nonblank_kept by easy. now destruct m.
  - rewrite Forall_forall in Hk, Hkk. intros c q y Hx Hq Hqn Ey. apply (child_exact c (in_force (me_attrs m) outer) q); auto.
    apply Hkids. now apply in_map.
Qed.
Lemma metadata_exact outer m p y : tree_ok outer (metadata_tree m) -> metadata_ok m -> Forall meta_kept (md_metas m) ->
  mirrors (metadata_tree m) p -> nsm (metadata_tree m) p -> decode_metadata p = Ok y -> y = m.
Proof.
  intros Ht (Hp & Hk & Hnd) Hkk Hm Hn E. pose proof (tree_kids _ _ _ _ _ Ht) as Hkids.
  unfold decode_metadata in E. do 4 inv_bind E. injection E as <-. apply container_ids in E3 as [-> _].
  assert (Ea := plain_exact _ _ _ _ _ _ _ _ Ht Hm Hn Hp E0 E2). subst x1.
  inversion Hm as [? ? ? ? ms text' tail ps Hsh HF]; subst. inversion Hn as [? ? ? ? ? ? ? ? ? ? En NF]; subst.
  rewrite Forall_forall in Hk, Hkk.
  unfold find_kids in E1. cbn [p_kids] in E1. rewrite filter_tag_all in E1.
  2:{ apply (find_tagged meta_tree _ (md_metas m)); [easy|]. intros z Hz. do 3 eexists. split; [reflexivity|]. apply (Hk z Hz). }
  rewrite (traverse_exact meta_tree decode_meta (md_metas m) ps x0); auto; [now destruct m|].
  intros c q y Hx Hq Hqn Ey. apply (meta_exact (in_force (md_attrs m) outer) c q); auto. apply Hkids. now apply in_map.
Qed.
Lemma metadatas_exact outer l p ps rest y : (forall k, In k (map metadata_tree l) -> tree_ok outer k) -> metadatas_ok l ->
  metadatas_kept l -> p_kids p = ps ++ rest -> Forall2 mirrors (map metadata_tree l) ps -> Forall2 nsm (map metadata_tree l) ps ->
  filter (fun k => str_eqb (p_tag k) (L "metadata")) rest = [] -> decode_metadatas p = Ok y -> y = l.
Proof.
  intros Hkids Hl Hkk Ep HF NF Hr E. unfold decode_metadatas in E. inv_bind E. apply container_ids in E as [-> _].
  unfold find_kids in E0. rewrite Ep, filter_app, Hr, app_nil_r, filter_tag_all in E0 by now apply (metadatas_tags l).
  destruct Hl as [Hk _]. unfold metadatas_kept in Hkk. rewrite Forall_forall in Hk, Hkk.
  apply (traverse_exact metadata_tree decode_metadata l ps); auto.
  intros c q y Hx Hq Hqn Ey. apply (metadata_exact outer c q); auto. apply Hkids. now apply in_map.
Qed.
Lemma item_exact outer i p y : tree_ok outer (item_tree i) -> item_ok i -> it_text i <> Some [] ->
  mirrors (item_tree i) p -> nsm (item_tree i) p -> decode_item p = Ok y -> y = i.
Proof.
  intros Ht Hp Hkt Hm Hn E. unfold decode_item in E. do 2 inv_bind E. injection E as <-.
  assert (Ea := plain_exact _ _ _ _ _ _ _ _ Ht Hm Hn Hp E0 E1). subst x0.
  inversion Hm as [? ? ? ? ms text' tail ps Hsh HF]; subst. cbn in Hsh. cbn [p_text]. rewrite Hsh.
  destruct i as [a [[|]|]]; easy.
Qed.
Lemma two_kinds {A} (tr : A -> xtree) tag md l ps1 ps2 : Forall2 mirrors (map metadata_tree md) ps1 -> metadatas_ok md ->
  Forall2 mirrors (map tr l) ps2 -> (forall x, In x l -> exists a text kids, tr x = XT tag a text kids /\ a_ns a = None) ->
  tag <> L "metadata" -> filter (fun k => str_eqb (p_tag k) (L "metadata")) ps2 = []
  /\ filter (fun k => str_eqb (p_tag k) tag) (ps1 ++ ps2) = ps2.
Proof.
  intros H1 Hmd H2 Ht Hn. assert (T2 := find_tagged tr tag l ps2 H2 Ht). assert (T1 := metadatas_tags _ _ Hmd H1). split.
  - now apply (filter_tag_none tag).
  - rewrite filter_app, (filter_tag_none (L "metadata")), filter_tag_all; auto.
Qed.
Lemma tier_exact outer t p y : tree_ok outer (tier_tree t) -> tier_ok t -> tier_kept t ->
  mirrors (tier_tree t) p -> nsm (tier_tree t) p -> decode_tier p = Ok y -> y = t.
Proof.
  intros Ht (Hp & Hmd & Hk & Hnd) (Hkm & Hkk) Hm Hn E. pose proof (tree_kids _ _ _ _ _ Ht) as Hkids.
  unfold decode_tier in E. do 5 inv_bind E. injection E as <-. apply container_ids in E4 as [-> _].
  assert (Ea := plain_exact _ _ _ _ _ _ _ _ Ht Hm Hn Hp E0 E3). subst x2.
  inversion Hm as [? ? ? ? ms text' tail ps Hsh HF]; subst. inversion Hn as [? ? ? ? ? ? ? ? ? ? En NF]; subst.
  apply Forall2_app_inv_l in HF as (ps1 & ps2 & HF1 & HF2 & ->). rewrite Forall_forall in Hk, Hkk.
  apply Forall2_app_inv_l in NF as (qs1 & qs2 & NF1 & NF2 & Eq).
  assert (L1 : length ps1 = length qs1) by (apply F2_len in HF1, NF1; congruence).
  apply app_inj_len in Eq as [<- <-]; [|easy].
  destruct (two_kinds item_tree (L "item") (t_md t) (t_items t) ps1 ps2) as [F1 F2]; auto; try easy.
  { intros z Hz. do 3 eexists. split; [reflexivity|]. apply (Hk z Hz). }
  assert (Emd : x0 = (t_md t)).
  { eapply (metadatas_exact (in_force (t_attrs t) outer)); try eassumption; [|reflexivity]. intros k Hin. apply Hkids, in_or_app. now left. }
  subst x0.
  unfold find_kids in E2. cbn [p_kids] in E2. rewrite F2 in E2.
  rewrite (traverse_exact item_tree decode_item (t_items t) ps2 x1); auto; [now destruct t|].
  intros c q y Hx Hq Hqn Ey. apply (item_exact (in_force (t_attrs t) outer) c q); auto. apply Hkids, in_or_app. right. now apply in_map.
Qed.
Lemma igt_exact outer g p y : tree_ok outer (igt_tree g) -> igt_ok g -> metadatas_kept (g_md g) /\ Forall tier_kept (g_tiers g) ->
  mirrors (igt_tree g) p -> nsm (igt_tree g) p -> decode_igt p = Ok y -> y = g.
Proof.
  intros Ht (Hp & Hmd & Hk & Hnd) (Hkm & Hkk) Hm Hn E. pose proof (tree_kids _ _ _ _ _ Ht) as Hkids.
  unfold decode_igt in E. do 5 inv_bind E. injection E as <-. apply container_ids in E4 as [-> _].
  assert (Ea := plain_exact _ _ _ _ _ _ _ _ Ht Hm Hn Hp E0 E3). subst x2.
  inversion Hm as [? ? ? ? ms text' tail ps Hsh HF]; subst. inversion Hn as [? ? ? ? ? ? ? ? ? ? En NF]; subst.
  apply Forall2_app_inv_l in HF as (ps1 & ps2 & HF1 & HF2 & ->). rewrite Forall_forall in Hk, Hkk.
  apply Forall2_app_inv_l in NF as (qs1 & qs2 & NF1 & NF2 & Eq).
  assert (L1 : length ps1 = length qs1) by (apply F2_len in HF1, NF1; congruence).
  apply app_inj_len in Eq as [<- <-]; [|easy].
  destruct (two_kinds tier_tree (L "tier") (g_md g) (g_tiers g) ps1 ps2) as [F1 F2]; auto; try easy.
  { intros z Hz. do 3 eexists. split; [reflexivity|]. apply (Hk z Hz). }
  assert (Emd : x0 = (g_md g)).
  { eapply (metadatas_exact (in_force (g_attrs g) outer)); try eassumption; [|reflexivity]. intros k Hin. apply Hkids, in_or_app. now left. }
  subst x0.
  unfold find_kids in E2. cbn [p_kids] in E2. rewrite F2 in E2.
  rewrite (traverse_exact tier_tree decode_tier (g_tiers g) ps2 x1); auto; [now destruct g|].
  intros c q y Hx Hq Hqn Ey. apply (tier_exact (in_force (g_attrs g) outer) c q); auto. apply Hkids, in_or_app. right. now apply in_map.
Qed.
Lemma corpus_exact ahead c p y : tree_ok [] (corpus_tree c) -> corpus_ok c -> corpus_kept c ->
  mirrors (corpus_tree c) p -> nsm (corpus_tree c) p -> decode ahead p = Ok y -> y = c.
Proof.
  intros Ht (Hns & Hid & Hid' & Hmd & Hk & Hnd) (Hty & Hkm & Hkk) Hm Hn E. pose proof (tree_kids _ _ _ _ _ Ht) as Hkids.
  inversion Hm as [? ? ? ? ms text' tail ps Hsh HF]; subst. inversion Hn as [? ? ? ? ? ? ? ? ? ? En NF]; subst.
  apply Forall2_app_inv_l in HF as (ps1 & ps2 & HF1 & HF2 & ->). rewrite Forall_forall in Hk, Hkk.
  apply Forall2_app_inv_l in NF as (qs1 & qs2 & NF1 & NF2 & Eq).
  assert (L1 : length ps1 = length qs1) by (apply F2_len in HF1, NF1; congruence).
  apply app_inj_len in Eq as [<- <-]; [|easy]. set (p := PElem _ _ _ _ _ _) in *.
  destruct (two_kinds igt_tree (L "igt") (c_md c) (c_igts c) ps1 ps2) as [F1 F2]; auto; try easy.
  { intros z Hz. do 3 eexists. split; [reflexivity|]. apply (Hk z Hz). }
  rewrite (decode_igts ahead p ps1 ps2) in E; auto.
  - unfold decode_xigtcorpus in E. do 5 inv_bind E. injection E as <-. apply container_ids in E4 as [-> _].
    assert (x = None); [|subst x].
    { unfold expect_tag in E0. cbn [p_tag p] in E0. rewrite Hns in E0. cbn [full_tag] in E0.
      rewrite qname_plain in E0 by easy. cbn [bind] in E0. rewrite str_eqb_refl in E0. congruence. }
    assert (Emd : x0 = (c_md c)).
  { eapply (metadatas_exact (in_force (c_attrs c) [])); try eassumption; [|reflexivity]. intros k Hin. apply Hkids, in_or_app. now left. }
  subst x0.
    assert (x1 = c_attrs c); [|subst x1].
    { apply (attrs_exact (L "xigt-corpus") (c_attrs c) None (map metadata_tree (c_md c) ++ map igt_tree (c_igts c)) p (pget ID p) None [ID]); auto.
      - now rewrite Hns.
      - unfold pget. cbn [p_attrib p]. now apply shown_id.
      - rewrite (shown_ignored_id (c_attrs c) Hid'). rewrite Hty. reflexivity. }
    rewrite (traverse_exact igt_tree decode_igt (c_igts c) ps2 x2); auto; [now destruct c|].
    intros g q y Hx Hq Hqn Ey. apply (igt_exact (in_force (c_attrs c) []) g q); auto. apply Hkids, in_or_app. right. now apply in_map.
  - cbn [p_tag p]. now rewrite Hns.
  - now apply (metadatas_quiet (c_md c)).
  - clear -HF2 Hk. revert ps2 HF2. induction (c_igts c) as [|g gs IH]; cbn; intros ps HF; inversion HF; subst; constructor.
    + apply (igt_quiet g); auto. apply Hk. now left.
    + apply IH; auto. intros x Hx. apply Hk. now right.
  - now apply (metadatas_tags (c_md c)).
Qed.

(* what is saved of such a corpus loads as the very same corpus *)
Lemma dump_load c indent : fits [] (corpus_tree c) -> corpus_ok c -> corpus_kept c ->
  exists e', xml_dump c indent = Ok e' /\ forall ahead', xml_load ahead' e' = Ok c.
Proof.
  intros [Ht Hn] Hc Hk. specialize (Ht []).
  destruct (tree_out _ [] [] [] Ht) as (b & Eb & Hb); [easy|easy|].
  destruct (Hb _ (indent_opt_dressed indent b)) as (p & Hp & Hm).
  assert (N := ns_out _ _ _ _ _ _ Hn Ht eq_refl Eb (indent_opt_dressed indent b) Hp).
  destruct (decode_corpus_ok c p Ht Hm Hc) as (c' & Ec & _).
  exists (indent_opt indent b). unfold xml_dump, xml_load. rewrite build_corpus_tree, Eb, Hp. split; [easy|]. intros ahead'.
  specialize (Ec ahead'). assert (c' = c) by (now apply (corpus_exact ahead' c p)). now subst c'.
Qed.
Theorem reload ahead e c indent : tidy_document e -> xml_load ahead e = Ok c ->
  exists e', xml_dump c indent = Ok e' /\ forall ahead', xml_load ahead' e' = Ok c.
Proof. intros Hd El. destruct (load_good ahead e c Hd El) as (Hf & Hc & Hk). now apply dump_load. Qed.

Theorem settles ahead ahead1 e c indent e1 c1 :
  tidy_document e -> xml_load ahead e = Ok c -> xml_dump c indent = Ok e1 -> xml_load ahead1 e1 = Ok c1 ->
  forall indent', xml_dump c1 indent' = xml_dump c indent'.
Proof.
  intros Hd El E1 El1 indent'. destruct (reload ahead e c indent Hd El) as (e2 & E2 & El2). specialize (El2 ahead1).
  assert (c1 = c) by congruence. now subst.
Qed.

End Reload.
