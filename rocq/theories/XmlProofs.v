(* Proofs about the XML codec. *)
From Verif Require Import PyStr PyStrFacts Ref Model SpecModel XmlStd Xml SpecXml.
From Verif Require AttrProofs RefProofs ModelProofs.

(* ---------- names ---------- *)

Lemma name_char_neq c x : name_char x = false -> name_char c = true -> c <> x.
Proof. intros Hx Hc ->. congruence. Qed.
Lemma ncname_chars s c : ncname s = true -> In c s -> name_char c = true.
Proof.
  destruct s as [|a s]; cbn [ncname]; [easy|]. intros H%andb_true_iff [<-|Hin].
  - unfold name_char. now rewrite (proj1 H).
  - destruct H as [_ H]. rewrite forallb_forall in H. auto.
Qed.
Lemma ncname_not_in s x : name_char x = false -> ncname s = true -> ~ In x s.
Proof. intros Hx Hs Hin. pose proof (ncname_chars _ _ Hs Hin). congruence. Qed.
Lemma ncname_nil s : ncname s = true -> s <> [].
Proof. now destruct s. Qed.
Lemma colon_not_name : name_char (Ch ":") = false. Proof. reflexivity. Qed.
Lemma lbrace_not_name : name_char (Ch "{") = false. Proof. reflexivity. Qed.

Lemma startswith_app p s : startswith p s = true -> exists t, s = p ++ t.
Proof.
  revert s; induction p as [|x p IH]; intros [|y s]; cbn; try easy; try (now eexists).
  intros [->%N.eqb_eq H]%andb_true_iff. destruct (IH _ H) as [t ->]. now exists t.
Qed.
Lemma startswith_refl p s : startswith p (p ++ s) = true.
Proof. induction p as [|x p IH]; cbn; [easy|]. now rewrite N.eqb_refl. Qed.

Lemma split_prefixed p n : ncname p = true -> split1 (Ch ":") (p ++ L ":" ++ n) = Some (p, n).
Proof. intros H. exact (AttrProofs.split1_app _ _ _ (ncname_not_in _ _ colon_not_name H)). Qed.
Lemma split_plain n : ncname n = true -> split1 (Ch ":") n = None.
Proof. intros H. exact (AttrProofs.split1_none _ _ (ncname_not_in _ _ colon_not_name H)). Qed.

Lemma xmlns_ncname : ncname XMLNS = true. Proof. reflexivity. Qed.
Lemma declares_xmlns p : declares (L "xmlns:" ++ p) = Some p.
Proof. reflexivity. Qed.
Lemma declares_plain n : ncname n = true -> n <> XMLNS -> declares n = None.
Proof.
  intros H Hn. unfold declares. destruct (str_eqb_spec n XMLNS) as [|_]; [easy|].
  destruct (startswith (L "xmlns:") n) eqn:E; [|easy]. destruct (startswith_app _ _ E) as [t ->].
  destruct (ncname_not_in _ _ colon_not_name H). apply in_or_app. left. vm_compute. tauto.
Qed.
Lemma declares_prefixed p n : ncname p = true -> p <> XMLNS -> declares (p ++ L ":" ++ n) = None.
Proof.
  intros H Hp. unfold declares. destruct (str_eqb_spec (p ++ L ":" ++ n) XMLNS) as [E|_].
  - destruct (ncname_not_in _ _ colon_not_name xmlns_ncname). rewrite <- E.
    apply in_or_app. right. now left.
  - destruct (startswith (L "xmlns:") _) eqn:E; [|easy]. destruct (startswith_app _ _ E) as [t E'].
    assert (S : split1 (Ch ":") (p ++ L ":" ++ n) = split1 (Ch ":") (XMLNS ++ L ":" ++ t)) by (rewrite E'; reflexivity).
    rewrite !split_prefixed in S by easy. congruence.
Qed.

(* ---------- qname_split ---------- *)

Lemma qname_plain n : ncname n = true -> qname_split n = Ok (None, n).
Proof.
  intros H. unfold qname_split. destruct n as [|c n]; [easy|].
  destruct (N.eqb_spec c (Ch "{")) as [->|]; [|easy].
  destruct (ncname_not_in _ _ lbrace_not_name H). now left.
Qed.
Lemma qname_clark u n : ~ In (Ch "}") u -> qname_split (in_ns u n) = Ok (Some u, n : str).
Proof.
  intros H. unfold in_ns, qname_split. cbn [app L]. 
  change (L "{" ++ u ++ L "}" ++ n) with (Ch "{" :: u ++ Ch "}" :: n).
  cbv iota beta. rewrite N.eqb_refl. now rewrite AttrProofs.split1_app.
Qed.

(* ---------- the reverse map ---------- *)

Lemma revmap_from (m : dict str) : forall (d : dict str) u p,
  dget (fold_left (fun d kv => dset d (snd kv) (fst kv)) m d) u = Some p -> In (p, u) m \/ dget d u = Some p.
Proof.
  induction m as [|[q w] m IH]; cbn [fold_left fst snd]; intros d u p H; [now right|].
  destruct (IH _ _ _ H) as [Hin|Hd]; [left; now right|].
  rewrite AttrProofs.dget_set in Hd. destruct (str_eqb_spec u w) as [->|]; [|now right].
  left. left. congruence.
Qed.
Lemma revmap_some (m : dict str) : forall (d : dict str) u, bound m u \/ dget d u <> None ->
  dget (fold_left (fun d kv => dset d (snd kv) (fst kv)) m d) u <> None.
Proof.
  induction m as [|[q w] m IH]; cbn [fold_left fst snd]; intros d u H.
  - destruct H as [[p []]|]; easy.
  - apply IH. rewrite AttrProofs.dget_set. destruct (str_eqb_spec u w) as [->|Hne]; [now right|].
    destruct H as [[p [E|Hin]]|Hd]; [congruence|left; now exists p|now right].
Qed.
Lemma revmap_bound m u : bound m u -> exists p, dget (revmap m) u = Some p /\ In (p, u) m.
Proof.
  intros H. destruct (dget (revmap m) u) as [p|] eqn:E.
  - exists p. split; [easy|]. destruct (revmap_from _ _ _ _ E) as [|]; [easy|discriminate].
  - now destruct (revmap_some m [] u (or_introl H)).
Qed.

(* ---------- one element ---------- *)

Definition covers (scope m : dict str) : Prop := forall p u, In (p, u) m -> dget scope p = Some u.

Definition enc (rm : dict str) (k : str) : str :=
  match qname_split k with
  | Ok (Some u, n) => match dget rm u with
                       | Some pre => pre ++ L ":" ++ n
                       | None => match dget namespace_map u with Some pre => pre ++ L ":" ++ n | None => n end
                       end
  | Ok (None, n) => n
  | Err _ => k
  end.

Lemma map_prefix m p u : map_ok m -> In (p, u) m -> ncname p = true /\ p <> XMLNS
  /\ (p = L "xml" <-> u = XML_URI) /\ u <> [].
Proof.
  intros [_ H] Hin. destruct (H _ _ Hin) as [Hp V]. unfold valid_decl in V.
  destruct p as [|c p]; [easy|]. rewrite !andb_true_iff, !negb_true_iff in V.
  destruct V as [[[_ _] E] [[Hn Hx] Hu]]. apply eqb_prop in E.
  split; [easy|]. split; [now apply str_eqb_neq|]. split; [now rewrite <- !str_eqb_eq, E|].
  now apply str_eqb_neq.
Qed.

(* the prefix p stands for u *)
Definition named (m : dict str) (p u : str) : Prop := In (p, u) m \/ p = L "xml" /\ u = XML_URI.
Lemma named_prefix m p u : map_ok m -> named m p u -> ncname p = true /\ p <> XMLNS /\ (p = L "xml" <-> u = XML_URI) /\ u <> [].
Proof. intros Hm [H|[-> ->]]; [now apply (map_prefix m)|]. repeat split; easy. Qed.
Lemma enc_cases m k : map_ok m -> key_ok m k ->
  (ncname k = true /\ k <> XMLNS /\ enc (revmap m) k = k)
  \/ exists p u n, named m p u /\ k = in_ns u n /\ ncname n = true /\ enc (revmap m) k = p ++ L ":" ++ n
       /\ u <> [] /\ ~ In (Ch "}") u
       /\ (dget (revmap m) u = Some p \/ dget (revmap m) u = None /\ dget namespace_map u = Some p).
Proof.
  intros Hm [[Hk Hx]|(u & n & -> & Hn & [(Hu & Hb & Hbd)| ->])].
  - left. split; [easy|]. split; [easy|]. unfold enc. now rewrite qname_plain.
  - right. destruct (revmap_bound _ _ Hbd) as (p & E & Hin). exists p, u, n.
    split; [now left|]. repeat (split; [easy|]). split; [|repeat (split; [easy|]); now left]. unfold enc. now rewrite qname_clark, E.
  - right. assert (Hb : ~ In (Ch "}") XML_URI) by (vm_compute; intuition discriminate).
    destruct (dget (revmap m) XML_URI) as [p|] eqn:E.
    + exists p, XML_URI, n. assert (Hin : In (p, XML_URI) m) by (destruct (revmap_from _ _ _ _ E) as [|]; [easy|discriminate]).
      split; [now left|]. repeat (split; [easy|]). split; [|repeat (split; [easy|]); now left]. unfold enc. now rewrite qname_clark, E.
    + exists (L "xml"), XML_URI, n. split; [now right|]. repeat (split; [easy|]). split; [|repeat (split; [easy|]); now right].
      unfold enc. rewrite qname_clark by easy. rewrite E. reflexivity.
Qed.

Lemma read_prefixed m scope p u n dflt : map_ok m -> covers scope m -> named m p u -> ncname n = true ->
  read_name scope dflt (p ++ L ":" ++ n) = Ok (in_ns u n).
Proof.
  intros Hm Hc Hin Hn. destruct (named_prefix _ _ _ Hm Hin) as (Hp & _ & Hx & Hu).
  unfold read_name. rewrite split_prefixed by easy. rewrite Hp, Hn. cbn [andb].
  destruct (str_eqb_spec p (L "xml")) as [E|E].
  - apply Hx in E. now subst.
  - destruct Hin as [Hin|[E' _]]; [|easy]. now rewrite (Hc _ _ Hin).
Qed.
Lemma read_enc m scope k : map_ok m -> covers scope m -> key_ok m k ->
  read_name scope false (enc (revmap m) k) = Ok k.
Proof.
  intros Hm Hc Hk. destruct (enc_cases _ _ Hm Hk) as [(Hn & _ & ->)|(p & u & n & Hin & -> & Hn & -> & _)].
  - unfold read_name. rewrite split_plain by easy. now rewrite Hn.
  - now apply (read_prefixed m).
Qed.
Lemma enc_declares m k : map_ok m -> key_ok m k -> declares (enc (revmap m) k) = None.
Proof.
  intros Hm Hk. destruct (enc_cases _ _ Hm Hk) as [(Hn & Hx & ->)|(p & u & n & Hin & -> & Hn & -> & _)].
  - now apply declares_plain.
  - destruct (named_prefix _ _ _ Hm Hin) as (Hp & Hx & _). now apply declares_prefixed.
Qed.
Lemma enc_inj m k k' : map_ok m -> key_ok m k -> key_ok m k' ->
  enc (revmap m) k = enc (revmap m) k' -> k = k'.
Proof.
  intros Hm Hk Hk' E. assert (C : covers m m).
  { intros p u Hin. unfold dget. apply dget_nodup; [exact str_eqb_spec|apply Hm|easy]. }
  pose proof (read_enc _ _ _ Hm C Hk) as A. rewrite E, (read_enc _ _ _ Hm C Hk') in A. congruence.
Qed.

(* declarations *)
Definition declared (ctx m : dict str) : dict str :=
  filter (fun kv => negb (opt_eqb str_eqb (dget ctx (fst kv)) (Some (snd kv)))) m.
Definition decl_attrs (m : dict str) : dict str := map (fun kv => (L "xmlns:" ++ fst kv, snd kv)) m.

Lemma dget_fresh {A} (d : dict A) k : ~ In k (map fst d) -> dget d k = None.
Proof. unfold dget. apply dget_none. exact str_eqb_spec. Qed.
Lemma dset_fresh {A} (d : dict A) k v : ~ In k (map fst d) -> dset d k v = d ++ [(k, v)].
Proof. intros H. unfold dset. apply dset_new; [exact str_eqb_spec|]. now apply (dget_fresh d). Qed.

Lemma fold_decls ctx m : forall e, NoDup (map fst m) ->
  (forall p, In p (map fst m) -> ~ In (L "xmlns:" ++ p) (map fst e)) ->
  fold_left (fun e kv => if opt_eqb str_eqb (dget ctx (fst kv)) (Some (snd kv)) then e
                         else dset e (L "xmlns:" ++ fst kv) (snd kv)) m e
  = e ++ decl_attrs (declared ctx m).
Proof.
  induction m as [|[p u] m IH]; cbn [fold_left map fst snd]; intros e Hnd He.
  - cbn. now rewrite app_nil_r.
  - inversion_clear Hnd as [|? ? Hp Hnd']. unfold declared. cbn [filter fst snd].
    destruct (opt_eqb str_eqb (dget ctx p) (Some u)); cbn [negb].
    + apply IH; [easy|]. intros q Hq. apply He. now right.
    + rewrite dset_fresh by (apply He; now left). rewrite IH; [|easy|].
      * now rewrite <- app_assoc.
      * intros q Hq. rewrite map_app, in_app_iff. intros [H|[H|[]]].
        -- apply (He q); [now right|easy].
        -- cbn [fst] in H. apply app_inv_head in H. now subst.
Qed.

Lemma put_app m : map_ok m -> forall l e, NoDup (map fst l) -> (forall k v, In (k, v) l -> key_ok m k) ->
  (forall k v, In (k, v) l -> ~ In (enc (revmap m) k) (map fst e)) ->
  put_attributes (revmap m) e l = Ok (e ++ map (fun kv => (enc (revmap m) (fst kv), snd kv)) l).
Proof.
  intros Hm. induction l as [|[k v] l IH]; cbn [map fst snd]; intros e Hnd Hk He.
  - cbn. now rewrite app_nil_r.
  - inversion_clear Hnd as [|? ? Hn Hnd'].
    assert (Hkk : key_ok m k) by (apply (Hk k v); now left).
    assert (S : put_attributes (revmap m) e ((k, v) :: l)
                = put_attributes (revmap m) (dset e (enc (revmap m) k) v) l).
    { cbn [put_attributes].
      destruct (enc_cases _ _ Hm Hkk) as [(Hnm & _ & ->)|(p & u & n & Hin & -> & Hnm & -> & Hu & Hb & E)].
      - rewrite qname_plain by easy. reflexivity.
      - rewrite qname_clark by easy. cbn [bind]. destruct u as [|c u]; [easy|].
        destruct E as [-> |[-> ->]]; reflexivity. }
    rewrite S, dset_fresh by (apply (He k v); now left). rewrite IH.
    + rewrite <- app_assoc. reflexivity.
    + easy.
    + intros k' v' Hin. apply (Hk k' v'). now right.
    + intros k' v' Hin. rewrite map_app, in_app_iff. intros [H|[H|[]]].
      * apply (He k' v'); [now right|easy].
      * cbn [fst] in H. assert (k = k').
        { apply (enc_inj m); auto. apply (Hk k' v'). now right. }
        subst. apply Hn. change k' with (fst (k', v')). now apply in_map.
Qed.

Lemma put_opt (e : dict str) k o : ~ In k (map fst e) ->
  match o with Some i => dset e k i | None => e end = e ++ optional k o.
Proof. intros H. destruct o; cbn; [now apply dset_fresh|now rewrite app_nil_r]. Qed.

Lemma xmlns_colon_in p : In (Ch ":") (L "xmlns:" ++ p).
Proof. apply in_or_app. left. vm_compute. tauto. Qed.
Lemma decl_keys m k : In k (map fst (decl_attrs m)) -> exists p, k = L "xmlns:" ++ p.
Proof. unfold decl_attrs. rewrite map_map. cbn. rewrite in_map_iff. intros ([p u] & <- & _). now exists p. Qed.
Lemma plain_not_decl m k : ncname k = true -> ~ In k (map fst (decl_attrs m)).
Proof.
  intros H Hin. destruct (decl_keys _ _ Hin) as [p ->].
  destruct (ncname_not_in _ _ colon_not_name H). apply xmlns_colon_in.
Qed.

Definition out_attrs (m : dict str) (a : attrs) : dict str :=
  optional ID (a_id a) ++ optional TYPE (a_type a) ++ map (fun kv => (enc (revmap m) (fst kv), snd kv)) (a_dict a).
Definition out_tag (m : dict str) (a : attrs) (tag : str) : str :=
  match a_ns a with
  | Some u => match dget (revmap m) u with Some pre => pre ++ L ":" ++ tag | None => tag end
  | None => tag
  end.

Lemma enc_plain m k : map_ok m -> ncname k = true -> enc (revmap m) k = k.
Proof. intros Hm H. unfold enc. now rewrite qname_plain. Qed.
Lemma key_plain m k : ncname k = true -> k <> XMLNS -> key_ok m k.
Proof. intros H H'. left. now split. Qed.

Lemma build_elem_out tag a m ctx : attrs_ok m a ->
  build_elem tag a m ctx = Ok (out_tag m a tag, decl_attrs (declared ctx m) ++ out_attrs m a).
Proof.
  intros (Hm & Hnd & Hk & _ & _ & Hid & Hty & _). unfold build_elem. cbv zeta.
  rewrite fold_decls; [|apply Hm|cbn; tauto]. cbn [app].
  rewrite (put_opt (decl_attrs (declared ctx m)) ID) by (now apply plain_not_decl).
  rewrite put_opt.
  2:{ rewrite map_app, in_app_iff. intros [H|H]; [now apply plain_not_decl in H|].
      destruct (a_id a); cbn in H; [|easy]. destruct H as [H|[]]. vm_compute in H. discriminate. }
  rewrite put_app; [|easy|easy|intros; now apply (Hk k v)|].
  - cbn [bind]. unfold out_attrs, out_tag. now rewrite <- !app_assoc.
  - intros k v Hin. pose proof (proj1 (Hk _ _ Hin)) as Hkk.
    assert (Hin' : In k (map fst (a_dict a))) by (change k with (fst (k, v)); now apply in_map).
    rewrite !map_app, !in_app_iff. intros [[H|H]|H].
    + destruct (decl_keys _ _ H) as [p E]. pose proof (enc_declares _ _ Hm Hkk) as D.
      rewrite E, declares_xmlns in D. discriminate.
    + destruct (a_id a); cbn in H; [|easy]. destruct H as [H|[]].
      rewrite <- (enc_plain m ID Hm) in H by reflexivity. apply enc_inj in H; auto; [|now apply key_plain].
      subst. now apply Hid.
    + destruct (a_type a); cbn in H; [|easy]. destruct H as [H|[]].
      rewrite <- (enc_plain m TYPE Hm) in H by reflexivity. apply enc_inj in H; auto; [|now apply key_plain].
      subst. now apply Hty.
Qed.

(* reading the element *)
Lemma read_decls_none d : forall scope, (forall k v, In (k, v) d -> declares k = None) -> read_decls scope d = Ok scope.
Proof.
  induction d as [|[k v] d IH]; cbn [read_decls]; intros scope H; [easy|].
  rewrite (H k v) by now left. apply IH. intros k' v' Hin. apply (H k' v'). now right.
Qed.
Lemma read_decls_app m rest : forall scope, (forall p u, In (p, u) m -> p <> [] /\ valid_decl p u = true) ->
  read_decls scope (decl_attrs m ++ rest) = read_decls (fold_left (fun s kv => dset s (fst kv) (snd kv)) m scope) rest.
Proof.
  induction m as [|[p u] m IH]; cbn [decl_attrs map app fst snd fold_left]; intros scope H; [easy|].
  cbn [read_decls fst snd]. rewrite declares_xmlns. destruct (H p u) as [Hp Hv]; [now left|].
  rewrite Hv. destruct (str_eqb_spec p []) as [|_]; [easy|]. rewrite orb_true_r. cbn [andb].
  apply IH. intros q w Hin. apply H. now right.
Qed.
Lemma fold_scope (m : dict str) : forall (scope : dict str) p, NoDup (map fst m) ->
  dget (fold_left (fun s kv => dset s (fst kv) (snd kv)) m scope) p
  = match dget m p with Some u => Some u | None => dget scope p end.
Proof.
  induction m as [|[q w] m IH]; cbn [fold_left map fst snd]; intros scope p Hnd; [easy|].
  inversion_clear Hnd as [|? ? Hq Hnd']. rewrite IH, AttrProofs.dget_set by easy.
  unfold dget at 3. cbn [dget_]. fold (dget m p). destruct (str_eqb_spec p q) as [->|Hne].
  - now rewrite dget_fresh.
  - easy.
Qed.
Lemma declared_in ctx m p u : In (p, u) (declared ctx m) <-> In (p, u) m /\ dget ctx p <> Some u.
Proof.
  unfold declared. rewrite filter_In. cbn [fst snd]. rewrite negb_true_iff.
  split; intros [H E]; (split; [easy|]).
  - intros X. rewrite X in E. cbn in E. now rewrite str_eqb_refl in E.
  - destruct (opt_eqb_spec str_eqb str_eqb_spec (dget ctx p) (Some u)); easy.
Qed.
Lemma declared_nodup ctx m : NoDup (map fst m) -> NoDup (map fst (declared ctx m)).
Proof.
  unfold declared. induction m as [|[p u] m IH]; cbn [filter map fst snd]; intros H; [constructor|].
  inversion_clear H as [|? ? Hp Hnd]. destruct (negb _); [|auto]. cbn. constructor; [|auto].
  intros Hin. apply Hp. apply in_map_iff in Hin as (x & <- & Hx). apply filter_In in Hx as [Hx _]. now apply in_map.
Qed.
Definition new_scope (scope ctx m : dict str) : dict str :=
  fold_left (fun s kv => dset s (fst kv) (snd kv)) (declared ctx m) scope.
Lemma new_scope_covers scope ctx m : map_ok m ->
  (forall p u, dget ctx p = Some u -> dget scope p = Some u) -> covers (new_scope scope ctx m) m.
Proof.
  intros [Hnd Hm] Hs p u Hin. unfold new_scope. rewrite fold_scope by now apply declared_nodup.
  destruct (dget (declared ctx m) p) as [w|] eqn:E.
  - apply dget_in in E; [|exact str_eqb_spec]. apply declared_in in E as [E _].
    assert (A : dget m p = Some u) by (apply dget_nodup; auto; exact str_eqb_spec).
    assert (B : dget m p = Some w) by (apply dget_nodup; auto; exact str_eqb_spec). congruence.
  - apply Hs. destruct (opt_eqb_spec str_eqb str_eqb_spec (dget ctx p) (Some u)) as [->|Hne]; [easy|].
    assert (I : In (p, u) (declared ctx m)) by now apply declared_in.
    assert (A : dget (declared ctx m) p = Some u).
    { apply dget_nodup; [exact str_eqb_spec|now apply declared_nodup|easy]. }
    congruence.
Qed.
Lemma new_scope_default scope ctx m : map_ok m -> dget scope [] = None -> dget (new_scope scope ctx m) [] = None.
Proof.
  intros [Hnd Hm] Hs. unfold new_scope. rewrite fold_scope by now apply declared_nodup.
  destruct (dget (declared ctx m) []) as [w|] eqn:E; [|easy].
  apply dget_in in E; [|exact str_eqb_spec]. apply declared_in in E as [E _]. now destruct (Hm _ _ E).
Qed.

Lemma read_attrs_app m rest : forall scope, read_attrs scope (decl_attrs m ++ rest) = read_attrs scope rest.
Proof. induction m as [|[p u] m IH]; cbn [decl_attrs map app fst snd read_attrs]; intros scope; [easy|]. rewrite declares_xmlns. apply IH. Qed.
Lemma read_attrs_enc m scope l : map_ok m -> covers scope m -> NoDup (map fst l) ->
  (forall k v, In (k, v) l -> key_ok m k /\ xml_chars v = true) ->
  read_attrs scope (map (fun kv => (enc (revmap m) (fst kv), snd kv)) l) = Ok l.
Proof.
  intros Hm Hc. induction l as [|[k v] l IH]; cbn [map fst snd]; intros Hnd Hk; [easy|].
  inversion_clear Hnd as [|? ? Hn Hnd']. destruct (Hk k v) as [Hkk Hv]; [now left|].
  cbn [read_attrs]. rewrite enc_declares, (read_enc m) by easy. cbn [bind].
  rewrite IH; [|easy|intros; apply Hk; now right]. cbn [bind]. rewrite Hv.
  unfold dmem. rewrite dget_fresh by easy. reflexivity.
Qed.

Definition all_attrs (a : attrs) : dict str := shown_attrs a.
Lemma out_attrs_enc m a : map_ok m -> out_attrs m a = map (fun kv => (enc (revmap m) (fst kv), snd kv)) (shown_attrs a).
Proof.
  intros Hm. unfold out_attrs, shown_attrs. rewrite !map_app. f_equal; [|f_equal].
  - destruct (a_id a); cbn; [|easy]. now rewrite enc_plain.
  - destruct (a_type a); cbn; [|easy]. now rewrite enc_plain.
Qed.
Lemma shown_nodup m a : attrs_ok m a -> NoDup (map fst (shown_attrs a)).
Proof.
  intros (_ & Hnd & _ & _ & _ & Hid & Hty & _). unfold shown_attrs. rewrite !map_app.
  assert (T : NoDup (map fst (optional TYPE (a_type a)) ++ map fst (a_dict a))).
  { destruct (a_type a); cbn; [|easy]. constructor; [|easy]. now apply Hty. }
  destruct (a_id a); cbn; [|easy]. constructor; [|easy]. rewrite in_app_iff. intros [H|H]; [|now apply Hid in H].
  destruct (a_type a); cbn in H; [|easy]. destruct H as [H|[]]. vm_compute in H. discriminate.
Qed.
Lemma shown_keys m a : attrs_ok m a -> forall k v, In (k, v) (shown_attrs a) -> key_ok m k /\ xml_chars v = true.
Proof.
  intros (_ & _ & Hk & Hid & Hty & _) k v. unfold shown_attrs. rewrite !in_app_iff. intros [H|[H|H]].
  - destruct (a_id a); cbn in H; [|easy]. destruct H as [[= <- <-]|[]]. split; [now apply key_plain|auto].
  - destruct (a_type a); cbn in H; [|easy]. destruct H as [[= <- <-]|[]]. split; [now apply key_plain|auto].
  - auto.
Qed.

Lemma read_elem_out m scope ctx a tag : attrs_ok m a -> ncname tag = true ->
  (forall p u, dget ctx p = Some u -> dget scope p = Some u) -> dget scope [] = None ->
  let d := decl_attrs (declared ctx m) ++ out_attrs m a in
  let scope' := new_scope scope ctx m in
  read_decls scope d = Ok scope' /\ read_name scope' true (out_tag m a tag) = Ok (full_tag (a_ns a) tag)
  /\ read_attrs scope' d = Ok (shown_attrs a).
Proof.
  intros Ha Ht Hs H0 d scope'. pose proof Ha as (Hm & Hnd & Hk & Hid & Hty & Hid' & Hty' & Hns).
  assert (Hc : covers scope' m) by now apply new_scope_covers.
  assert (H0' : dget scope' [] = None) by now apply new_scope_default.
  split; [|split].
  - unfold d. rewrite read_decls_app.
    + apply read_decls_none. rewrite out_attrs_enc by easy. intros k v Hin.
      apply in_map_iff in Hin as ([k' v'] & [= <- <-] & Hin). apply enc_declares; [easy|].
      now apply (shown_keys _ _ Ha _ _ Hin).
    + intros p u Hin. apply declared_in in Hin as [Hin _]. now apply Hm.
  - unfold out_tag, full_tag. destruct (a_ns a) as [u|].
    + destruct (Hns u eq_refl) as (Hu & Hb & Hbd). destruct (revmap_bound _ _ Hbd) as (p & -> & Hin).
      apply (read_prefixed m); [easy|easy|now left|easy].
    + unfold read_name. rewrite split_plain by easy. now rewrite Ht, H0'.
  - unfold d. rewrite read_attrs_app, out_attrs_enc by easy. apply read_attrs_enc; auto.
    + now apply (shown_nodup m).
    + now apply shown_keys.
Qed.

(* ---------- trees ---------- *)

Lemma xtree_rec' (P : xtree -> Prop) :
  (forall tag a text kids, Forall P kids -> P (XT tag a text kids)) -> forall t, P t.
Proof.
  intros H. fix IH 1. intros [tag a text kids]. apply H.
  induction kids as [|k kids IHk]; constructor; [apply IH|exact IHk].
Qed.
Lemma mchild_rec' (P : mchild -> Prop) :
  (forall n a t kids, Forall P kids -> P (MChild n a t kids)) -> forall m, P m.
Proof.
  intros H. fix IH 1. intros [n a t kids]. apply H.
  induction kids as [|k kids IHk]; constructor; [apply IH|exact IHk].
Qed.
Lemma xelem_rec' (P : xelem -> Prop) :
  (forall tag d text tail kids, Forall P kids -> P (XElem tag d text tail kids)) -> forall e, P e.
Proof.
  intros H. fix IH 1. intros [tag d text tail kids]. apply H.
  induction kids as [|k kids IHk]; constructor; [apply IH|exact IHk].
Qed.

Fixpoint build_tree (inh ctx : dict str) (t : xtree) : res xelem :=
  match t with
  | XT tag a text kids =>
    let nm := eff a inh in
    do (tg, d) <- build_elem tag a nm ctx;
    do ks <- traverse (build_tree nm nm) kids;
    Ok (XElem tg d text None ks)
  end.

Lemma traverse_map {A B C} (f : B -> res C) (g : A -> B) l : traverse f (map g l) = traverse (fun x => f (g x)) l.
Proof. induction l as [|x l IH]; cbn; [easy|]. destruct (f (g x)); cbn; [|easy]. now rewrite IH. Qed.
Lemma traverse_ext {A B} (f g : A -> res B) l : (forall x, In x l -> f x = g x) -> traverse f l = traverse g l.
Proof.
  induction l as [|x l IH]; cbn; intros H; [easy|]. rewrite (H x) by now left.
  destruct (g x); cbn; [|easy]. rewrite IH; [easy|]. intros y Hy. apply H. now right.
Qed.
Lemma traverse_app {A B} (f : A -> res B) l l' :
  traverse f (l ++ l') = (do a <- traverse f l; do b <- traverse f l'; Ok (a ++ b)).
Proof.
  induction l as [|x l IH]; cbn; [now destruct (traverse f l')|].
  destruct (f x); cbn; [|easy]. rewrite IH. destruct (traverse f l); cbn; [|easy]. now destruct (traverse f l').
Qed.

Lemma build_child_tree m : forall inh ctx, build_child inh ctx m = build_tree inh ctx (child_tree m).
Proof.
  induction m as [n a t kids IH] using mchild_rec'. intros inh ctx. cbn. destruct (build_elem _ _ _ _) as [[tg d]|]; cbn; [|easy].
  rewrite traverse_map. erewrite traverse_ext; [reflexivity|]. intros x Hx. rewrite Forall_forall in IH. auto.
Qed.
Lemma build_meta_tree inh ctx m : build_meta inh ctx m = build_tree inh ctx (meta_tree m).
Proof.
  unfold build_meta, meta_tree. cbn. destruct (build_elem _ _ _ _) as [[tg d]|]; cbn; [|easy].
  rewrite traverse_map. erewrite traverse_ext; [reflexivity|]. intros x Hx. apply build_child_tree.
Qed.
Lemma build_metadata_tree inh ctx m : build_metadata inh ctx m = build_tree inh ctx (metadata_tree m).
Proof.
  unfold build_metadata, metadata_tree. cbn. destruct (build_elem _ _ _ _) as [[tg d]|]; cbn; [|easy].
  rewrite traverse_map. erewrite traverse_ext; [reflexivity|]. intros x Hx. apply build_meta_tree.
Qed.
Lemma build_item_tree inh ctx i : build_item inh ctx i = build_tree inh ctx (item_tree i).
Proof. unfold build_item, item_tree. cbn. now destruct (build_elem _ _ _ _) as [[tg d]|]. Qed.
Lemma build_tier_tree inh ctx t : build_tier inh ctx t = build_tree inh ctx (tier_tree t).
Proof.
  unfold build_tier, tier_tree. cbn. destruct (build_elem _ _ _ _) as [[tg d]|]; cbn; [|easy].
  rewrite traverse_app, !traverse_map.
  rewrite (traverse_ext (fun x => build_tree _ _ (metadata_tree x)) (build_metadata (eff (t_attrs t) inh) (eff (t_attrs t) inh)))
    by (intros; symmetry; apply build_metadata_tree).
  rewrite (traverse_ext (fun x => build_tree _ _ (item_tree x)) (build_item (eff (t_attrs t) inh) (eff (t_attrs t) inh)))
    by (intros; symmetry; apply build_item_tree).
  destruct (traverse _ (t_md t)); cbn; [|easy]. now destruct (traverse _ (t_items t)).
Qed.
Lemma build_igt_tree inh ctx g : build_igt inh ctx g = build_tree inh ctx (igt_tree g).
Proof.
  unfold build_igt, igt_tree. cbn. destruct (build_elem _ _ _ _) as [[tg d]|]; cbn; [|easy].
  rewrite traverse_app, !traverse_map.
  rewrite (traverse_ext (fun x => build_tree _ _ (metadata_tree x)) (build_metadata (eff (g_attrs g) inh) (eff (g_attrs g) inh)))
    by (intros; symmetry; apply build_metadata_tree).
  rewrite (traverse_ext (fun x => build_tree _ _ (tier_tree x)) (build_tier (eff (g_attrs g) inh) (eff (g_attrs g) inh)))
    by (intros; symmetry; apply build_tier_tree).
  destruct (traverse _ (g_md g)); cbn; [|easy]. now destruct (traverse _ (g_tiers g)).
Qed.
Lemma build_corpus_tree c : build_corpus c = build_tree [] [] (corpus_tree c).
Proof.
  unfold build_corpus, corpus_tree. cbn. destruct (build_elem _ _ _ _) as [[tg d]|]; cbn; [|easy].
  rewrite traverse_app, !traverse_map.
  rewrite (traverse_ext (fun x => build_tree _ _ (metadata_tree x)) (build_metadata (eff (c_attrs c) []) (eff (c_attrs c) [])))
    by (intros; symmetry; apply build_metadata_tree).
  rewrite (traverse_ext (fun x => build_tree _ _ (igt_tree x)) (build_igt (eff (c_attrs c) []) (eff (c_attrs c) [])))
    by (intros; symmetry; apply build_igt_tree).
  destruct (traverse _ (c_md c)); cbn; [|easy]. now destruct (traverse _ (c_igts c)).
Qed.

Section XmlProofs.
Context {U : Unicode}.

(* ---------- blank text ---------- *)

Lemma lstrip_nil s : lstrip s = [] <-> forall c, In c s -> is_space c = true.
Proof.
  induction s as [|x s IH]; cbn; [easy|]. destruct (is_space x) eqn:E.
  - rewrite IH. split; [|intuition]. intros H c [<-|Hc]; auto.
  - split; [easy|]. intros H. rewrite (H x) in E by now left. discriminate.
Qed.
Lemma strip_nil s : strip s = [] <-> forall c, In c s -> is_space c = true.
Proof.
  unfold strip, rstrip. rewrite <- lstrip_nil. split; [|intros ->; reflexivity].
  intros H. destruct (lstrip s) as [|x t] eqn:E; [easy|].
  assert (F : lstrip (rev (x :: t)) = []) by (rewrite <- (rev_involutive (lstrip _)); now rewrite H).
  assert (Hx : is_space x = true).
  { apply (proj1 (lstrip_nil _) F). apply in_rev. rewrite rev_involutive. now left. }
  assert (Hn : is_space x = false); [|congruence].
  clear -E. revert E. induction s as [|y s IH]; cbn; [easy|]. destruct (is_space y) eqn:Ey; [auto|]. congruence.
Qed.
Lemma blank_spec t : blank t = true <-> blank_text t.
Proof.
  unfold blank, blank_text. destruct t as [s|].
  - rewrite str_eqb_eq, strip_nil. split; [intros H ? c [= <-]; auto|intros H c; now apply H].
  - split; [easy|intros _; reflexivity].
Qed.
Lemma blank_not t : blank t = false <-> ~ blank_text t.
Proof. rewrite <- blank_spec. now destruct (blank t). Qed.

(* ---------- indentation only adds newlines and spaces ---------- *)

Notation ws := layout.
Inductive dressed : xelem -> xelem -> Prop :=
| Dressed tag d text text' tail tail' kids kids' :
    Forall2 dressed kids kids' -> (text' = text \/ kids <> [] /\ blank text = true /\ ws text') ->
    (tail' = tail \/ ws tail') -> dressed (XElem tag d text tail kids) (XElem tag d text' tail' kids').

Lemma ws_spaces n c : In c (spaces n) -> c = 32%N.
Proof. unfold spaces. intros H. apply repeat_spec in H. now subst. Qed.
Lemma ws_newline n l : ws (Some (newline_indent n l)).
Proof. intros s c [= <-] [<-|H]; [now left|]. right. now apply ws_spaces in H. Qed.

Lemma dressed_refl e : dressed e e.
Proof.
  induction e as [tag d text tail kids IH] using xelem_rec'. constructor; auto.
  induction IH; constructor; auto.
Qed.
Lemma dressed_tail e e' i : dressed e e' -> ws (Some i) -> dressed e (set_blank_tail i e').
Proof. intros H Hi. inversion H; subst. cbn. constructor; auto. destruct (blank tail'); auto. Qed.
Lemma dressed_last i l l' : ws (Some i) -> Forall2 dressed l l' -> Forall2 dressed l (on_last (set_blank_tail i) l').
Proof.
  intros Hi. induction 1 as [|x y l l' H H' IH]; cbn; [constructor|].
  destruct l' as [|z l']; inversion H'; subst; constructor; auto. now apply dressed_tail.
Qed.
Lemma indent_dressed n e : forall level, dressed e (indent_elem n level e).
Proof.
  induction e as [tag d text tail kids IH] using xelem_rec'. intros level.
  destruct kids as [|k kids].
  - cbn [indent_elem]. constructor; auto. destruct (negb _ && _); auto. right. apply ws_newline.
  - cbn [indent_elem]. remember (k :: kids) as ks eqn:E. constructor.
    + apply dressed_last; [apply ws_newline|]. clear E. induction IH; cbn; constructor; auto.
    + destruct (blank text) eqn:B; [|now left]. right. rewrite E. repeat (split; [easy|]).
      intros s c Es Hin. assert (Es' : s = newline_indent n level ++ spaces n) by congruence. subst s.
      apply in_app_or in Hin as [Hin|Hin].
      * exact (ws_newline n level _ _ eq_refl Hin).
      * right. now apply ws_spaces in Hin.
    + destruct (blank tail); auto. right. apply ws_newline.
Qed.
Lemma indent_opt_dressed o e : dressed e (indent_opt o e).
Proof. destruct o; cbn; [apply indent_dressed|apply dressed_refl]. Qed.

(* ---------- reading text ---------- *)

Lemma eol_id s : ~ In 13%N s -> eol s = s.
Proof.
  induction s as [|c s IH]; cbn [eol]; [easy|]. intros H.
  destruct (N.eqb_spec c 13) as [->|_]; [destruct H; now left|]. f_equal. apply IH. intros Hin. apply H. now right.
Qed.
Definition seen_text (t : option str) : option str := match t with Some [] => None | _ => t end.
Lemma read_text_ok t : text_ok t -> read_text t = Ok (seen_text t).
Proof.
  intros H. destruct t as [s|]; [|easy]. destruct (H s eq_refl) as [Hc Hr].
  destruct s as [|c s]; [easy|]. cbn [read_text seen_text]. rewrite Hc. now rewrite eol_id.
Qed.
Lemma ws_text_ok t : ws t -> text_ok t.
Proof.
  intros H s E. split.
  - unfold xml_chars. rewrite forallb_forall. intros c Hc. destruct (H s c E Hc) as [->| ->]; reflexivity.
  - intros Hin. now destruct (H _ _ E Hin).
Qed.
Lemma ws_blank t : ws t -> blank_text t.
Proof. intros H s c E Hin. destruct (H _ _ E Hin) as [->| ->]; reflexivity. Qed.
Lemma seen_blank t : blank_text t -> blank_text (seen_text t).
Proof. intros H. destruct t as [[|c s]|]; cbn; auto. intros ? ? [=]. Qed.
Lemma seen_nonblank t : ~ blank_text t -> seen_text t = t.
Proof. intros H. destruct t as [[|c s]|]; cbn; auto. destruct H. intros ? ? [= <-] []. Qed.

(* ---------- C24 ---------- *)

Lemma dget_covers scope m : NoDup (map fst m) -> covers scope m ->
  forall p u, dget m p = Some u -> dget scope p = Some u.
Proof. intros _ H p u E. apply H. apply dget_in in E; [easy|exact str_eqb_spec]. Qed.

Lemma tree_out t : forall outer ctx scope, tree_ok outer t ->
  (forall p u, dget ctx p = Some u -> dget scope p = Some u) -> dget scope [] = None ->
  exists e, build_tree outer ctx t = Ok e
    /\ forall e', dressed e e' -> exists p, reread scope e' = Ok p /\ mirrors t p.
Proof.
  induction t as [tag a text kids IH] using xtree_rec'. intros outer ctx scope Ht Hs H0.
  inversion_clear Ht as [? ? ? ? ? Ha Htag Htx Hkids].
  cbn [build_tree]. change (eff a outer) with (in_force a outer). cbv zeta. set (m := in_force a outer) in *.
  rewrite build_elem_out by easy. cbn [bind].
  pose proof (read_elem_out m scope ctx a tag Ha Htag Hs H0) as (Rd & Rn & Ra). cbv zeta in *.
  set (scope' := new_scope scope ctx m) in *.
  assert (Hm : map_ok m) by apply Ha.
  assert (Hs' : forall p u, dget m p = Some u -> dget scope' p = Some u).
  { apply dget_covers; [apply Hm|]. now apply new_scope_covers. }
  assert (H0' : dget scope' [] = None) by now apply new_scope_default.
  assert (K : exists ks, traverse (build_tree m m) kids = Ok ks
    /\ forall ks', Forall2 dressed ks ks' -> exists ps, traverse (reread scope') ks' = Ok ps /\ Forall2 mirrors kids ps).
  { clear -IH Hkids Hs' H0'. induction IH as [|k kids Hk _ IHk]; cbn.
    - exists []. split; [easy|]. intros ks' H. inversion H; subst. exists []. split; [easy|constructor].
    - inversion_clear Hkids as [|? ? Ok1 Ok2]. destruct (Hk _ _ _ Ok1 Hs' H0') as (e & -> & He). cbn.
      destruct (IHk Ok2) as (ks & -> & Hks). exists (e :: ks). split; [easy|].
      intros ks' H. inversion H as [|? e' ? ks'' H1 H2]; subst. destruct (He _ H1) as (p & E & Hp).
      destruct (Hks _ H2) as (ps & E' & Hps). exists (p :: ps). cbn. rewrite E. cbn. rewrite E'. split; [easy|now constructor]. }
  destruct K as (ks & -> & Hks). cbn [bind]. eexists. split; [reflexivity|].
  intros e' He. inversion He as [? ? ? text' ? tail' ? kids' Hk Ht' Htl]; subst.
  destruct (Hks _ Hk) as (ps & E & Hps).
  cbn [reread]. rewrite Rd. cbn [bind]. rewrite Rn. cbn [bind]. rewrite Ra. cbn [bind].
  assert (T' : text_ok text') by (destruct Ht' as [->|(_ & _ & W)]; [easy|now apply ws_text_ok]).
  rewrite (read_text_ok text') by easy. cbn [bind]. rewrite E. cbn [bind].
  rewrite (read_text_ok tail') by (destruct Htl as [->|W]; [intros ? [=]|now apply ws_text_ok]). cbn [bind].
  eexists. split; [reflexivity|]. constructor; [|easy|].
  2:{ destruct Htl as [->|W]; [intros ? ? [=]|]. destruct tail' as [[|c0 s0]|]; [intros ? ? [=]|exact W|intros ? ? [=]]. }
  assert (Kn : ks <> [] -> kids <> []).
  { intros Hn ->. inversion Hps; subst. destruct kids' as [|e' kids']; [inversion Hk; now subst|].
    cbn in E. destruct (reread scope' e'); [|discriminate]. cbn in E. destruct (traverse _ kids'); discriminate. }
  destruct Ht' as [->|(Hn & B & W)].
  - destruct kids as [|k kids]; cbn; [now destruct text as [[|]|]|].
    split; [now left|apply seen_nonblank].
  - destruct kids as [|k kids]; [now destruct Kn|]. cbn. apply blank_spec in B. split; [|easy].
    intros _. right. destruct text' as [[|c0 s0]|]; [intros ? ? [=]|exact W|intros ? ? [=]].
Qed.

Theorem dump_mirrors c indent : tree_ok [] (corpus_tree c) ->
  exists e p, xml_dump c indent = Ok e /\ reread [] e = Ok p /\ mirrors (corpus_tree c) p.
Proof.
  intros H. destruct (tree_out _ [] [] [] H) as (e & E & He); [easy|easy|].
  destruct (He _ (indent_opt_dressed indent e)) as (p & Hp & Hm).
  exists (indent_opt indent e), p. unfold xml_dump. rewrite build_corpus_tree, E. now split.
Qed.

(* ---------- decoding what mirrors a tree ---------- *)

Lemma ignoring_dict a : ignoring [ID; TYPE] (shown_attrs a)
  = filter (fun kv => negb (str_eqb (fst kv) ID || str_eqb (fst kv) TYPE)) (a_dict a).
Proof.
  unfold ignoring, shown_attrs. rewrite !filter_app.
  replace (filter _ (optional ID (a_id a))) with (@nil (str * str)) by (now destruct (a_id a)).
  replace (filter _ (optional TYPE (a_type a))) with (@nil (str * str)) by (now destruct (a_type a)).
  cbn [app]. apply filter_ext. intros [k v]. cbn [fst existsb]. now rewrite orb_false_r.
Qed.
Lemma filter_absent (d : dict str) : ~ In ID (map fst d) -> ~ In TYPE (map fst d) ->
  filter (fun kv => negb (str_eqb (fst kv) ID || str_eqb (fst kv) TYPE)) d = d.
Proof.
  intros Hi Ht. induction d as [|[k v] l IH]; [easy|]. cbn [filter fst map] in *.
  destruct (str_eqb_spec k ID) as [E|_]; [destruct Hi; now left|].
  destruct (str_eqb_spec k TYPE) as [E|_]; [destruct Ht; now left|]. cbn [orb negb]. f_equal.
  apply IH; intros H; [apply Hi|apply Ht]; now right.
Qed.
Lemma shown_ignored a : ~ In ID (map fst (a_dict a)) -> ~ In TYPE (map fst (a_dict a)) ->
  ignoring [ID; TYPE] (shown_attrs a) = a_dict a.
Proof. intros Hi Ht. now rewrite ignoring_dict, filter_absent. Qed.
Lemma shown_ignored_id a : ~ In ID (map fst (a_dict a)) ->
  ignoring [ID] (shown_attrs a) = optional TYPE (a_type a) ++ a_dict a.
Proof.
  intros Hi. unfold ignoring, shown_attrs. rewrite !filter_app.
  replace (filter _ (optional ID (a_id a))) with (@nil (str * str)) by (now destruct (a_id a)).
  cbn [app]. f_equal; [now destruct (a_type a)|].
  induction (a_dict a) as [|[k v] l IH]; [easy|]. cbn [filter fst map] in *.
  cbn [existsb]. destruct (str_eqb_spec k ID) as [E|_]; [destruct Hi; now left|]. cbn [orb negb]. f_equal.
  apply IH; intros H; apply Hi; now right.
Qed.
Lemma shown_id a : ~ In ID (map fst (a_dict a)) -> dget (shown_attrs a) ID = a_id a.
Proof.
  intros Hi. unfold shown_attrs. destruct (a_id a); [reflexivity|]. cbn [optional app].
  rewrite dget_fresh; [easy|]. rewrite map_app, in_app_iff. intros [H|H]; [|easy].
  destruct (a_type a); cbn in H; [|easy]. destruct H as [H|[]]. vm_compute in H. discriminate.
Qed.
Lemma shown_type a : ~ In TYPE (map fst (a_dict a)) -> dget (shown_attrs a) TYPE = a_type a.
Proof.
  intros Hi. unfold shown_attrs.
  assert (E : dget (optional TYPE (a_type a) ++ a_dict a) TYPE = a_type a).
  { destruct (a_type a); [reflexivity|]. cbn [optional app]. now rewrite dget_fresh. }
  destruct (a_id a) as [i|]; [|easy]. exact E.
Qed.

Lemma decode_attrs_ok id type ign ns p m a : p_nsmap p = Some m ->
  (forall i, id = Some i -> accepted_id i) -> id = a_id a -> type = a_type a -> ns = a_ns a ->
  ignoring ign (p_attrib p) = a_dict a ->
  exists a', decode_attrs id type ign ns p = Ok a' /\ same_attrs a a'.
Proof.
  intros Em Hi Ei Et En Ed. eexists. split.
  - unfold decode_attrs. rewrite Em, Ed. destruct id as [i|]; [|reflexivity].
    assert (A : id_accepted i = true) by (apply RefProofs.id_accepted_spec, Hi; reflexivity).
    rewrite A. reflexivity.
  - now repeat split; cbn.
Qed.

Lemma plain_elem outer tag a text kids p : tree_ok outer (XT tag a text kids) -> mirrors (XT tag a text kids) p ->
  plain a -> expect_tag tag p = Ok None /\ p_tag p = tag
  /\ exists a', decode_attrs (pget ID p) (pget TYPE p) [ID; TYPE] None p = Ok a' /\ same_attrs a a'.
Proof.
  intros Ht Hm (Hns & Hid & Hid' & Hty). inversion_clear Ht as [? ? ? ? ? Ha Htag _ _].
  inversion_clear Hm.
  split; [|split].
  - unfold expect_tag. rewrite Hns. cbn [p_tag full_tag]. rewrite qname_plain by easy. cbn [bind].
    now rewrite str_eqb_refl.
  - now rewrite Hns.
  - eapply decode_attrs_ok; auto; unfold pget; cbn [p_attrib].
    + reflexivity.
    + rewrite shown_id by easy. auto.
    + now apply shown_id.
    + now apply shown_type.
    + now apply shown_ignored.
Qed.

Section Traverse.
Context {A B : Type} (tr : A -> xtree) (dec : pelem -> res B) (R : A -> B -> Prop).
Lemma traverse_mirrors l ps : Forall2 mirrors (map tr l) ps ->
  (forall x p, In x l -> mirrors (tr x) p -> exists y, dec p = Ok y /\ R x y) ->
  exists ys, traverse dec ps = Ok ys /\ Forall2 R l ys.
Proof.
  revert ps. induction l as [|x l IH]; cbn [map]; intros ps Hf H; inversion Hf as [|? p ? ps' H1 H2]; subst.
  - exists []. now split.
  - destruct (H x p) as (y & E & Hy); [now left|easy|]. cbn. rewrite E. cbn.
    destruct (IH ps' H2) as (ys & -> & Hys); [intros z q Hz; apply H; now right|].
    exists (y :: ys). split; [easy|now constructor].
Qed.
End Traverse.

Lemma find_tagged {A} (tr : A -> xtree) tag l ps : Forall2 mirrors (map tr l) ps ->
  (forall x, In x l -> exists a text kids, tr x = XT tag a text kids /\ a_ns a = None) ->
  Forall (fun p => p_tag p = tag) ps.
Proof.
  revert ps. induction l as [|x l IH]; cbn [map]; intros ps Hf H; inversion Hf as [|? p ? ps' H1 H2]; subst; constructor.
  - destruct (H x) as (a & text & kids & E & En); [now left|]. rewrite E in H1. inversion_clear H1. now rewrite En.
  - apply IH; [easy|]. intros y Hy. apply H. now right.
Qed.
Lemma filter_tag_all tag ps : Forall (fun p => p_tag p = tag) ps -> filter (fun k => str_eqb (p_tag k) tag) ps = ps.
Proof. induction 1 as [|p ps H _ IH]; cbn; [easy|]. rewrite H, str_eqb_refl. now f_equal. Qed.
Lemma filter_tag_none tag tag' ps : tag <> tag' -> Forall (fun p => p_tag p = tag) ps ->
  filter (fun k => str_eqb (p_tag k) tag') ps = [].
Proof.
  intros Hn. induction 1 as [|p ps H _ IH]; cbn; [easy|]. rewrite H.
  now destruct (str_eqb_spec tag tag').
Qed.

Lemma check_ids_ok l : forall seen, NoDup (some_ids l) -> (forall i, In i (some_ids l) -> ~ In i seen) ->
  check_ids seen l = Ok tt.
Proof.
  induction l as [|[i|] l IH]; cbn [check_ids some_ids flat_map app]; intros seen Hnd Hs; [easy| |auto].
  inversion_clear Hnd as [|? ? Hi Hnd'].
  destruct (existsb (str_eqb i) seen) eqn:E.
  - apply existsb_exists in E as (j & Hj & ->%str_eqb_eq). destruct (Hs j); [now left|easy].
  - apply IH; [easy|]. intros j Hj [<-|Hin]; [now apply Hi|]. apply (Hs j); [now right|easy].
Qed.
Lemma new_container_ok {A B} (ida : A -> option str) (idb : B -> option str) (R : A -> B -> Prop) l l' :
  NoDup (some_ids (map ida l)) -> Forall2 R l l' -> (forall x y, R x y -> ida x = idb y) ->
  new_container idb l' = Ok l'.
Proof.
  intros Hnd HF HR. unfold new_container.
  assert (E : map idb l' = map ida l).
  { clear Hnd. induction HF as [|x y l l' H _ IH]; cbn; [easy|]. rewrite IH. f_equal. symmetry. auto. }
  rewrite E, check_ids_ok; auto.
Qed.

Lemma F2_map {A B C} (f : A -> B) (R : B -> C -> Prop) l l' :
  Forall2 (fun x y => R (f x) y) l l' -> Forall2 R (map f l) l'.
Proof. induction 1; cbn; constructor; auto. Qed.

Lemma tree_kids outer tag a text kids : tree_ok outer (XT tag a text kids) ->
  forall k, In k kids -> tree_ok (in_force a outer) k.
Proof. intros H. inversion_clear H as [? ? ? ? ? _ _ _ Hk]. now rewrite Forall_forall in Hk. Qed.

(* ----- meta children ----- *)

Lemma name_accepted_ok n :
  (exists c r, n = c :: r /\ is_word c = true /\ is_digit c = false
     /\ forall x, In x r -> is_word x = true \/ x = Ch "-" \/ x = Ch ".") -> name_accepted n = true.
Proof.
  intros (c & r & -> & Hw & Hd & Hr). unfold name_accepted. rewrite Hw, Hd. cbn [andb negb].
  replace (forallb _ r) with true; [easy|]. symmetry. rewrite forallb_forall. intros x Hx.
  destruct (Hr x Hx) as [->|[->| ->]]; rewrite ?orb_true_r; reflexivity.
Qed.
Lemma nonblank_blank t : blank_text t -> nonblank t = None.
Proof.
  intros H. destruct t as [s|]; [|easy]. cbn. replace (forallb is_space s) with true; [easy|].
  symmetry. apply forallb_forall. intros c Hc. exact (H s c eq_refl Hc).
Qed.
Lemma nonblank_not t : ~ blank_text t -> nonblank t = t.
Proof.
  intros H. destruct t as [s|]; [|easy]. cbn. destruct (forallb is_space s) eqn:E; [|easy].
  destruct H. intros s' c [= <-]. rewrite forallb_forall in E. apply E.
Qed.
Lemma meta_text_ok leaf text p : shown_text leaf text (p_text p) -> meta_text p = nonblank text.
Proof.
  intros Hs. unfold meta_text. destruct (blank text) eqn:B.
  - apply blank_spec in B. rewrite nonblank_blank by easy.
    assert (B' : blank_text (p_text p)).
    { destruct leaf; cbn in Hs; [rewrite Hs; exact (seen_blank _ B)|].
      destruct Hs as [Hs _]. destruct (Hs B) as [->|W]; [exact (seen_blank _ B)|now apply ws_blank]. }
    apply blank_spec in B'. now rewrite B'.
  - apply blank_not in B. rewrite nonblank_not by easy.
    assert (E : p_text p = text).
    { destruct leaf; cbn in Hs; [|now apply Hs]. rewrite Hs. exact (seen_nonblank text B). }
    rewrite E. apply blank_not in B. now rewrite B.
Qed.

Lemma qname_full_tag m a tag : attrs_ok m a -> ncname tag = true -> qname_split (full_tag (a_ns a) tag) = Ok (a_ns a, tag).
Proof.
  intros (_ & _ & _ & _ & _ & _ & _ & Hns) Ht. destruct (a_ns a) as [u|]; cbn [full_tag].
  - apply qname_clark. now apply Hns.
  - now apply qname_plain.
Qed.

Lemma decode_child_ok m : forall outer p, tree_ok outer (child_tree m) -> mirrors (child_tree m) p -> child_ok m ->
  exists m', decode_child p = Ok m' /\ same_child (back_child m) m'.
Proof.
  induction m as [n a t kids IH] using mchild_rec'. intros outer p Ht Hm Hc. cbn [child_tree] in *.
  pose proof (tree_kids _ _ _ _ _ Ht) as Hkids. inversion_clear Ht as [? ? ? ? ? Ha Hn Htx _].
  inversion Hm as [? ? ? ? ms text' tail ps Hsh HF Htl]; subst.
  inversion_clear Hc as [? ? ? ? Hid Hty Hnm Hacc Hck].
  cbn [decode_child]. rewrite (qname_full_tag _ _ _ Ha Hn). cbn [bind].
  destruct (traverse_mirrors child_tree decode_child (fun x y => same_child (back_child x) y) kids ps HF) as (ys & E & HR).
  { intros x q Hx Hq. rewrite Forall_forall in IH, Hck. apply (IH x Hx (in_force a outer) q); auto.
    apply Hkids. now apply in_map. }
  rewrite E. cbn [bind].
  destruct (decode_attrs_ok None None [ID; TYPE] (a_ns a)
    (PElem (full_tag (a_ns a) n) (shown_attrs a) (Some ms) text' tail ps) ms
    {| a_id := a_id a; a_type := a_type a; a_ns := a_ns a; a_nsmap := a_nsmap a;
       a_dict := filter (fun kv => negb (str_eqb (fst kv) ID || str_eqb (fst kv) TYPE)) (a_dict a) |}) as (a' & -> & Ha').
  - easy.
  - intros ? [=].
  - now rewrite Hid.
  - now rewrite Hty.
  - easy.
  - apply ignoring_dict.
  - cbn [bind]. rewrite name_accepted_ok by easy. eexists. split; [reflexivity|].
    rewrite (meta_text_ok _ t (PElem (full_tag (a_ns a) n) (shown_attrs a) (Some ms) text' tail ps) Hsh).
    cbn [back_child]. constructor; [easy|]. now apply F2_map.
Qed.

(* ----- the other objects ----- *)

Lemma same_attrs_id a b : same_attrs a b -> a_id a = a_id b.
Proof. now intros (? & _). Qed.

Lemma decode_meta_ok outer m p : tree_ok outer (meta_tree m) -> mirrors (meta_tree m) p -> meta_ok m ->
  exists m', decode_meta p = Ok m' /\ same_meta (back_meta m) m'.
Proof.
  intros Ht Hm (Hp & Hk). pose proof (tree_kids _ _ _ _ _ Ht) as Hkids.
  destruct (plain_elem _ _ _ _ _ _ Ht Hm Hp) as (E1 & _ & a' & E2 & Ha).
  unfold decode_meta. rewrite E1. cbn [bind]. inversion Hm as [? ? ? ? ms text' tail ps Hsh HF Htl]; subst. cbn [p_kids].
  destruct (traverse_mirrors child_tree decode_child (fun x y => same_child (back_child x) y) (me_kids m) ps HF) as (ys & E & HR).
  { intros x q Hx Hq. rewrite Forall_forall in Hk. apply (decode_child_ok x (in_force (me_attrs m) outer)); auto.
    apply Hkids. now apply in_map. }
  rewrite E. cbn [bind]. rewrite E2. cbn [bind]. eexists. split; [reflexivity|]. split; [|split]; cbn; auto.
  - symmetry. eapply meta_text_ok. exact Hsh.
  - now apply F2_map.
Qed.
Lemma decode_metadata_ok outer m p : tree_ok outer (metadata_tree m) -> mirrors (metadata_tree m) p -> metadata_ok m ->
  exists m', decode_metadata p = Ok m' /\ same_metadata (back_metadata m) m'.
Proof.
  intros Ht Hm (Hp & Hk & Hnd). pose proof (tree_kids _ _ _ _ _ Ht) as Hkids.
  destruct (plain_elem _ _ _ _ _ _ Ht Hm Hp) as (E1 & _ & a' & E2 & Ha).
  unfold decode_metadata. rewrite E1. cbn [bind]. inversion Hm as [? ? ? ? ms text' tail ps Hsh HF Htl]; subst.
  unfold find_kids. cbn [p_kids]. rewrite Forall_forall in Hk. rewrite filter_tag_all.
  2:{ apply (find_tagged meta_tree _ (md_metas m)); [easy|]. intros x Hx. do 3 eexists. split; [reflexivity|]. apply (Hk x Hx). }
  destruct (traverse_mirrors meta_tree decode_meta (fun x y => same_meta (back_meta x) y) (md_metas m) ps HF) as (ys & E & HR).
  { intros x q Hx Hq. apply (decode_meta_ok (in_force (md_attrs m) outer)); auto. apply Hkids. now apply in_map. }
  rewrite E. cbn [bind]. rewrite E2. cbn [bind].
  erewrite new_container_ok; [|exact Hnd|exact HR|]; [|intros x y (_ & H & _); now apply same_attrs_id].
  cbn [bind]. eexists. split; [reflexivity|]. repeat (split; [easy|]). now apply F2_map.
Qed.
Lemma decode_metadatas_ok outer p l ps rest : metadatas_ok l -> p_kids p = ps ++ rest ->
  Forall2 mirrors (map metadata_tree l) ps -> (forall k, In k (map metadata_tree l) -> tree_ok outer k) ->
  filter (fun k => str_eqb (p_tag k) (L "metadata")) rest = [] ->
  exists l', decode_metadatas p = Ok l' /\ Forall2 same_metadata (map back_metadata l) l'.
Proof.
  intros (Hk & Hnd) Ep HF Hkids Hr. unfold decode_metadatas, find_kids. rewrite Ep, filter_app, Hr, app_nil_r.
  rewrite Forall_forall in Hk. rewrite filter_tag_all.
  2:{ apply (find_tagged metadata_tree _ l); [easy|]. intros x Hx. do 3 eexists. split; [reflexivity|]. apply (Hk x Hx). }
  destruct (traverse_mirrors metadata_tree decode_metadata (fun x y => same_metadata (back_metadata x) y) l ps HF) as (ys & -> & HR).
  { intros x q Hx Hq. apply (decode_metadata_ok outer); auto. apply Hkids. now apply in_map. }
  cbn [bind]. erewrite new_container_ok; [|exact Hnd|exact HR|]; [|intros x y (H & _); now apply same_attrs_id].
  exists ys. split; [easy|]. now apply F2_map.
Qed.
Lemma metadatas_tags l ps : metadatas_ok l -> Forall2 mirrors (map metadata_tree l) ps ->
  Forall (fun p => p_tag p = L "metadata") ps.
Proof.
  intros (Hk & _) HF. rewrite Forall_forall in Hk.
  apply (find_tagged metadata_tree _ l); [easy|]. intros x Hx. do 3 eexists. split; [reflexivity|]. apply (Hk x Hx).
Qed.

Lemma decode_item_ok outer i p : tree_ok outer (item_tree i) -> mirrors (item_tree i) p -> item_ok i ->
  exists i', decode_item p = Ok i' /\ same_item (back_item i) i'.
Proof.
  intros Ht Hm Hp. destruct (plain_elem _ _ _ _ _ _ Ht Hm Hp) as (E1 & _ & a' & E2 & Ha).
  unfold decode_item. rewrite E1. cbn [bind]. rewrite E2. cbn [bind]. eexists. split; [reflexivity|]. split; [|easy]. cbn.
  inversion Hm as [? ? ? ? ms text' tail ps Hsh HF Htl]; subst. cbn. cbn in Hsh. rewrite Hsh. now destruct (it_text i) as [[|]|].
Qed.
Lemma decode_tier_ok outer t p : tree_ok outer (tier_tree t) -> mirrors (tier_tree t) p -> tier_ok t ->
  exists t', decode_tier p = Ok t' /\ same_tier (back_tier t) t'.
Proof.
  intros Ht Hm (Hp & Hmd & Hk & Hnd). pose proof (tree_kids _ _ _ _ _ Ht) as Hkids.
  destruct (plain_elem _ _ _ _ _ _ Ht Hm Hp) as (E1 & _ & a' & E2 & Ha).
  unfold decode_tier. rewrite E1. cbn [bind]. inversion Hm as [? ? ? ? ms text' tail ps Hsh HF Htl]; subst.
  apply Forall2_app_inv_l in HF as (ps1 & ps2 & HF1 & HF2 & ->). rewrite Forall_forall in Hk.
  assert (T2 : Forall (fun p => p_tag p = L "item") ps2).
  { apply (find_tagged item_tree _ (t_items t)); [easy|]. intros x Hx. do 3 eexists. split; [reflexivity|]. apply (Hk x Hx). }
  destruct (decode_metadatas_ok (in_force (t_attrs t) outer)
    (PElem (full_tag (a_ns (t_attrs t)) (L "tier")) (shown_attrs (t_attrs t)) (Some ms) text' tail (ps1 ++ ps2))
    (t_md t) ps1 ps2 Hmd eq_refl HF1) as (md' & -> & Hmd').
  { intros k Hin. apply Hkids, in_or_app. now left. }
  { now apply (filter_tag_none (L "item")). }
  cbn [bind]. unfold find_kids. cbn [p_kids].
  rewrite filter_app, (filter_tag_none (L "metadata")), filter_tag_all; [|easy|easy|now apply (metadatas_tags (t_md t))].
  cbn [app].
  destruct (traverse_mirrors item_tree decode_item (fun x y => same_item (back_item x) y) (t_items t) ps2 HF2) as (ys & E & HR).
  { intros x q Hx Hq. apply (decode_item_ok (in_force (t_attrs t) outer)); auto. apply Hkids, in_or_app. right. now apply in_map. }
  rewrite E. cbn [bind]. rewrite E2. cbn [bind].
  erewrite new_container_ok; [|exact Hnd|exact HR|]; [|intros x y (_ & H); now apply same_attrs_id].
  cbn [bind]. eexists. split; [reflexivity|]. repeat (split; [easy|]). now apply F2_map.
Qed.
Lemma decode_igt_ok outer g p : tree_ok outer (igt_tree g) -> mirrors (igt_tree g) p -> igt_ok g ->
  exists g', decode_igt p = Ok g' /\ same_igt (back_igt g) g'.
Proof.
  intros Ht Hm (Hp & Hmd & Hk & Hnd). pose proof (tree_kids _ _ _ _ _ Ht) as Hkids.
  destruct (plain_elem _ _ _ _ _ _ Ht Hm Hp) as (E1 & _ & a' & E2 & Ha).
  unfold decode_igt. rewrite E1. cbn [bind]. inversion Hm as [? ? ? ? ms text' tail ps Hsh HF Htl]; subst.
  apply Forall2_app_inv_l in HF as (ps1 & ps2 & HF1 & HF2 & ->). rewrite Forall_forall in Hk.
  assert (T2 : Forall (fun p => p_tag p = L "tier") ps2).
  { apply (find_tagged tier_tree _ (g_tiers g)); [easy|]. intros x Hx. do 3 eexists. split; [reflexivity|]. apply (Hk x Hx). }
  destruct (decode_metadatas_ok (in_force (g_attrs g) outer)
    (PElem (full_tag (a_ns (g_attrs g)) (L "igt")) (shown_attrs (g_attrs g)) (Some ms) text' tail (ps1 ++ ps2))
    (g_md g) ps1 ps2 Hmd eq_refl HF1) as (md' & -> & Hmd').
  { intros k Hin. apply Hkids, in_or_app. now left. }
  { now apply (filter_tag_none (L "tier")). }
  cbn [bind]. unfold find_kids. cbn [p_kids].
  rewrite filter_app, (filter_tag_none (L "metadata")), filter_tag_all; [|easy|easy|now apply (metadatas_tags (g_md g))].
  cbn [app].
  destruct (traverse_mirrors tier_tree decode_tier (fun x y => same_tier (back_tier x) y) (g_tiers g) ps2 HF2) as (ys & E & HR).
  { intros x q Hx Hq. apply (decode_tier_ok (in_force (g_attrs g) outer)); auto. apply Hkids, in_or_app. right. now apply in_map. }
  rewrite E. cbn [bind]. rewrite E2. cbn [bind].
  erewrite new_container_ok; [|exact Hnd|exact HR|]; [|intros x y (H & _); now apply same_attrs_id].
  cbn [bind]. eexists. split; [reflexivity|]. repeat (split; [easy|]). now apply F2_map.
Qed.

(* ---------- events ---------- *)

Inductive quiet : pelem -> Prop :=
| Quiet tag d m text tail kids : tag <> L "igt" -> tag <> L "xigt-corpus" -> Forall quiet kids ->
    quiet (PElem tag d m text tail kids).

Lemma events_eq tag d m text tail kids :
  events (PElem tag d m text tail kids)
  = EvStart (PElem tag d m text tail kids) :: flat_map events kids ++ [EvEnd (PElem tag d m text tail kids)].
Proof. reflexivity. Qed.

Lemma pelem_rec' (P : pelem -> Prop) :
  (forall tag d m text tail kids, Forall P kids -> P (PElem tag d m text tail kids)) -> forall p, P p.
Proof.
  intros H. fix IH 1. intros [tag d m text tail kids]. apply H.
  induction kids as [|k kids IHk]; constructor; [apply IH|exact IHk].
Qed.

Definition stop_at : event -> bool := fun e => is_start (L "igt") e || is_end (L "xigt-corpus") e.

Lemma quiet_skip p : quiet p -> forall rest, skip_to stop_at (events p ++ rest) = skip_to stop_at rest.
Proof.
  induction p as [tag d m text tail kids IH] using pelem_rec'. intros H rest.
  inversion_clear H as [? ? ? ? ? ? H1 H2 Hk]. rewrite events_eq. set (p := PElem _ _ _ _ _ _).
  cbn [app skip_to stop_at is_start is_end p_tag p]. unfold stop_at at 1. cbn [is_start is_end]. cbn [p_tag p].
  destruct (str_eqb_spec tag (L "igt")) as [|_]; [easy|]. cbn [orb]. rewrite <- app_assoc.
  assert (G : forall r, skip_to stop_at (flat_map events kids ++ r) = skip_to stop_at r).
  { clear -IH Hk. induction IH as [|k kids Hk1 _ IHk]; cbn; intros r; [easy|].
    inversion_clear Hk. rewrite <- app_assoc, Hk1 by easy. now apply IHk. }
  rewrite G. cbn [app skip_to]. unfold stop_at at 1. cbn [is_start is_end orb]. cbn [p_tag p].
  now destruct (str_eqb_spec tag (L "xigt-corpus")).
Qed.
Lemma quiet_iter p : quiet p -> forall rest,
  iter_elements (L "igt") (is_end (L "xigt-corpus")) (events p ++ rest)
  = iter_elements (L "igt") (is_end (L "xigt-corpus")) rest.
Proof.
  induction p as [tag d m text tail kids IH] using pelem_rec'. intros H rest.
  inversion_clear H as [? ? ? ? ? ? H1 H2 Hk]. rewrite events_eq. set (p := PElem _ _ _ _ _ _).
  cbn [app iter_elements is_end]. rewrite <- app_assoc.
  assert (G : forall r, iter_elements (L "igt") (is_end (L "xigt-corpus")) (flat_map events kids ++ r)
                        = iter_elements (L "igt") (is_end (L "xigt-corpus")) r).
  { clear -IH Hk. induction IH as [|k kids Hk1 _ IHk]; cbn; intros r; [easy|].
    inversion_clear Hk. rewrite <- app_assoc, Hk1 by easy. now apply IHk. }
  rewrite G. cbn [app iter_elements is_end]. cbn [p_tag p].
  destruct (str_eqb_spec tag (L "xigt-corpus")) as [|_]; [easy|]. now destruct (str_eqb_spec tag (L "igt")).
Qed.
Lemma quiet_skips l rest : Forall quiet l -> skip_to stop_at (flat_map events l ++ rest) = skip_to stop_at rest.
Proof. induction 1; cbn; [easy|]. now rewrite <- app_assoc, quiet_skip. Qed.
Lemma quiet_iters l rest : Forall quiet l ->
  iter_elements (L "igt") (is_end (L "xigt-corpus")) (flat_map events l ++ rest)
  = iter_elements (L "igt") (is_end (L "xigt-corpus")) rest.
Proof. induction 1; cbn; [easy|]. now rewrite <- app_assoc, quiet_iter. Qed.

Lemma igts_iter l root : Forall (fun p => p_tag p = L "igt" /\ Forall quiet (p_kids p)) l ->
  p_tag root = L "xigt-corpus" ->
  iter_elements (L "igt") (is_end (L "xigt-corpus")) (flat_map events l ++ [EvEnd root]) = Some l.
Proof.
  intros H Hr. induction H as [|p l [Hp Hq] _ IH]; cbn [flat_map app].
  - cbn [iter_elements is_end]. rewrite Hr. reflexivity.
  - destruct p as [tag d m text tail kids]. cbn [p_tag p_kids] in *. rewrite events_eq. subst tag.
    set (p := PElem _ _ _ _ _ _). cbn [app iter_elements is_end]. rewrite <- !app_assoc, quiet_iters by easy.
    cbn [app iter_elements is_end]. cbn [p_tag p]. change (str_eqb (L "igt") (L "xigt-corpus")) with false.
    rewrite str_eqb_refl. now rewrite IH.
Qed.

(* what is seen of the elements *)
Definition views (c a : nat) : nat -> list pelem -> list pelem :=
  fix go (s : nat) (l : list pelem) : list pelem :=
    match l with
    | [] => []
    | k :: l => if s <? a then view c a s k :: go (s + length (events k)) l else []
    end.
Lemma view_eq c a s tag d m text tail kids : view c a s (PElem tag d m text tail kids)
  = PElem tag d (if s <? c then m else None) (if S s <? a then text else None) tail (views c a (S s) kids).
Proof. reflexivity. Qed.
Lemma view_tag c a s p : p_tag (view c a s p) = p_tag p.
Proof. now destruct p. Qed.
Lemma events_len tag d m text tail kids :
  length (events (PElem tag d m text tail kids)) = S (S (length (flat_map events kids))).
Proof. rewrite events_eq. cbn [length]. rewrite app_length. cbn. lia. Qed.
Lemma view_all c a : c <= a -> forall p s, s + length (events p) <= c -> view c a s p = p.
Proof.
  intros Hca p. induction p as [tag d m text tail kids IH] using pelem_rec'. intros s H. rewrite events_len in H. rewrite view_eq.
  rewrite (proj2 (Nat.ltb_lt s c)), (proj2 (Nat.ltb_lt (S s) a)) by lia. f_equal.
  assert (G : forall s', s' + length (flat_map events kids) <= c -> views c a s' kids = kids).
  { clear -IH Hca. induction IH as [|k kids Hk _ IHk]; intros s' H; [easy|]. cbn [flat_map] in H. rewrite app_length in H.
    assert (1 <= length (events k)) by (destruct k; rewrite events_len; lia).
    cbn [views]. rewrite (proj2 (Nat.ltb_lt s' a)) by lia. rewrite Hk by lia. f_equal. apply IHk. lia. }
  apply G. lia.
Qed.
Lemma views_app c a : c <= a -> forall l r s, s + length (flat_map events l) <= c ->
  views c a s (l ++ r) = l ++ views c a (s + length (flat_map events l)) r.
Proof.
  intros Hca. induction l as [|k l IH]; intros r s H; cbn [flat_map app length]; [now rewrite Nat.add_0_r|].
  cbn [flat_map] in H. rewrite app_length in *.
  assert (1 <= length (events k)) by (destruct k; rewrite events_len; lia).
  cbn [views]. rewrite (proj2 (Nat.ltb_lt s a)) by lia. rewrite view_all by lia. f_equal. rewrite IH by lia.
  now rewrite Nat.add_assoc.
Qed.
Lemma views_tags c a tag : forall l s, Forall (fun p => p_tag p <> tag) l ->
  filter (fun k => str_eqb (p_tag k) tag) (views c a s l) = [].
Proof.
  induction l as [|k l IH]; intros s H; [easy|]. inversion_clear H. cbn [views]. destruct (s <? a); [|easy]. cbn [filter].
  rewrite view_tag. destruct (str_eqb_spec (p_tag k) tag); [easy|]. now apply IH.
Qed.
Lemma quiet_scrub p : quiet p -> scrub p = p.
Proof.
  induction p as [tag d m text tail kids IH] using pelem_rec'. intros H. inversion_clear H as [? ? ? ? ? ? H1 H2 Hk].
  cbn. destruct (str_eqb_spec tag (L "igt")); [easy|]. f_equal. clear -IH Hk.
  induction kids as [|k kids IHk]; cbn; [easy|]. inversion_clear IH. inversion_clear Hk. f_equal; auto.
Qed.
Lemma quiet_at_end p : Forall quiet (p_kids p) -> at_end p = p.
Proof.
  destruct p as [tag d m text tail kids]. cbn. intros H. f_equal. induction H; cbn; [easy|]. f_equal; auto using quiet_scrub.
Qed.
Lemma quiet_has_igt p : quiet p -> has_igt p = false.
Proof.
  induction p as [tag d m text tail kids IH] using pelem_rec'. intros H. inversion_clear H as [? ? ? ? ? ? H1 H2 Hk].
  cbn. destruct (str_eqb_spec tag (L "igt")); [easy|]. cbn. clear -IH Hk.
  induction kids as [|k kids IHk]; cbn; [easy|]. inversion_clear IH. inversion_clear Hk.
  rewrite (H H1). cbn. auto.
Qed.
Lemma quiet_find l r : Forall quiet l -> find has_igt (l ++ r) = find has_igt r.
Proof. induction 1; cbn; [easy|]. now rewrite quiet_has_igt. Qed.
Lemma decode_same p q gs : p_tag p = p_tag q -> p_attrib p = p_attrib q -> p_nsmap p = p_nsmap q ->
  find_kids (L "metadata") p = find_kids (L "metadata") q -> decode_xigtcorpus p gs = decode_xigtcorpus q gs.
Proof.
  intros E1 E2 E3 E4. unfold decode_xigtcorpus, expect_tag, decode_metadatas, decode_attrs, pget.
  now rewrite E1, E2, E3, E4.
Qed.

Lemma decode_with_igts ahead root md gs : p_tag root = L "xigt-corpus" -> p_kids root = md ++ gs ->
  Forall quiet md -> Forall (fun p => p_tag p = L "igt" /\ Forall quiet (p_kids p)) gs ->
  Forall (fun p => p_tag p = L "metadata") md ->
  exists seen, (forall A (mk : pelem -> list pelem -> res A), decode_with mk ahead root = mk seen gs) /\ decode_xigtcorpus seen gs = decode_xigtcorpus root gs.
Proof.
  intros Hr Hk Hq Hg Hmd. destruct root as [tag d m text tail kids]. cbn [p_tag p_kids] in *. subst tag kids.
  set (p := PElem _ _ _ _ _ _). unfold decode_with. fold stop_at. cbv zeta.
  assert (Ev : events p = EvStart p :: flat_map events md ++ flat_map events gs ++ [EvEnd p]).
  { unfold p. now rewrite events_eq, flat_map_app, <- app_assoc. }
  rewrite Ev. cbn [skip_to]. unfold stop_at at 1. cbn [is_start is_end]. cbn [p_tag p].
  change (str_eqb (L "xigt-corpus") (L "igt")) with false. cbn [orb]. fold p.
  rewrite quiet_skips by easy. destruct Hg as [|g gs [Hg1 Hg2] Hg].
  - cbn [flat_map app skip_to]. unfold stop_at. cbn [is_start is_end]. cbn [p_tag p].
    rewrite str_eqb_refl. cbn [orb]. fold p.
    assert (Es : view (length (EvStart p :: flat_map events md ++ [EvEnd p]) - length (@nil event))
      (length (EvStart p :: flat_map events md ++ [EvEnd p]) - length (@nil event) + ahead) 0 p = p).
    { apply view_all; [lia|]. rewrite Ev. cbn [length flat_map app]. lia. }
    rewrite Es. exists p. split; [|reflexivity]. intros A mk. f_equal. unfold find_kids. cbn [p_kids p]. rewrite app_nil_r.
    now rewrite (filter_tag_none (L "metadata")).
  - destruct g as [tag' d' m' text' tail' kids']. cbn [p_tag p_kids] in *. subst tag'.
    assert (Ei : igt_in_meta p = false).
    { unfold igt_in_meta. cbn [p_kids p]. rewrite quiet_find by easy. reflexivity. }
    rewrite Ei. cbn [flat_map]. rewrite events_eq. set (g := PElem (L "igt") _ _ _ _ _) in *.
    cbn [app skip_to]. unfold stop_at. cbn [is_start is_end]. cbn [p_tag g]. rewrite str_eqb_refl. cbn [orb].
    match goal with |- context [iter_elements _ _ ?r] => set (rest := r) end. replace (iter_elements _ _ rest) with (Some (g :: gs)).
    2:{ unfold rest. rewrite <- !app_assoc, quiet_iters by easy. cbn [app iter_elements is_end]. cbn [p_tag g].
        change (str_eqb (L "igt") (L "xigt-corpus")) with false. rewrite str_eqb_refl. now rewrite igts_iter. }
    match goal with |- context [?x - length rest] => set (n := x - length rest) end.
    assert (En : n = S (S (length (flat_map events md)))) by (unfold n; cbn [length]; rewrite app_length; cbn [length]; lia).
    clearbody n. subst n. clearbody rest.
    replace (map at_end (g :: gs)) with (g :: gs).
    2:{ symmetry. cbn [map]. rewrite quiet_at_end by easy. f_equal. clear -Hg. induction Hg as [|q gs [_ Hq] _ IH]; cbn; [easy|].
        now rewrite IH, quiet_at_end. }
    eexists. split; [intros; reflexivity|]. unfold p. rewrite view_eq. apply decode_same; try easy. unfold find_kids. cbn [p_kids].
    rewrite views_app by lia. rewrite !filter_app. f_equal. rewrite views_tags.
    + symmetry. apply (filter_tag_none (L "igt")); [easy|]. constructor; [easy|]. eapply Forall_impl; [|exact Hg]. now intros ? [].
    + constructor; [easy|]. eapply Forall_impl; [|exact Hg]. intros q [-> _]. discriminate.
Qed.
Lemma decode_igts ahead root md gs : p_tag root = L "xigt-corpus" -> p_kids root = md ++ gs ->
  Forall quiet md -> Forall (fun p => p_tag p = L "igt" /\ Forall quiet (p_kids p)) gs ->
  Forall (fun p => p_tag p = L "metadata") md ->
  decode ahead root = decode_xigtcorpus root gs.
Proof.
  intros H1 H2 H3 H4 H5. destruct (decode_with_igts ahead root md gs H1 H2 H3 H4 H5) as (seen & E & <-). apply E.
Qed.

Lemma child_quiet m : forall p, mirrors (child_tree m) p -> child_ok m -> quiet p.
Proof.
  induction m as [n a t kids IH] using mchild_rec'. intros p Hm Hc. cbn in Hm.
  inversion_clear Hm as [? ? ? ? ms text' tail ps Hsh HF Htl]. inversion_clear Hc as [? ? ? ? _ _ Hnm _ Hk].
  constructor.
  - destruct (a_ns a) as [u|]; cbn [full_tag]; [unfold in_ns; vm_compute; discriminate|]. now apply Hnm.
  - destruct (a_ns a) as [u|]; cbn [full_tag]; [unfold in_ns; vm_compute; discriminate|]. now apply Hnm.
  - clear -IH HF Hk. revert ps HF. induction kids as [|k kids IHk]; cbn; intros ps HF; inversion HF; subst; constructor.
    + inversion_clear IH. inversion_clear Hk. auto.
    + inversion_clear IH. inversion_clear Hk. auto.
Qed.
Lemma mirrors_quiet {A} (tr : A -> xtree) l ps : Forall2 mirrors (map tr l) ps ->
  (forall x p, In x l -> mirrors (tr x) p -> quiet p) -> Forall quiet ps.
Proof.
  revert ps. induction l as [|x l IH]; cbn; intros ps HF H; inversion HF; subst; constructor.
  - apply (H x); [now left|easy].
  - apply IH; [easy|]. intros y0 q Hy. apply H. now right.
Qed.
Lemma meta_quiet m p : mirrors (meta_tree m) p -> meta_ok m -> quiet p.
Proof.
  intros Hm ((Hns & _) & Hk). inversion_clear Hm as [? ? ? ? ms text' tail ps Hsh HF Htl]. rewrite Hns.
  constructor; [now vm_compute|now vm_compute|]. apply (mirrors_quiet _ _ _ HF). intros x q Hx Hq.
  rewrite Forall_forall in Hk. apply (child_quiet x); auto.
Qed.
Lemma metadata_quiet m p : mirrors (metadata_tree m) p -> metadata_ok m -> quiet p.
Proof.
  intros Hm ((Hns & _) & Hk & _). inversion_clear Hm as [? ? ? ? ms text' tail ps Hsh HF Htl]. rewrite Hns.
  constructor; [now vm_compute|now vm_compute|]. apply (mirrors_quiet _ _ _ HF). intros x q Hx Hq.
  rewrite Forall_forall in Hk. apply (meta_quiet x); auto.
Qed.
Lemma metadatas_quiet l ps : Forall2 mirrors (map metadata_tree l) ps -> metadatas_ok l -> Forall quiet ps.
Proof.
  intros HF (Hk & _). apply (mirrors_quiet _ _ _ HF). intros x q Hx Hq.
  rewrite Forall_forall in Hk. apply (metadata_quiet x); auto.
Qed.
Lemma item_quiet i p : mirrors (item_tree i) p -> item_ok i -> quiet p.
Proof.
  intros Hm (Hns & _). inversion_clear Hm as [? ? ? ? ms text' tail ps Hsh HF Htl]. rewrite Hns.
  inversion_clear HF. constructor; [now vm_compute|now vm_compute|constructor].
Qed.
Lemma tier_quiet t p : mirrors (tier_tree t) p -> tier_ok t -> quiet p.
Proof.
  intros Hm ((Hns & _) & Hmd & Hk & _). inversion_clear Hm as [? ? ? ? ms text' tail ps Hsh HF Htl]. rewrite Hns.
  constructor; [now vm_compute|now vm_compute|]. apply Forall2_app_inv_l in HF as (ps1 & ps2 & HF1 & HF2 & ->).
  apply Forall_app. split; [now apply (metadatas_quiet (t_md t))|].
  apply (mirrors_quiet _ _ _ HF2). intros x q Hx Hq. rewrite Forall_forall in Hk. apply (item_quiet x); auto.
Qed.
Lemma igt_quiet g p : mirrors (igt_tree g) p -> igt_ok g -> p_tag p = L "igt" /\ Forall quiet (p_kids p).
Proof.
  intros Hm ((Hns & _) & Hmd & Hk & _). inversion_clear Hm as [? ? ? ? ms text' tail ps Hsh HF Htl]. rewrite Hns.
  split; [easy|]. cbn [p_kids]. apply Forall2_app_inv_l in HF as (ps1 & ps2 & HF1 & HF2 & ->).
  apply Forall_app. split; [now apply (metadatas_quiet (g_md g))|].
  apply (mirrors_quiet _ _ _ HF2). intros x q Hx Hq. rewrite Forall_forall in Hk. apply (tier_quiet x); auto.
Qed.

(* ---------- C23 ---------- *)

Lemma decode_corpus_ok c p : tree_ok [] (corpus_tree c) -> mirrors (corpus_tree c) p -> corpus_ok c ->
  exists c', (forall ahead, decode ahead p = Ok c') /\ same_corpus (back_corpus c) c'.
Proof.
  intros Ht Hm (Hns & Hid & Hid' & Hmd & Hk & Hnd). pose proof (tree_kids _ _ _ _ _ Ht) as Hkids.
  inversion_clear Ht as [? ? ? ? ? Ha Htag _ _]. inversion Hm as [? ? ? ? ms text' tail ps Hsh HF Htl]; subst.
  apply Forall2_app_inv_l in HF as (ps1 & ps2 & HF1 & HF2 & ->). rewrite Forall_forall in Hk.
  set (p := PElem _ _ _ _ _ _).
  assert (T2 : Forall (fun p => p_tag p = L "igt") ps2).
  { apply (find_tagged igt_tree _ (c_igts c)); [easy|]. intros x Hx. do 3 eexists. split; [reflexivity|]. apply (Hk x Hx). }
  assert (T1 : Forall (fun p => p_tag p = L "metadata") ps1) by now apply (metadatas_tags (c_md c)).
  assert (Hdec : forall ahead, decode ahead p = decode_xigtcorpus p ps2).
  { intros ahead. apply (decode_igts ahead p ps1 ps2); auto.
    - cbn [p_tag p]. now rewrite Hns.
    - now apply (metadatas_quiet (c_md c)).
    - clear -HF2 Hk. revert ps2 HF2. induction (c_igts c) as [|g gs IH]; cbn; intros ps HF; inversion HF; subst; constructor.
      + apply (igt_quiet g); auto. apply Hk. now left.
      + apply IH; auto. intros x Hx. apply Hk. now right. }
  enough (G : exists c', decode_xigtcorpus p ps2 = Ok c' /\ same_corpus (back_corpus c) c')
    by (destruct G as (c' & Ec & Hs); exists c'; split; [intros ahead; now rewrite Hdec|easy]).
  unfold decode_xigtcorpus. unfold expect_tag. cbn [p_tag p]. rewrite Hns. cbn [full_tag].
    rewrite qname_plain by easy. cbn [bind]. rewrite str_eqb_refl. cbn [bind].
    destruct (decode_metadatas_ok (in_force (c_attrs c) []) p (c_md c) ps1 ps2 Hmd eq_refl HF1) as (md' & -> & Hmd').
    { intros k Hin. apply Hkids, in_or_app. now left. }
    { now apply (filter_tag_none (L "igt")). }
    cbn [bind].
    destruct (decode_attrs_ok (pget ID p) None [ID] None p ms (c_attrs (back_corpus c))) as (a' & -> & Ha'); auto; unfold pget; cbn [p_attrib p].
    { rewrite shown_id by easy. auto. }
    { exact (shown_id (c_attrs c) Hid'). }
    { exact (shown_ignored_id (c_attrs c) Hid'). }
    cbn [bind].
    destruct (traverse_mirrors igt_tree decode_igt (fun x y => same_igt (back_igt x) y) (c_igts c) ps2 HF2) as (ys & -> & HR).
    { intros x q Hx Hq. apply (decode_igt_ok (in_force (c_attrs c) [])); auto. apply Hkids, in_or_app. right. now apply in_map. }
    cbn [bind]. erewrite new_container_ok; [|exact Hnd|exact HR|]; [|intros x y (H & _); now apply same_attrs_id].
    cbn [bind]. eexists. split; [reflexivity|]. repeat (split; [easy|]). now apply F2_map.
Qed.

Theorem xml_reads_back c indent : tree_ok [] (corpus_tree c) -> corpus_ok c ->
  exists e c', xml_dump c indent = Ok e /\ (forall ahead, xml_load ahead e = Ok c') /\ same_corpus (back_corpus c) c'.
Proof.
  intros Ht Hc. destruct (dump_mirrors c indent Ht) as (e & p & E & Hr & Hm).
  destruct (decode_corpus_ok c p Ht Hm Hc) as (c' & Ec & Hs).
  exists e, c'. split; [easy|]. split; [|easy]. intros ahead. unfold xml_load. rewrite Hr. exact (Ec ahead).
Qed.

Lemma map_id_in {A} (f : A -> A) l : (forall x, In x l -> f x = x) -> map f l = l.
Proof. induction l as [|x l IH]; cbn; intros H; [easy|]. rewrite (H x) by now left. f_equal. apply IH. intros y Hy. apply H. now right. Qed.
Lemma nonblank_kept t : (t <> None -> ~ blank_text t) -> nonblank t = t.
Proof. intros H. destruct t; [|easy]. apply nonblank_not. now apply H. Qed.
Lemma child_kept_same m : child_kept m -> back_child m = m.
Proof.
  induction m as [n a t kids IH] using mchild_rec'. intros H. inversion_clear H as [? ? ? ? Hi Hty Ht Hk]. cbn.
  rewrite filter_absent, nonblank_kept by easy. f_equal; [now destruct a|].
  rewrite Forall_forall in IH, Hk. apply map_id_in. auto.
Qed.
Lemma metadatas_kept_same l : metadatas_kept l -> map back_metadata l = l.
Proof.
  intros H. apply map_id_in. intros [a ms] Hx. unfold metadatas_kept in H. rewrite Forall_forall in H.
  specialize (H _ Hx). cbn in H. unfold back_metadata. cbn. f_equal. apply map_id_in. intros [b t k] Hy.
  rewrite Forall_forall in H. destruct (H _ Hy) as [Ht Hk]. cbn in *. unfold back_meta. cbn.
  rewrite nonblank_kept by easy. f_equal. apply map_id_in. intros z Hz. rewrite Forall_forall in Hk.
  apply child_kept_same. auto.
Qed.
Lemma tier_kept_same t : tier_kept t -> back_tier t = t.
Proof.
  intros [Hm Hi]. destruct t as [a md its]. cbn in *. unfold back_tier. cbn. rewrite metadatas_kept_same by easy.
  f_equal. apply map_id_in. intros [b t] Hy. rewrite Forall_forall in Hi. specialize (Hi _ Hy). cbn in Hi.
  unfold back_item. cbn. f_equal. destruct t as [[|]|]; easy.
Qed.
Lemma corpus_kept_same c : corpus_kept c -> back_corpus c = c.
Proof.
  intros (Ht & Hm & Hg). destruct c as [a md gs]. cbn in *. unfold back_corpus. cbn.
  rewrite Ht, metadatas_kept_same by easy. f_equal; [destruct a; cbn in *; now subst|].
  apply map_id_in. intros [b gmd ts] Hy. rewrite Forall_forall in Hg. destruct (Hg _ Hy) as [Hgm Hts]. cbn in *.
  unfold back_igt. cbn. rewrite metadatas_kept_same by easy. f_equal. apply map_id_in. intros t Hz.
  rewrite Forall_forall in Hts. apply tier_kept_same. auto.
Qed.
Theorem xml_round_trip c indent : tree_ok [] (corpus_tree c) -> corpus_ok c -> corpus_kept c ->
  exists e c', xml_dump c indent = Ok e /\ (forall ahead, xml_load ahead e = Ok c') /\ same_corpus c c'.
Proof.
  intros Ht Hc Hk. destruct (xml_reads_back c indent Ht Hc) as (e & c' & H).
  exists e, c'. now rewrite corpus_kept_same in H.
Qed.

End XmlProofs.
