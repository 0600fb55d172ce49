(* Proofs about xigt partition as a whole: C72. *)
From Coq Require Import Permutation.
From Verif Require Import PyStr PyStrFacts SpecRef Ref Model SpecModel Attr Index XmlStd Xml SpecXml SpecReload Scripts SpecScripts Path SpecPath
  Command SpecCommand PartitionRun SpecPartition XmlProofs ReloadProofs PartitionProofs PathProofs CommandProofs BlindProofs.
From Verif Require LoadProofs Value.
Import LoadProofs.
Require Import Lia.

(* ---------- files ---------- *)

Lemma gather_ext {M} (load load' : str -> res (list M)) d : (forall fn, In fn (map fst d) -> load' fn = load fn) -> gather load' d = gather load d.
Proof.
  induction d as [|[fn ixs] d IH]; cbn [gather map fst]; intros H; [easy|].
  rewrite (H fn) by now left. rewrite IH; [easy|]. intros f Hf. apply H. now right.
Qed.
Lemma put_spec w p e w' : put w p e = Some w' -> dirs w' = dirs w /\ dget (files w') p = Some e /\ forall q, q <> p -> dget (files w') q = dget (files w) q.
Proof.
  unfold put. destruct (_ && _); [|discriminate]. intros [= <-]. cbn [dirs files]. split; [easy|split].
  - rewrite dget_str. now rewrite str_eqb_refl.
  - intros q Hq. rewrite dget_str. destruct (str_eqb_spec q p); [easy|reflexivity].
Qed.
Lemma put_dirs w w' p e : dirs w' = dirs w -> (put w p e = None <-> put w' p e = None).
Proof. intros E. unfold put, has_dir, is_dir. rewrite E. now destruct (_ && _). Qed.

Lemma index_facts {M} (key : M -> res (option str)) load fns idx : index_files key load fns [] = Ok idx ->
  (forall fn, In fn fns -> exists l, load fn = Ok l /\ forall g, In g l -> exists k, key g = Ok k)
  /\ NoDup (map fst idx) /\ (forall k, In k (map fst idx) <-> occurs key load fns k)
  /\ (forall kd, In kd idx -> gather load (snd kd) = Ok (of_key key load (fst kd) fns))
  /\ (forall kd fn, In kd idx -> In fn (map fst (snd kd)) -> In fn fns).
Proof.
  intros E. apply index_files_build in E as (Hr & ->). change (fold_left add (all_evs key load fns) []) with (build (all_evs key load fns)).
  pose proof (build_described (all_evs key load fns)) as [H1 H2 H3 H4]. set (idx := build (all_evs key load fns)) in *.
  assert (Hd : forall kd, In kd idx -> dget_ keyeq idx (fst kd) = Some (snd kd)).
  { intros [k d] Hk. now apply dget_nodup; [apply keyeq_spec| |]. }
  split; [exact Hr|split; [exact H1|split; [|split]]].
  - intros k. rewrite in_keys by exact H1. now apply keys_occur.
  - intros kd Hk. apply files_of_key; auto.
  - intros kd fn Hk Hf. rewrite (H3 _ _ (Hd kd Hk)), firsts_in in Hf. apply in_map_iff in Hf as ([[k' f] j] & <- & He).
    apply filter_In in He as (He & _). now apply all_evs_in in He.
Qed.

Section Run.
Context {U : Unicode}.
Variable ix : igt -> index.
Variable vfuel : nat.
Variable ahead : xelem -> nat.
Variables (outdir default_key : str).
Notation opath := (out_path outdir default_key).
Notation read := (read_file ahead).
Notation write_files := (write_files ahead outdir default_key).

Lemma write_files_frame idx : forall w r w', write_files idx w = (r, w') ->
  dirs w' = dirs w /\ forall p, (forall k, In k (map fst idx) -> p <> opath k) -> dget (files w') p = dget (files w) p.
Proof.
  induction idx as [|[k d] idx IH]; intros w r w'; cbn [PartitionRun.write_files].
  - now intros [= _ <-].
  - destruct (bind _ _) as [e|x]; [|now intros [= _ <-]]. destruct (put w (opath k) e) as [w1|] eqn:Ep; [|now intros [= _ <-]].
    apply put_spec in Ep as (Ed & _ & Ef). intros H. apply IH in H as [Hd Hf]. split; [congruence|]. intros p Hp.
    rewrite Hf, Ef; [easy| |]; [apply Hp; now left|intros k' Hk'; apply Hp; now right].
Qed.

(* the igts for each key do not change while no input is overwritten *)
Definition file_for (load : str -> res (list member)) (kd : option str * dict (list nat)) : res xelem :=
  do l <- write load member_id (snd kd); xml_dump (new_corpus (map snd l)) (Some 2).
Lemma file_for_ext load load' kd : (forall fn, In fn (map fst (snd kd)) -> load' fn = load fn) -> file_for load' kd = file_for load kd.
Proof. intros H. unfold file_for, write. now rewrite (gather_ext load load'). Qed.
Lemma put_openable w p e : openable w p <-> exists w', put w p e = Some w'.
Proof.
  unfold openable, put. destruct (has_dir w p), (is_dir w p); cbn; split; try easy; try (intros [w' H]; discriminate). eauto.
Qed.
Lemma write_files_ok idx : forall w w0, dirs w = dirs w0 ->
  (forall kd fn, In kd idx -> In fn (map fst (snd kd)) -> dget (files w) fn = dget (files w0) fn) ->
  (forall kd fn k, In kd idx -> In fn (map fst (snd kd)) -> In k (map fst idx) -> fn <> opath k) ->
  ((exists w', write_files idx w = (Ok tt, w')) <->
   (forall kd, In kd idx -> (exists e, file_for (read (files w0)) kd = Ok e) /\ openable w0 (opath (fst kd)))).
Proof.
  induction idx as [|[k d] idx IH]; intros w w0 Hd Hf Ha; cbn [PartitionRun.write_files].
  - split; [intros _ kd []|eauto].
  - assert (E : file_for (read (files w)) (k, d) = file_for (read (files w0)) (k, d)).
    { apply file_for_ext. intros fn Hfn. unfold read_file. now rewrite (Hf (k, d) fn (or_introl eq_refl) Hfn). }
    unfold file_for in E at 1. cbn [snd] in E. rewrite E. clear E.
    destruct (file_for (read (files w0)) (k, d)) as [e|x] eqn:E.
    2:{ split; [intros [w' H]; discriminate|]. intros H. destruct (H (k, d) (or_introl eq_refl)) as [[e He] _]. congruence. }
    assert (Ho : openable w (opath k) <-> openable w0 (opath k)) by (unfold openable, has_dir, is_dir; now rewrite Hd).
    destruct (put w (opath k) e) as [w1|] eqn:Ep.
    + pose proof (proj2 (put_openable w (opath k) e) (ex_intro _ w1 Ep)) as Hop. apply put_spec in Ep as (Ed & _ & Ef).
      rewrite (IH w1 w0).
      * split; [|intros H kd Hk; apply H; now right]. intros H kd [<-|Hk]; [|now apply H]. split; [eauto|]. cbn. now apply Ho.
      * congruence.
      * intros kd fn Hk Hfn. rewrite Ef; [apply (Hf kd); auto; now right|]. apply (Ha kd); [now right|easy|now left].
      * intros kd fn k' Hk Hfn Hk'. apply (Ha kd); auto; now right.
    + split; [intros [w' H]; discriminate|]. intros H. destruct (H (k, d) (or_introl eq_refl)) as [_ Hop]. apply Ho in Hop. cbn [fst] in Hop.
      apply (put_openable w (opath k) e) in Hop as [w' Hw]. congruence.
Qed.
Lemma write_files_spec idx : forall w w0 w', dirs w = dirs w0 -> write_files idx w = (Ok tt, w') ->
  (forall kd fn, In kd idx -> In fn (map fst (snd kd)) -> dget (files w) fn = dget (files w0) fn) ->
  (forall kd fn k, In kd idx -> In fn (map fst (snd kd)) -> In k (map fst idx) -> fn <> opath k) ->
  NoDup (map fst idx) -> apart outdir default_key (map fst idx) ->
  forall kd, In kd idx -> exists e, file_for (read (files w0)) kd = Ok e /\ dget (files w') (opath (fst kd)) = Some e.
Proof.
  induction idx as [|[k d] idx IH]; intros w w0 w' Hd Hw Hf Ha Hnd Hap kd Hk; [easy|]. cbn [PartitionRun.write_files] in Hw.
  assert (E : file_for (read (files w)) (k, d) = file_for (read (files w0)) (k, d)).
  { apply file_for_ext. intros fn Hfn. unfold read_file. now rewrite (Hf (k, d) fn (or_introl eq_refl) Hfn). }
  unfold file_for in E at 1. cbn [snd] in E. rewrite E in Hw. clear E.
  destruct (file_for (read (files w0)) (k, d)) as [e|x] eqn:E; [|discriminate].
  destruct (put w (opath k) e) as [w1|] eqn:Ep; [|discriminate]. apply put_spec in Ep as (Ed & Eg & Ef).
  cbn [map fst] in Hnd. inversion_clear Hnd as [|? ? Hn1 Hn2].
  assert (Hap' : apart outdir default_key (map fst idx)) by (intros a b Ha' Hb'; apply Hap; now right).
  destruct Hk as [<-|Hk].
  - exists e. split; [easy|]. cbn [fst]. destruct (write_files_frame _ _ _ _ Hw) as [_ Hfr]. rewrite Hfr; [easy|].
    intros k' Hk' Eq. apply Hap in Eq; [subst; easy|now left|now right].
  - apply (IH w1 w0 w'); auto; try congruence.
    + intros kd' fn Hk' Hfn. rewrite Ef; [apply (Hf kd'); auto; now right|]. apply (Ha kd'); [now right|easy|now left].
    + intros kd' fn k' Hk' Hfn Hk2. apply (Ha kd'); auto; now right.
Qed.


(* ---------- what is read ---------- *)

Definition good_igt (g : igt) : Prop :=
  (exists m0, fits m0 (igt_tree g)) /\ igt_ok g /\ metadatas_kept (g_md g) /\ Forall tier_kept (g_tiers g).
Lemma open_good n e l : tidy_document e -> xml_open n e = Ok l -> Forall good_igt (map snd l).
Proof.
  intros [Ht Etag] E. unfold xml_open in E. inv_bind E.
  assert (Hs : scope_ok []) by (split; [split; [constructor|easy]|easy]).
  assert (Ex : p_tag x = L "xigt-corpus").
  { destruct e as [tag d text tail kids]. cbn [x_tag] in Etag. inversion_clear Ht as [? ? ? ? ? T1 T2 T3 T4 T5].
    cbn [reread] in E0. inv_bind E0. inv_bind E0. inv_bind E0. inv_bind E0. inv_bind E0. inv_bind E0. injection E0 as <-.
    destruct (read_decls_scope _ _ _ E1 T1 T2 Hs) as [Hs' _]. destruct (read_tag _ _ _ Hs' T3 E2) as [_ Hq]. cbn. now apply Hq. }
  destruct (decode_elements _ n x [] l ltac:(now apply (reread_good e)) ltac:(now apply (reread_live e [])) Ex E) as (seen & gs & E' & Hv & Ev & Hg).
  unfold open_corpus in E'. inv_bind E'. inv_bind E'. inv_bind E'. inv_bind E'. injection E' as <-.
  rewrite map_map. cbn [snd]. rewrite map_id.
  destruct (decode_live _ _ _ _ _ _ E3) as [nm Em]. specialize (Hg nm Em). rewrite Forall_forall in Hg.
  apply (traverse_all decode_igt _ gs); [|easy]. intros q y Hin Ey. destruct (Hg _ Hin) as [Hq Hq'].
  destruct (igt_good q nm y Hq Hq' Ey) as (F1 & F2 & F3 & F4). split; [eauto|auto].
Qed.
Lemma good_map g : good_igt g -> exists m, a_nsmap (g_attrs g) = Some m /\ map_ok m /\ NoDup (map fst m).
Proof.
  intros [[m0 [Ht Hn]] _]. inversion Hn as [? ? ? ? ? m E _ Hnd _]; subst. exists m. split; [easy|]. specialize (Ht []). inversion Ht as [? ? ? ? ? Ha _ _ _]; subst.
  unfold in_force in Ha. rewrite E in Ha. split; [apply Ha|easy].
Qed.
Lemma ids_some (l : list igt) : ids_of Value.igt_id l = some_ids (map (fun g => a_id (g_attrs g)) l).
Proof. induction l as [|g l IH]; [easy|]. unfold ids_of, some_ids in *. cbn. now rewrite IH. Qed.
Lemma new_attrs gs : Forall good_igt gs -> attrs_ok (in_force (c_attrs (new_corpus gs)) []) (c_attrs (new_corpus gs)).
Proof.
  intros H. split; [|split; [constructor|split; [easy|split; [easy|split; [easy|split; [easy|split; [easy|easy]]]]]]].
  destruct H as [|g gs Hg _]; cbn.
  - split; [constructor|easy].
  - destruct (good_map g Hg) as (m & E & Hm & _). unfold eff. now rewrite E.
Qed.
Lemma new_ok gs : Forall good_igt gs -> NoDup (ids_of Value.igt_id gs) ->
  tree_ok [] (corpus_tree (new_corpus gs)) /\ corpus_ok (new_corpus gs) /\ corpus_kept (new_corpus gs).
Proof.
  intros H Hnd. split; [|split].
  - unfold corpus_tree. constructor; [now apply new_attrs|reflexivity|now intros s|]. cbn [c_md new_corpus map app].
    apply Forall_map. eapply Forall_impl; [|exact H]. intros g [[m0 [Ht _]] _]. apply Ht.
  - split; [easy|split; [easy|split; [easy|split; [split; [constructor|constructor]|split]]]].
    + eapply Forall_impl; [|exact H]. now intros g (_ & Hg & _).
    + cbn. now rewrite <- ids_some.
  - split; [easy|split; [constructor|]]. eapply Forall_impl; [|exact H]. now intros g (_ & _ & Hg).
Qed.
Lemma new_fits gs : gs <> [] -> same_prefixes gs -> Forall good_igt gs -> NoDup (ids_of Value.igt_id gs) -> fits [] (corpus_tree (new_corpus gs)).
Proof.
  intros Hne Hp H Hnd. split; [|].
  - intros outer. destruct (new_ok gs H Hnd) as [Ht _]. destruct gs as [|g gs]; [easy|]. unfold corpus_tree in *.
    inversion Ht as [? ? ? ? ? H1 H2 H3 H4]; subst. now constructor.
  - destruct gs as [|g gs]; [easy|]. inversion H as [|? ? Hg _]; subst. destruct (good_map g Hg) as (m & E & Hm & Hm').
    apply (Nests [] _ _ _ _ m); [cbn; unfold eff; now rewrite E|exists (map fst m); easy|easy|]. cbn [new_corpus c_md map app]. apply Forall_map.
    rewrite Forall_forall in *. intros g' Hg'. destruct (H g' Hg') as [[m0 [_ Hn]] _]. inversion Hn as [? ? ? ? ? m' E' _ Hnd' Hk]; subst.
    assert (m' = m). { specialize (Hp g g' (or_introl eq_refl) Hg'). cbn in E'. congruence. } subst m'.
    apply (Nests m _ _ _ _ m); auto. apply ext_refl.
Qed.
Lemma new_holds gs : Forall good_igt gs -> NoDup (ids_of Value.igt_id gs) ->
  exists e, xml_dump (new_corpus gs) (Some 2) = Ok e /\ holds e gs /\ (gs <> [] -> same_prefixes gs -> holds_exactly e gs).
Proof.
  intros H Hnd. destruct (new_ok gs H Hnd) as (H1 & H2 & H3).
  destruct (xml_round_trip (new_corpus gs) (Some 2) H1 H2 H3) as (e & c' & E1 & E2 & Hs).
  exists e. split; [easy|]. assert (Hh : holds e gs).
  { exists c'. split; [easy|]. destruct Hs as ((A1 & A2 & A3 & A4) & Hm & Hg). cbn in A1, A2, A3, Hm, Hg. inversion Hm.
    assert (Ed : a_dict (c_attrs c') = []).
    { destruct (a_dict (c_attrs c')) as [|[k v] d]; [easy|]. specialize (A4 k). cbn [new_corpus c_attrs a_dict] in A4. cbn in A4. now rewrite str_eqb_refl in A4. }
    split; [easy|split; [easy|split; [easy|split; [easy|split; [easy|exact Hg]]]]]. }
  split; [exact Hh|]. intros Hne Hp. destruct (dump_load (new_corpus gs) (Some 2) (new_fits gs Hne Hp H Hnd) H2 H3) as (e' & E' & El).
  assert (e' = e) by congruence. subst e'. exists (new_corpus gs). now split.
Qed.


(* ---------- the whole run ---------- *)

Variable path : option str.
Notation key := (key_by ix vfuel path).
Notation run := (run_partition ix vfuel ahead outdir default_key path).

Lemma trimmed_spec d : exists s, d = trimmed_dir d ++ s /\ Forall (eq (Ch "/")) s.
Proof.
  unfold trimmed_dir. set (go := fix go (s : str) := match s with c :: s' => if N.eqb c (Ch "/") then go s' else s | [] => [] end).
  assert (H : forall r, exists s, r = s ++ go r /\ Forall (eq (Ch "/")) s).
  { induction r as [|c r [s [E F]]]; [exists []; now split|]. cbn. destruct (N.eqb_spec c (Ch "/")) as [->|]; [|now exists []].
    exists (Ch "/" :: s). split; [cbn; now f_equal|now constructor]. }
  destruct (H (rev d)) as (s & E & F). exists (rev s). split; [|now apply Forall_rev].
  rewrite <- (rev_involutive d), E at 1. now rewrite rev_app_distr.
Qed.
Lemma mkdir_spec w w1 : mkdir w outdir = Some w1 -> dirs w1 = trimmed_dir outdir :: dirs w /\ files w1 = files w /\ trimmed_dir outdir <> []
  /\ ~ In (trimmed_dir outdir) (dirs w).
Proof.
  unfold mkdir, is_dir. destruct outdir as [|c d] eqn:Eo; [discriminate|]. rewrite <- Eo. destruct (trimmed_dir outdir) as [|b bs] eqn:Eb; [discriminate|].
  destruct (existsb (str_eqb (b :: bs)) (dirs w)) eqn:Ex; [discriminate|]. destruct (_ && _); [|discriminate]. intros [= <-]. cbn [dirs files].
  split; [easy|split; [easy|split; [easy|]]]. intros Hi. apply (existsb_in str_eqb str_eqb_spec) in Hi. congruence.
Qed.
Lemma read_good fs fns : (forall fn e, In fn fns -> dget fs fn = Some e -> tidy_document e) -> Forall good_igt (map snd (inputs (read fs) fns)).
Proof.
  intros H. apply Forall_map, Forall_forall. intros m Hm. apply in_flat_map in Hm as (fn & Hf & Hm). rewrite firsts_in in Hf.
  unfold SpecScripts.contents, read_file in Hm. destruct (dget fs fn) as [e|] eqn:E; [|easy]. specialize (H fn e Hf E).
  destruct (xml_open (ahead e) e) as [l|] eqn:El; [|easy]. apply open_good in El; [|easy]. rewrite Forall_map, Forall_forall in El. now apply El.
Qed.
Lemma key_good fs fns k : (forall fn e, In fn fns -> dget fs fn = Some e -> tidy_document e) -> Forall good_igt (map snd (of_key key (read fs) k fns)).
Proof.
  intros H. apply read_good in H. rewrite Forall_map, Forall_forall in *. intros m Hm. apply H. unfold of_key in Hm. now apply filter_In in Hm.
Qed.
Lemma ids_members l : ids_of member_id l = ids_of Value.igt_id (map snd l).
Proof. induction l as [|m l IH]; [easy|]. unfold ids_of in *. cbn. now rewrite IH. Qed.

Notation no_clash w fns := (forall k, occurs key (read (files w)) fns k -> ~ In (opath k) fns).

Lemma run_dumps fns w w' : no_clash w fns ->
  (forall k k', occurs key (read (files w)) fns k -> occurs key (read (files w)) fns k' -> opath k = opath k' -> k = k') ->
  run fns w = (Ok tt, w') ->
  dirs w' = trimmed_dir outdir :: dirs w
  /\ (forall k, occurs key (read (files w)) fns k ->
       exists e, dget (files w') (opath k) = Some e /\ xml_dump (new_corpus (map snd (of_key key (read (files w)) k fns))) (Some 2) = Ok e
       /\ ids_distinct member_id (of_key key (read (files w)) k fns) /\ of_key key (read (files w)) k fns <> [])
  /\ (forall p, (forall k, occurs key (read (files w)) fns k -> p <> opath k) -> dget (files w') p = dget (files w) p).
Proof.
  intros Hc Ha. unfold run_partition. destruct (mkdir w outdir) as [w1|] eqn:Em; [|discriminate]. apply mkdir_spec in Em as (Ed & Ef & _ & _).
  rewrite Ef. destruct (index_files _ _ _ _) as [idx|] eqn:Ei; [|discriminate]. apply index_facts in Ei as (Hr & Hnd & Ho & Hg & Hfn). intros Hw.
  pose proof (write_files_frame _ _ _ _ Hw) as [Hd Hf].
  assert (Hfor : forall kd, In kd idx -> exists e, file_for (read (files w1)) kd = Ok e /\ dget (files w') (opath (fst kd)) = Some e).
  { apply (write_files_spec idx w1 w1 w'); auto.
    - intros kd fn k Hk H1 H2 ->. apply Ho in H2. now apply (Hc k), (Hfn kd).
    - intros k k' H1 H2. apply Ha; now apply Ho. }
  split; [congruence|split].
  - intros k Hk. apply Ho in Hk. apply in_map_iff in Hk as (kd & <- & Hk). destruct (Hfor kd Hk) as (e & He & Hp).
    exists e. split; [easy|]. rewrite Ef in He. unfold file_for in He. destruct (write (read (files w)) member_id (snd kd)) as [l|] eqn:El; [|discriminate].
    cbn [bind] in He. apply write_ids in El as [El Hi]. rewrite Hg in El by easy. injection El as <-. split; [easy|split; [easy|]].
    assert (Hoc : occurs key (read (files w)) fns (fst kd)) by (apply Ho; now apply in_map).
    destruct Hoc as (g & G1 & G2). intros En. assert (Hin : In g (of_key key (read (files w)) (fst kd) fns)).
    { apply filter_In. split; [easy|]. unfold has_keyb. rewrite G2. fold keyeq. now destruct (keyeq_spec (fst kd) (fst kd)). }
    rewrite En in Hin. easy.
  - intros p Hp. rewrite Hf, Ef; [easy|]. intros k Hk. apply Hp. now apply Ho.
Qed.
Theorem run_writes fns w w' : tidy_inputs w fns -> no_clash w fns ->
  (forall k k', occurs key (read (files w)) fns k -> occurs key (read (files w)) fns k' -> opath k = opath k' -> k = k') ->
  run fns w = (Ok tt, w') ->
  (exists d s, outdir = d ++ s /\ Forall (eq (Ch "/")) s /\ dirs w' = d :: dirs w)
  /\ (forall k, occurs key (read (files w)) fns k ->
       exists e, dget (files w') (opath k) = Some e /\ holds e (map snd (of_key key (read (files w)) k fns))
       /\ (same_prefixes (map snd (of_key key (read (files w)) k fns)) -> holds_exactly e (map snd (of_key key (read (files w)) k fns))))
  /\ (forall p, (forall k, occurs key (read (files w)) fns k -> p <> opath k) -> dget (files w') p = dget (files w) p).
Proof.
  intros Ht Hc Ha Hw. destruct (run_dumps fns w w' Hc Ha Hw) as (Hd & Hk & Hf). split; [|split; [|exact Hf]].
  - destruct (trimmed_spec outdir) as (s & E & F). exists (trimmed_dir outdir), s. auto.
  - intros k Ho. destruct (Hk k Ho) as (e & E1 & E2 & Hi & Hne). exists e. split; [easy|].
    unfold ids_distinct in Hi. rewrite ids_members in Hi.
    destruct (new_holds _ (key_good (files w) fns k Ht) Hi) as (e' & Ee & H1 & H2).
    assert (e' = e) by congruence. subst e'. split; [easy|]. apply H2. now destruct (of_key key (read (files w)) k fns).
Qed.
Theorem run_frame fns w r w' : run fns w = (r, w') -> forall p, (forall k, occurs key (read (files w)) fns k -> p <> opath k) -> dget (files w') p = dget (files w) p.
Proof.
  unfold run_partition. destruct (mkdir w outdir) as [w1|] eqn:Em; [|now intros [= _ <-]]. apply mkdir_spec in Em as (Ed & Ef & _ & _).
  rewrite Ef. destruct (index_files _ _ _ _) as [idx|] eqn:Ei; [|intros [= _ <-]; now rewrite Ef]. apply index_facts in Ei as (Hr & Hnd & Ho & Hg & Hfn). intros Hw p Hp.
  pose proof (write_files_frame _ _ _ _ Hw) as [_ Hf]. rewrite Hf, Ef; [easy|]. intros k Hk. apply Hp. now apply Ho.
Qed.
Lemma run_succeeds_gen fns w : no_clash w fns ->
  ((exists w', run fns w = (Ok tt, w')) <->
   exists w1, mkdir w outdir = Some w1
   /\ (forall fn, In fn fns -> exists l, read (files w) fn = Ok l)
   /\ (forall m, In m (inputs (read (files w)) fns) -> exists k, key m = Ok k)
   /\ (forall k, ids_distinct member_id (of_key key (read (files w)) k fns))
   /\ (forall k, occurs key (read (files w)) fns k -> openable w1 (opath k))
   /\ (forall k, occurs key (read (files w)) fns k -> exists e, xml_dump (new_corpus (map snd (of_key key (read (files w)) k fns))) (Some 2) = Ok e)).
Proof.
  intros Hc. unfold run_partition. destruct (mkdir w outdir) as [w1|] eqn:Em; [|split; [now intros [? [=]]|now intros [? [[=] _]]]].
  apply mkdir_spec in Em as (Ed & Ef & _ & _). rewrite Ef.
  assert (Hdis : forall idx, index_files key (read (files w)) fns [] = Ok idx ->
    ((exists w', write_files idx w1 = (Ok tt, w')) <-> (forall kd, In kd idx -> (exists e, file_for (read (files w1)) kd = Ok e) /\ openable w1 (opath (fst kd))))).
  { intros idx Ei. apply index_facts in Ei as (Hr & Hnd & Ho & Hg & Hfn). apply write_files_ok; auto.
    intros kd fn k Hk H1 H2 ->. apply Ho in H2. now apply (Hc k), (Hfn kd). }
  split.
  - destruct (index_files _ _ _ _) as [idx|] eqn:Ei; [|now intros [? [=]]]. specialize (Hdis idx eq_refl).
    apply index_facts in Ei as (Hr & Hnd & Ho & Hg & Hfn). intros Hw. rewrite Hdis in Hw. clear Hdis. exists w1. split; [easy|split; [|split; [|split; [|split]]]].
    + intros fn Hf. destruct (Hr fn Hf) as (l & El & _). eauto.
    + intros m Hm. apply in_flat_map in Hm as (fn & Hf & Hm). rewrite firsts_in in Hf. destruct (Hr fn Hf) as (l & El & Hk).
      unfold SpecScripts.contents in Hm. rewrite El in Hm. auto.
    + intros k. destruct (of_key key (read (files w)) k fns) as [|m l] eqn:Ek; [constructor|]. rewrite <- Ek.
      assert (Hoc : occurs key (read (files w)) fns k).
      { assert (Hm : In m (of_key key (read (files w)) k fns)) by (rewrite Ek; now left). apply filter_In in Hm as [Hm Hb]. exists m. split; [easy|].
        unfold has_keyb in Hb. destruct (key m) as [k'|]; [|discriminate]. fold keyeq in Hb. destruct (keyeq_spec k' k); [congruence|discriminate]. }
      apply Ho in Hoc. apply in_map_iff in Hoc as (kd & <- & Hk). destruct (Hw kd Hk) as [[e He] _]. rewrite Ef in He. unfold file_for in He.
      destruct (write (read (files w)) member_id (snd kd)) as [l'|] eqn:El; [|discriminate]. apply write_ids in El as [El Hi]. rewrite Hg in El by easy. congruence.
    + intros k Hk. apply Ho in Hk. apply in_map_iff in Hk as (kd & <- & Hk). now apply Hw.
    + intros k Hk. apply Ho in Hk. apply in_map_iff in Hk as (kd & <- & Hk). destruct (Hw kd Hk) as [[e He] _]. rewrite Ef in He. unfold file_for in He.
      destruct (write (read (files w)) member_id (snd kd)) as [l'|] eqn:El; [|discriminate]. apply write_ids in El as [El Hi]. rewrite Hg in El by easy.
      injection El as <-. eauto.
  - intros (w2 & E2 & H1 & H2 & H3 & H4 & H5). injection E2 as <-.
    destruct (index_files_ok key (read (files w)) fns) with (idx := @nil (option str * dict (list nat))) as (idx & Ei).
    { intros fn Hf. destruct (H1 fn Hf) as (l & El). exists l. split; [easy|]. intros m Hm. apply H2. apply in_flat_map. exists fn.
      split; [now apply firsts_in|]. unfold SpecScripts.contents. now rewrite El. }
    rewrite Ei. apply (Hdis idx Ei). apply index_facts in Ei as (Hr & Hnd & Ho & Hg & Hfn). intros kd Hk. split.
    + rewrite Ef. unfold file_for. assert (Ew : write (read (files w)) member_id (snd kd) = Ok (of_key key (read (files w)) (fst kd) fns)).
      { apply write_ids. split; [now apply Hg|apply H3]. }
      rewrite Ew. cbn [bind]. apply H5, Ho. now apply in_map.
    + apply H4, Ho. now apply in_map.
Qed.
Theorem run_succeeds fns w : tidy_inputs w fns -> no_clash w fns ->
  ((exists w', run fns w = (Ok tt, w')) <->
   exists w1, mkdir w outdir = Some w1
   /\ (forall fn, In fn fns -> exists l, read (files w) fn = Ok l)
   /\ (forall m, In m (inputs (read (files w)) fns) -> exists k, key m = Ok k)
   /\ (forall k, ids_distinct member_id (of_key key (read (files w)) k fns))
   /\ (forall k, occurs key (read (files w)) fns k -> openable w1 (opath k))).
Proof.
  intros Ht Hc. rewrite (run_succeeds_gen fns w Hc). split; intros (w1 & E & H1 & H2 & H3 & H4); exists w1; [tauto|].
  split; [easy|split; [easy|split; [easy|split; [easy|split; [easy|]]]]]. intros k _. specialize (H3 k). unfold ids_distinct in H3. rewrite ids_members in H3.
  destruct (new_holds _ (key_good (files w) fns k Ht) H3) as (e & Ee & _). eauto.
Qed.

(* ---------- plain names ---------- *)

Lemma dir_none n : no_slash n -> dir_of n = None.
Proof.
  induction n as [|c n IH]; intros H; [easy|]. cbn. rewrite IH by (intros Hi; apply H; now right).
  destruct (N.eqb_spec c (Ch "/")) as [->|]; [|easy]. exfalso. apply H. now left.
Qed.
Lemma dir_cut d n : no_slash n -> dir_of (d ++ Ch "/" :: n) = Some d.
Proof. intros H. induction d as [|c d IH]; cbn; [now rewrite dir_none|]. now rewrite IH. Qed.
Lemma trim_slash o : trimmed_dir (o ++ L "/") = trimmed_dir o.
Proof. unfold trimmed_dir. rewrite rev_app_distr. reflexivity. Qed.
Lemma trim_none d c : c <> Ch "/" -> trimmed_dir (d ++ [c]) = d ++ [c].
Proof. intros H. unfold trimmed_dir. rewrite rev_app_distr. cbn. destruct (N.eqb_spec c (Ch "/")); [easy|]. cbn. now rewrite rev_involutive. Qed.
Lemma normal_plain n : no_slash n -> no_slash (normalize_key n ++ L ".xml").
Proof.
  intros H Hi. apply in_app_iff in Hi as [Hi|Hi]; [|vm_compute in Hi; intuition discriminate].
  apply in_map_iff in Hi as (c & E & Hc). destruct (N.eqb c (Ch ":")); [discriminate|]. now subst.
Qed.
Lemma out_plain k : outdir <> [] -> no_slash (name_of default_key k) ->
  exists d n, opath k = d ++ Ch "/" :: n /\ trimmed_dir d = trimmed_dir outdir /\ no_slash n /\ trimmed_dir (opath k) = opath k /\ dir_of (opath k) = Some d.
Proof.
  intros Hne Hs. change (opath k) with (path_join outdir (normalize_key (name_of default_key k) ++ L ".xml")).
  rewrite join_relative. 2:{ intros t E. apply Hs. rewrite E. now left. }
  set (n := normalize_key (name_of default_key k) ++ L ".xml"). assert (Hn : no_slash n) by now apply normal_plain.
  assert (En : forall d, trimmed_dir (d ++ n) = d ++ n).
  { intros d. unfold n. change (L ".xml") with (L ".xm" ++ [Ch "l"]). rewrite !app_assoc. now apply trim_none. }
  replace (Nat.eqb (length outdir) 0) with false by now destruct outdir. cbn [orb].
  destruct (endswith (L "/") outdir) eqn:Ee.
  - apply PathProofs.endswith_iff in Ee as [o Eo]. exists o, n. rewrite Eo. rewrite trim_slash.
    replace ((o ++ L "/") ++ n) with (o ++ Ch "/" :: n) by now rewrite <- app_assoc. split; [easy|split; [easy|split; [easy|split; [|now apply dir_cut]]]].
    replace (o ++ Ch "/" :: n) with ((o ++ L "/") ++ n) by now rewrite <- app_assoc. apply En.
  - exists outdir, n. split; [easy|split; [easy|split; [easy|split; [|now apply dir_cut]]]].
    replace (outdir ++ L "/" ++ n) with ((outdir ++ L "/") ++ n) by now rewrite <- app_assoc. apply En.
Qed.
Lemma plain_new w w1 k : closed w -> mkdir w outdir = Some w1 -> no_slash (name_of default_key k) ->
  openable w1 (opath k) /\ ~ In (opath k) (map fst (files w)).
Proof.
  intros Hc Em Hs. apply mkdir_spec in Em as (Ed & Ef & Hne & Hni).
  assert (Ho : outdir <> []) by (intros E; rewrite E in Hne; easy).
  destruct (out_plain k Ho Hs) as (d & n & E & Et & Hn & Ep & Edir).
  assert (Hno : has_dir w (opath k) = false).
  { unfold has_dir. rewrite Edir, Et. destruct (trimmed_dir outdir) as [|c b] eqn:Eb; [easy|].
    destruct (existsb (str_eqb (c :: b)) (dirs w)) eqn:Ex; [|easy]. exfalso. apply (existsb_in str_eqb str_eqb_spec) in Ex. try rewrite Eb in Hni. apply Hni. assumption. }
  split; [split|].
  - unfold has_dir. rewrite Edir, Et. destruct (trimmed_dir outdir) as [|c b] eqn:Eb; [easy|]. apply (existsb_in str_eqb str_eqb_spec). rewrite Ed. now left.
  - assert (Hc0 : exists c0 r0, opath k = c0 :: r0) by (rewrite E; destruct d; cbn; eauto). destruct Hc0 as (c0 & r0 & Ec).
    assert (Ei : is_dir w1 (opath k) = existsb (str_eqb (opath k)) (dirs w1)) by (rewrite Ec in Ep |- *; unfold is_dir; now rewrite Ep).
    rewrite Ei. destruct (existsb (str_eqb (opath k)) (dirs w1)) eqn:Ex; [|easy].
    apply (existsb_in str_eqb str_eqb_spec) in Ex. rewrite Ed in Ex. exfalso. destruct Ex as [Ex|Ex].
    + destruct (trimmed_spec outdir) as (s & Es & _). destruct (trimmed_spec d) as (s' & Es' & _). apply (f_equal (@length _)) in Ex.
      rewrite E, app_length in Ex. cbn in Ex. rewrite <- Et in Ex. apply (f_equal (@length _)) in Es'.
      rewrite app_length in Es'. lia.
    + rewrite Hc in Hno; [discriminate|now left].
  - intros Hi. rewrite Hc in Hno; [discriminate|now right].
Qed.
Theorem run_plain fns w : closed w -> tidy_inputs w fns ->
  (forall k, occurs key (read (files w)) fns k -> no_slash (name_of default_key k)) ->
  ((exists w', run fns w = (Ok tt, w')) <->
   (exists w1, mkdir w outdir = Some w1)
   /\ (forall fn, In fn fns -> exists l, read (files w) fn = Ok l)
   /\ (forall m, In m (inputs (read (files w)) fns) -> exists k, key m = Ok k)
   /\ (forall k, ids_distinct member_id (of_key key (read (files w)) k fns))).
Proof.
  intros Hc Ht Hs.
  assert (Hfile : forall fn l, read (files w) fn = Ok l -> In fn (map fst (files w))).
  { intros fn l. unfold read_file. destruct (dget (files w) fn) as [e|] eqn:E; [|discriminate]. intros _. apply (dget_in str_eqb str_eqb_spec) in E. now apply (in_map fst) in E. }
  split.
  - intros [w' Hw]. assert (Hr : exists w1 idx, mkdir w outdir = Some w1 /\ index_files key (read (files w)) fns [] = Ok idx).
    { unfold run_partition in Hw. destruct (mkdir w outdir) as [w1|] eqn:Em; [|discriminate]. pose proof (mkdir_spec _ _ Em) as (_ & Ef & _).
      rewrite Ef in Hw. destruct (index_files _ _ _ _) as [idx|]; [|discriminate]. eauto. }
    destruct Hr as (w1 & idx & Em & Ei). apply index_facts in Ei as (Hr & _).
    assert (Hcl : no_clash w fns).
    { intros k Hk Hi. destruct (Hr _ Hi) as (l & El & _). apply Hfile in El. exact (proj2 (plain_new w w1 k Hc Em (Hs k Hk)) El). }
    destruct (proj1 (run_succeeds fns w Ht Hcl) (ex_intro _ w' Hw)) as (w2 & E2 & H1 & H2 & H3 & _). eauto.
  - intros ([w1 Em] & H1 & H2 & H3).
    assert (Hcl : no_clash w fns).
    { intros k Hk Hi. destruct (H1 _ Hi) as (l & El). apply Hfile in El. exact (proj2 (plain_new w w1 k Hc Em (Hs k Hk)) El). }
    apply (run_succeeds fns w Ht Hcl). exists w1. split; [easy|split; [easy|split; [easy|split; [easy|]]]]. intros k Hk. exact (proj1 (plain_new w w1 k Hc Em (Hs k Hk))).
Qed.
Theorem plain_kept fns w r w' : closed w -> (forall k, occurs key (read (files w)) fns k -> no_slash (name_of default_key k)) ->
  run fns w = (r, w') -> forall p e, dget (files w) p = Some e -> dget (files w') p = Some e.
Proof.
  intros Hc Hs Hr p e Hp. rewrite <- Hp. destruct (mkdir w outdir) as [w1|] eqn:Em.
  - apply (run_frame fns w r w' Hr). intros k Hk ->. apply (plain_new w w1 k Hc Em (Hs k Hk)). apply (dget_in str_eqb str_eqb_spec) in Hp. now apply (in_map fst) in Hp.
  - unfold run_partition in Hr. rewrite Em in Hr. now injection Hr as _ <-.
Qed.

(* ---------- directories ---------- *)

Lemma trimmed_names d b : names d b <-> trimmed_dir d = b.
Proof.
  split.
  - intros (s & -> & Hs & Hb). revert Hb. induction s as [|c s IH] using rev_ind; intros Hb.
    + rewrite app_nil_r. destruct b as [|x b _] using rev_ind; [easy|]. apply trim_none. intros ->. apply Hb. now exists b.
    + apply Forall_app in Hs as [Hs Hc]. inversion Hc as [|? ? <- _]; subst. rewrite app_assoc. change [Ch "/"] with (L "/"). rewrite trim_slash. now apply IH.
  - intros <-. destruct (trimmed_spec d) as (s & E & Hs). exists s. split; [easy|split; [easy|]]. intros [t Et].
    assert (X : forall d, ~ exists t, trimmed_dir d = t ++ L "/").
    { clear. intros d. induction d as [|x d IH] using rev_ind; [intros [t E]; now destruct t|]. destruct (N.eqb_spec x (Ch "/")) as [->|Hn].
      - change [Ch "/"] with (L "/"). now rewrite trim_slash.
      - rewrite trim_none by easy. intros [t E]. change (L "/") with [Ch "/"] in E. apply app_inj_tail in E as [_ E]. easy. }
    apply (X d). eauto.
Qed.
Lemma dir_of_some p d : dir_of p = Some d <-> exists n, p = d ++ L "/" ++ n /\ no_slash n.
Proof.
  split.
  - revert d. induction p as [|c p IH]; intros d; [discriminate|]. cbn. destruct (dir_of p) as [d'|] eqn:E.
    + intros [= <-]. destruct (IH d' eq_refl) as (n & -> & Hn). now exists n.
    + destruct (N.eqb_spec c (Ch "/")) as [->|]; [|discriminate]. intros [= <-]. exists p. split; [easy|].
      clear IH. intros Hi. induction p as [|x p IHp]; [easy|]. cbn in E. destruct (dir_of p); [discriminate|].
      destruct (N.eqb_spec x (Ch "/")); [discriminate|]. destruct Hi as [Hi|Hi]; [easy|now apply IHp].
  - intros (n & -> & Hn). now apply dir_cut.
Qed.
Lemma above_spec w p : has_dir w p = true <-> above w p.
Proof.
  unfold has_dir, above. destruct (dir_of p) as [d|] eqn:E.
  - pose proof E as E0. apply dir_of_some in E as (n & Ep & Hn). split.
    + intros H. right. exists d, n, (trimmed_dir d). split; [easy|split; [easy|split; [now apply trimmed_names|]]].
      destruct (trimmed_dir d); [now left|]. right. now apply (existsb_in str_eqb str_eqb_spec) in H.
    + intros [H|(d' & n' & b & Ep' & Hn' & Hb & Hin)].
      * exfalso. apply H. rewrite Ep, in_app_iff. right. now left.
      * assert (dir_of p = Some d') by (apply dir_of_some; eauto). assert (d' = d) by congruence. subst d'. apply trimmed_names in Hb as ->.
        destruct b; [easy|]. destruct Hin as [|Hin]; [easy|]. now apply (existsb_in str_eqb str_eqb_spec).
  - split; [|easy]. intros _. left. intros Hi. induction p as [|x p IHp]; [easy|]. cbn in E. destruct (dir_of p); [discriminate|].
    destruct (N.eqb_spec x (Ch "/")); [discriminate|]. destruct Hi as [Hi|Hi]; [easy|now apply IHp].
Qed.
Lemma is_dir_spec w d : is_dir w d = true <-> d <> [] /\ exists b, names d b /\ (b = [] \/ In b (dirs w)).
Proof.
  unfold is_dir. destruct d as [|c d]; [now split|]. split.
  - intros H. split; [easy|]. exists (trimmed_dir (c :: d)). split; [now apply trimmed_names|]. destruct (trimmed_dir (c :: d)); [now left|]. right. now apply (existsb_in str_eqb str_eqb_spec) in H.
  - intros (_ & b & Hb & Hin). apply trimmed_names in Hb. rewrite Hb. destruct b; [easy|]. destruct Hin as [|Hin]; [easy|]. now apply (existsb_in str_eqb str_eqb_spec).
Qed.
Theorem openable_spec w p : openable w p <-> above w p /\ ~ (p <> [] /\ exists b, names p b /\ (b = [] \/ In b (dirs w))).
Proof.
  unfold openable. rewrite above_spec, <- is_dir_spec. destruct (is_dir w p); split; intros [H1 H2]; split; try easy; now destruct H2.
Qed.
Theorem mkdir_made w d w1 : mkdir w d = Some w1 <->
  exists b, names d b /\ b <> [] /\ ~ In b (dirs w) /\ ~ In b (map fst (files w)) /\ above w b /\ w1 = {| dirs := b :: dirs w; files := files w |}.
Proof.
  unfold mkdir. destruct (is_dir w d) eqn:Ei.
  - split; [discriminate|]. intros (b & Hb & Hne & Hni & _). exfalso. apply is_dir_spec in Ei as (_ & b' & Hb' & Hin).
    apply trimmed_names in Hb, Hb'. assert (b' = b) by congruence. subst b'. rewrite H in Hin. now destruct Hin.
  - split.
    + destruct (trimmed_dir d) as [|c b] eqn:Et; [discriminate|]. destruct (has_dir w (c :: b) && _) eqn:Eh; [|discriminate]. intros [= <-].
      apply andb_prop in Eh as [E1 E2]. exists (c :: b). split; [now apply trimmed_names|split; [easy|split; [|split; [|split; [now apply above_spec|easy]]]]].
      * intros Hin. assert (is_dir w d = true); [|congruence]. apply is_dir_spec. split; [intros ->; easy|]. exists (c :: b). split; [now apply trimmed_names|now right].
      * intros Hin. apply (existsb_in str_eqb str_eqb_spec) in Hin. now rewrite Hin in E2.
    + intros (b & Hb & Hne & Hni & Hnf & Hab & ->). apply trimmed_names in Hb. rewrite Hb. destruct b as [|c b]; [easy|]. apply above_spec in Hab. rewrite Hab.
      destruct (existsb (str_eqb (c :: b)) (map fst (files w))) eqn:E; [|easy]. apply (existsb_in str_eqb str_eqb_spec) in E. easy.
Qed.
Theorem run_dirs fns w r w' : run fns w = (r, w') ->
  match mkdir w outdir with None => r = Err SystemExit /\ w' = w | Some w1 => dirs w' = dirs w1 end.
Proof.
  unfold run_partition. destruct (mkdir w outdir) as [w1|]; [|now intros [= <- <-]]. destruct (index_files _ _ _ _) as [idx|]; [|now intros [= _ <-]].
  intros Hw. now apply write_files_frame in Hw.
Qed.

End Run.
