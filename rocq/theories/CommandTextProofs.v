(* Proofs about xigt sort and xigt partition over text files: C82. *)
From Verif Require Import PyStr PyStrFacts Ref SpecRef Model SpecModel Attr Index XmlStd Xml SpecXml SpecReload XmlText SpecXmlText SortTiers Scripts SpecScripts
  Path SpecPath Command SpecCommand PartitionRun SpecPartition CommandText SpecCommandText.
From Verif Require Import XmlProofs ReloadProofs XmlTextProofs TextRunProofs PartitionProofs PartRunProofs PartAgainProofs.
From Verif Require LoadProofs Value Files CommandProofs.
Import LoadProofs.
Require Import Lia.

Section Sort.
Context {U : Unicode}.
Variable ix : igt -> index.
Variable vfuel : nat.

(* ---------- texts and elements ---------- *)

Lemma sort_as_elem fuel n o s e : parse_text s = Ok e -> no_cr e ->
  sort_text ix vfuel fuel n o s = do e' <- sort_document ix vfuel fuel n o e; Ok (write_elem e').
Proof.
  intros Ep Hn. unfold sort_text, sort_document, dumps. rewrite (text_as_elem n s e Ep Hn). destruct (xml_load n e) as [c|]; [|reflexivity]. cbn [bind].
  destruct (sort_corpus fuel (args_of ix vfuel o c) c); reflexivity.
Qed.
Lemma dumped_loads c indent e : xml_dump c indent = Ok e -> (exists c', forall n, xml_load n e = Ok c') -> forall n, loads n (write_elem e) = xml_load n e.
Proof.
  intros E [c' El] n. destruct (dump_text c indent e E) as [Hd He]. specialize (El 0). unfold xml_load in El. inv_bind El. now apply (loads_written n e x).
Qed.
Lemma sorted_loads fuel n o e e' : tidy_document e -> sort_document ix vfuel fuel n o e = Ok e' -> forall n', loads n' (write_elem e') = xml_load n' e'.
Proof.
  intros Ht E. destruct (CommandProofs.sorts_asked ix vfuel fuel n o e e' Ht E) as (c & c' & a & _ & _ & _ & El).
  unfold sort_document in E. inv_bind E. inv_bind E. apply (dumped_loads _ _ _ E). eauto.
Qed.
Theorem sort_text_sorts fuel n o s s' : tidy_text s -> sort_text ix vfuel fuel n o s = Ok s' ->
  exists c c' a, loads n s = Ok c /\ asked ix vfuel o c a /\ sorted_corpus fuel a c c' /\ forall n', loads n' s' = Ok c'.
Proof.
  intros (e & Ep & Hn & Ht) E. rewrite (sort_as_elem fuel n o s e Ep Hn) in E. inv_bind E. assert (s' = write_elem x) by congruence. subst s'.
  destruct (CommandProofs.sorts_asked ix vfuel fuel n o e x Ht E0) as (c & c' & a & H1 & H2 & H3 & H4). exists c, c', a.
  rewrite (text_as_elem n s e Ep Hn). split; [easy|split; [easy|split; [easy|]]]. intros n'. now rewrite (sorted_loads fuel n o e x Ht E0).
Qed.
Theorem sort_text_fails fuel n o s x : tidy_text s -> sort_text ix vfuel fuel n o s = Err x ->
  loads n s = Err x \/ exists c, loads n s = Ok c /\ sort_corpus fuel (args_of ix vfuel o c) c = Err x.
Proof.
  intros (e & Ep & Hn & Ht) E. rewrite (sort_as_elem fuel n o s e Ep Hn) in E. rewrite (text_as_elem n s e Ep Hn).
  destruct (sort_document ix vfuel fuel n o e) as [e'|x'] eqn:Ed; [discriminate|]. cbn [bind] in E. assert (x' = x) by congruence. subst x'. now apply CommandProofs.fails.
Qed.
Theorem sort_text_again fuel n o s s' : tidy_text s ->
  each (igt_key o) (order_blind ix vfuel an_igt) -> each (tier_key o) (order_blind ix vfuel a_tier) -> each (item_key o) (order_blind ix vfuel an_item) ->
  sort_text ix vfuel fuel n o s = Ok s' ->
  exists m, forall fuel' n', m <= fuel' -> sort_text ix vfuel fuel' n' o s' = Ok s'.
Proof.
  intros (e & Ep & Hn & Ht) H1 H2 H3 E. rewrite (sort_as_elem fuel n o s e Ep Hn) in E. inv_bind E.
  assert (s' = write_elem x) by congruence. subst s'. destruct (CommandProofs.again ix vfuel fuel n o e x Ht H1 H2 H3 E0) as [m Hm]. exists m. intros fuel' n' Hf.
  specialize (Hm fuel' n' Hf). unfold sort_text, dumps. rewrite (sorted_loads fuel n o e x Ht E0). unfold sort_document in Hm. inv_bind Hm. rewrite E1. cbn [bind].
  inv_bind Hm. rewrite E2. cbn [bind]. rewrite Hm. reflexivity.
Qed.
(* ---------- the file ---------- *)

Variable ahead : str -> nat.
Notation run := (run_sort_text ix vfuel ahead).
Lemma dset_there {A} (d : dict A) k v x : dget d k = Some x -> map fst (dset d k v) = map fst d.
Proof.
  unfold dget, dset. induction d as [|[k' v'] d IH]; [discriminate|]. cbn. destruct (str_eqb_spec k k') as [->|Hk]; [reflexivity|]. intros E. cbn. now rewrite IH.
Qed.
Lemma dset_dset {A} (d : dict A) k v : dset (dset d k v) k v = dset d k v.
Proof.
  unfold dset. induction d as [|[k' v'] d IH]; cbn; [now rewrite str_eqb_refl|]. destruct (str_eqb k k') eqn:E; cbn; [now rewrite E|rewrite E]. now rewrite IH.
Qed.
Lemma save_replaced w fn s t : dget (Files.d_files w) fn = Some s -> replaced w {| Files.d_dirs := Files.d_dirs w; Files.d_files := dset (Files.d_files w) fn t |} fn t.
Proof.
  intros E. repeat split; cbn [Files.d_dirs Files.d_files].
  - rewrite dget_str. now rewrite str_eqb_refl.
  - now apply (dset_there _ _ _ s).
  - intros p Hp. rewrite dget_str. destruct (str_eqb_spec p fn); [easy|reflexivity].
Qed.
Theorem run_sort_files fuel o fn w s : dget (Files.d_files w) fn = Some s -> tidy_text s ->
  match sort_text ix vfuel fuel (ahead s) o s with
  | Ok t => run fuel o false fn w = (Ok (t ++ L "
"), w) /\ exists w', run fuel o true fn w = (Ok [], w') /\ replaced w w' fn t
  | Err x => forall in_place, run fuel o in_place fn w = (Err x, w)
  end.
Proof.
  intros Ef (e & Ep & Hn & Ht). unfold run_sort_text. rewrite Ef. destruct (sort_text ix vfuel fuel (ahead s) o s) as [t|x] eqn:E.
  - unfold sort_text in E. inv_bind E. rewrite E0. cbn [bind]. inv_bind E. rewrite E1. rewrite E. split; [reflexivity|]. eexists. split; [reflexivity|]. now apply (save_replaced w fn s).
  - intros in_place. destruct (sort_text_fails fuel (ahead s) o s x ltac:(now exists e) E) as [El|(c & El & Es)]; rewrite El; cbn [bind]; [reflexivity|]. now rewrite Es.
Qed.
Theorem run_sort_missing fuel o in_place fn w : dget (Files.d_files w) fn = None -> run fuel o in_place fn w = (Err OSError, w).
Proof. intros E. unfold run_sort_text. now rewrite E. Qed.
(* whatever happens, no other file and no directory changes *)
Theorem run_sort_frame fuel o in_place fn w r w' : run fuel o in_place fn w = (r, w') ->
  Files.d_dirs w' = Files.d_dirs w /\ (forall p, p <> fn -> dget (Files.d_files w') p = dget (Files.d_files w) p) /\ (in_place = false -> w' = w).
Proof.
  unfold run_sort_text. destruct (dget (Files.d_files w) fn) as [s|] eqn:Ef; [|now intros [= _ <-]]. destruct (bind _ _) as [c|x]; [|now intros [= _ <-]].
  assert (Hs : forall t, let w' := {| Files.d_dirs := Files.d_dirs w; Files.d_files := dset (Files.d_files w) fn t |} in
    Files.d_dirs w' = Files.d_dirs w /\ (forall p, p <> fn -> dget (Files.d_files w') p = dget (Files.d_files w) p)).
  { intros t. destruct (save_replaced w fn s t Ef) as (H1 & _ & _ & H2). now split. }
  destruct (dumps c (Some 2)) as [t|x], in_place; intros [= _ <-]; try easy; [destruct (Hs t)|destruct (Hs [])]; easy.
Qed.
Theorem run_sort_again fuel o fn w w' s : dget (Files.d_files w) fn = Some s -> tidy_text s ->
  each (igt_key o) (order_blind ix vfuel an_igt) -> each (tier_key o) (order_blind ix vfuel a_tier) -> each (item_key o) (order_blind ix vfuel an_item) ->
  run fuel o true fn w = (Ok [], w') ->
  exists m, forall fuel', m <= fuel' -> run fuel' o true fn w' = (Ok [], w').
Proof.
  intros Ef Ht H1 H2 H3 E. unfold run_sort_text in E. rewrite Ef in E. destruct (bind _ _) as [c'|x] eqn:Es; [|discriminate].
  destruct (dumps c' (Some 2)) as [t|x] eqn:Ed; [|discriminate]. assert (Hw : w' = {| Files.d_dirs := Files.d_dirs w; Files.d_files := dset (Files.d_files w) fn t |}) by congruence. clear E.
  assert (Et : sort_text ix vfuel fuel (ahead s) o s = Ok t).
  { unfold sort_text. inv_bind Es. rewrite E. cbn [bind]. rewrite Es. exact Ed. }
  destruct (sort_text_again fuel (ahead s) o s t Ht H1 H2 H3 Et) as [m Hm]. exists m. intros fuel' Hf. specialize (Hm fuel' (ahead t) Hf).
  unfold run_sort_text. subst w'. cbn [Files.d_files Files.d_dirs]. rewrite dget_str, str_eqb_refl. unfold sort_text in Hm. inv_bind Hm. rewrite E. cbn [bind]. inv_bind Hm.
  rewrite E0, Hm. now rewrite dset_dset.
Qed.
End Sort.

(* ---------- partition ---------- *)

Section Open.
Context {U : Unicode}.
Lemma open_as_elem n s e : parse_text s = Ok e -> no_cr e -> text_open n s = xml_open n e.
Proof. intros E H. unfold text_open, xml_open. rewrite E. cbn [bind]. rewrite (resolve_sound e []); auto. now apply (parse_sound s). Qed.
Lemma text_good n s l : tidy_text s -> text_open n s = Ok l -> Forall good_igt (map snd l).
Proof. intros (e & Ep & Hn & Ht). rewrite (open_as_elem n s e Ep Hn). now apply open_good. Qed.
Theorem text_modes n s c : loads n s = Ok c -> text_open n s = Ok (map (pair (emptied c)) (c_igts c)).
Proof.
  unfold loads, text_open, decode. destruct (parse_text s) as [e|]; [|easy]. cbn [bind]. destruct (XmlText.resolve [] e) as [p|]; [|easy]. cbn [bind].
  apply (decode_with_map decode_xigtcorpus open_corpus (fun c => map (pair (emptied c)) (c_igts c))).
  intros q l x Hx. unfold decode_xigtcorpus in Hx. unfold open_corpus. inv_bind Hx. inv_bind Hx. inv_bind Hx. inv_bind Hx. inv_bind Hx.
  rewrite E. cbn [bind]. rewrite E0. cbn [bind]. rewrite E1. cbn [bind]. rewrite E2. cbn [bind]. apply container_ids in E3 as [-> _]. injection Hx as <-. reflexivity.
Qed.
Lemma new_text gs : Forall good_igt gs -> NoDup (ids_of Value.igt_id gs) ->
  exists s, dumps (new_corpus gs) (Some 2) = Ok s /\ text_holds s gs /\ (gs <> [] -> same_prefixes gs -> text_holds_exactly s gs).
Proof.
  intros H Hnd. destruct (new_holds gs H Hnd) as (e & E & Hh & Hx). exists (write_elem e). unfold dumps. rewrite E. split; [reflexivity|].
  assert (El : forall n, loads n (write_elem e) = xml_load n e) by (apply (dumped_loads _ _ _ E); destruct Hh as (c & Hc & _); eauto). split.
  - destruct Hh as (c & Hc & H2). exists c. split; [|exact H2]. intros n. rewrite El. apply Hc.
  - intros Hne Hp. destruct (Hx Hne Hp) as (c & Hc & H2). exists c. split; [|exact H2]. intros n. rewrite El. apply Hc.
Qed.
End Open.

Lemma put_text_spec w p s w' : Files.put_text w p s = Some w' ->
  Files.d_dirs w' = Files.d_dirs w /\ dget (Files.d_files w') p = Some s /\ forall q, q <> p -> dget (Files.d_files w') q = dget (Files.d_files w) q.
Proof.
  unfold Files.put_text. destruct p as [|c p]; [discriminate|]. destruct (_ && _); [|discriminate]. intros H.
  assert (Hw : w' = {| Files.d_dirs := Files.d_dirs w; Files.d_files := dset (Files.d_files w) (c :: p) s |}) by congruence. subst w'. cbn [Files.d_dirs Files.d_files]. split; [easy|split].
  - rewrite dget_str. now rewrite str_eqb_refl.
  - intros q Hq. rewrite dget_str. destruct (str_eqb_spec q (c :: p)); [easy|reflexivity].
Qed.
Lemma put_writable w p s : can_write w p <-> exists w', Files.put_text w p s = Some w'.
Proof.
  unfold can_write, Files.put_text. destruct p as [|c p]; [split; [now intros [H _]|now intros [w' H]]|].
  destruct (Files.has_dir w (c :: p)), (Files.is_dir w (c :: p)); cbn; split; try easy; try (intros [w' H]; discriminate). eauto.
Qed.

Section Run.
Context {U : Unicode}.
Variable ix : igt -> index.
Variable vfuel : nat.
Variable ahead : str -> nat.
Variables (outdir default_key : str).
Notation opath := (out_path outdir default_key).
Notation read := (read_text_file ahead).
Notation write_texts := (write_texts ahead outdir default_key).
Notation files := Files.d_files.
Notation dirs := Files.d_dirs.

Lemma write_texts_frame idx : forall w r w', write_texts idx w = (r, w') ->
  dirs w' = dirs w /\ forall p, (forall k, In k (map fst idx) -> p <> opath k) -> dget (files w') p = dget (files w) p.
Proof.
  induction idx as [|[k d] idx IH]; intros w r w'; cbn [CommandText.write_texts].
  - now intros [= _ <-].
  - destruct (bind _ _) as [e|x]; [|now intros [= _ <-]]. destruct (Files.put_text w (opath k) e) as [w1|] eqn:Ep; [|now intros [= _ <-]].
    apply put_text_spec in Ep as (Ed & _ & Ef). intros H. apply IH in H as [Hd Hf]. split; [congruence|]. intros p Hp.
    rewrite Hf, Ef; [easy| |]; [apply Hp; now left|intros k' Hk'; apply Hp; now right].
Qed.
Definition text_for (load : str -> res (list member)) (kd : option str * dict (list nat)) : res str :=
  do l <- write load member_id (snd kd); dumps (new_corpus (map snd l)) (Some 2).
Lemma text_for_ext load load' kd : (forall fn, In fn (map fst (snd kd)) -> load' fn = load fn) -> text_for load' kd = text_for load kd.
Proof. intros H. unfold text_for, write. now rewrite (gather_ext load load'). Qed.
Lemma write_texts_ok idx : forall w w0, dirs w = dirs w0 ->
  (forall kd fn, In kd idx -> In fn (map fst (snd kd)) -> dget (files w) fn = dget (files w0) fn) ->
  (forall kd fn k, In kd idx -> In fn (map fst (snd kd)) -> In k (map fst idx) -> fn <> opath k) ->
  ((exists w', write_texts idx w = (Ok tt, w')) <->
   (forall kd, In kd idx -> (exists e, text_for (read (files w0)) kd = Ok e) /\ can_write w0 (opath (fst kd)))).
Proof.
  induction idx as [|[k d] idx IH]; intros w w0 Hd Hf Ha; cbn [CommandText.write_texts].
  - split; [intros _ kd []|eauto].
  - assert (E : text_for (read (files w)) (k, d) = text_for (read (files w0)) (k, d)).
    { apply text_for_ext. intros fn Hfn. unfold read_text_file. now rewrite (Hf (k, d) fn (or_introl eq_refl) Hfn). }
    unfold text_for in E at 1. cbn [snd] in E. rewrite E. clear E.
    destruct (text_for (read (files w0)) (k, d)) as [e|x] eqn:E.
    2:{ split; [intros [w' H]; discriminate|]. intros H. destruct (H (k, d) (or_introl eq_refl)) as [[e He] _]. congruence. }
    assert (Ho : can_write w (opath k) <-> can_write w0 (opath k)) by (unfold can_write, Files.has_dir, Files.is_dir; now rewrite Hd).
    destruct (Files.put_text w (opath k) e) as [w1|] eqn:Ep.
    + pose proof (proj2 (put_writable w (opath k) e) (ex_intro _ w1 Ep)) as Hop. apply put_text_spec in Ep as (Ed & _ & Ef).
      rewrite (IH w1 w0).
      * split; [|intros H kd Hk; apply H; now right]. intros H kd [<-|Hk]; [|now apply H]. split; [eauto|]. cbn [fst]. now apply Ho.
      * congruence.
      * intros kd fn Hk Hfn. rewrite Ef; [apply (Hf kd); auto; now right|]. apply (Ha kd); [now right|easy|now left].
      * intros kd fn k' Hk Hfn Hk'. apply (Ha kd); auto; now right.
    + split; [intros [w' H]; discriminate|]. intros H. destruct (H (k, d) (or_introl eq_refl)) as [_ Hop]. apply Ho in Hop. cbn [fst] in Hop.
      apply (put_writable w (opath k) e) in Hop as [w' Hw]. congruence.
Qed.
Lemma write_texts_spec idx : forall w w0 w', dirs w = dirs w0 -> write_texts idx w = (Ok tt, w') ->
  (forall kd fn, In kd idx -> In fn (map fst (snd kd)) -> dget (files w) fn = dget (files w0) fn) ->
  (forall kd fn k, In kd idx -> In fn (map fst (snd kd)) -> In k (map fst idx) -> fn <> opath k) ->
  NoDup (map fst idx) -> apart outdir default_key (map fst idx) ->
  forall kd, In kd idx -> exists e, text_for (read (files w0)) kd = Ok e /\ dget (files w') (opath (fst kd)) = Some e.
Proof.
  induction idx as [|[k d] idx IH]; intros w w0 w' Hd Hw Hf Ha Hnd Hap kd Hk; [easy|]. cbn [CommandText.write_texts] in Hw.
  assert (E : text_for (read (files w)) (k, d) = text_for (read (files w0)) (k, d)).
  { apply text_for_ext. intros fn Hfn. unfold read_text_file. now rewrite (Hf (k, d) fn (or_introl eq_refl) Hfn). }
  unfold text_for in E at 1. cbn [snd] in E. rewrite E in Hw. clear E.
  destruct (text_for (read (files w0)) (k, d)) as [e|x] eqn:E; [|discriminate].
  destruct (Files.put_text w (opath k) e) as [w1|] eqn:Ep; [|discriminate]. apply put_text_spec in Ep as (Ed & Eg & Ef).
  cbn [map fst] in Hnd. inversion_clear Hnd as [|? ? Hn1 Hn2].
  assert (Hap' : apart outdir default_key (map fst idx)) by (intros a b Ha' Hb'; apply Hap; now right).
  destruct Hk as [<-|Hk].
  - exists e. split; [easy|]. cbn [fst]. destruct (write_texts_frame _ _ _ _ Hw) as [_ Hfr]. rewrite Hfr; [easy|].
    intros k' Hk' Eq. apply Hap in Eq; [subst; easy|now left|now right].
  - apply (IH w1 w0 w'); auto; try congruence.
    + intros kd' fn Hk' Hfn. rewrite Ef; [apply (Hf kd'); auto; now right|]. apply (Ha kd'); [now right|easy|now left].
    + intros kd' fn k' Hk' Hfn Hk2. apply (Ha kd'); auto; now right.
Qed.

Variable path : option str.
Notation key := (key_by ix vfuel path).
Notation run := (run_partition_text ix vfuel ahead outdir default_key path).

Lemma create_spec w w1 : create_outdir outdir w = Some w1 -> dirs w1 = trimmed_dir outdir :: dirs w /\ files w1 = files w.
Proof.
  unfold create_outdir. destruct (Files.is_dir w outdir); [discriminate|]. unfold Files.make_dir. destruct (trimmed_dir outdir) as [|b bs]; [discriminate|].
  destruct (_ && _); [|discriminate]. intros [= <-]. now split.
Qed.
Lemma texts_good fs fns : (forall fn s, In fn fns -> dget fs fn = Some s -> tidy_text s) -> Forall good_igt (map snd (inputs (read fs) fns)).
Proof.
  intros H. apply Forall_map, Forall_forall. intros m Hm. apply in_flat_map in Hm as (fn & Hf & Hm). rewrite firsts_in in Hf.
  unfold SpecScripts.contents, read_text_file in Hm. destruct (dget fs fn) as [s|] eqn:E; [|easy]. specialize (H fn s Hf E).
  destruct (text_open (ahead s) s) as [l|] eqn:El; [|easy]. apply text_good in El; [|easy]. rewrite Forall_map, Forall_forall in El. now apply El.
Qed.
Lemma text_key_good fs fns k : (forall fn s, In fn fns -> dget fs fn = Some s -> tidy_text s) -> Forall good_igt (map snd (of_key key (read fs) k fns)).
Proof.
  intros H. apply texts_good in H. rewrite Forall_map, Forall_forall in *. intros m Hm. apply H. unfold of_key in Hm. now apply filter_In in Hm.
Qed.
Notation no_clash w fns := (forall k, occurs key (read (files w)) fns k -> ~ In (opath k) fns).

Lemma text_dumps fns w w' : no_clash w fns ->
  (forall k k', occurs key (read (files w)) fns k -> occurs key (read (files w)) fns k' -> opath k = opath k' -> k = k') ->
  run fns w = (Ok tt, w') ->
  dirs w' = trimmed_dir outdir :: dirs w
  /\ (forall k, occurs key (read (files w)) fns k ->
       exists e, dget (files w') (opath k) = Some e /\ dumps (new_corpus (map snd (of_key key (read (files w)) k fns))) (Some 2) = Ok e
       /\ ids_distinct member_id (of_key key (read (files w)) k fns) /\ of_key key (read (files w)) k fns <> [])
  /\ (forall p, (forall k, occurs key (read (files w)) fns k -> p <> opath k) -> dget (files w') p = dget (files w) p).
Proof.
  intros Hc Ha. unfold run_partition_text. destruct (create_outdir outdir w) as [w1|] eqn:Em; [|discriminate]. apply create_spec in Em as (Ed & Ef).
  rewrite Ef. destruct (index_files _ _ _ _) as [idx|] eqn:Ei; [|discriminate]. apply index_facts in Ei as (Hr & Hnd & Ho & Hg & Hfn). intros Hw.
  pose proof (write_texts_frame _ _ _ _ Hw) as [Hd Hf].
  assert (Hfor : forall kd, In kd idx -> exists e, text_for (read (files w1)) kd = Ok e /\ dget (files w') (opath (fst kd)) = Some e).
  { apply (write_texts_spec idx w1 w1 w'); auto.
    - intros kd fn k Hk H1 H2 ->. apply Ho in H2. now apply (Hc k), (Hfn kd).
    - intros k k' H1 H2. apply Ha; now apply Ho. }
  split; [congruence|split].
  - intros k Hk. apply Ho in Hk. apply in_map_iff in Hk as (kd & <- & Hk). destruct (Hfor kd Hk) as (e & He & Hp).
    exists e. split; [easy|]. rewrite Ef in He. unfold text_for in He. destruct (write (read (files w)) member_id (snd kd)) as [l|] eqn:El; [|discriminate].
    cbn [bind] in He. apply write_ids in El as [El Hi]. rewrite Hg in El by easy. injection El as <-. split; [easy|split; [easy|]].
    assert (Hoc : occurs key (read (files w)) fns (fst kd)) by (apply Ho; now apply in_map).
    destruct Hoc as (g & G1 & G2). intros En. assert (Hin : In g (of_key key (read (files w)) (fst kd) fns)).
    { apply filter_In. split; [easy|]. unfold has_keyb. rewrite G2. fold keyeq. now destruct (keyeq_spec (fst kd) (fst kd)). }
    rewrite En in Hin. easy.
  - intros p Hp. rewrite Hf, Ef; [easy|]. intros k Hk. apply Hp. now apply Ho.
Qed.
Theorem partition_texts fns w w' : tidy_texts w fns -> no_clash w fns ->
  (forall k k', occurs key (read (files w)) fns k -> occurs key (read (files w)) fns k' -> opath k = opath k' -> k = k') ->
  run fns w = (Ok tt, w') ->
  (exists d s, outdir = d ++ s /\ Forall (eq (Ch "/")) s /\ dirs w' = d :: dirs w)
  /\ (forall k, occurs key (read (files w)) fns k ->
       exists t, dget (files w') (opath k) = Some t /\ text_holds t (map snd (of_key key (read (files w)) k fns))
       /\ (same_prefixes (map snd (of_key key (read (files w)) k fns)) -> text_holds_exactly t (map snd (of_key key (read (files w)) k fns))))
  /\ (forall p, (forall k, occurs key (read (files w)) fns k -> p <> opath k) -> dget (files w') p = dget (files w) p).
Proof.
  intros Ht Hc Ha Hw. destruct (text_dumps fns w w' Hc Ha Hw) as (Hd & Hk & Hf). split; [|split; [|exact Hf]].
  - destruct (trimmed_spec outdir) as (s & E & F). exists (trimmed_dir outdir), s. auto.
  - intros k Ho. destruct (Hk k Ho) as (e & E1 & E2 & Hi & Hne). exists e. split; [easy|].
    unfold ids_distinct in Hi. rewrite ids_members in Hi.
    destruct (new_text _ (text_key_good (files w) fns k Ht) Hi) as (e' & Ee & H1 & H2).
    assert (e' = e) by congruence. subst e'. split; [easy|]. apply H2. now destruct (of_key key (read (files w)) k fns).
Qed.
Theorem partition_texts_frame fns w r w' : run fns w = (r, w') -> forall p, (forall k, occurs key (read (files w)) fns k -> p <> opath k) -> dget (files w') p = dget (files w) p.
Proof.
  unfold run_partition_text. destruct (create_outdir outdir w) as [w1|] eqn:Em; [|now intros [= _ <-]]. apply create_spec in Em as (Ed & Ef).
  rewrite Ef. destruct (index_files _ _ _ _) as [idx|] eqn:Ei; [|intros [= _ <-]; now rewrite Ef]. apply index_facts in Ei as (Hr & Hnd & Ho & Hg & Hfn). intros Hw p Hp.
  pose proof (write_texts_frame _ _ _ _ Hw) as [_ Hf]. rewrite Hf, Ef; [easy|]. intros k Hk. apply Hp. now apply Ho.
Qed.
Lemma text_succeeds_gen fns w : no_clash w fns ->
  ((exists w', run fns w = (Ok tt, w')) <->
   exists w1, create_outdir outdir w = Some w1
   /\ (forall fn, In fn fns -> exists l, read (files w) fn = Ok l)
   /\ (forall m, In m (inputs (read (files w)) fns) -> exists k, key m = Ok k)
   /\ (forall k, ids_distinct member_id (of_key key (read (files w)) k fns))
   /\ (forall k, occurs key (read (files w)) fns k -> can_write w1 (opath k))
   /\ (forall k, occurs key (read (files w)) fns k -> exists e, dumps (new_corpus (map snd (of_key key (read (files w)) k fns))) (Some 2) = Ok e)).
Proof.
  intros Hc. unfold run_partition_text. destruct (create_outdir outdir w) as [w1|] eqn:Em; [|split; [now intros [? [=]]|now intros [? [[=] _]]]].
  apply create_spec in Em as (Ed & Ef). rewrite Ef.
  assert (Hdis : forall idx, index_files key (read (files w)) fns [] = Ok idx ->
    ((exists w', write_texts idx w1 = (Ok tt, w')) <-> (forall kd, In kd idx -> (exists e, text_for (read (files w1)) kd = Ok e) /\ can_write w1 (opath (fst kd))))).
  { intros idx Ei. apply index_facts in Ei as (Hr & Hnd & Ho & Hg & Hfn). apply write_texts_ok; auto.
    intros kd fn k Hk H1 H2 ->. apply Ho in H2. now apply (Hc k), (Hfn kd). }
  split.
  - destruct (index_files _ _ _ _) as [idx|] eqn:Ei; [|now intros [? [=]]]. specialize (Hdis idx eq_refl).
    apply index_facts in Ei as (Hr & Hnd & Ho & Hg & Hfn). intros Hw. rewrite Hdis in Hw. clear Hdis. exists w1. split; [easy|split; [|split; [|split; [|split]]]].
    + intros fn Hf. destruct (Hr fn Hf) as (l & El & _). eauto.
    + intros m Hm. apply in_flat_map in Hm as (fn & Hf & Hm). rewrite firsts_in in Hf. destruct (Hr fn Hf) as (l & El & Hk).
      unfold SpecScripts.contents in Hm. rewrite El in Hm. auto.
    + intros k. destruct (of_key key (read (files w)) k fns) as [|m l] eqn:Ek; [constructor|]. rewrite <- Ek.
      assert (Hoc : occurs key (read (files w)) fns k).
      { assert (Hm : In m (of_key key (read (files w)) k fns)) by (rewrite Ek; now left). apply filter_In in Hm as [Hm Hb]. exists m. split; [easy|].
        unfold has_keyb in Hb. destruct (key m) as [k'|]; [|discriminate]. fold keyeq in Hb. destruct (keyeq_spec k' k); [congruence|discriminate]. }
      apply Ho in Hoc. apply in_map_iff in Hoc as (kd & <- & Hk). destruct (Hw kd Hk) as [[e He] _]. rewrite Ef in He. unfold text_for in He.
      destruct (write (read (files w)) member_id (snd kd)) as [l'|] eqn:El; [|discriminate]. apply write_ids in El as [El Hi]. rewrite Hg in El by easy. congruence.
    + intros k Hk. apply Ho in Hk. apply in_map_iff in Hk as (kd & <- & Hk). now apply Hw.
    + intros k Hk. apply Ho in Hk. apply in_map_iff in Hk as (kd & <- & Hk). destruct (Hw kd Hk) as [[e He] _]. rewrite Ef in He. unfold text_for in He.
      destruct (write (read (files w)) member_id (snd kd)) as [l'|] eqn:El; [|discriminate]. apply write_ids in El as [El Hi]. rewrite Hg in El by easy.
      injection El as <-. eauto.
  - intros (w2 & E2 & H1 & H2 & H3 & H4 & H5). injection E2 as <-.
    destruct (index_files_ok key (read (files w)) fns) with (idx := @nil (option str * dict (list nat))) as (idx & Ei).
    { intros fn Hf. destruct (H1 fn Hf) as (l & El). exists l. split; [easy|]. intros m Hm. apply H2. apply in_flat_map. exists fn.
      split; [now apply firsts_in|]. unfold SpecScripts.contents. now rewrite El. }
    rewrite Ei. apply (Hdis idx Ei). apply index_facts in Ei as (Hr & Hnd & Ho & Hg & Hfn). intros kd Hk. split.
    + rewrite Ef. unfold text_for. assert (Ew : write (read (files w)) member_id (snd kd) = Ok (of_key key (read (files w)) (fst kd) fns)).
      { apply write_ids. split; [now apply Hg|apply H3]. }
      rewrite Ew. cbn [bind]. apply H5, Ho. now apply in_map.
    + apply H4, Ho. now apply in_map.
Qed.
Theorem partition_texts_succeeds fns w : tidy_texts w fns -> no_clash w fns ->
  ((exists w', run fns w = (Ok tt, w')) <->
   exists w1, create_outdir outdir w = Some w1
   /\ (forall fn, In fn fns -> exists l, read (files w) fn = Ok l)
   /\ (forall m, In m (inputs (read (files w)) fns) -> exists k, key m = Ok k)
   /\ (forall k, ids_distinct member_id (of_key key (read (files w)) k fns))
   /\ (forall k, occurs key (read (files w)) fns k -> can_write w1 (opath k))).
Proof.
  intros Ht Hc. rewrite (text_succeeds_gen fns w Hc). split; intros (w1 & E & H1 & H2 & H3 & H4); exists w1; [tauto|].
  split; [easy|split; [easy|split; [easy|split; [easy|split; [easy|]]]]]. intros k _. specialize (H3 k). unfold ids_distinct in H3. rewrite ids_members in H3.
  destruct (new_text _ (text_key_good (files w) fns k Ht) H3) as (e & Ee & _). eauto.
Qed.
Theorem partition_texts_dirs fns w r w' : run fns w = (r, w') ->
  match create_outdir outdir w with None => r = Err SystemExit /\ w' = w | Some w1 => dirs w' = dirs w1 end.
Proof.
  unfold run_partition_text. destruct (create_outdir outdir w) as [w1|]; [|intros [= <- <-]; now split]. destruct (index_files _ _ _ _) as [idx|]; [|now intros [= _ <-]].
  intros Hw. now apply write_texts_frame in Hw.
Qed.
End Run.

Section Again.
Context {U : Unicode}.
Variable ix : igt -> index.
Variable vfuel : nat.
Variable ahead : str -> nat.
Variables (out1 out2 dk : str) (hs : list head).
Hypothesis Hd : Forall downward hs.
Hypothesis Hw : wf (plain_path hs).
Notation path := (Some (show (plain_path hs))).
Notation key := (key_by ix vfuel path).
Notation read := (read_text_file ahead).
Notation files := Files.d_files.
Notation o1 := (out_path out1 dk).
Notation o2 := (out_path out2 dk).

Theorem partition_texts_again fns w w1 ks : tidy_texts w fns ->
  (forall k, occurs key (read (files w)) fns k -> ~ In (o1 k) fns) ->
  (forall k k', occurs key (read (files w)) fns k -> occurs key (read (files w)) fns k' -> o1 k = o1 k' -> k = k') ->
  (forall k, same_prefixes (map snd (of_key key (read (files w)) k fns))) ->
  run_partition_text ix vfuel ahead out1 dk path fns w = (Ok tt, w1) ->
  NoDup ks -> (forall k, In k ks <-> occurs key (read (files w)) fns k) ->
  (forall k k', In k ks -> In k' ks -> o2 k <> o1 k') ->
  (forall k k', In k ks -> In k' ks -> o2 k = o2 k' -> k = k') ->
  ((exists w2, run_partition_text ix vfuel ahead out2 dk path (map o1 ks) w1 = (Ok tt, w2)) <->
   exists w', create_outdir out2 w1 = Some w' /\ forall k, In k ks -> can_write w' (o2 k))
  /\ forall w2, run_partition_text ix vfuel ahead out2 dk path (map o1 ks) w1 = (Ok tt, w2) ->
     forall k, In k ks -> dget (files w2) (o2 k) = dget (files w1) (o1 k).
Proof.
  intros Ht Hc Hi Hp Hr Hnd Hks Hcl Hi2. destruct (text_dumps ix vfuel ahead out1 dk path fns w w1 Hc Hi Hr) as (_ & Hf & _).
  assert (Hread : forall k, In k ks -> exists e c, dget (files w1) (o1 k) = Some e
    /\ dumps (new_corpus (map snd (of_key key (read (files w)) k fns))) (Some 2) = Ok e
    /\ ids_distinct member_id (of_key key (read (files w)) k fns)
    /\ read (files w1) (o1 k) = Ok (map (pair c) (map snd (of_key key (read (files w)) k fns)))).
  { intros k Hk. apply Hks in Hk. destruct (Hf k Hk) as (e & E1 & E2 & Hdi & Hne). pose proof Hdi as Hdi0. unfold ids_distinct in Hdi. rewrite ids_members in Hdi.
    destruct (new_text _ (text_key_good ix vfuel ahead path (files w) fns k Ht) Hdi) as (e' & Ee & _ & Hx). assert (e' = e) by congruence. subst e'.
    destruct Hx as (c & Hl & _ & _ & _ & _ & _ & Eg); [now destruct (of_key key (read (files w)) k fns)|apply Hp|].
    exists e, (emptied c). split; [easy|split; [easy|split; [easy|]]]. unfold read_text_file. rewrite E1. rewrite (text_modes _ _ c (Hl _)). now rewrite Eg. }
  assert (Hkey : forall k m, In k ks -> In m (contents (read (files w1)) (o1 k)) -> key m = Ok k).
  { intros k m Hk Hm. destruct (Hread k Hk) as (e & c & _ & _ & _ & El). unfold contents in Hm. rewrite El in Hm. apply in_map_iff in Hm as (g & <- & Hg).
    pose proof (text_key_good ix vfuel ahead path (files w) fns k Ht) as Hgood. rewrite Forall_forall in Hgood. specialize (Hgood g Hg).
    apply in_map_iff in Hg as ([c0 g0] & <- & Hg). cbn [snd] in *. apply filter_In in Hg as [_ Hb]. unfold has_keyb in Hb.
    rewrite (key_own ix vfuel hs c c0 g0 Hd Hw). 2:{ destruct (good_map g0 Hgood) as (m & E & _). congruence. }
    destruct (key (c0, g0)) as [k'|]; [|discriminate]. fold keyeq in Hb. destruct (keyeq_spec k' k); [congruence|discriminate]. }
  destruct (one_file key (read (files w1)) o1 ks Hnd ltac:(intros k k' H1 H2; apply Hi; now apply Hks) Hkey) as (Hof & Hoc & Hall).
  assert (Hsnd : forall k, In k ks -> map snd (of_key key (read (files w1)) k (map o1 ks)) = map snd (of_key key (read (files w)) k fns)).
  { intros k Hk. rewrite Hof by easy. destruct (Hread k Hk) as (e & c & _ & _ & _ & El). unfold contents. rewrite El, map_map. apply map_id. }
  assert (Hcl2 : forall k, occurs key (read (files w1)) (map o1 ks) k -> ~ In (o2 k) (map o1 ks)).
  { intros k Hk Hin. apply Hoc in Hk. apply in_map_iff in Hin as (k' & E & Hk'). now apply (Hcl k k'). }
  assert (Hocc : forall k, In k ks -> occurs key (read (files w1)) (map o1 ks) k).
  { intros k Hk. destruct (proj1 (Hks k) Hk) as (m & Hm & Ek). assert (Hin : In m (of_key key (read (files w)) k fns)).
    { apply filter_In. split; [easy|]. unfold has_keyb. rewrite Ek. fold keyeq. now destruct (keyeq_spec k k). }
    apply (in_map snd) in Hin. rewrite <- (Hsnd k Hk) in Hin. apply in_map_iff in Hin as (m' & _ & Hm'). apply filter_In in Hm' as [Hm' Hb]. exists m'. split; [easy|].
    unfold has_keyb in Hb. destruct (key m') as [k'|]; [|discriminate]. fold keyeq in Hb. destruct (keyeq_spec k' k); [congruence|discriminate]. }
  split.
  - rewrite (text_succeeds_gen ix vfuel ahead out2 dk path (map o1 ks) w1 Hcl2). split.
    + intros (w' & E & _ & _ & _ & Ho & _). exists w'. split; [easy|]. intros k Hk. apply Ho. now apply Hocc.
    + intros (w' & E & Ho). exists w'. split; [easy|split; [|split; [exact Hall|split; [|split]]]].
      * intros fn Hfn. apply in_map_iff in Hfn as (k & <- & Hk). destruct (Hread k Hk) as (e & c & _ & _ & _ & El). eauto.
      * intros k. destruct (of_key key (read (files w1)) k (map o1 ks)) as [|m l] eqn:Ek; [constructor|]. rewrite <- Ek.
        assert (Hk : In k ks).
        { apply Hoc. assert (Hm' : In m (of_key key (read (files w1)) k (map o1 ks))) by (rewrite Ek; now left). apply filter_In in Hm' as [Hm' Hb]. exists m. split; [easy|].
          unfold has_keyb in Hb. destruct (key m) as [k'|]; [|discriminate]. fold keyeq in Hb. destruct (keyeq_spec k' k); [congruence|discriminate]. }
        unfold ids_distinct. rewrite ids_members, Hsnd, <- ids_members by easy. now destruct (Hread k Hk) as (e & c & _ & _ & Hdi & _).
      * intros k Hk. apply Ho. now apply Hoc.
      * intros k Hk. apply Hoc in Hk. rewrite Hsnd by easy. destruct (Hread k Hk) as (e & c & _ & Ed & _). eauto.
  - intros w2 Hr2 k Hk. destruct (text_dumps ix vfuel ahead out2 dk path (map o1 ks) w1 w2 Hcl2 ltac:(intros a b Ha Hb; apply Hi2; now apply Hoc) Hr2) as (_ & H2 & _).
    destruct (H2 k (Hocc k Hk)) as (e2 & E2 & D2 & _). rewrite Hsnd in D2 by easy. destruct (Hread k Hk) as (e & c & E1 & D1 & _). congruence.
Qed.
End Again.

(* ---------- files that cannot be read ---------- *)

Section Broken.
Context {U : Unicode}.
Lemma index_stops {M} (key : M -> res (option str)) (load : str -> res (list M)) fn b x : load fn = Err x ->
  forall a, (forall f, In f a -> exists l, load f = Ok l /\ forall m, In m l -> exists k, key m = Ok k) ->
  forall idx, index_files key load (a ++ fn :: b) idx = Err x.
Proof.
  intros Ex. induction a as [|f a IH]; intros Ha idx; cbn [app index_files]; [now rewrite Ex|].
  destruct (Ha f (or_introl eq_refl)) as (l & -> & Hk). cbn [bind].
  assert (E : forall l i idx, (forall m, In m l -> exists k, key m = Ok k) -> exists idx', index_igts key f i l idx = Ok idx').
  { induction l0 as [|m l0 IHl]; intros i idx0 H; cbn [index_igts]; [eauto|]. destruct (H m (or_introl eq_refl)) as (k & ->). cbn [bind]. apply IHl. intros m' Hm. apply H. now right. }
  destruct (E l 0 idx Hk) as (idx' & ->). cbn [bind]. apply IH. intros f' Hf. apply Ha. now right.
Qed.
Theorem partition_texts_broken ix vfuel ahead outdir dk path a fn b w w1 x :
  create_outdir outdir w = Some w1 ->
  (forall f, In f a -> exists l, read_text_file ahead (Files.d_files w) f = Ok l /\ forall m, In m l -> exists k, key_by ix vfuel path m = Ok k) ->
  (dget (Files.d_files w) fn = None /\ x = OSError) \/ (exists s, dget (Files.d_files w) fn = Some s /\ parse_text s = Err x) ->
  run_partition_text ix vfuel ahead outdir dk path (a ++ fn :: b) w = (Err x, w1) /\ Files.d_files w1 = Files.d_files w.
Proof.
  intros Hc Ha Hx. pose proof (proj2 (create_spec outdir w w1 Hc)) as Hf. split; [|easy]. unfold run_partition_text. rewrite Hc, Hf.
  rewrite (index_stops (key_by ix vfuel path) (read_text_file ahead (Files.d_files w)) fn b x); [easy| |easy].
  unfold read_text_file. destruct Hx as [[-> ->]|(s & -> & E)]; [easy|]. unfold text_open. now rewrite E.
Qed.
End Broken.
