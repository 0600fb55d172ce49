(* Proofs about the schema: alignment expressions, xigt sort and xigt partition. *)
From Coq Require Import Permutation.
From Verif Require Import PyStr PyStrFacts Ref SpecRef Model SpecModel XmlStd Xml SpecXml SpecReload Schema SpecSchema.
From Verif Require RefProofs RefLaws AttrProofs Value SpecInt IntProofs SortScriptProofs.
From Verif Require Import LoadProofs XmlProofs ReloadProofs SchemaProofs.
From Verif Require Import Scripts SpecScripts Path Command SpecCommand PartitionRun SpecPartition PartitionProofs CommandProofs PartRunProofs.
Require Import Lia.

Section Expr.
Context {U : Unicode} {X : XsdWord}.

(* ---------- alignment expressions ---------- *)

Lemma id_char_tail c : wide_table -> id_char c -> id_tail c = true.
Proof.
  intros Hw. unfold id_tail, xsd_word. intros [->|[->|H]]; [reflexivity..|]. destruct (N.ltb_spec c 128) as [Hc|Hc].
  - apply orb_true_iff. unfold is_word, cclass in H. rewrite (proj2 (N.ltb_lt c 128) Hc) in H. unfold ascii_class in H.
    destruct (in_range 48 57 c); [now right|]. destruct (in_range 65 90 c); [now right|]. destruct (in_range 97 122 c); [now right|].
    cbn [orb] in H. destruct (N.eqb_spec c 95) as [->|]; [now left|]. now destruct (in_range 9 13 c || in_range 28 32 c).
  - rewrite (Hw c) by easy. apply orb_true_r.
Qed.
Lemma shape_pattern s : wide_table -> id_shape s -> matches id_pattern s.
Proof.
  intros Hw (c & t & -> & Hc & Ht). apply id_pattern_spec. exists c, t. split; [easy|]. split; [easy|].
  eapply Forall_impl; [|exact Ht]. intros x. now apply id_char_tail.
Qed.
Lemma plain_mono (P Q : str -> Prop) e : (forall s, P s -> Q s) -> plain_expr P e -> plain_expr Q e.
Proof.
  intros H (H1 & H2 & H3). split; [easy|]. split; [easy|]. eapply Forall_impl; [|exact H3]. intros x (Hi & Hx). split; auto.
Qed.
Theorem plain_valid e : wide_table -> plain_expr id_shape e -> matches algnexpr_pattern (show e).
Proof.
  intros Hw He. apply algnexpr_spec. exists e. split; [|easy]. revert He. apply plain_mono. intros s. now apply shape_pattern.
Qed.

Lemma digits_num s : digits s -> num_shape s.
Proof.
  intros [Hn H]. exists [], s. split; [easy|]. split; [now left|]. split; [easy|]. eapply Forall_impl; [|exact H]. auto.
Qed.
Lemma sep_delim d : sep d -> d <> [] /\ Forall delim_char d /\ length d = 1.
Proof.
  intros [->| ->]; (split; [discriminate|]; split; [|reflexivity]); constructor; [|constructor| |constructor];
    (split; [reflexivity|]; split; [|discriminate]); vm_compute; intuition discriminate.
Qed.
Lemma plain_spans (first : bool) l : (if first then after sp_delim l else Forall (fun y => sep (sp_delim y)) l) -> Forall plain_span l -> wf_spans true first l.
Proof.
  intros Hd Hl. revert first Hd. induction Hl as [|x l [Ha Hb] _ IH]; intros first Hd; [exact I|]. cbn [wf_spans].
  split; [|apply (IH false); destruct first; [apply Hd|now inversion_clear Hd]].
  split; [|split; now apply digits_num]. destruct first; [apply Hd|]. inversion_clear Hd as [|? ? H _]. apply sep_delim in H as (H1 & H2 & H3). auto.
Qed.
Theorem plain_wf1 e : plain_expr id_shape e -> wf1 e.
Proof.
  intros (_ & Hd & He). split.
  - unfold wf. assert (Hd' : if true then after sl_delim e else Forall (fun y => sep (sl_delim y)) e) by exact Hd. clear Hd. revert Hd'.
    generalize true at 1 3. induction He as [|x e (Hi & Hs & Hp) _ IH]; intros first Hd; [exact I|]. cbn [wf_sels].
    split; [|apply (IH false); destruct first; [apply Hd|now inversion_clear Hd]].
    split; [|split; [easy|now apply plain_spans]]. destruct first; [apply Hd|]. inversion_clear Hd as [|? ? H _]. apply sep_delim in H as (H1 & H2 & H3). auto.
  - destruct e as [|x e]; [constructor|]. destruct Hd as [Ed Hd]. constructor; [rewrite Ed; cbn; lia|]. eapply Forall_impl; [|exact Hd].
    intros y H. cbn beta in H. apply sep_delim in H as (_ & _ & ->). lia.
Qed.

Lemma digits_int s : digits s -> py_int s <> None.
Proof.
  intros [Hn H]. assert (Hd : exists ds, Forall2 SpecInt.digit_of s ds).
  { clear Hn. induction H as [|c s Hc _ [ds IH]]; [exists []; constructor|]. unfold is_digit in Hc. destruct (cclass c) as [v| | |] eqn:E; try easy.
    exists (v :: ds). now constructor. }
  destruct Hd as [ds Hd]. assert (E : py_int s = Some (SpecInt.number ds)); [|now rewrite E].
  apply IntProofs.int_reads. exists [], [], [s], [], ds. cbn [join app concat]. rewrite !app_nil_r. split; [easy|]. split; [constructor|].
  split; [easy|]. split; [intros [->|[]]; easy|]. split; [easy|]. left. auto.
Qed.
Theorem plain_bounds P e : plain_expr P e -> bounds_ok e.
Proof.
  intros (_ & _ & He). eapply Forall_impl; [|exact He]. intros x (_ & _ & Hx). eapply Forall_impl; [|exact Hx].
  intros sp [Ha Hb]. split; now apply digits_int.
Qed.
Theorem plain_read e : plain_expr id_shape e -> wf1 e /\ bounds_ok e /\ ids (show e) = map sl_id e.
Proof.
  intros H. pose proof (plain_wf1 e H) as Hw. split; [easy|]. split; [now apply (plain_bounds id_shape)|]. apply RefLaws.ids_show. exact (RefLaws.wf_weaken true true e (proj1 Hw)).
Qed.
End Expr.

(* ---------- xigt sort ---------- *)

Section Sort.
Context {U : Unicode} {X : XsdWord}.

Lemma admitted_tier_reordered space t t' : reordered_tier t t' -> admitted_tier space t -> admitted_tier space t'.
Proof.
  intros (Ea & Em & Hp) (H1 & H2 & H3 & H4 & H5 & H6). unfold admitted_tier. rewrite Ea, Em. do 5 (split; [easy|]). now apply (Forall_perm _ (t_items t)).
Qed.
Lemma admitted_igt_reordered space g g' : reordered_igt g g' -> admitted_igt space g -> admitted_igt space g'.
Proof.
  intros (Ea & Em & ts & Hp & HF) (H1 & H2 & H3 & H4 & H5). unfold admitted_igt. rewrite Ea, Em. do 4 (split; [easy|]).
  exact (Forall_perm2 _ _ _ _ _ (admitted_tier_reordered space) H5 Hp HF).
Qed.
Lemma admitted_reordered space c c' : reordered c c' -> admitted space c -> admitted space c'.
Proof.
  intros (Ea & Em & ts & Hp & HF) (H1 & H2 & H3 & H4 & H5). unfold admitted. rewrite Ea, Em. do 4 (split; [easy|]).
  exact (Forall_perm2 _ _ _ _ _ (admitted_igt_reordered space) H5 Hp HF).
Qed.
Theorem sort_valid ix vfuel fuel ahead o e e' : tidy_document e -> schema_valid e -> sort_document ix vfuel fuel ahead o e = Ok e' -> schema_valid e'.
Proof.
  intros Hd (p & Ep & Hv) E. unfold sort_document in E. destruct (xml_load ahead e) as [c|] eqn:El; [|easy]. cbn in E.
  destruct (sort_corpus _ _ c) as [c'|] eqn:Es; [|easy]. cbn in E. apply SortScriptProofs.sort_corpus_spec in Es. apply sorted_reordered in Es.
  destruct (load_good ahead e c Hd El) as (Hf & _ & _). destruct (written c' (Some 2)) as (e2 & E2 & H2).
  - apply (fits_corpus c c' [] Es Hf).
  - apply (admitted_reordered _ c); [easy|]. apply (corpus_stays p); [easy|]. now apply (loaded_read ahead e).
  - rewrite E in E2. now injection E2 as <-.
Qed.
End Sort.

(* ---------- xigt partition ---------- *)

Section Partition.
Context {U : Unicode} {X : XsdWord}.

Lemma open_igts ahead e l : tidy_document e -> schema_valid e -> xml_open ahead e = Ok l -> Forall (admitted_igt xml_space) (map snd l).
Proof.
  intros Ht (p & Ep & Hv) E. unfold xml_open in E. rewrite Ep in E. cbn [bind] in E.
  pose proof (tidy_good e p Ht Ep) as Hg. pose proof (reread_live e [] p Ep) as Hl.
  pose proof Hv as (Et & _ & _ & _ & ms & gs & Ek & Hm & Hi). destruct (live_map _ Hl) as (m & Em).
  assert (Hn' : Forall (called (L "metadata")) ms) by (eapply Forall_impl; [|exact Hm]; now intros q [? _]).
  assert (Hin : forall q, In q ms \/ In q gs -> good m q /\ live_above q).
  { intros q Hq. assert (Hq' : In q (p_kids p)) by (rewrite Ek; apply in_or_app; auto). split; [now apply (good_kid [] p m)|now apply (live_kid p)]. }
  destruct (decode_with_igts ahead p ms gs) as (seen & Es & _); auto.
  - rewrite Forall_forall in *. intros q Hq. destruct (Hin q) as [? ?]; [auto|]. apply (good_metadata m); auto.
  - rewrite Forall_forall in *. intros q Hq. destruct (Hin q) as [? ?]; [auto|]. apply (SchemaProofs.good_igt m); auto.
  - rewrite Es in E. unfold open_corpus in E. inv_bind E. inv_bind E. inv_bind E. inv_bind E. injection E as <-.
    rewrite map_map. cbn [snd]. rewrite map_id. apply (traverse_got decode_igt igt_read) in E3.
    + revert Hi. apply (F2_carry igt_read); [easy|]. exact igt_stays.
    + rewrite Forall_forall in Hi. intros. apply igt_got; auto.
Qed.
Theorem partition_valid ix vfuel ahead outdir default_key path fns w w' :
  let key := key_by ix vfuel path in let load := read_file ahead (files w) in let file := out_path outdir default_key in
  tidy_inputs w fns -> (forall fn e, In fn fns -> dget (files w) fn = Some e -> schema_valid e) ->
  (forall k, occurs key load fns k -> ~ In (file k) fns) ->
  (forall k k', occurs key load fns k -> occurs key load fns k' -> file k = file k' -> k = k') ->
  run_partition ix vfuel ahead outdir default_key path fns w = (Ok tt, w') ->
  forall k, occurs key load fns k -> exists e, dget (files w') (file k) = Some e /\ schema_valid e.
Proof.
  intros key load file Ht Hv Hc Ha Hw k Hk. destruct (run_dumps ix vfuel ahead outdir default_key path fns w w' Hc Ha Hw) as (_ & H & _).
  destruct (H k Hk) as (e & E1 & E2 & Hi & _). exists e. split; [easy|].
  set (gs := map snd (of_key key load k fns)) in *.
  assert (Hgs : Forall (admitted_igt xml_space) gs).
  { unfold gs. apply Forall_map, Forall_forall. intros mb Hm. apply filter_In in Hm as [Hm _]. apply in_flat_map in Hm as (fn & Hf & Hm). rewrite firsts_in in Hf.
    unfold SpecScripts.contents, load, read_file in Hm. destruct (dget (files w) fn) as [d|] eqn:Ed; [|easy].
    destruct (xml_open (ahead d) d) as [l|] eqn:El; [|easy]. apply open_igts in El; [|now apply (Ht fn)|now apply (Hv fn)].
    rewrite Forall_map, Forall_forall in El. now apply El. }
  assert (Hn : NoDup (ids_of Value.igt_id gs)) by (unfold ids_distinct in Hi; now rewrite ids_members in Hi).
  destruct (new_ok gs (key_good ix vfuel ahead path (files w) fns k Ht) Hn) as (Hok & _ & _).
  destruct (written (new_corpus gs) (Some 2) Hok) as (e' & Ee & He).
  - split; [easy|]. split; [now intros i|]. split; [now intros q|]. split; [constructor|]. exact Hgs.
  - assert (Q : Ok e = Ok e') by (rewrite <- Ee; symmetry; exact E2). now injection Q as <-.
Qed.
End Partition.
