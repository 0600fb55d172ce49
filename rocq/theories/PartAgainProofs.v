(* Reading igt by igt, the keys of igts, partitioning what was partitioned. *)
From Coq Require Import Permutation.
From Verif Require Import PyStr PyStrFacts SpecRef Ref Model SpecModel Attr Index XmlStd Xml SpecXml SpecReload Scripts SpecScripts Path SpecPath
  Command SpecCommand PartitionRun SpecPartition XmlProofs ReloadProofs PartitionProofs PathProofs CommandProofs BlindProofs.
From Verif Require LoadProofs Value.
Import LoadProofs.
From Verif Require Import PathFuel SpecCommand BlindProofs PartRunProofs.

(* ---------- reading all at once and igt by igt ---------- *)

Section Reading.
Context {U : Unicode}.
Lemma decode_with_map {A B} (mk : pelem -> list pelem -> res A) (mk' : pelem -> list pelem -> res B) (f : A -> B) n r a :
  (forall p l x, mk p l = Ok x -> mk' p l = Ok (f x)) -> decode_with mk n r = Ok a -> decode_with mk' n r = Ok (f a).
Proof.
  intros H. unfold decode_with. destruct (skip_to _ _) as [[[p|p] rest]|]; [|apply H|easy].
  cbv zeta. destruct (iter_elements _ _ _); [apply H|easy].
Qed.
Lemma decode_with_some {A B} (mk : pelem -> list pelem -> res A) (mk' : pelem -> list pelem -> res B) (P : A -> B -> Prop) (Q : A -> Prop) n r a :
  (forall p l x, mk p l = Ok x -> Q x -> exists y, mk' p l = Ok y /\ P x y) -> decode_with mk n r = Ok a -> Q a -> exists y, decode_with mk' n r = Ok y /\ P a y.
Proof.
  intros H. unfold decode_with. destruct (skip_to _ _) as [[[p|p] rest]|]; [|apply H|easy].
  cbv zeta. destruct (iter_elements _ _ _); [apply H|easy].
Qed.
Theorem load_open n e c : xml_load n e = Ok c -> xml_open n e = Ok (map (pair (emptied c)) (c_igts c)).
Proof.
  unfold xml_load, xml_open, decode. destruct (reread [] e) as [p|]; [|easy]. cbn [bind].
  apply (decode_with_map decode_xigtcorpus open_corpus (fun c => map (pair (emptied c)) (c_igts c))).
  intros q l x Hx. unfold decode_xigtcorpus in Hx. unfold open_corpus. inv_bind Hx. inv_bind Hx. inv_bind Hx. inv_bind Hx. inv_bind Hx.
  rewrite E. cbn [bind]. rewrite E0. cbn [bind]. rewrite E1. cbn [bind]. rewrite E2. cbn [bind]. apply container_ids in E3 as [-> _]. injection Hx as <-. reflexivity.
Qed.
Theorem open_load n e l : xml_open n e = Ok l ->
  ((exists c, xml_load n e = Ok c) <-> ids_distinct member_id l).
Proof.
  intros Ho. split.
  - intros [c Hc]. pose proof (load_open n e c Hc) as E. rewrite Ho in E. injection E as ->. unfold ids_distinct. rewrite ids_members, map_map. cbn [snd]. rewrite map_id, ids_some.
    unfold xml_load, decode in Hc. destruct (reread [] e) as [p|]; [|easy]. cbn [bind] in Hc.
    destruct (decode_with_some decode_xigtcorpus (fun _ _ => Ok tt) (fun c _ => NoDup (some_ids (map (fun g => a_id (g_attrs g)) (c_igts c)))) (fun _ => True) n p c) as (y & _ & Hy); [|exact Hc|exact I|exact Hy].
    intros q l x Hx _. exists tt. split; [easy|]. unfold decode_xigtcorpus in Hx. inv_bind Hx. inv_bind Hx. inv_bind Hx. inv_bind Hx. inv_bind Hx.
    apply container_ids in E3 as [-> Hn]. injection Hx as <-. exact Hn.
  - intros Hi. unfold xml_load, xml_open, decode in *. destruct (reread [] e) as [p|]; [|easy]. cbn [bind] in *.
    destruct (decode_with_some open_corpus decode_xigtcorpus (fun _ _ => True) (ids_distinct member_id) n p l) as (y & Hy & _); [|exact Ho|exact Hi|eauto].
    intros q l0 x Hx Hd. unfold open_corpus in Hx. unfold decode_xigtcorpus. inv_bind Hx. inv_bind Hx. inv_bind Hx. inv_bind Hx.
    rewrite E. cbn [bind]. rewrite E0. cbn [bind]. rewrite E1. cbn [bind]. rewrite E2. cbn [bind]. injection Hx as <-. unfold ids_distinct in Hd. rewrite ids_members, map_map in Hd. cbn [snd] in Hd. rewrite map_id, ids_some in Hd.
    unfold new_container. rewrite check_ids_ok; [|exact Hd|easy]. cbn [bind]. eauto.
Qed.
End Reading.

(* ---------- keys ---------- *)

Section Keys.
Context {U : Unicode}.
Variable ix : igt -> index.
Variable vfuel : nat.
Theorem key_by_spec p m k : key_by ix vfuel (Some p) m = Ok k <-> key_is ix vfuel p m k.
Proof.
  unfold key_by, key_is, igt_in. destruct (find _ _ _ _) as [[[n|s| |l]|]|x]; cbn; destruct k; split; intros H; try easy; try congruence;
    try (destruct H; congruence); try (injection H as <-; auto); auto.
Qed.
Theorem key_own hs c c' g : Forall downward hs -> wf (plain_path hs) -> a_nsmap (g_attrs g) <> None ->
  key_by ix vfuel (Some (show (plain_path hs))) (c, g) = key_by ix vfuel (Some (show (plain_path hs))) (c', g).
Proof.
  intros Hd Hw Hn. unfold key_by. cbn [fst snd]. rewrite !find_eq.
  assert (Hg : Forall (fun h => is_group h = false) hs) by (eapply Forall_impl; [|exact Hd]; now intros []).
  rewrite !path_stream by easy.
  assert (Hs : ssim (fold_left (fun s h => sbind (PathProofs.basic ix vfuel h) s) hs ([VNode (igt_in c g)], None))
                    (fold_left (fun s h => sbind (PathProofs.basic ix vfuel h) s) hs ([VNode (igt_in c' g)], None))).
  { apply steps_sim; [easy|]. split; [|easy]. constructor; [|constructor]. split; [easy|]. cbn. now destruct (a_nsmap (g_attrs g)). }
  unfold stream in *. set (s1 := fold_left _ hs ([VNode (igt_in c g)], None)) in *. set (s2 := fold_left _ hs ([VNode (igt_in c' g)], None)) in *. clearbody s1 s2.
  destruct s1 as [l e], s2 as [l' e'].
  destruct Hs as [H1 H2]. cbn in *. subst e'. destruct H1 as [|v v' l l' Hv _]; [easy|]. cbn [bind].
  destruct v, v'; try easy; cbn in Hv; try congruence; try (injection Hv as ->); easy.
Qed.
Theorem no_path ahead outdir dk fns w w' : run_partition ix vfuel ahead outdir dk None fns w = (Ok tt, w') ->
  inputs (read_file ahead (files w)) fns = [] /\ files w' = files w.
Proof.
  unfold run_partition. destruct (mkdir w outdir) as [w1|] eqn:Em; [|discriminate]. apply mkdir_spec in Em as (Ed & Ef & _ & _). rewrite Ef.
  destruct (index_files _ _ _ _) as [idx|] eqn:Ei; [|discriminate]. apply (index_facts (key_by ix vfuel None)) in Ei as (Hr & Hnd & Ho & Hg & Hfn). intros Hw.
  assert (Hno : inputs (read_file ahead (files w)) fns = []).
  { destruct (inputs (read_file ahead (files w)) fns) as [|m l] eqn:E; [easy|]. exfalso. assert (Hm : In m (inputs (read_file ahead (files w)) fns)) by (rewrite E; now left).
    apply in_flat_map in Hm as (fn & Hf & Hm). rewrite firsts_in in Hf. destruct (Hr fn Hf) as (l' & El & Hk). unfold contents in Hm. rewrite El in Hm.
    destruct (Hk m Hm) as [k Hk']. discriminate. }
  split; [easy|]. destruct idx as [|kd idx]; [injection Hw as <-; easy|]. exfalso.
  destruct (proj1 (Ho (fst kd)) (or_introl eq_refl)) as (m & Hm & _). rewrite Hno in Hm. easy.
Qed.
End Keys.

(* ---------- partitioning again ---------- *)

Section OneFile.
Context {M : Type}.
Variable key : M -> res (option str).
Variable load : str -> res (list M).
Variable at_ : option str -> str.
Lemma filter_all {A} (f : A -> bool) l : (forall x, In x l -> f x = true) -> filter f l = l.
Proof. induction l as [|x l IH]; intros H; [easy|]. cbn. rewrite (H x (or_introl eq_refl)). f_equal. apply IH. intros y Hy. apply H. now right. Qed.
Lemma filter_none {A} (f : A -> bool) l : (forall x, In x l -> f x = false) -> filter f l = [].
Proof. induction l as [|x l IH]; intros H; [easy|]. cbn. rewrite (H x (or_introl eq_refl)). apply IH. intros y Hy. apply H. now right. Qed.
Lemma firsts_same l : NoDup l -> firsts l = l.
Proof.
  induction 1 as [|x l Hx _ IH]; [easy|]. cbn. rewrite IH. f_equal. apply filter_all. intros y Hy.
  destruct (str_eqb_spec y x) as [->|]; [easy|reflexivity].
Qed.
Lemma at_nodup ks : NoDup ks -> (forall k k', In k ks -> In k' ks -> at_ k = at_ k' -> k = k') -> NoDup (map at_ ks).
Proof.
  induction 1 as [|k ks Hk _ IH]; intros Hi; [constructor|]. cbn. constructor.
  - rewrite in_map_iff. intros (k' & E & Hk'). apply Hi in E; [subst; easy|now right|now left].
  - apply IH. intros a b Ha Hb. apply Hi; now right.
Qed.
Lemma one_file ks : NoDup ks -> (forall k k', In k ks -> In k' ks -> at_ k = at_ k' -> k = k') ->
  (forall k m, In k ks -> In m (contents load (at_ k)) -> key m = Ok k) ->
  (forall k, In k ks -> of_key key load k (map at_ ks) = contents load (at_ k))
  /\ (forall k, occurs key load (map at_ ks) k -> In k ks)
  /\ (forall m, In m (inputs load (map at_ ks)) -> exists k, key m = Ok k).
Proof.
  intros Hnd Hi Hk. unfold of_key, occurs, inputs. rewrite firsts_same by now apply at_nodup. split; [|split].
  - clear Hi. induction Hnd as [|k ks Hn Hnd IH]; [easy|]. intros k0 H0. cbn [map flat_map]. rewrite filter_app.
    assert (IH' := IH (fun k m Hin => Hk k m (or_intror Hin))). destruct H0 as [<-|H0].
    + rewrite filter_all. 2:{ intros m Hm. unfold has_keyb. rewrite (Hk k m (or_introl eq_refl) Hm). fold keyeq. now destruct (keyeq_spec k k). }
      rewrite filter_none; [apply app_nil_r|]. intros m Hm. apply in_flat_map in Hm as (fn & Hf & Hm). apply in_map_iff in Hf as (k' & <- & Hk').
      unfold has_keyb. rewrite (Hk k' m (or_intror Hk') Hm). fold keyeq. destruct (keyeq_spec k' k); [subst; easy|easy].
    + rewrite IH' by easy. rewrite filter_none; [easy|]. intros m Hm. unfold has_keyb. rewrite (Hk k m (or_introl eq_refl) Hm). fold keyeq.
      destruct (keyeq_spec k k0); [subst; easy|easy].
  - intros k (m & Hm & Ek). apply in_flat_map in Hm as (fn & Hf & Hm). apply in_map_iff in Hf as (k' & <- & Hk'). rewrite (Hk k' m Hk' Hm) in Ek. congruence.
  - intros m Hm. apply in_flat_map in Hm as (fn & Hf & Hm). apply in_map_iff in Hf as (k' & <- & Hk'). exists k'. now apply Hk.
Qed.
End OneFile.

Section Again.
Context {U : Unicode}.
Variable ix : igt -> index.
Variable vfuel : nat.
Variable ahead : xelem -> nat.
Variables (out1 out2 dk : str) (hs : list head).
Hypothesis Hd : Forall downward hs.
Hypothesis Hw : wf (plain_path hs).
Notation path := (Some (show (plain_path hs))).
Notation key := (key_by ix vfuel path).
Notation read := (read_file ahead).
Notation o1 := (out_path out1 dk).
Notation o2 := (out_path out2 dk).

Theorem partition_again fns w w1 ks : tidy_inputs w fns ->
  (forall k, occurs key (read (files w)) fns k -> ~ In (o1 k) fns) ->
  (forall k k', occurs key (read (files w)) fns k -> occurs key (read (files w)) fns k' -> o1 k = o1 k' -> k = k') ->
  (forall k, same_prefixes (map snd (of_key key (read (files w)) k fns))) ->
  run_partition ix vfuel ahead out1 dk path fns w = (Ok tt, w1) ->
  NoDup ks -> (forall k, In k ks <-> occurs key (read (files w)) fns k) ->
  (forall k k', In k ks -> In k' ks -> o2 k <> o1 k') ->
  (forall k k', In k ks -> In k' ks -> o2 k = o2 k' -> k = k') ->
  ((exists w2, run_partition ix vfuel ahead out2 dk path (map o1 ks) w1 = (Ok tt, w2)) <->
   exists w', mkdir w1 out2 = Some w' /\ forall k, In k ks -> openable w' (o2 k))
  /\ forall w2, run_partition ix vfuel ahead out2 dk path (map o1 ks) w1 = (Ok tt, w2) ->
     forall k, In k ks -> dget (files w2) (o2 k) = dget (files w1) (o1 k).
Proof.
  intros Ht Hc Hi Hp Hr Hnd Hks Hcl Hi2. destruct (run_dumps ix vfuel ahead out1 dk path fns w w1 Hc Hi Hr) as (_ & Hf & _).
  assert (Hread : forall k, In k ks -> exists e c, dget (files w1) (o1 k) = Some e
    /\ xml_dump (new_corpus (map snd (of_key key (read (files w)) k fns))) (Some 2) = Ok e
    /\ ids_distinct member_id (of_key key (read (files w)) k fns)
    /\ read (files w1) (o1 k) = Ok (map (pair c) (map snd (of_key key (read (files w)) k fns)))).
  { intros k Hk. apply Hks in Hk. destruct (Hf k Hk) as (e & E1 & E2 & Hdi & Hne). pose proof Hdi as Hdi0. unfold ids_distinct in Hdi. rewrite ids_members in Hdi.
    destruct (new_holds _ (key_good ix vfuel ahead path (files w) fns k Ht) Hdi) as (e' & Ee & _ & Hx). assert (e' = e) by congruence. subst e'.
    destruct Hx as (c & Hl & _ & _ & _ & _ & _ & Eg); [now destruct (of_key key (read (files w)) k fns)|apply Hp|].
    exists e, (emptied c). split; [easy|split; [easy|split; [easy|]]]. unfold read_file. rewrite E1. rewrite (load_open _ _ c (Hl _)). now rewrite Eg. }
  assert (Hkey : forall k m, In k ks -> In m (contents (read (files w1)) (o1 k)) -> key m = Ok k).
  { intros k m Hk Hm. destruct (Hread k Hk) as (e & c & _ & _ & _ & El). unfold contents in Hm. rewrite El in Hm. apply in_map_iff in Hm as (g & <- & Hg).
    pose proof (key_good ix vfuel ahead path (files w) fns k Ht) as Hgood. rewrite Forall_forall in Hgood. specialize (Hgood g Hg).
    apply in_map_iff in Hg as ([c0 g0] & <- & Hg). cbn [snd] in *. apply filter_In in Hg as [_ Hb]. unfold has_keyb in Hb.
    rewrite (key_own ix vfuel hs c c0 g0 Hd Hw). 2:{ destruct (good_map g0 Hgood) as (m & E & _). congruence. }
    destruct (key (c0, g0)) as [k'|]; [|discriminate]. fold keyeq in Hb. destruct (keyeq_spec k' k); [congruence|discriminate]. }
  destruct (one_file key (read (files w1)) o1 ks Hnd ltac:(intros k k' H1 H2; apply Hi; now apply Hks) Hkey) as (Hof & Hoc & Hall).
  assert (Hsnd : forall k, In k ks -> map snd (of_key key (read (files w1)) k (map o1 ks)) = map snd (of_key key (read (files w)) k fns)).
  { intros k Hk. rewrite Hof by easy. destruct (Hread k Hk) as (e & c & _ & _ & _ & El). unfold contents. rewrite El, map_map. apply map_id. }
  assert (Hcl2 : forall k, occurs key (read (files w1)) (map o1 ks) k -> ~ In (o2 k) (map o1 ks)).
  { intros k Hk Hin. apply Hoc in Hk. apply in_map_iff in Hin as (k' & E & Hk'). now apply (Hcl k k'). }
  assert (Hocc : forall k, In k ks -> occurs key (read (files w1)) (map o1 ks) k).
  { intros k Hk. destruct (proj1 (Hks k) Hk) as (m & Hm & Ek). assert (Hin : In m (of_key key (read (files w)) k fns)).
    { apply filter_In. split; [easy|]. unfold has_keyb. rewrite Ek. fold keyeq. now destruct (keyeq_spec k k). }
    apply (in_map snd) in Hin. rewrite <- (Hsnd k Hk) in Hin. apply in_map_iff in Hin as (m' & _ & Hm'). apply filter_In in Hm' as [Hm' Hb]. exists m'. split; [easy|].
    unfold has_keyb in Hb. destruct (key m') as [k'|]; [|discriminate]. fold keyeq in Hb. destruct (keyeq_spec k' k); [congruence|discriminate]. }
  split.
  - rewrite (run_succeeds_gen ix vfuel ahead out2 dk path (map o1 ks) w1 Hcl2). split.
    + intros (w' & E & _ & _ & _ & Ho & _). exists w'. split; [easy|]. intros k Hk. apply Ho. now apply Hocc.
    + intros (w' & E & Ho). exists w'. split; [easy|split; [|split; [exact Hall|split; [|split]]]].
      * intros fn Hfn. apply in_map_iff in Hfn as (k & <- & Hk). destruct (Hread k Hk) as (e & c & _ & _ & _ & El). eauto.
      * intros k. destruct (of_key key (read (files w1)) k (map o1 ks)) as [|m l] eqn:Ek; [constructor|]. rewrite <- Ek.
        assert (Hk : In k ks).
        { apply Hoc. assert (Hm' : In m (of_key key (read (files w1)) k (map o1 ks))) by (rewrite Ek; now left). apply filter_In in Hm' as [Hm' Hb]. exists m. split; [easy|].
          unfold has_keyb in Hb. destruct (key m) as [k'|]; [|discriminate]. fold keyeq in Hb. destruct (keyeq_spec k' k); [congruence|discriminate]. }
        unfold ids_distinct. rewrite ids_members, Hsnd, <- ids_members by easy. now destruct (Hread k Hk) as (e & c & _ & _ & Hdi & _).
      * intros k Hk. apply Ho. now apply Hoc.
      * intros k Hk. apply Hoc in Hk. rewrite Hsnd by easy. destruct (Hread k Hk) as (e & c & _ & Ed & _). eauto.
  - intros w2 Hr2 k Hk. destruct (run_dumps ix vfuel ahead out2 dk path (map o1 ks) w1 w2 Hcl2 ltac:(intros a b Ha Hb; apply Hi2; now apply Hoc) Hr2) as (_ & H2 & _).
    destruct (H2 k (Hocc k Hk)) as (e2 & E2 & D2 & _). rewrite Hsnd in D2 by easy. destruct (Hread k Hk) as (e & c & E1 & D1 & _). congruence.
Qed.
End Again.
