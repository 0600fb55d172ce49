(* Proofs about exporting to an [incr tsdb()] profile as a whole. *)
From Coq Require Import Lia.
From Verif Require Import PyStr PyStrFacts Ref Model SpecModel XmlStd Xml SpecXml XmlText Itsdb SpecItsdb Files SpecImport Stream SpecStream ItsdbRun SpecItsdbRun.
From Verif Require LoadProofs TextRunProofs StreamProofs SameProofs.
Import LoadProofs.

(* ---------- paths ---------- *)

Lemma ends_slash d : endswith (L "/") (d ++ L "/") = true.
Proof. unfold endswith. rewrite rev_app_distr. reflexivity. Qed.
Lemma ends_not d x : x <> Ch "/" -> endswith (L "/") (d ++ [x]) = false.
Proof. intros H. unfold endswith. rewrite rev_app_distr. change (rev (L "/")) with [Ch "/"]. cbn [rev app startswith]. destruct (N.eqb_spec (Ch "/") x); [congruence|easy]. Qed.
Theorem below_join a r p : below a r p <-> p = path_join a r.
Proof.
  split.
  - intros [r0|d r0|d x r0 Hx]; [easy| |].
    + unfold path_join. rewrite ends_slash. destruct (d ++ L "/") eqn:E; [now destruct d|]. rewrite <- E, <- app_assoc. easy.
    + unfold path_join. rewrite (ends_not _ _ Hx). destruct (d ++ [x]) eqn:E; [now destruct d|]. rewrite <- E, <- app_assoc. easy.
  - intros ->. destruct (list_eq_dec N.eq_dec a []) as [->|Ha]; [constructor|]. destruct (exists_last Ha) as (d & x & ->).
    unfold path_join. destruct (N.eq_dec x (Ch "/")) as [->|Hx].
    + change [Ch "/"] with (L "/"). rewrite ends_slash. destruct (d ++ L "/") eqn:E; [now destruct d|]. rewrite <- E, <- app_assoc. constructor.
    + rewrite (ends_not _ _ Hx). destruct (d ++ [x]) eqn:E; [now destruct d|]. rewrite <- E, <- app_assoc. now constructor.
Qed.

Section Run.
Context {U : Unicode} {V : Type}.
Variable ev : str -> igt -> res V.
Variable json_load : str -> res it_config.
Variable make_skeleton : str -> str -> list (dict (cell V)) * option exn -> disk -> res unit * disk.
Variable before : str -> option stream.
Variable ahead : str -> nat.
Variable logonroot : option str.
Notation rows_from := (rows_from ev).
Notation it_export := (it_export ev make_skeleton logonroot).
Notation it_open := (it_open ev make_skeleton before ahead logonroot).
Notation it_run := (it_run ev json_load make_skeleton before ahead logonroot).
Notation number c i := (or_else (cf_start c) 0 + Z.of_nat i * or_else (cf_skip c) 0)%Z.

(* ---------- rows ---------- *)

Lemma rows_whole c gs : forall i rows, export_from ev i gs c = Ok rows <-> rows_from i gs None c = (rows, None).
Proof.
  induction gs as [|g gs IH]; intros i rows; cbn [export_from ItsdbRun.rows_from].
  - split; intros E; congruence.
  - destruct (export_igt ev g (number c i) c) as [row|x]; cbn [bind]; [|split; intros; congruence].
    destruct (rows_from (S i) gs None c) as [rs [x|]] eqn:E.
    + destruct (export_from ev (S i) gs c) as [l|y] eqn:F; cbn [bind]; [apply IH in F; congruence|]. split; intros; congruence.
    + apply IH in E. rewrite E. cbn [bind]. split; intros; congruence.
Qed.
Lemma rows_cut c gs x : forall i rows y, rows_from i gs (Some x) c = (rows, y) ->
  exists z a b, y = Some z /\ gs = a ++ b /\ export_from ev i a c = Ok rows
    /\ match b with [] => z = x | g :: _ => export_igt ev g (number c (i + length a)) c = Err z end.
Proof.
  induction gs as [|g gs IH]; intros i rows y; cbn [ItsdbRun.rows_from].
  - intros E. exists x, [], []. repeat split; try congruence. cbn. congruence.
  - destruct (export_igt ev g (number c i) c) as [row|z] eqn:Eg.
    + destruct (rows_from (S i) gs (Some x) c) as [rs y'] eqn:E. apply IH in E as (z & a & b & -> & -> & Ea & Hb). intros E. exists z, (g :: a), b.
      split; [congruence|]. split; [easy|]. split; [cbn [export_from]; rewrite Eg; cbn [bind]; rewrite Ea; cbn [bind]; congruence|].
      destruct b; [easy|]. cbn [length]. now rewrite Nat.add_succ_r.
    + intros E. exists z, [], (g :: gs). split; [congruence|]. split; [easy|]. split; [cbn; congruence|]. cbn [length]. now rewrite Nat.add_0_r.
Qed.
Lemma rows_stop c gs end_ x : forall i rows g b a, gs = a ++ g :: b -> export_from ev i a c = Ok rows -> export_igt ev g (number c (i + length a)) c = Err x ->
  rows_from i gs end_ c = (rows, Some x).
Proof.
  intros i rows g b a ->. revert i rows. induction a as [|g0 a IH]; intros i rows Ea Ex; cbn [app length ItsdbRun.rows_from export_from] in *.
  - rewrite Nat.add_0_r in Ex. rewrite Ex. congruence.
  - inv_bind Ea. inv_bind Ea. rewrite E. rewrite Nat.add_succ_r in Ex. rewrite (IH (S i) _ E0 Ex). congruence.
Qed.
Lemma rows_end c gs x : forall i rows, export_from ev i gs c = Ok rows -> rows_from i gs (Some x) c = (rows, Some x).
Proof.
  induction gs as [|g gs IH]; intros i rows Ea; cbn [ItsdbRun.rows_from export_from] in *; [congruence|].
  inv_bind Ea. inv_bind Ea. rewrite E, (IH _ _ E0). congruence.
Qed.
Lemma rows_none_cut c gs : forall i rows x, rows_from i gs None c = (rows, Some x) ->
  exists a g b, gs = a ++ g :: b /\ export_from ev i a c = Ok rows /\ export_igt ev g (number c (i + length a)) c = Err x.
Proof.
  induction gs as [|g gs IH]; intros i rows x; cbn [ItsdbRun.rows_from]; [intros E; congruence|].
  destruct (export_igt ev g (number c i) c) as [row|z] eqn:Eg.
  - destruct (rows_from (S i) gs None c) as [rs y'] eqn:E. intros Ey. assert (y' = Some x) by congruence. subst y'. apply IH in E as (a & h & b & -> & Ea & Hb). exists (g :: a), h, b.
    split; [easy|]. split; [cbn [export_from]; rewrite Eg; cbn [bind]; rewrite Ea; cbn [bind]; congruence|]. cbn [length]. now rewrite Nat.add_succ_r.
  - intros E. exists [], g, gs. split; [easy|]. split; [cbn; congruence|]. cbn [length]. rewrite Nat.add_0_r. congruence.
Qed.
Theorem rows_exported c st rows e : rows_from 0 (st_igts st) (st_end st) c = (rows, e) <-> exported ev c st rows e.
Proof.
  unfold exported. destruct (st_end st) as [x|] eqn:En; split.
  - intros E. apply rows_cut in E as (z & a & b & -> & Eg & Ea & Hb). exists a, b. split; [easy|]. split; [easy|]. destruct b; [now subst|exact Hb].
  - destruct e as [y|]; [|intros [? _]; discriminate]. intros (a & b & Eg & Ea & Hb). destruct b as [|g b].
    + rewrite app_nil_r in Eg. subst a. assert (y = x) by congruence. subst. now apply rows_end.
    + now apply (rows_stop c _ _ _ 0 rows g b a).
  - intros E. destruct e as [y|]; [|split; [easy|now apply rows_whole]]. apply rows_none_cut in E as (a & g & b & Eg & Ea & Hx). now exists a, (g :: b).
  - destruct e as [y|]; [|intros [_ E]; now apply rows_whole]. intros (a & b & Eg & Ea & Hb). destruct b as [|g b]; [discriminate|]. now apply (rows_stop c _ _ _ 0 rows g b a).
Qed.
Theorem rows_total c st : exists rows e, exported ev c st rows e.
Proof. destruct (rows_from 0 (st_igts st) (st_end st) c) as [rows e] eqn:E. exists rows, e. now apply rows_exported. Qed.

(* ---------- the Relations file ---------- *)

Lemma is_file_iff w p : is_file w p = true <-> dget (d_files w) p <> None.
Proof. unfold is_file. destruct (dget (d_files w) p); split; easy. Qed.
Lemma export_found f st out w p : found logonroot w f p -> it_export f st out w = make_skeleton out p (rows_from 0 (st_igts st) (st_end st) (prepare_config (r_config f))) w.
Proof.
  intros (Hp & Hf & H). apply is_file_iff in Hf. unfold ItsdbRun.it_export, relations_of. destruct H as [E|(E & root & Hr & Hb)].
  - rewrite E. destruct p; [easy|]. now rewrite Hf.
  - rewrite E, Hr. apply below_join in Hb. fold (default_relations root) in Hb. rewrite <- Hb, Hf. destruct p; [easy|]. now rewrite Hf.
Qed.
Lemma export_lost f st out w : (forall p, ~ found logonroot w f p) -> it_export f st out w = (Ok tt, w).
Proof.
  intros H. unfold ItsdbRun.it_export. destruct (relations_of logonroot w f) as [p|] eqn:E; [|easy]. destruct p as [|c p]; [easy|].
  destruct (is_file w (c :: p)) eqn:Ef; [|easy]. exfalso. apply (H (c :: p)). split; [easy|]. split; [now apply is_file_iff|].
  unfold relations_of in E. destruct (r_relations f) as [r|]; [left; congruence|]. right. split; [easy|]. destruct logonroot as [root|]; [|discriminate].
  exists root. split; [easy|]. destruct (is_file w (default_relations root)); [|discriminate]. apply below_join. unfold default_relations in E. congruence.
Qed.
Theorem found_one f w p q : found logonroot w f p -> found logonroot w f q -> p = q.
Proof.
  intros (_ & _ & [E|(E & r & Er & Hb)]) (_ & _ & [E'|(E' & r' & Er' & Hb')]); try congruence. assert (r' = r) by congruence. subst r'.
  apply below_join in Hb, Hb'. congruence.
Qed.

(* ---------- runs ---------- *)

Lemma run_options infile out config w f : options_of json_load w config f -> it_run infile out config w = it_open f infile out w.
Proof.
  intros [(-> & [-> | ->])|(p & s & -> & Hp & Es & Ej)]; [easy|easy|]. unfold ItsdbRun.it_run. destruct p; [easy|]. now rewrite Es, Ej.
Qed.
(* a profile is made of the rows *)
Theorem run_made infile out config w f s st p rows e : options_of json_load w config f -> dget (d_files w) infile = Some s -> load_stream before (ahead s) s = Ok st ->
  found logonroot w f p -> exported ev (prepare_config (r_config f)) st rows e -> it_run infile out config w = make_skeleton out p (rows, e) w.
Proof.
  intros Ho Hi Hl Hp He. rewrite (run_options _ _ _ _ _ Ho). unfold ItsdbRun.it_open. rewrite Hi, Hl, (export_found _ _ _ _ _ Hp). apply rows_exported in He. now rewrite He.
Qed.
Theorem run_silent infile out config w f s st : options_of json_load w config f -> dget (d_files w) infile = Some s -> load_stream before (ahead s) s = Ok st ->
  (forall p, ~ found logonroot w f p) -> it_run infile out config w = (Ok tt, w).
Proof. intros Ho Hi Hl Hp. rewrite (run_options _ _ _ _ _ Ho). unfold ItsdbRun.it_open. rewrite Hi, Hl. now apply export_lost. Qed.
Theorem run_unread infile out config w f : options_of json_load w config f ->
  (dget (d_files w) infile = None -> it_run infile out config w = (Err OSError, w))
  /\ forall s x, dget (d_files w) infile = Some s -> load_stream before (ahead s) s = Err x -> it_run infile out config w = (Err x, w).
Proof.
  intros Ho. rewrite (run_options _ _ _ _ _ Ho). unfold ItsdbRun.it_open. split; [now intros ->|]. intros s x -> ->. easy.
Qed.
Theorem run_unconfigured infile out p w : p <> [] ->
  (dget (d_files w) p = None -> it_run infile out (Some p) w = (Err OSError, w))
  /\ forall s x, dget (d_files w) p = Some s -> json_load s = Err x -> it_run infile out (Some p) w = (Err x, w).
Proof. intros Hp. unfold ItsdbRun.it_run. destruct p; [easy|]. split; [now intros ->|]. now intros s x -> ->. Qed.
(* a document that can be loaded *)
Theorem run_loaded infile out config w f s c p rows c' : options_of json_load w config f -> dget (d_files w) infile = Some s -> loads (ahead s) s = Ok c ->
  found logonroot w f p -> xigt_export ev true (c_igts c) (r_config f) = Ok (c', Some rows) -> it_run infile out config w = make_skeleton out p (rows, None) w.
Proof.
  intros Ho Hi Hl Hp He. apply (StreamProofs.load_iff before) in Hl as (st & Hl & (_ & Eg & En) & _). apply (run_made infile out config w f s st p rows None Ho Hi Hl Hp).
  split; [easy|]. rewrite Eg. unfold xigt_export in He. inv_bind He. rewrite E. congruence.
Qed.
(* a corpus that was saved *)
Lemma igt_same c g g' n : (forall e, ev e g = ev e g') -> export_igt ev g n c = export_igt ev g' n c.
Proof.
  intros H. unfold export_igt. generalize [(L "i-id", @Number V n)]. induction (or_else (cf_cells c) []) as [|[k m] l IH]; intros row; [easy|]. cbn [cells_of].
  replace (call ev m g') with (call ev m g) by (destruct m as [|[e|]]; cbn; auto). destruct (call ev m g); [cbn [bind]; apply IH|easy].
Qed.
Theorem run_saved infile out config w f s c indent p rows c' : (forall e g g', same_igt g g' -> ev e g = ev e g') ->
  tree_ok [] (corpus_tree c) -> corpus_ok c -> corpus_kept c -> dumps c indent = Ok s ->
  options_of json_load w config f -> dget (d_files w) infile = Some s -> found logonroot w f p ->
  xigt_export ev true (c_igts c) (r_config f) = Ok (c', Some rows) -> it_run infile out config w = make_skeleton out p (rows, None) w.
Proof.
  intros Hev Ht Hc Hk Hd Ho Hi Hp He. destruct (TextRunProofs.text_kept c indent Ht Hc Hk) as (s' & c2 & Hd' & Hl & (_ & _ & Hg)). assert (s' = s) by congruence. subst s'.
  apply (run_loaded infile out config w f s c2 p rows c' Ho Hi (Hl _) Hp). rewrite <- He. unfold xigt_export. cbv zeta. f_equal. unfold export_corpus.
  clear He. generalize 0. generalize (prepare_config (r_config f)). intros pc. induction Hg as [|g g' gs gs' H _ IH]; intros i; [easy|]. cbn [export_from].
  rewrite (igt_same pc g g') by auto. destruct (export_igt ev g' _ pc); [|easy]. cbn [bind]. now rewrite IH.
Qed.
End Run.
