(* Proofs about importing a Toolbox file as a whole. *)
From Coq Require Import Lia.
From Verif Require Import PyStr PyStrFacts Ref Model Value SpecModel XmlStd Xml SpecXml XmlText Toolbox SpecToolbox SpecToolboxDoc ToolboxText ToolboxProofs
  ToolboxIgts ToolboxAlign ToolboxXml Files SpecImport ToolboxRun SpecToolboxRun.
From Verif Require LoadProofs TextRunProofs ImportRunProofs.
Import LoadProofs.

(* ---------- lines ---------- *)

Lemma lines_made s : lines_of s (byte_lines s).
Proof.
  induction s as [|c s IH]; [constructor|]. cbn [byte_lines]. destruct (N.eqb_spec c 10) as [->|Hc].
  - apply (full_line [] s); [easy|exact IH].
  - inversion IH as [E1 E2|b Hb Hn E1 E2|b s' ls Hn H E1 E2].
    + constructor; [discriminate|]. intros [?|[]]; congruence.
    + subst b. constructor; [discriminate|]. intros [?|?]; [congruence|easy].
    + apply (full_line (c :: b) s' ls); [|exact H]. intros [?|?]; [congruence|easy].
Qed.
Lemma lines_unique s ls : lines_of s ls -> forall ls', lines_of s ls' -> ls = ls'.
Proof.
  assert (Happ : forall b s b' s' : list N, ~ In 10%N b -> ~ In 10%N b' -> b ++ 10%N :: s = b' ++ 10%N :: s' -> b = b' /\ s = s').
  { intros b. induction b as [|x b IH]; intros s0 [|x' b'] s' H H' E; cbn [app] in E.
    - split; congruence.
    - exfalso. apply H'. left. congruence.
    - exfalso. apply H. left. congruence.
    - assert (x = x') by congruence. subst x'. assert (E' : b ++ 10%N :: s0 = b' ++ 10%N :: s') by congruence.
      apply IH in E' as [-> ->]; [easy| |]; intros ?; [apply H|apply H']; now right. }
  induction 1 as [|b Hb Hn|b s ls Hn H IH]; intros ls' H'; inversion H' as [E1 E2|b' Hb' Hn' E1 E2|b' s' ls0 Hn' H0 E1 E2]; subst; try easy.
  - now destruct b'.
  - exfalso. apply Hn. apply in_or_app. right. now left.
  - now destruct b.
  - exfalso. apply Hn'. apply in_or_app. right. now left.
  - apply Happ in E1 as [-> ->]; [|easy|easy]. now rewrite (IH ls0 H0).
Qed.
Theorem lines_iff s ls : lines_of s ls <-> ls = byte_lines s.
Proof. split; [intros H; apply (lines_unique s ls H), lines_made|intros ->; apply lines_made]. Qed.

(* ---------- options ---------- *)

Theorem options_iff f o : options_for f o <-> o = with_defaults f.
Proof.
  assert (Hc : forall A (g : option A) d x, chosen g d x <-> x = setdefault g d).
  { intros A [y|] d x; unfold chosen, setdefault; split; [intros [E|[E _]]; congruence|intros ->; now left|intros [E|[_ E]]; [discriminate|easy]|intros ->; now right]. }
  unfold options_for. rewrite !Hc. destruct o as [a b c d e m]. unfold with_defaults. cbn [o_markers o_attribute_map o_tier_map o_phrase o_types o_alignments default_options].
  split; [intros (-> & -> & -> & -> & -> & ->); reflexivity|]. intros E. repeat split; congruence.
Qed.

(* ---------- bytes ---------- *)

Section Run.
Context {U : Unicode}.
Variable lower : str -> str.
Variable isalpha : char -> bool.
Variable decode : list N -> res str.
Variable records : dict str -> list str -> list record * option exn.
Variable json_load : str -> res tb_config.
Notation import_bytes := (import_bytes lower isalpha decode records).
Notation tb_import := (tb_import lower isalpha decode records).
Notation tb_run := (tb_run lower isalpha decode records json_load).
Notation decoded := (Forall2 (fun l d => respace_decode decode l = Ok d)).

Lemma mapM_all ls ds : decoded ls ds -> mapM (respace_decode decode) ls = Ok ds.
Proof. induction 1 as [|l d ls ds H _ IH]; [easy|]. cbn [mapM]. now rewrite H, IH. Qed.
Lemma mapM_ok_all ls : forall ds, mapM (respace_decode decode) ls = Ok ds -> decoded ls ds.
Proof.
  induction ls as [|l ls IH]; cbn [mapM]; intros ds E; [injection E as <-; constructor|].
  inv_bind E. inv_bind E. injection E as <-. constructor; [easy|now apply IH].
Qed.
Lemma bytes_decoded o al s ls ds rs e : lines_of s ls -> decoded ls ds -> records al ds = (rs, e) ->
  import_bytes o al s = do gs <- toolbox_igts lower isalpha o rs; match e with Some x => Err x | None => dumps (corpus_of gs) (Some 2) end.
Proof. intros Hl Hd Er. apply lines_iff in Hl as ->. unfold ToolboxRun.import_bytes. rewrite (mapM_all _ _ Hd). cbn [bind]. now rewrite Er. Qed.
Theorem bytes_read o al s ls ds rs gs : lines_of s ls -> decoded ls ds -> records al ds = (rs, None) ->
  options_clean o -> Forall record_clean rs -> toolbox_igts lower isalpha o rs = Ok gs -> NoDup (some_ids (map igt_id gs)) ->
  exists t c, import_bytes o al s = Ok t /\ (forall ahead, loads ahead t = Ok c) /\ same_corpus (back_corpus (corpus_of gs)) c.
Proof.
  intros Hl Hd Er Ho Hr Eg Hn. rewrite (bytes_decoded _ _ _ _ _ _ _ Hl Hd Er), Eg. cbn [bind].
  destruct (toolbox_readable _ _ _ _ _ Ho Hr Eg Hn) as (e & c & Ee & El & Hs).
  destruct (TextRunProofs.dumps_load _ _ _ _ Ee El) as (t & Et & Ht). exists t, c. now rewrite Et.
Qed.
Theorem bytes_undecoded o al s a l b ds x : lines_of s (a ++ l :: b) -> decoded a ds -> respace_decode decode l = Err x ->
  import_bytes o al s = Err x.
Proof.
  intros Hl Ha Ex. apply lines_iff in Hl. unfold ToolboxRun.import_bytes. rewrite <- Hl. clear Hl.
  assert (E : mapM (respace_decode decode) (a ++ l :: b) = Err x); [|now rewrite E].
  induction Ha as [|y d a ds H _ IH]; cbn [app mapM]; [now rewrite Ex|]. rewrite H. cbn [bind]. now rewrite IH.
Qed.
Theorem bytes_records o al s ls ds rs e x : lines_of s ls -> decoded ls ds -> records al ds = (rs, e) ->
  toolbox_igts lower isalpha o rs = Err x -> import_bytes o al s = Err x.
Proof. intros Hl Hd Er Eg. now rewrite (bytes_decoded _ _ _ _ _ _ _ Hl Hd Er), Eg. Qed.
Theorem bytes_ends o al s ls ds rs gs x : lines_of s ls -> decoded ls ds -> records al ds = (rs, Some x) ->
  toolbox_igts lower isalpha o rs = Ok gs -> import_bytes o al s = Err x.
Proof. intros Hl Hd Er Eg. now rewrite (bytes_decoded _ _ _ _ _ _ _ Hl Hd Er), Eg. Qed.
(* what is imported was decoded, line by line *)
Theorem bytes_sound o al s t : import_bytes o al s = Ok t ->
  exists ls ds rs gs, lines_of s ls /\ decoded ls ds /\ records al ds = (rs, None) /\ toolbox_igts lower isalpha o rs = Ok gs
    /\ dumps (corpus_of gs) (Some 2) = Ok t.
Proof.
  unfold ToolboxRun.import_bytes. intros E. inv_bind E. destruct (records al x) as [rs e] eqn:Er. inv_bind E. destruct e; [discriminate|].
  exists (byte_lines s), x, rs, x0. split; [apply lines_made|]. split; [now apply mapM_ok_all|]. easy.
Qed.

(* ---------- files ---------- *)

Lemma run_none infile outfile w : tb_run infile outfile None w = tb_import no_config infile outfile w.
Proof. easy. Qed.
Lemma run_configured infile outfile config w o : configured json_load w config o ->
  exists f, o = with_defaults f /\ tb_run infile outfile config w = tb_import f infile outfile w.
Proof.
  intros (f & Ho & H). exists f. split; [now apply options_iff|]. destruct H as [[-> ->]|(p & s & -> & E & Ej)]; [easy|].
  unfold ToolboxRun.tb_run. now rewrite E, Ej.
Qed.
Theorem run_unmarked infile outfile config w o t1 t2 : configured json_load w config o -> aligns o t1 t2 ->
  (forall m, ~ marks o m t1) \/ (forall m, ~ marks o m t2) -> tb_run infile outfile config w = (Err KeyError, w).
Proof.
  intros Hc Ha Hm. destruct (run_configured infile outfile _ _ _ Hc) as (f & -> & ->). unfold ToolboxRun.tb_import.
  destruct (tb_alignments (with_defaults f)) as [d|x] eqn:E.
  - destruct (proj1 (alignments_iff (with_defaults f)) (ex_intro _ d E) t1 t2 Ha) as [[m1 H1] [m2 H2]]. destruct Hm as [Hm|Hm]; [now destruct (Hm m1)|now destruct (Hm m2)].
  - now rewrite (alignments_err _ _ E).
Qed.
Theorem run_missing infile outfile config w o al : configured json_load w config o -> tb_alignments o = Ok al ->
  dget (d_files w) infile = None \/ ~ writable w outfile -> tb_run infile outfile config w = (Err OSError, w).
Proof.
  intros Hc Ea Hm. destruct (run_configured infile outfile _ _ _ Hc) as (f & -> & ->). unfold ToolboxRun.tb_import. rewrite Ea. unfold is_file.
  destruct (dget (d_files w) infile) as [s|] eqn:E; [|easy]. destruct Hm as [?|H]; [discriminate|].
  destruct (put_text w outfile []) as [w1|] eqn:E1; [|easy]. apply ImportRunProofs.put_some in E1 as [? _]. now destruct H.
Qed.
Theorem run_unconfigured infile outfile p w : dget (d_files w) p = None -> tb_run infile outfile (Some p) w = (Err OSError, w).
Proof. unfold ToolboxRun.tb_run. now intros ->. Qed.
Theorem run_misconfigured infile outfile p w s x : dget (d_files w) p = Some s -> json_load s = Err x -> tb_run infile outfile (Some p) w = (Err x, w).
Proof. unfold ToolboxRun.tb_run. now intros -> ->. Qed.
Theorem run_file infile outfile config w o al s : configured json_load w config o -> tb_alignments o = Ok al ->
  dget (d_files w) infile = Some s -> writable w outfile -> infile <> outfile ->
  exists w', only_changed (eq outfile) w w'
    /\ ((exists t, import_bytes o al s = Ok t /\ tb_run infile outfile config w = (Ok tt, w') /\ dget (d_files w') outfile = Some t)
        \/ exists x, import_bytes o al s = Err x /\ tb_run infile outfile config w = (Err x, w') /\ dget (d_files w') outfile = Some []).
Proof.
  intros Hc Ea Hi Hf Hne. destruct (run_configured infile outfile _ _ _ Hc) as (f & -> & ->). unfold ToolboxRun.tb_import. rewrite Ea. unfold is_file.
  rewrite Hi, (ImportRunProofs.put_free _ _ _ Hf). cbn [d_files]. rewrite ImportRunProofs.get_set. destruct (str_eqb_spec infile outfile) as [|_]; [easy|]. rewrite Hi.
  destruct (import_bytes (with_defaults f) al s) as [t|x] eqn:Et.
  - rewrite ImportRunProofs.put_free by now apply (ImportRunProofs.free_dirs w). exists {| d_dirs := d_dirs w; d_files := dset (dset (d_files w) outfile []) outfile t |}. split; [split; [easy|]|left; exists t; split; [easy|]; split; [reflexivity|]].
    + cbn [d_files]. intros p Hp. rewrite !ImportRunProofs.get_set. destruct (str_eqb_spec p outfile) as [->|]; [now destruct Hp|easy].
    + cbn [d_files]. now rewrite ImportRunProofs.get_set, str_eqb_refl.
  - exists {| d_dirs := d_dirs w; d_files := dset (d_files w) outfile [] |}. split; [split; [easy|]|right; exists x; split; [easy|]; split; [reflexivity|]].
    + cbn [d_files]. intros p Hp. rewrite !ImportRunProofs.get_set. destruct (str_eqb_spec p outfile) as [->|]; [now destruct Hp|easy].
    + cbn [d_files]. now rewrite ImportRunProofs.get_set, str_eqb_refl.
Qed.
Theorem run_itself p config w o al s : configured json_load w config o -> tb_alignments o = Ok al ->
  dget (d_files w) p = Some s -> writable w p ->
  exists r w', tb_run p p config w = (r, w') /\ only_changed (eq p) w w'
    /\ (dget (d_files w') p = Some [] \/ exists t, import_bytes o al [] = Ok t /\ dget (d_files w') p = Some t).
Proof.
  intros Hc Ea Hi Hf. destruct (run_configured p p _ _ _ Hc) as (f & -> & ->). unfold ToolboxRun.tb_import. rewrite Ea. unfold is_file.
  rewrite Hi, (ImportRunProofs.put_free _ _ _ Hf). cbn [d_files]. rewrite ImportRunProofs.get_set, str_eqb_refl.
  destruct (import_bytes (with_defaults f) al []) as [t|x] eqn:Et; [rewrite ImportRunProofs.put_free by now apply (ImportRunProofs.free_dirs w)|];
    (eexists _, _; split; [reflexivity|]; split; [split; [easy|]; cbn [d_files]; intros q Hq; rewrite !ImportRunProofs.get_set; destruct (str_eqb_spec q p) as [->|]; [now destruct Hq|easy]|]);
    cbn [d_files]; rewrite ImportRunProofs.get_set, str_eqb_refl; [right; now exists t|now left].
Qed.
(* from the bytes to the corpus that is loaded *)
Theorem run_imports infile outfile config w o al s ls ds rs gs : configured json_load w config o -> tb_alignments o = Ok al ->
  dget (d_files w) infile = Some s -> writable w outfile -> infile <> outfile ->
  lines_of s ls -> decoded ls ds -> records al ds = (rs, None) ->
  options_clean o -> Forall record_clean rs -> toolbox_igts lower isalpha o rs = Ok gs -> NoDup (some_ids (map igt_id gs)) ->
  exists w' t c, tb_run infile outfile config w = (Ok tt, w') /\ only_changed (eq outfile) w w' /\ dget (d_files w') outfile = Some t
    /\ (forall ahead, loads ahead t = Ok c) /\ same_corpus (back_corpus (corpus_of gs)) c.
Proof.
  intros Hc Ea Hi Hf Hne Hl Hd Er Ho Hr Eg Hn. destruct (bytes_read o al _ _ _ _ _ Hl Hd Er Ho Hr Eg Hn) as (t & c & Et & Hload & Hs).
  destruct (run_file infile outfile config w o al s Hc Ea Hi Hf Hne) as (w' & Ho' & [(t' & Et' & E & Eo)|(x & Ex & _)]); [|congruence].
  assert (t' = t) by congruence. subst t'. exists w', t, c. easy.
Qed.
End Run.

(* ---------- texts ---------- *)

Lemma char_newline c : In 10%N (utf8_char c) -> c = 10%N.
Proof.
  unfold utf8_char. pose proof (N.mod_lt c 64). pose proof (N.mod_lt (c / 64) 64). pose proof (N.mod_lt (c / 4096) 64).
  destruct (N.ltb_spec c 128); [intros [?|[]]; congruence|]. destruct (c <? 2048)%N; [|destruct (c <? 65536)%N]; cbn [In]; intros H3;
  exfalso; repeat match goal with H : _ \/ _ |- _ => destruct H as [H|H] end; try easy; lia.
Qed.
Lemma encode_newline t : ~ In 10%N t -> ~ In 10%N (utf8_encode t).
Proof. intros Ht H. unfold utf8_encode in H. apply in_flat_map in H as (c & Hc & H). apply char_newline in H as ->. easy. Qed.
(* the lines of a file in UTF-8 can all be decoded *)
Theorem texts_decoded texts : Forall (Forall scalar) texts -> Forall (fun t => ~ In 10%N t) texts ->
  lines_of (List.concat (map (fun t => utf8_encode t ++ [10%N]) texts)) (map (fun t => utf8_encode t ++ [10%N]) texts)
  /\ exists ds, Forall2 (fun l d => respace_decode utf8 l = Ok d) (map (fun t => utf8_encode t ++ [10%N]) texts) ds.
Proof.
  intros Hs. induction Hs as [|t texts Ht _ IH]; intros Hn; [split; [constructor|exists []; constructor]|]. inversion_clear Hn as [|? ? Hn0 Hn1].
  destruct (IH Hn1) as (Hl & ds & Hd). cbn [map List.concat]. split.
  - rewrite <- app_assoc. cbn [app]. constructor; [now apply encode_newline|easy].
  - destruct (respace_text t 1 Ht) as (d & E); [|exists (d :: ds); now constructor].
    intros a b E Eb. apply (encode_newline t Hn0). rewrite E, Eb. apply in_or_app. right. now left.
Qed.
