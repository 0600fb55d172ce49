(* Examples for importing a Toolbox file as a whole. *)
From Verif Require Import PyStr SpecRef Ref Model Value SpecModel XmlStd Xml SpecXml XmlText Toolbox SpecToolbox SpecToolboxDoc Files SpecImport ToolboxRun SpecToolboxRun.
From Verif Require ToolboxExamples ToolboxRunProofs TextRunProofs.
Import ToolboxExamples.

Local Notation AU := ascii_unicode.
(* a toy for the package: a translation makes a record *)
Fixpoint toy_from (id key : str) (ls : list str) : list record * option exn :=
  match ls with
  | [] => ([], None)
  | l :: ls =>
    if startswith (L "\id ") l then toy_from (skipn 4 l) key ls
    else if startswith (L "\ref ") l then toy_from id (skipn 5 l) ls
    else if startswith (L "\f ") l then let (rs, e) := toy_from id key ls in (keyed id key (skipn 3 l) :: rs, e)
    else if startswith (L "!") l then ([], Some TypeError)
    else toy_from id key ls
  end.
Definition toy (al : dict str) (ls : list str) : list record * option exn := toy_from [] [] ls.
(* and one for JSON *)
Definition unmarked : tb_config :=
  {| f_tier_map := Some [(L "\m", L "m"); (L "\f", L "t")]; f_phrase := Some None; f_types := None; f_alignments := None; f_attribute_map := Some []; f_markers := None |}.
Definition other_marker : tb_config :=
  {| f_tier_map := None; f_phrase := None; f_types := None; f_alignments := None; f_attribute_map := None; f_markers := Some [L "\ref"; L "\id"] |}.
Definition json (s : str) : res tb_config :=
  if str_eqb s (L "unmarked") then Ok unmarked else if str_eqb s (L "other") then Ok other_marker else Err ValueError.
Definition run := @tb_run AU id_lower alpha utf8 toy json.
Definition conv (o : tb_options) := @import_bytes AU id_lower alpha utf8 toy o [(L "\m", L "\t"); (L "\g", L "\m"); (L "\p", L "\m")].
Definition text_of (o : tb_options) (s : list N) : str := match conv o s with Ok t => t | Err _ => [] end.
Definition nl : list N := [10%N].
(* cafe, with an acute accent *)
Definition good : list N := L "\id a" ++ nl ++ nl ++ L "\ref 1" ++ nl ++ L "\f caf" ++ [195%N; 169%N] ++ nl ++ L "\ref 2" ++ nl ++ L "\f tea".
Definition twice : list N := L "\id a" ++ nl ++ L "\ref 1" ++ nl ++ L "\f x" ++ nl ++ L "\id b" ++ nl ++ L "\ref 1" ++ nl ++ L "\f y" ++ nl.
Definition broken : list N := L "\id a" ++ nl ++ L "\f " ++ [195%N] ++ nl.
Definition ends : list N := L "\id a" ++ nl ++ L "\ref 1" ++ nl ++ L "\f x" ++ nl ++ L "!".
Definition keyless : list N := L "\id a" ++ nl ++ L "\f x" ++ nl.
Definition w0 : disk := {| d_dirs := [L "out"]; d_files := [(L "a.txt", good); (L "b.txt", twice); (L "c.txt", broken); (L "d.txt", ends); (L "e.txt", keyless);
  (L "c1", L "unmarked"); (L "c2", L "other"); (L "c3", L "{")] |}.

Lemma good_lines : lines_of good [L "\id a" ++ nl; nl; L "\ref 1" ++ nl; L "\f caf" ++ [195%N; 169%N] ++ nl; L "\ref 2" ++ nl; L "\f tea"].
Proof. apply ToolboxRunProofs.lines_iff. now vm_compute. Qed.
Definition good_text : list str := [L "\id a"; []; L "\ref 1"; L "\f caf" ++ [233%N; 32%N]; L "\ref 2"; L "\f tea"].
Lemma good_decoded : Forall2 (fun l d => respace_decode utf8 l = Ok d)
  [L "\id a" ++ nl; nl; L "\ref 1" ++ nl; L "\f caf" ++ [195%N; 169%N] ++ nl; L "\ref 2" ++ nl; L "\f tea"] good_text.
Proof. repeat (constructor; [now vm_compute|]). constructor. Qed.
Lemma good_records : toy [(L "\m", L "\t"); (L "\g", L "\m"); (L "\p", L "\m")] good_text
  = ([keyed (L "a") (L "1") (L "caf" ++ [233%N; 32%N]); keyed (L "a") (L "2") (L "tea")], None).
Proof. now vm_compute. Qed.
Lemma good_clean : Forall record_clean [keyed (L "a") (L "1") (L "caf" ++ [233%N; 32%N]); keyed (L "a") (L "2") (L "tea")].
Proof. apply all_clean; now vm_compute. Qed.
Lemma good_igts : exists gs, @toolbox_igts AU id_lower alpha default_options [keyed (L "a") (L "1") (L "caf" ++ [233%N; 32%N]); keyed (L "a") (L "2") (L "tea")] = Ok gs
  /\ map igt_id gs = [Some (L "igt1"); Some (L "igt2")] /\ NoDup (some_ids (map igt_id gs)).
Proof. eexists. split; [vm_compute; reflexivity|]. split; [reflexivity|]. vm_compute.
  constructor; [intros [H|[]]; discriminate|]. constructor; [intros []|constructor].
Qed.
Lemma default_configured w : configured json w None default_options.
Proof. exists no_config. split; [now apply ToolboxRunProofs.options_iff|]. now left. Qed.
Lemma out_writable : writable w0 (L "out/a.xml").
Proof. split; [discriminate|]. split; now vm_compute. Qed.
(* a file is imported *)
Lemma run_good : run (L "a.txt") (L "out/a.xml") None w0
  = (Ok tt, {| d_dirs := d_dirs w0; d_files := d_files w0 ++ [(L "out/a.xml", text_of default_options good)] |})
  /\ firstn 30 (text_of default_options good) = L "<xigt-corpus>" ++ nl ++ L "  <igt id=" ++ [34%N] ++ L "igt1" ++ [34%N].
Proof. split; now vm_compute. Qed.
(* what stops it *)
Lemma run_bad : run (L "c.txt") (L "out/a.xml") None w0 = (Err ValueError, {| d_dirs := d_dirs w0; d_files := d_files w0 ++ [(L "out/a.xml", [])] |})
  /\ run (L "d.txt") (L "out/a.xml") None w0 = (Err TypeError, {| d_dirs := d_dirs w0; d_files := d_files w0 ++ [(L "out/a.xml", [])] |})
  /\ run (L "e.txt") (L "a.txt") None w0 = (Err AssertionError, {| d_dirs := d_dirs w0; d_files := dset (d_files w0) (L "a.txt") [] |})
  /\ run (L "none") (L "a.txt") None w0 = (Err OSError, w0)
  /\ run (L "a.txt") (L "no/a.xml") None w0 = (Err OSError, w0)
  /\ run (L "a.txt") (L "out/a.xml") (Some (L "none")) w0 = (Err OSError, w0)
  /\ run (L "a.txt") (L "out/a.xml") (Some (L "c3")) w0 = (Err ValueError, w0)
  /\ run (L "a.txt") (L "out/a.xml") (Some (L "c1")) w0 = (Err KeyError, w0).
Proof. repeat match goal with |- _ /\ _ => split end; now vm_compute. Qed.
Lemma unmarked_configured : configured json w0 (Some (L "c1")) (with_defaults unmarked)
  /\ aligns (with_defaults unmarked) (L "m") (L "w") /\ forall m, ~ marks (with_defaults unmarked) m (L "w").
Proof.
  split. { exists unmarked. split; [now apply ToolboxRunProofs.options_iff|]. right. exists (L "c1"), (L "unmarked"). split; [easy|]. split; now vm_compute. }
  split. { split; [now exists (Some (L "morphemes"))|]. split; [now exists (Some (L "words"))|]. exists (L "segmentation"). right. now left. }
  intros m H. cbn in H. intuition discriminate.
Qed.
(* with other markers, the id is the key *)
Lemma run_other : run (L "a.txt") (L "out/a.xml") (Some (L "c2")) w0
  = (Ok tt, {| d_dirs := d_dirs w0; d_files := d_files w0 ++ [(L "out/a.xml", text_of (with_defaults other_marker) good)] |})
  /\ firstn 30 (text_of (with_defaults other_marker) good) = L "<xigt-corpus>" ++ nl ++ L "  <igt id=" ++ [34%N] ++ L "a" ++ [34%N] ++ L " co".
Proof. split; now vm_compute. Qed.
Definition two : list record := [keyed (L "a") (L "1") (L "x"); keyed (L "b") (L "1") (L "y")].
(* two records with the same key are imported, and cannot be loaded *)
Lemma twice_refuted : exists w' t, run (L "b.txt") (L "out/b.xml") None w0 = (Ok tt, w') /\ dget (d_files w') (L "out/b.xml") = Some t
  /\ forall ahead, @loads AU ahead t = Err XigtError.
Proof.
  exists {| d_dirs := d_dirs w0; d_files := d_files w0 ++ [(L "out/b.xml", text_of default_options twice)] |}, (text_of default_options twice).
  split; [now vm_compute|]. split; [now vm_compute|].
  destruct (@toolbox_igts AU id_lower alpha default_options two) as [gs|] eqn:Eg; [|exfalso; vm_compute in Eg; discriminate].
  destruct (@xml_dump AU (corpus_of gs) (Some 2)) as [e|] eqn:Ee;
    [|exfalso; vm_compute in Eg; assert (El : forall r, Ok gs = Ok r -> gs = r) by congruence; rewrite (El _ (eq_sym Eg)) in Ee; vm_compute in Ee; discriminate].
  assert (Et : text_of default_options twice = write_elem e).
  { unfold text_of, conv, import_bytes. replace (mapM (respace_decode utf8) (byte_lines twice)) with (Ok [L "\id a"; L "\ref 1"; L "\f x"; L "\id b"; L "\ref 1"; L "\f y"]) by now vm_compute.
    cbn [bind]. replace (toy _ _) with (two, @None exn) by now vm_compute. rewrite Eg. cbn [bind]. unfold dumps. now rewrite Ee. }
  intros ahead. rewrite Et. destruct (TextRunProofs.dump_text _ _ _ Ee) as [Hd He].
  assert (Er : exists p, reread [] e = Ok p).
  { assert (Hb : match (do gs <- @toolbox_igts AU id_lower alpha default_options two; do e <- @xml_dump AU (corpus_of gs) (Some 2); reread [] e) with Ok _ => true | Err _ => false end = true) by now vm_compute.
    rewrite Eg in Hb. cbn [bind] in Hb. rewrite Ee in Hb. cbn [bind] in Hb. destruct (reread [] e) as [p|]; [now exists p|discriminate]. }
  destruct Er as (p & Er). rewrite (TextRunProofs.loads_written ahead e p Hd He Er).
  assert (Hw : written ahead two = Err XigtError) by (apply written_any; now vm_compute).
  unfold written in Hw. rewrite Eg in Hw. cbn [bind] in Hw. now rewrite Ee in Hw.
Qed.
(* what is imported onto itself is lost *)
Lemma itself_refuted : exists w' t, conv default_options good = Ok t /\ run (L "a.txt") (L "a.txt") None w0 = (Ok tt, w')
  /\ dget (d_files w') (L "a.txt") <> Some good /\ dget (d_files w') (L "a.txt") <> Some t.
Proof.
  exists {| d_dirs := d_dirs w0; d_files := dset (d_files w0) (L "a.txt") (text_of default_options []) |}, (text_of default_options good).
  split; [now vm_compute|]. split; [now vm_compute|]. split; vm_compute; discriminate.
Qed.
