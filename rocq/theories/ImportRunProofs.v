(* Proofs about importing files and directories. *)
From Verif Require Import PyStr PyStrFacts Ref Model XmlStd Xml XmlText Odin SpecPartition Files ImportRun SpecImport.
From Verif Require PartitionRun PartRunProofs PathProofs XmlProofs.
Require Import Permutation Lia.
Notation trim := PartitionRun.trimmed_dir.

(* ---------- paths ---------- *)

Lemma entry_path d n p : entry d n p <-> p = path_in d n /\ n <> [] /\ no_slash n.
Proof.
  unfold entry, path_in. split.
  - intros (b & Hb & -> & H). apply PartRunProofs.trimmed_names in Hb as <-. now split.
  - intros (-> & H). exists (trim d). split; [now apply PartRunProofs.trimmed_names|]. now split.
Qed.
Lemma path_in_inj d n d' n' : no_slash n -> no_slash n' -> path_in d n = path_in d' n' -> trim d = trim d' /\ n = n'.
Proof.
  unfold path_in. intros H H' E. assert (E1 := f_equal PartitionRun.dir_of E). rewrite !PartRunProofs.dir_cut in E1 by easy.
  assert (E2 : trim d = trim d') by congruence. split; [easy|]. rewrite E2 in E. apply app_inv_head in E. congruence.
Qed.
Lemma path_trim d n c : c <> Ch "/" -> trim (path_in d (n ++ [c])) = path_in d (n ++ [c]).
Proof.
  intros H. unfold path_in. change (trim d ++ Ch "/" :: n ++ [c]) with (trim d ++ (Ch "/" :: n) ++ [c]). rewrite app_assoc.
  now apply PartRunProofs.trim_none.
Qed.
Lemma name_in_spec d p n : In n (name_in d p) <-> entry d n p.
Proof.
  rewrite entry_path. unfold name_in, path_in. set (b := trim d ++ L "/").
  assert (Eb : forall n, trim d ++ Ch "/" :: n = b ++ n) by (intros m; unfold b; now rewrite <- app_assoc). split.
  - destruct (startswith b p) eqn:E; [|easy]. apply XmlProofs.startswith_app in E as [m ->].
    rewrite skipn_app, skipn_all, Nat.sub_diag. cbn [skipn app]. destruct m as [|c m]; [easy|].
    destruct (existsb (N.eqb (Ch "/")) (c :: m)) eqn:E; [easy|]. intros [<-|[]]. rewrite Eb. split; [easy|]. split; [easy|].
    intros Hi. assert (X : existsb (N.eqb (Ch "/")) (c :: m) = true); [|congruence]. apply existsb_exists. exists (Ch "/"). now rewrite N.eqb_refl.
  - intros (-> & Hn & Hs). rewrite Eb, XmlProofs.startswith_refl, skipn_app, skipn_all, Nat.sub_diag. cbn [skipn app].
    destruct n as [|c n]; [easy|]. destruct (existsb (N.eqb (Ch "/")) (c :: n)) eqn:E; [|now left].
    apply existsb_exists in E as (x & Hx & Ex). apply N.eqb_eq in Ex. subst. contradiction.
Qed.
Lemma wanted_names w d suffix n : In n (filter (matches suffix) (names_in w d)) <-> exists p, wanted w d suffix n p.
Proof.
  rewrite filter_In. unfold names_in, wanted, matches. rewrite in_flat_map. split.
  - intros [(p & Hp & Hn) Hm]. exists p. apply name_in_spec in Hn. apply in_app_iff in Hp. apply andb_prop in Hm as [Hh He].
    split; [easy|]. split; [easy|]. split; [now apply PathProofs.endswith_iff in He|]. intros r ->. cbn in Hh. discriminate.
  - intros (p & He & Hp & Hs & Hh). split; [exists p; split; [now apply in_app_iff|now apply name_in_spec]|].
    apply andb_true_intro. split; [|now apply PathProofs.endswith_iff].
    destruct n as [|c n]; [apply entry_path in He; now destruct (proj1 (proj2 He))|]. cbn. destruct (N.eqb_spec c (Ch ".")) as [->|]; [now destruct (Hh n)|easy].
Qed.
Lemma out_name_app suffix stem : out_name suffix (stem ++ suffix) = stem ++ L ".xml".
Proof.
  unfold out_name. rewrite app_length. replace (length stem + length suffix - length suffix) with (length stem) by lia.
  now rewrite firstn_app, firstn_all, Nat.sub_diag, firstn_O, app_nil_r.
Qed.
Lemma goes_path outdir suffix n q : goes_to outdir suffix n q ->
  q = path_in outdir (out_name suffix n) /\ no_slash (out_name suffix n) /\ exists stem, n = stem ++ suffix.
Proof. intros (stem & -> & He). apply entry_path in He as (-> & _ & Hs). rewrite out_name_app. split; [easy|]. split; [easy|]. now exists stem. Qed.
Lemma goes_of outdir suffix n : (exists stem, n = stem ++ suffix) -> no_slash n -> goes_to outdir suffix n (path_in outdir (out_name suffix n)).
Proof.
  intros (stem & ->) Hs. exists stem. split; [easy|]. apply entry_path. rewrite out_name_app. split; [easy|]. split; [now destruct stem|].
  intros Hi. apply in_app_iff in Hi as [Hi|Hi]; [apply Hs, in_or_app; now left|]. vm_compute in Hi. intuition discriminate.
Qed.

(* ---------- one file ---------- *)

(* where a file can be written *)
Definition free (w : disk) (p : str) : Prop := p <> [] /\ has_dir w p = true /\ is_dir w p = false.
Lemma put_free w p s : free w p -> put_text w p s = Some {| d_dirs := d_dirs w; d_files := dset (d_files w) p s |}.
Proof. intros (H0 & H1 & H2). unfold put_text. destruct p; [easy|]. now rewrite H1, H2. Qed.
Lemma put_some w p s w' : put_text w p s = Some w' -> free w p /\ w' = {| d_dirs := d_dirs w; d_files := dset (d_files w) p s |}.
Proof.
  unfold put_text, free. destruct p as [|c p]; [discriminate|]. destruct (has_dir w (c :: p) && negb (is_dir w (c :: p))) eqn:E; [|discriminate].
  apply andb_prop in E as [E1 E2]. intros Ew. split; [|congruence]. split; [easy|]. split; [easy|]. now destruct (is_dir w (c :: p)).
Qed.
Lemma free_dirs w w' p : d_dirs w' = d_dirs w -> free w p -> free w' p.
Proof. unfold free, has_dir, is_dir. intros ->. auto. Qed.
Lemma get_set (d : dict str) k v k' : dget (dset d k v) k' = if str_eqb k' k then Some v else dget d k'.
Proof. apply dget_dset. exact str_eqb_spec. Qed.

Section ImportRun.
Context {U : Unicode}.
Variable title : str -> str.
Variable odin_blocks : str -> list block * option exn.
Variable o : options.
Notation import_text := (import_text title odin_blocks o).
Notation import_file := (import_file title odin_blocks o).
Notation import_all := (import_all title odin_blocks o).
Notation xigt_import := (xigt_import title odin_blocks o).

Definition becomes (w w' : disk) (q : str) (t : str) : Prop := only_changed (eq q) w w' /\ dget (d_files w') q = Some t.

Lemma file_ok infile outfile w s t : dget (d_files w) infile = Some s -> free w outfile -> infile <> outfile -> import_text s = Ok t ->
  exists w', import_file infile outfile w = (Ok tt, w') /\ becomes w w' outfile t.
Proof.
  intros Hi Hf Hne Ht. unfold ImportRun.import_file, is_file. rewrite Hi, (put_free _ _ _ Hf). cbn [d_files].
  rewrite get_set. destruct (str_eqb_spec infile outfile) as [|_]; [easy|]. rewrite Hi, Ht.
  rewrite put_free by now apply (free_dirs w). eexists. split; [reflexivity|]. split; [split; [easy|]|].
  - cbn [d_files]. intros p Hp. rewrite !get_set. destruct (str_eqb_spec p outfile) as [->|]; [now destruct Hp|easy].
  - cbn [d_files]. rewrite get_set. now rewrite str_eqb_refl.
Qed.
Lemma file_bad infile outfile w s x : dget (d_files w) infile = Some s -> free w outfile -> infile <> outfile -> import_text s = Err x ->
  exists w', import_file infile outfile w = (Err x, w') /\ becomes w w' outfile [].
Proof.
  intros Hi Hf Hne Ht. unfold ImportRun.import_file, is_file. rewrite Hi, (put_free _ _ _ Hf). cbn [d_files].
  rewrite get_set. destruct (str_eqb_spec infile outfile) as [|_]; [easy|]. rewrite Hi, Ht.
  eexists. split; [reflexivity|]. split; [split; [easy|]|].
  - cbn [d_files]. intros p Hp. rewrite !get_set. destruct (str_eqb_spec p outfile) as [->|]; [now destruct Hp|easy].
  - cbn [d_files]. rewrite get_set. now rewrite str_eqb_refl.
Qed.
Lemma file_none infile outfile w : dget (d_files w) infile = None \/ ~ free w outfile -> import_file infile outfile w = (Err OSError, w).
Proof.
  unfold ImportRun.import_file, is_file. destruct (dget (d_files w) infile) as [s|] eqn:E; [|easy]. intros [?|H]; [discriminate|].
  destruct (put_text w outfile []) as [w1|] eqn:E1; [|easy]. now apply put_some in E1 as [? _].
Qed.
Lemma file_itself p w s : dget (d_files w) p = Some s -> free w p ->
  exists w', import_file p p w = (match import_text [] with Ok _ => Ok tt | Err x => Err x end, w')
    /\ becomes w w' p (match import_text [] with Ok t => t | Err _ => [] end).
Proof.
  intros Hi Hf. unfold ImportRun.import_file, is_file. rewrite Hi, (put_free _ _ _ Hf). cbn [d_files]. rewrite get_set, str_eqb_refl.
  assert (Hf' : forall d, free {| d_dirs := d_dirs w; d_files := d |} p) by (intros d; now apply (free_dirs w)).
  destruct (import_text []) as [t|x]; [rewrite put_free by easy|]; (eexists; split; [reflexivity|]; split; [split; [easy|]|]; cbn [d_files]).
  2, 4: now rewrite get_set, str_eqb_refl.
  all: intros q Hq; rewrite !get_set; destruct (str_eqb_spec q p) as [->|]; [now destruct Hq|easy].
Qed.

(* ---------- directories ---------- *)

Section Dir.
Variables (suffix inpath outpath : str).
Notation src n := (path_in inpath n).
Notation dst n := (path_in outpath (out_name suffix n)).
Hypothesis apart : trim inpath <> trim outpath \/ not_output suffix.
Definition fits (n : str) : Prop := (exists stem, n = stem ++ suffix) /\ n <> [] /\ no_slash n.
Lemma fits_out n : fits n -> no_slash (out_name suffix n).
Proof.
  intros ((stem & ->) & _ & Hs). rewrite out_name_app. intros Hi. apply in_app_iff in Hi as [Hi|Hi]; [apply Hs, in_or_app; now left|].
  vm_compute in Hi. intuition discriminate.
Qed.
Lemma src_dst n m : fits n -> fits m -> src n <> dst m.
Proof.
  intros Hn Hm E. pose proof (fits_out m Hm) as Ho. destruct Hn as ((a & ->) & _ & Hs). apply path_in_inj in E as [E1 E2]; [|easy|easy].
  destruct apart as [H|H]; [easy|]. destruct Hm as ((b & ->) & _). rewrite out_name_app in E2. now apply (H a b).
Qed.
Lemma dst_inj n m : fits n -> fits m -> dst n = dst m -> n = m.
Proof.
  intros Hn Hm E. apply path_in_inj in E as [_ E]; [|now apply fits_out|now apply fits_out].
  destruct Hn as ((a & ->) & _). destruct Hm as ((b & ->) & _). rewrite !out_name_app in E. apply app_inv_tail in E. now subst.
Qed.

Definition importable (w : disk) (n : str) : Prop := exists s t, dget (d_files w) (src n) = Some s /\ import_text s = Ok t /\ free w (dst n).
Definition imported (w w' : disk) (n : str) : Prop :=
  exists s t, dget (d_files w) (src n) = Some s /\ import_text s = Ok t /\ dget (d_files w') (dst n) = Some t.

(* what the loop does with files in any order *)
Lemma all_spec l : forall w r w', Forall fits l -> import_all suffix inpath outpath l w = (r, w') ->
  (r = Ok tt /\ Forall (importable w) l /\ Forall (imported w w') l /\ only_changed (fun p => exists n, In n l /\ p = dst n) w w')
  \/ exists x l1 n l2, r = Err x /\ l = l1 ++ n :: l2 /\ Forall (importable w) l1 /\ Forall (imported w w') l1
       /\ only_changed (fun p => exists m, In m (l1 ++ [n]) /\ p = dst m) w w'
       /\ ((x = OSError /\ (dget (d_files w) (src n) = None \/ ~ free w (dst n)))
           \/ exists s, dget (d_files w) (src n) = Some s /\ import_text s = Err x /\ free w (dst n) /\ dget (d_files w') (dst n) = Some []).
Proof.
  induction l as [|n l IH]; intros w r w' Hl E.
  - cbn in E. left. assert (r = Ok tt) by congruence. assert (w' = w) by congruence. subst. split; [easy|]. split; [constructor|]. split; [constructor|]. now split.
  - inversion_clear Hl as [|? ? Hn Hl']. cbn [ImportRun.import_all] in E.
    destruct (dget (d_files w) (src n)) as [s|] eqn:Es.
    2:{ rewrite file_none in E by now left. right. exists OSError, [], n, l. assert (r = Err OSError) by congruence. assert (w' = w) by congruence. subst.
        split; [easy|]. split; [easy|]. split; [constructor|]. split; [constructor|]. split; [now split|]. left. split; [easy|]. now left. }
    assert (Hd : free w (dst n) \/ ~ free w (dst n)).
    { unfold free. destruct (dst n) as [|c p]; [right; intros [H _]; now destruct H|]. destruct (has_dir w (c :: p)); [|right; intros (_ & H & _); discriminate].
      destruct (is_dir w (c :: p)); [right; intros (_ & _ & H); discriminate|now left]. }
    destruct Hd as [Hf|Hf].
    2:{ rewrite file_none in E by now right. right. exists OSError, [], n, l. assert (r = Err OSError) by congruence. assert (w' = w) by congruence. subst.
        split; [easy|]. split; [easy|]. split; [constructor|]. split; [constructor|]. split; [now split|]. left. split; [easy|]. now right. }
    assert (Hne : src n <> dst n) by now apply src_dst.
    destruct (import_text s) as [t|x] eqn:Et.
    + destruct (file_ok _ _ _ _ _ Es Hf Hne Et) as (w1 & E1 & (Hd1 & Hc1) & Hg1). rewrite E1 in E.
      assert (Hsrc : forall m, fits m -> dget (d_files w1) (src m) = dget (d_files w) (src m)).
      { intros m Hm. apply Hc1. intros Ex. now apply (src_dst m n). }
      assert (Hi : forall m, fits m -> importable w1 m <-> importable w m).
      { intros m Hm. unfold importable. rewrite Hsrc by easy. split; intros (s' & t' & H1 & H2 & H3); exists s', t'; (split; [easy|]; split; [easy|]); [apply (free_dirs w1)|apply (free_dirs w)]; easy. }
      assert (Hi2 : forall m, fits m -> imported w1 w' m <-> imported w w' m) by (intros m Hm; unfold imported; now rewrite Hsrc).
      destruct (IH _ _ _ Hl' E) as [(Hr & H1 & H2 & H3 & H4)|(x & l1 & n' & l2 & Hr & El & H1 & H3 & (H4 & H5) & H6)].
      * left. split; [easy|]. split; [|split; [|split]].
        -- constructor; [now exists s, t|]. rewrite Forall_forall in *. intros m Hm. apply Hi; auto.
        -- constructor.
           ++ exists s, t. split; [easy|]. split; [easy|]. destruct (in_dec (list_eq_dec N.eq_dec) n l) as [Hin|Hin].
              ** rewrite Forall_forall in H2. destruct (H2 n Hin) as (s' & t' & G1 & G2 & G3). rewrite Hsrc in G1 by easy. congruence.
              ** rewrite H4; [exact Hg1|]. intros (m & Hm & Em). apply dst_inj in Em; [|easy|rewrite Forall_forall in Hl'; auto]. now subst.
           ++ rewrite Forall_forall in *. intros m Hm. apply Hi2; auto.
        -- congruence.
        -- intros p Hp. rewrite H4; [|intros (m & Hm & Em); apply Hp; exists m; split; [now right|easy]]. apply Hc1. intros <-. apply Hp. exists n. split; [now left|easy].
      * right. exists x, (n :: l1), n', l2. subst l. rewrite Forall_forall in Hl'.
        assert (Hn' : fits n') by (apply Hl', in_or_app; right; now left).
        assert (Hl1 : forall m, In m l1 -> fits m) by (intros m Hm; apply Hl', in_or_app; now left).
        assert (H6' : (x = OSError /\ (dget (d_files w) (src n') = None \/ ~ free w (dst n')))
           \/ exists s, dget (d_files w) (src n') = Some s /\ import_text s = Err x /\ free w (dst n') /\ dget (d_files w') (dst n') = Some []).
        { destruct H6 as [(Hx & [H6|H6])|(s' & G1 & G2 & G3 & G4)].
          - left. split; [easy|]. left. now rewrite Hsrc in H6.
          - left. split; [easy|]. right. intros Hff. apply H6. now apply (free_dirs w).
          - right. exists s'. rewrite Hsrc in G1 by easy. split; [easy|]. split; [easy|]. split; [now apply (free_dirs w1)|easy]. }
        assert (Hnn : n <> n').
        { intros <-. destruct H6' as [(_ & [?|?])|(s' & G1 & G2 & _)]; [congruence|contradiction|congruence]. }
        split; [easy|]. split; [easy|]. split; [|split; [|split; [split|]]].
        -- constructor; [now exists s, t|]. rewrite Forall_forall in *. intros m Hm. apply Hi; auto.
        -- constructor.
           ++ exists s, t. split; [easy|]. split; [easy|]. destruct (in_dec (list_eq_dec N.eq_dec) n l1) as [Hin|Hin].
              ** rewrite Forall_forall in H3. destruct (H3 n Hin) as (s' & t' & G1 & G2 & G3). rewrite Hsrc in G1 by easy. congruence.
              ** rewrite H5; [exact Hg1|]. intros (m & Hm & Em). apply in_app_iff in Hm. apply dst_inj in Em; [|easy|destruct Hm as [Hm|[<-|[]]]; auto].
                 subst m. destruct Hm as [Hm|[Hm|[]]]; [easy|]. now subst.
           ++ rewrite Forall_forall in *. intros m Hm. apply Hi2; auto.
        -- congruence.
        -- intros p Hp. rewrite H5; [|intros (m & Hm & Em); apply Hp; exists m; split; [now right|easy]]. apply Hc1. intros <-. apply Hp. exists n. split; [now left|easy].
        -- exact H6'.
    + destruct (file_bad _ _ _ _ _ Es Hf Hne Et) as (w1 & E1 & (Hd1 & Hc1) & Hg1). rewrite E1 in E.
      right. exists x, [], n, l. assert (r = Err x) by congruence. assert (w' = w1) by congruence. subst.
      split; [easy|]. split; [easy|]. split; [constructor|]. split; [constructor|]. split.
      * split; [easy|]. intros p Hp. apply Hc1. intros <-. apply Hp. exists n. split; [now left|easy].
      * right. exists s. auto.
Qed.
End Dir.

(* ---------- in terms of the specification ---------- *)

Lemma trim_idem d : trim (trim d) = trim d.
Proof.
  apply PartRunProofs.trimmed_names. destruct (proj2 (PartRunProofs.trimmed_names d (trim d)) eq_refl) as (_ & _ & _ & H).
  exists []. split; [now rewrite app_nil_r|]. split; [constructor|easy].
Qed.
Lemma free_out w d x : is_dir w d = true -> no_slash x -> (free w (path_in d x) <-> is_dir w (path_in d x) = false).
Proof.
  intros Hd Hs. unfold free. split; [easy|]. intros H. split; [unfold path_in; now destruct (trim d)|]. split; [|easy].
  unfold has_dir, path_in. rewrite PartRunProofs.dir_cut by easy. rewrite trim_idem. unfold is_dir in Hd. destruct d; [discriminate|]. exact Hd.
Qed.
Lemma make_dir_spec w d w1 : make_dir w d = Some w1 -> is_dir w1 d = true /\ w1 = {| d_dirs := trim d :: d_dirs w; d_files := d_files w |}.
Proof.
  unfold make_dir. destruct (trim d) as [|c b] eqn:E; [discriminate|]. destruct (has_dir w (c :: b) && _); [|discriminate]. intros Ew.
  assert (w1 = {| d_dirs := (c :: b) :: d_dirs w; d_files := d_files w |}) as -> by congruence. split; [|easy].
  unfold is_dir. destruct d as [|c' d]; [discriminate|]. rewrite E. cbn [d_dirs existsb]. now rewrite str_eqb_refl.
Qed.
Theorem import_dir order suffix inpath outpath w r w' : (forall l, Permutation (order l) l) ->
  is_file w inpath = false -> is_dir w inpath = true -> is_file w outpath = false -> trim inpath <> trim outpath \/ not_output suffix ->
  xigt_import order suffix inpath outpath w = (r, w') ->
  (r = Err XigtImportError /\ w' = w /\ path_exists w outpath = false /\ make_dir w outpath = None)
  \/ exists w1, prepared w outpath w1
     /\ only_changed (fun q => exists n p, wanted w1 inpath suffix n p /\ goes_to outpath suffix n q) w1 w'
     /\ ((r = Ok tt /\ forall n p q, wanted w1 inpath suffix n p -> goes_to outpath suffix n q -> can_be import_text w1 p q /\ brought import_text w1 w' p q)
         \/ exists x n p q, r = Err x /\ wanted w1 inpath suffix n p /\ goes_to outpath suffix n q /\ stopped import_text w1 w' p q x
            /\ forall n' p' q', n' <> n -> wanted w1 inpath suffix n' p' -> goes_to outpath suffix n' q' ->
                 brought import_text w1 w' p' q' \/ dget (d_files w') q' = dget (d_files w1) q').
Proof.
  intros Ho Hf Hd Hof Hap E. unfold ImportRun.xigt_import in E. rewrite Hf, Hd, Hof in E. cbn [andb negb] in E.
  assert (Hprep : (make_dir w outpath = None /\ path_exists w outpath = false /\ r = Err XigtImportError /\ w' = w)
    \/ exists w1, prepared w outpath w1 /\ is_dir w1 outpath = true
       /\ import_all suffix inpath outpath (order (filter (matches suffix) (names_in w1 inpath))) w1 = (r, w')).
  { destruct (path_exists w outpath) eqn:Ex.
    - right. exists w. split; [now left|]. split; [|exact E]. unfold path_exists in Ex. now rewrite Hof in Ex.
    - destruct (make_dir w outpath) as [w1|] eqn:Em; [|left; repeat split; congruence].
      right. exists w1. pose proof (make_dir_spec _ _ _ Em) as [H1 H2]. split; [|easy]. right. split; [easy|]. exists (trim outpath). split; [now apply PartRunProofs.trimmed_names|easy]. }
  destruct Hprep as [(H1 & H2 & H3 & H4)|(w1 & Hp & Hd1 & E1)]; [now left|right]. clear E. exists w1. split; [exact Hp|].
  set (l := order _) in E1.
  assert (Hl : forall n, In n l <-> exists p, wanted w1 inpath suffix n p).
  { intros n. rewrite <- wanted_names. unfold l. split; apply Permutation_in; [|apply Permutation_sym]; apply Ho. }
  assert (Hw : forall n p, wanted w1 inpath suffix n p -> p = path_in inpath n /\ fits suffix n).
  { intros n p (He & _ & Hs & _). apply entry_path in He as (-> & Hne & Hsl). split; [easy|]. split; [easy|]. now split. }
  assert (Hfit : Forall (fits suffix) l) by (apply Forall_forall; intros n Hn; apply Hl in Hn as (p & Hn); now apply Hw in Hn).
  assert (Hgo : forall n, fits suffix n -> goes_to outpath suffix n (path_in outpath (out_name suffix n))) by (intros n (H1 & H2 & H3); now apply goes_of).
  assert (Hfree : forall n, fits suffix n -> (free w1 (path_in outpath (out_name suffix n)) <-> is_dir w1 (path_in outpath (out_name suffix n)) = false)).
  { intros n Hn. apply free_out; [easy|]. exact (fits_out suffix inpath outpath Hap n Hn). }
  destruct (all_spec suffix inpath outpath Hap l w1 r w' Hfit E1) as [(Hr & H1 & H2 & H3)|(x & l1 & n & l2 & Hr & El & H1 & H2 & H3 & H4)].
  - split.
    + split; [apply H3|]. intros q Hq. apply H3. intros (n & Hn & ->). apply Hq. destruct (proj1 (Hl n) Hn) as [p Hpw]. exists n, p. split; [easy|]. now apply Hgo, (Hw n p).
    + left. split; [easy|]. intros n p q Hn Hq. apply goes_path in Hq as (-> & _). destruct (Hw _ _ Hn) as [-> Hfn].
      assert (Hin : In n l) by (apply Hl; eauto). rewrite Forall_forall in H1, H2. split; [|exact (H2 n Hin)].
      destruct (H1 n Hin) as (s & t & G1 & G2 & G3). exists s, t. split; [easy|]. split; [easy|]. exact (proj1 (Hfree n Hfn) G3).
  - assert (Hin : forall m, In m (l1 ++ [n]) -> In m l) by (intros m Hm; rewrite El; apply in_app_iff in Hm as [Hm|[<-|[]]]; apply in_or_app; [now left|right; now left]).
    split.
    + split; [apply H3|]. intros q Hq. apply H3. intros (m & Hm & ->). apply Hq. destruct (proj1 (Hl m) (Hin m Hm)) as [p Hpw]. exists m, p. split; [easy|]. now apply Hgo, (Hw m p).
    + right. assert (Hnl : In n (l1 ++ [n])) by (apply in_or_app; right; now left). destruct (proj1 (Hl n) (Hin n Hnl)) as [p Hpw]. destruct (Hw _ _ Hpw) as [Ep Hfn].
      exists x, n, p, (path_in outpath (out_name suffix n)). split; [easy|]. split; [easy|]. split; [now apply Hgo|]. split.
      * subst p. destruct H4 as [(Hx & [H4|H4])|(s & G1 & G2 & G3 & G4)].
        -- left. split; [easy|]. now left.
        -- left. split; [easy|]. right. rewrite Hfree in H4 by easy. now apply not_false_is_true.
        -- right. exists s. split; [easy|]. split; [easy|]. split; [exact (proj1 (Hfree n Hfn) G3)|easy].
      * intros n' p' q' Hne Hn' Hq'. apply goes_path in Hq' as (-> & _). destruct (Hw _ _ Hn') as [-> Hfn'].
        destruct (in_dec (list_eq_dec N.eq_dec) n' l1) as [Hi|Hi].
        -- left. rewrite Forall_forall in H2. exact (H2 n' Hi).
        -- right. apply H3. intros (m & Hm & Em). apply (dst_inj suffix inpath outpath Hap) in Em; [|easy|rewrite Forall_forall in Hfit; auto]. subst m.
           apply in_app_iff in Hm as [Hm|[Hm|[]]]; [easy|]. now subst.
Qed.
(* when all goes well *)
Theorem import_dir_ok order suffix inpath outpath w w1 : (forall l, Permutation (order l) l) ->
  is_file w inpath = false -> is_dir w inpath = true -> is_file w outpath = false -> trim inpath <> trim outpath \/ not_output suffix ->
  (path_exists w outpath = true /\ w1 = w) \/ (path_exists w outpath = false /\ make_dir w outpath = Some w1) ->
  (forall n p q, wanted w1 inpath suffix n p -> goes_to outpath suffix n q -> can_be import_text w1 p q) ->
  exists w', xigt_import order suffix inpath outpath w = (Ok tt, w')
    /\ only_changed (fun q => exists n p, wanted w1 inpath suffix n p /\ goes_to outpath suffix n q) w1 w'
    /\ forall n p q, wanted w1 inpath suffix n p -> goes_to outpath suffix n q -> brought import_text w1 w' p q.
Proof.
  intros Ho Hf Hd Hof Hap Hp Hc. destruct (xigt_import order suffix inpath outpath w) as [r w'] eqn:E. exists w'.
  destruct (import_dir _ _ _ _ _ _ _ Ho Hf Hd Hof Hap E) as [(_ & _ & H1 & H2)|(w2 & Hp2 & Hch & Hcases)].
  { destruct Hp as [[H3 _]|[_ H3]]; congruence. }
  assert (w2 = w1) as ->.
  { destruct Hp as [[H3 ->]|[H3 H4]], Hp2 as [[H5 ->]|(H5 & b & Hb & ->)]; try congruence; try easy.
    apply make_dir_spec in H4 as [_ ->]. apply PartRunProofs.trimmed_names in Hb. now subst. }
  destruct Hcases as [(-> & H)|(x & n & p & q & -> & Hn & Hq & Hst & _)].
  - split; [easy|]. split; [easy|]. intros n p q Hn Hq. now apply (H n p q).
  - exfalso. destruct (Hc n p q Hn Hq) as (s & t & G1 & G2 & G3). destruct Hst as [(_ & [?|?])|(s' & ? & ? & _)]; congruence.
Qed.
(* neither files nor directories *)
Theorem import_neither order suffix inpath outpath w :
  is_file w inpath && negb (is_dir w outpath) = false -> is_dir w inpath && negb (is_file w outpath) = false ->
  xigt_import order suffix inpath outpath w = (Err XigtImportError, w).
Proof. unfold ImportRun.xigt_import. now intros -> ->. Qed.
(* a file *)
Theorem import_one order suffix infile outfile w s r w' : dget (d_files w) infile = Some s -> is_dir w outfile = false -> infile <> outfile ->
  xigt_import order suffix infile outfile w = (r, w') ->
  (r = Err OSError /\ w' = w /\ ~ free w outfile)
  \/ only_changed (eq outfile) w w' /\ ((exists t, import_text s = Ok t /\ r = Ok tt /\ dget (d_files w') outfile = Some t)
      \/ exists x, import_text s = Err x /\ r = Err x /\ dget (d_files w') outfile = Some []).
Proof.
  intros Hi Hd Hne E. unfold ImportRun.xigt_import, is_file in E. rewrite Hi, Hd in E. cbn [andb negb] in E.
  assert (Hf : free w outfile \/ ~ free w outfile).
  { unfold free. destruct outfile as [|c p]; [right; intros [H _]; now destruct H|]. destruct (has_dir w (c :: p)); [|right; intros (_ & H & _); discriminate].
    rewrite Hd. now left. }
  destruct Hf as [Hf|Hf].
  - right. destruct (import_text s) as [t|x] eqn:Et.
    + destruct (file_ok _ _ _ _ _ Hi Hf Hne Et) as (w1 & E1 & Hc & Hg). rewrite E1 in E. assert (r = Ok tt) by congruence. assert (w' = w1) by congruence. subst. split; [easy|]. left. now exists t.
    + destruct (file_bad _ _ _ _ _ Hi Hf Hne Et) as (w1 & E1 & Hc & Hg). rewrite E1 in E. assert (r = Err x) by congruence. assert (w' = w1) by congruence. subst. split; [easy|]. right. now exists x.
  - left. rewrite file_none in E by now right. assert (r = Err OSError) by congruence. assert (w' = w) by congruence. now subst.
Qed.
(* onto itself *)
Theorem import_itself order suffix p w s : dget (d_files w) p = Some s -> free w p ->
  exists r w', xigt_import order suffix p p w = (r, w')
    /\ (dget (d_files w') p = Some [] \/ exists t, import_text [] = Ok t /\ dget (d_files w') p = Some t).
Proof.
  intros Hi Hf. unfold ImportRun.xigt_import, is_file at 1. rewrite Hi. replace (is_dir w p) with false by (symmetry; apply Hf). cbn [andb negb].
  destruct (file_itself p w s Hi Hf) as (w1 & E & _ & Hg). eexists. exists w1. split; [exact E|]. destruct (import_text []) as [t|x]; [right; now exists t|now left].
Qed.
(* ---------- files and directories ---------- *)

Lemma in_dirs w b : existsb (str_eqb b) (d_dirs w) = true <-> In b (d_dirs w).
Proof.
  rewrite existsb_exists. split; [intros (x & Hx & E); destruct (str_eqb_spec b x); [now subst|discriminate]|]. intros H. exists b. split; [easy|]. apply str_eqb_refl.
Qed.
Theorem placed_iff w p : has_dir w p = true <-> placed w p.
Proof. exact (PartRunProofs.above_spec {| PartitionRun.dirs := d_dirs w; PartitionRun.files := [] |} p). Qed.
Theorem directory_iff w p : is_dir w p = true <-> directory w p.
Proof. exact (PartRunProofs.is_dir_spec {| PartitionRun.dirs := d_dirs w; PartitionRun.files := [] |} p). Qed.
Theorem made_iff w d w1 : make_dir w d = Some w1 <->
  exists b, names d b /\ b <> [] /\ placed w b /\ dget (d_files w) b = None /\ ~ In b (d_dirs w) /\ w1 = {| d_dirs := b :: d_dirs w; d_files := d_files w |}.
Proof.
  unfold make_dir. split.
  - intros H. exists (trim d). split; [now apply PartRunProofs.trimmed_names|]. destruct (trim d) as [|c b] eqn:E; [discriminate|]. split; [discriminate|].
    destruct (has_dir w (c :: b)) eqn:Hh; [|discriminate]. destruct (path_exists w (c :: b)) eqn:Hp; [discriminate|]. cbn [andb negb] in H. split; [now apply placed_iff|].
    unfold path_exists in Hp. apply orb_false_iff in Hp as [Hf Hd]. unfold is_file in Hf. destruct (dget (d_files w) (c :: b)); [discriminate|]. split; [easy|]. split; [|congruence].
    intros Hi. assert (is_dir w (c :: b) = true); [|congruence]. unfold is_dir. rewrite <- E, trim_idem, E. now apply in_dirs.
  - intros (b & Hb & Hne & Hpl & Hf & Hd & ->). apply PartRunProofs.trimmed_names in Hb. rewrite Hb. destruct b as [|c b]; [easy|]. apply placed_iff in Hpl. rewrite Hpl.
    assert (Hp : path_exists w (c :: b) = false).
    { unfold path_exists, is_file. rewrite Hf. unfold is_dir. rewrite <- Hb, trim_idem, Hb. cbn [orb]. destruct (existsb _ _) eqn:Hx; [|easy]. now apply in_dirs in Hx. }
    now rewrite Hp.
Qed.
Theorem put_iff w p s w1 : put_text w p s = Some w1 <-> p <> [] /\ placed w p /\ ~ directory w p /\ w1 = {| d_dirs := d_dirs w; d_files := dset (d_files w) p s |}.
Proof.
  unfold put_text. rewrite <- placed_iff, <- directory_iff. destruct p as [|c p]; [split; [discriminate|now intros (H & _)]|]. destruct (has_dir w (c :: p)); [|split; [discriminate|now intros (_ & H & _)]].
  destruct (is_dir w (c :: p)); cbn [andb negb]; split; try discriminate.
  - intros (_ & _ & H & _). now destruct H.
  - intros H. split; [discriminate|]. split; [easy|]. split; [discriminate|]. congruence.
  - now intros (_ & _ & _ & ->).
Qed.
End ImportRun.
