(* Concrete lines, words and records for the Toolbox importer. *)
From Verif Require Import PyStr PyStrFacts Ref SpecRef Model XmlStd Xml SpecXml SpecOdin OdinXmlProofs SpecChunks ChunksProofs.
From Verif Require Import Value SpecValue Toolbox SpecToolbox ToolboxText ToolboxProofs ToolboxTiers ToolboxIgts SpecToolboxDoc ToolboxAlign ToolboxXml.
#[local] Existing Instance ascii_unicode.

(* ---------- columns ---------- *)

(* \m n-a, e with acute accent, two columns, then a newline *)
Definition line1 : list N := utf8_encode (L "\m n" ++ [233%N] ++ L "-a  b").
Lemma line1_columns : respace_decode utf8 (line1 ++ [10%N]) = Ok (L "\m n" ++ [233%N] ++ L "-a   b").
Proof. vm_compute. reflexivity. Qed.
Lemma line1_shape : ~ blanks line1 /\ no_newline line1 /\ length line1 = 11.
Proof.
  split; [|split; [|reflexivity]].
  - intros H. assert (E := proj2 (blank_b _) (Forall_inv H)). vm_compute in E. discriminate.
  - intros a b E. apply (f_equal (fun l => last l 0%N)) in E. cbv beta in E. rewrite last_last in E. vm_compute in E. now subst.
Qed.
(* the token behind the accented one *)
Lemma line1_token : line1 = utf8_encode (L "\m n" ++ [233%N] ++ L "-a  ") ++ L "b" ++ [] /\ token (L "b")
  /\ bounded (utf8_encode (L "\m n" ++ [233%N] ++ L "-a  ")) [].
Proof.
  split; [reflexivity|]. split.
  - split; [discriminate|]. constructor; [|constructor]. intros H. apply blank_b in H. vm_compute in H. discriminate.
  - split; [|now left]. right. exists (utf8_encode (L "\m n" ++ [233%N] ++ L "-a ")), 32%N. split; [reflexivity|]. now right.
Qed.
(* a line of spaces loses its length *)
Lemma blank_refuted : exists line r, no_newline line /\ respace_decode utf8 line = Ok r /\ length r <> length line.
Proof.
  exists (L "   "), []. split; [|split; [reflexivity|discriminate]].
  intros a b E. apply (f_equal (fun l => last l 0%N)) in E. cbv beta in E. rewrite last_last in E. vm_compute in E. now subst.
Qed.

(* ---------- morphemes ---------- *)

Definition id_lower (s : str) : str := s.
Lemma single_refuted : exists w tok b e c, align_word id_lower (L "morphemes") 0 (Some w) [tok] = Ok (b, e, c)
  /\ (e > Z.of_nat (length w))%Z.
Proof. exists (L "dog"), (L "kalb-un"), 0%Z, 7%Z, 0%Z. split; [reflexivity|reflexivity]. Qed.
Lemma order_refuted : exists w toks s b e c, s < length toks /\ align_word id_lower (L "morphemes") s (Some w) toks = Ok (b, e, c)
  /\ (b > e)%Z.
Proof. exists (L "abcdef"), [L "abcd"; L "x"; L "f"], 1, 4%Z, 2%Z, (-1)%Z. split; [repeat constructor|]. split; vm_compute; reflexivity. Qed.
(* the prefix of the last morpheme is jack-o', not jack-o'- *)
Lemma hyphen_refuted : exists w toks ms b e, w = L "jack-" ++ L "o'-" ++ L "lantern" /\ Forall2 bare toks ms
  /\ ms = [L "jack"; L "o'"; L "lantern"]
  /\ align_word id_lower (L "morphemes") 2 (Some w) toks = Ok (Z.of_nat b, Z.of_nat e, 0%Z)
  /\ substring b e w = L "-lantern".
Proof.
  exists (L "jack-" ++ L "o'-" ++ L "lantern"), [L "jack"; L "-o'"; L "-lantern"], [L "jack"; L "o'"; L "lantern"], 7, 15.
  split; [easy|]. split; [|split; [easy|split; vm_compute; reflexivity]].
  assert (E : [L "jack"; L "o'"; L "lantern"] = map strip_bounds [L "jack"; L "-o'"; L "-lantern"]) by reflexivity.
  rewrite E. clear E. generalize [L "jack"; L "-o'"; L "-lantern"]. intros l. induction l as [|t l IH]; constructor; [apply strip_bare|exact IH].
Qed.
(* a single morpheme is not segmented to the full word *)
Lemma full_word_refuted : exists w tok e c, align_word id_lower (L "morphemes") 0 (Some w) [tok] = Ok (0%Z, e, c)
  /\ e <> Z.of_nat (length w).
Proof. exists (L "cats"), (L "cat"), 3%Z, 0%Z. split; [reflexivity|discriminate]. Qed.

Lemma brooms : Forall2 bare [L "broom"; L "-s"] [L "broom"; L "s"].
Proof.
  assert (E : [L "broom"; L "s"] = map strip_bounds [L "broom"; L "-s"]) by reflexivity. rewrite E. clear E.
  constructor; [apply strip_bare|]. constructor; [apply strip_bare|constructor].
Qed.
Lemma brooms_aligned : align_word id_lower (L "morphemes") 1 (Some (L "brooms")) [L "broom"; L "-s"] = Ok (5%Z, 6%Z, 0%Z).
Proof. reflexivity. Qed.
(* the readme's witches and horrify *)
Lemma witches : align_word id_lower (L "morphemes") 1 (Some (L "witches")) [L "witch"; L "-s"] = Ok (5%Z, 7%Z, 0%Z).
Proof. reflexivity. Qed.
Lemma horrify : ~ (exists r, L "horrify" = L "horror" ++ r)
  /\ align_word id_lower (L "morphemes") 1 (Some (L "horrify")) [L "horror"; L "-ify"] = Ok (0%Z, 7%Z, (-1)%Z).
Proof. split; [intros (r & E); discriminate|reflexivity]. Qed.

(* ---------- a record ---------- *)

Definition aln_w : list pair := [(Some (L "inu=ga hoeru"), Some [L "inu=ga"; L "hoeru"])].
Definition aln_m : list pair := [(Some (L "inu=ga"), Some [L "inu"; L "=ga"]); (Some (L "hoeru"), Some [L "hoe"; L "-ru"])].
Definition aln_g : list pair := [(Some (L "inu"), Some [L "dog"]); (Some (L "=ga"), Some [L "=NOM"]); (Some (L "hoe"), Some [L "bark"]); (Some (L "-ru"), Some [L "-IPFV"])].
Definition aln_t : list pair := [(None, Some [L "A dog barks"])].
Definition fields1 : list (str * list pair) := [(L "\ref", [(None, Some [L "1"])]); (L "\t", aln_w); (L "\m", aln_m); (L "\g", aln_g); (L "\f", aln_t)].
Definition rec1 : record := {| r_context := [(L "\id", Some (L "text")); (L "\ref", Some (L "1"))]; r_data := [(L "\t", Some (L "inu=ga hoeru"))]; r_fields := fields1 |}.
Definition header1 : record := {| r_context := [(L "\id", Some (L "text"))]; r_data := []; r_fields := [] |}.
(* a gloss too many *)
Definition bad1 : record := {| r_context := [(L "\id", Some (L "text")); (L "\ref", Some (L "b"))]; r_data := [];
  r_fields := [(L "\t", aln_w); (L "\m", aln_m); (L "\g", aln_g ++ [(None, Some [L "x"])])] |}.
Definition ascii_alpha (c : char) : bool := in_range 65 90 c || in_range 97 122 c.
(* a key that begins with e acute *)
Definition bad2 : record := {| r_context := [(L "\id", Some (L "text")); (L "\ref", Some [233%N])]; r_data := []; r_fields := [] |}.
Definition alpha (c : char) : bool := ascii_alpha c || N.eqb c 233.

Definition show_item (i : item) : option str * option str * dict str := (item_id i, it_text i, a_dict (it_attrs i)).
Lemma rec1_made : exists g, toolbox_igts id_lower alpha default_options [header1; bad1; rec1] = Ok [g]
  /\ igt_id g = Some (L "igt1") /\ a_dict (g_attrs g) = [(L "corpus-id", L "text")]
  /\ map tier_id (g_tiers g) = map Some [L "p"; L "w"; L "m"; L "g"; L "t"]
  /\ map show_item (flat_map t_items (g_tiers g)) =
     [(Some (L "p1"), Some (L "inu=ga hoeru"), []);
      (Some (L "w1"), Some (L "inu=ga"), [(L "segmentation", L "p1[0:6]")]);
      (Some (L "w2"), Some (L "hoeru"), [(L "segmentation", L "p1[7:12]")]);
      (Some (L "m1"), Some (L "inu"), [(L "segmentation", L "w1[0:3]")]);
      (Some (L "m2"), Some (L "=ga"), [(L "segmentation", L "w1[3:6]")]);
      (Some (L "m3"), Some (L "hoe"), [(L "segmentation", L "w2[0:3]")]);
      (Some (L "m4"), Some (L "-ru"), [(L "segmentation", L "w2[3:5]")]);
      (Some (L "g1"), Some (L "dog"), [(L "alignment", L "m1")]);
      (Some (L "g2"), Some (L "=NOM"), [(L "alignment", L "m2")]);
      (Some (L "g3"), Some (L "bark"), [(L "alignment", L "m3")]);
      (Some (L "g4"), Some (L "-IPFV"), [(L "alignment", L "m4")]);
      (Some (L "t1"), Some (L "A dog barks"), [(L "alignment", L "p1")])].
Proof. eexists. split; [vm_compute; reflexivity|]. vm_compute. repeat split. Qed.
Lemma bad1_fails : make_all_tiers id_lower default_options (r_fields bad1) = Err XigtImportError.
Proof. vm_compute. reflexivity. Qed.
(* one key stops the import *)
Lemma key_refuted : exists r g, toolbox_igts id_lower alpha default_options [rec1] = Ok [g]
  /\ toolbox_igts id_lower alpha default_options [r; rec1] = Err ValueError
  /\ dget (r_context r) (L "\ref") = Some (Some [233%N]).
Proof. exists bad2. eexists. split; [vm_compute; reflexivity|]. split; [vm_compute; reflexivity|reflexivity]. Qed.

(* ---------- alignments of markers ---------- *)

Lemma default_dicts : dicts default_options /\ NoDup (map snd (o_tier_map default_options)).
Proof.
  assert (H : forall l : list str, (fix nd (l : list str) : bool := match l with [] => true | x :: l => negb (existsb (str_eqb x) l) && nd l end) l = true -> NoDup l).
  { induction l as [|x l IH]; [constructor|]. rewrite andb_true_iff, negb_true_iff. intros [H1 H2]. constructor; [|now apply IH].
    intros Hi. assert (existsb (str_eqb x) l = true) by (apply existsb_exists; exists x; split; [easy|]; now destruct (str_eqb_spec x x)). congruence. }
  repeat split; apply H; vm_compute; reflexivity.
Qed.
Lemma default_aligned : tb_alignments default_options = Ok [(L "\m", L "\t"); (L "\g", L "\m"); (L "\p", L "\m")].
Proof. vm_compute. reflexivity. Qed.
(* two markers for the words: the morphemes are aligned with one of them *)
Definition two_markers : tb_options :=
  {| o_tier_map := [(L "\t", L "w"); (L "\u", L "w"); (L "\m", L "m")]; o_phrase := None;
     o_types := [(L "w", (Some (L "words"), true)); (L "m", (Some (L "morphemes"), true))];
     o_alignments := [(L "m", (L "segmentation", L "w"))]; o_attribute_map := []; o_markers := [L "\ref"] |}.
Lemma shared_refuted : exists o d m1 m2 t1 t2, dicts o /\ tb_alignments o = Ok d /\ marks o m1 t1 /\ marks o m2 t2 /\ aligns o t1 t2
  /\ dget d m1 <> Some m2.
Proof.
  exists two_markers. do 1 eexists. exists (L "\m"), (L "\t"), (L "m"), (L "w"). split.
  { repeat split; repeat constructor; vm_compute; intuition discriminate. }
  split; [vm_compute; reflexivity|]. split; [right; right; now left|]. split; [now left|]. split; [|discriminate].
  split; [eexists; reflexivity|]. split; [eexists; reflexivity|]. exists (L "segmentation"). now left.
Qed.
(* an interlinear tier without a marker *)
Definition no_marker : tb_options :=
  {| o_tier_map := [(L "\m", L "m")]; o_phrase := None; o_types := o_types two_markers; o_alignments := o_alignments two_markers;
     o_attribute_map := []; o_markers := [L "\ref"] |}.
Lemma no_marker_fails : tb_alignments no_marker = Err KeyError /\ aligns no_marker (L "m") (L "w") /\ forall m, ~ marks no_marker m (L "w").
Proof.
  split; [reflexivity|]. split.
  - split; [eexists; reflexivity|]. split; [eexists; reflexivity|]. exists (L "segmentation"). now left.
  - intros m [H|[]]. discriminate.
Qed.

(* ---------- reading again ---------- *)

Ltac plain_key_ := split; [now vm_compute|repeat split; vm_compute; discriminate].
Lemma default_clean : options_clean default_options.
Proof.
  split; [|split; [|split; [|split]]].
  - intros m t H. repeat (destruct H as [[= <- <-]|H]; [apply legal_lit; now vm_compute|]). destruct H.
  - intros src pid [= <- <-]. apply legal_lit; now vm_compute.
  - intros t ty b H. repeat (destruct H as [[= <- <- <-]|H]; [apply legal_lit; now vm_compute|]). destruct H.
  - intros t ra t' H. repeat (destruct H as [[= <- <- <-]|H]; [plain_key_|]). destruct H.
  - intros m a H. repeat (destruct H as [[= <- <-]|H]; [plain_key_|]). destruct H.
Qed.
(* deciding whether a record is clean *)
Definition clean_strb (s : str) : bool := forallb xml_char s.
Definition clean_tokb (s : str) : bool := clean_strb s && negb (existsb (N.eqb 13) s).
Definition record_cleanb (r : record) : bool :=
  forallb (fun kv : str * option str => match snd kv with Some v => clean_strb v | None => true end) (r_data r ++ r_context r)
  && forallb (fun f : str * list pair => forallb (fun p : pair => match snd p with Some l => forallb clean_tokb l | None => true end) (snd f)) (r_fields r).
Lemma record_cleanb_ok r : record_cleanb r = true -> record_clean r.
Proof.
  unfold record_cleanb. rewrite andb_true_iff, !forallb_forall. intros [H1 H2]. split.
  - intros m v Hi. apply H1 in Hi. now apply legal_lit.
  - intros m aln p toks tok Hi Hp Hk. apply H2 in Hi. cbn [snd] in Hi. rewrite forallb_forall in Hi. apply Hi in Hp. cbn [snd] in Hp.
    rewrite forallb_forall in Hp. apply Hp in Hk. unfold clean_tokb in Hk. apply andb_true_iff in Hk as [K1 K2]. split; [now apply legal_lit|].
    intros H13. apply negb_true_iff in K2. assert (existsb (N.eqb 13) tok = true) by (apply existsb_exists; exists 13%N; now split). congruence.
Qed.
Lemma all_clean rs : forallb record_cleanb rs = true -> Forall record_clean rs.
Proof. rewrite forallb_forall, Forall_forall. intros H r Hr. now apply record_cleanb_ok, H. Qed.
Lemma rec1_clean : Forall record_clean [header1; bad1; rec1].
Proof. apply all_clean; now vm_compute. Qed.

Definition written (ahead : nat) (rs : list record) : res corpus :=
  do gs <- toolbox_igts id_lower alpha default_options rs; do e <- xml_dump (corpus_of gs) (Some 2); xml_load ahead e.
Lemma written_any rs r :
  match (do gs <- toolbox_igts id_lower alpha default_options rs; xml_dump (corpus_of gs) (Some 2)) with Ok e => firstb (x_kids e) | Err _ => true end = true ->
  written 0 rs = r -> forall ahead, written ahead rs = r.
Proof.
  intros H E ahead. rewrite <- E. unfold written. destruct (toolbox_igts _ _ _ rs) as [gs|]; [|easy]. cbn [bind] in *.
  destruct (xml_dump (corpus_of gs) (Some 2)) as [e|]; [|easy]. cbn [bind]. now apply chunks, firstb_ok.
Qed.
Definition keyed (text key : str) (tok : str) : record :=
  {| r_context := [(L "\id", Some text); (L "\ref", Some key)]; r_data := []; r_fields := [(L "\f", [(None, Some [tok])])] |}.
(* two texts, each with a record 1 *)
Lemma texts_refuted : exists rs gs, Forall record_clean rs /\ map r_context rs = [[(L "\id", Some (L "a")); (L "\ref", Some (L "1"))]; [(L "\id", Some (L "b")); (L "\ref", Some (L "1"))]]
  /\ toolbox_igts id_lower alpha default_options rs = Ok gs /\ length gs = 2 /\ forall ahead, written ahead rs = Err XigtError.
Proof.
  exists [keyed (L "a") (L "1") (L "x"); keyed (L "b") (L "1") (L "y")]. eexists.
  split; [apply all_clean; now vm_compute|]. split; [reflexivity|].
  split; [vm_compute; reflexivity|]. split; [reflexivity|]. apply written_any; now vm_compute.
Qed.
(* the keys 1 and igt1 *)
Lemma keys_refuted : exists rs gs, Forall record_clean rs /\ map (fun r => dget (r_context r) (L "\ref")) rs = [Some (Some (L "1")); Some (Some (L "igt1"))]
  /\ toolbox_igts id_lower alpha default_options rs = Ok gs /\ length gs = 2 /\ forall ahead, written ahead rs = Err XigtError.
Proof.
  exists [keyed (L "a") (L "1") (L "x"); keyed (L "a") (L "igt1") (L "y")]. eexists.
  split; [apply all_clean; now vm_compute|]. split; [reflexivity|].
  split; [vm_compute; reflexivity|]. split; [reflexivity|]. apply written_any; now vm_compute.
Qed.
(* a form feed in a translation *)
Lemma character_refuted : exists rs gs, toolbox_igts id_lower alpha default_options rs = Ok gs /\ NoDup (some_ids (map igt_id gs))
  /\ length gs = 1 /\ forall ahead, written ahead rs = Err ParseError.
Proof.
  exists [keyed (L "a") (L "1") [12%N]]. eexists. split; [vm_compute; reflexivity|]. split; [vm_compute; repeat constructor; intuition discriminate|].
  split; [reflexivity|]. apply written_any; now vm_compute.
Qed.
