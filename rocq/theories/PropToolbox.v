(* Property theorems about the Toolbox importer: C42-C45, C56-C58, C69, C70. *)
From Verif Require Import PyStr SpecRef Model SpecModel Xml SpecXml Value SpecValue Toolbox SpecToolbox SpecToolboxDoc ToolboxText ToolboxProofs ToolboxTiers ToolboxIgts ToolboxAlign ToolboxXml ToolboxExamples.

(* ---------- C42 ---------- *)

(* a line that is not blank keeps its length, and every token the column at
   which it begins *)
Theorem C42_columns_partial : forall (decode : list N -> res str) (body : list N) (n : nat) (r : str),
  sane decode -> ~ blanks body -> no_newline body -> respace_decode decode (body ++ repeat 10%N n) = Ok r ->
  length r = length body
  /\ forall a t c, body = a ++ t ++ c -> token t -> bounded a c ->
       exists x d y, r = x ++ d ++ y /\ decode t = Ok d /\ length x = length a.
Proof. exact respace_columns. Qed.
Print Assumptions C42_columns_partial.
(* nothing but the tokens and white space is in it *)
Theorem C42_layout : forall (decode : list N -> res str), sane decode ->
  forall (n : nat) (w s : list N) (c : N) (x : list N), blanks w -> s = c :: x -> ~ blank c -> no_newline s ->
  forall r, respace_decode decode ((w ++ s) ++ repeat 10%N n) = Ok r -> exists r', r = w ++ r' /\ laid_out decode s r'.
Proof. exact respace_laid. Qed.
Print Assumptions C42_layout.
(* it fails exactly if a token cannot be decoded *)
Theorem C42_total : forall (decode : list N -> res str) (body : list N) (n : nat), sane decode -> no_newline body ->
  (exists r, respace_decode decode (body ++ repeat 10%N n) = Ok r) <->
  (forall a t c, body = a ++ t ++ c -> token t -> bounded a c -> exists d, decode t = Ok d).
Proof. exact respace_total. Qed.
Print Assumptions C42_total.
(* UTF-8 and Latin-1 are such encodings *)
Theorem C42_utf8 : sane utf8 /\ sane (fun s => Ok s) /\ forall s, Forall scalar s -> utf8 (utf8_encode s) = Ok s.
Proof. exact (conj utf8_sane (conj latin1_sane utf8_decodes)). Qed.
Print Assumptions C42_utf8.
Theorem C42_text : forall (s : str) (n : nat), Forall scalar s -> no_newline (utf8_encode s) ->
  exists r, respace_decode utf8 (utf8_encode s ++ repeat 10%N n) = Ok r.
Proof. exact respace_text. Qed.
Print Assumptions C42_text.
(* a line of white space becomes the empty string *)
Theorem C42_blank_refuted : exists line r, no_newline line /\ respace_decode utf8 line = Ok r /\ length r <> length line.
Proof. exact blank_refuted. Qed.
Print Assumptions C42_blank_refuted.
Theorem C42_blank : forall (decode : list N -> res str) (line : list N), blanks line -> respace_decode decode line = Ok [].
Proof. exact respace_blank. Qed.
Print Assumptions C42_blank.

Example C42_example : ~ blanks line1 /\ no_newline line1 /\ length line1 = 11
  /\ respace_decode utf8 (line1 ++ [10%N]) = Ok (L "\m n" ++ [233%N] ++ L "-a   b")
  /\ line1 = utf8_encode (L "\m n" ++ [233%N] ++ L "-a  ") ++ L "b" ++ [] /\ token (L "b")
  /\ bounded (utf8_encode (L "\m n" ++ [233%N] ++ L "-a  ")) [].
Proof.
  split; [exact (proj1 line1_shape)|]. split; [exact (proj1 (proj2 line1_shape))|]. split; [exact (proj2 (proj2 line1_shape))|].
  split; [exact line1_columns|exact line1_token].
Qed.

(* ---------- C43 ---------- *)

(* whatever is aligned: an item of the words tier has the text of its token, and
   its reference into the phrase tier selects that token *)
Theorem C43_words : forall (U : Unicode) (lower : str -> str) (pid wid ra : str) (aln : list pair) (pt wt : tier) (g : igt) (m n : nat)
    (tok : str) (it : item), id_shape pid ->
  make_phrase_tier pid aln = Ok pt -> make_tier lower (Some (L "words")) wid (Some ra) aln (Some pt) = Ok wt ->
  the_member tier_id (g_tiers g) pid pt -> nth_error (sources aln) n = Some tok -> nth_error (t_items wt) n = Some it ->
  it_text it = Some tok
  /\ resolve_ref (fun rt i => value (S m) (Some g) (Some rt) i value_refattrs) (Some g) (Some wt) it ra = Ok tok.
Proof. exact @words_resolve. Qed.
Print Assumptions C43_words.

Example C43_example : exists pt wt, @make_phrase_tier ascii_unicode (L "p") aln_w = Ok pt
  /\ @make_tier ascii_unicode id_lower (Some (L "words")) (L "w") (Some (L "segmentation")) aln_w (Some pt) = Ok wt
  /\ map (fun i => dget (a_dict (it_attrs i)) (L "segmentation")) (t_items wt) = [Some (L "p1[0:6]"); Some (L "p1[7:12]")].
Proof. eexists _, _. split; [vm_compute; reflexivity|]. split; [vm_compute; reflexivity|]. reflexivity. Qed.

(* ---------- C44 ---------- *)

(* Full statement: 0 <= beg <= end <= length.  Missing: words with one morpheme,
   and beg <= end when the segment is marked imprecise; see the refutations. *)
Theorem C44_bounds_partial : forall (lower : str -> str) (w : str) (toks : list str) (s : nat) (tok : str),
  nth_error toks s = Some tok -> 2 <= length toks ->
  exists b e c, align_word lower (L "morphemes") s (Some w) toks = Ok (Z.of_nat b, Z.of_nat e, c)
    /\ b <= length (lower w) /\ e <= length (lower w) /\ (c = 0 \/ c = -1)%Z
    /\ (c = 0%Z -> b <= e /\ spelled (firstn s toks) (firstn b (lower w))
         /\ (S s < length toks -> bare tok (substring b e (lower w)))
         /\ (S s = length toks -> s <> 0 -> e = length (lower w))).
Proof. exact @align_morphemes. Qed.
Print Assumptions C44_bounds_partial.
Theorem C44_single_refuted : exists w tok b e c, align_word id_lower (L "morphemes") 0 (Some w) [tok] = Ok (b, e, c)
  /\ (e > Z.of_nat (length w))%Z.
Proof. exact single_refuted. Qed.
Print Assumptions C44_single_refuted.
Theorem C44_order_refuted : exists w toks s b e c, s < length toks
  /\ align_word id_lower (L "morphemes") s (Some w) toks = Ok (b, e, c) /\ (b > e)%Z.
Proof. exact order_refuted. Qed.
Print Assumptions C44_order_refuted.

Example C44_example : nth_error [L "witch"; L "-s"] 1 = Some (L "-s") /\ 2 <= length [L "witch"; L "-s"]
  /\ align_word id_lower (L "morphemes") 1 (Some (L "witches")) [L "witch"; L "-s"] = Ok (5%Z, 7%Z, 0%Z).
Proof. split; [reflexivity|]. split; [repeat constructor|exact witches]. Qed.

(* ---------- C45 ---------- *)

(* one item per source token, in order, numbered from 1 *)
Theorem C45_numbered : forall (U : Unicode) (lower : str -> str) (ty : option str) (tid : str) (refattr : option str) (aln : list pair)
    (algn : option tier) (t : tier), make_tier lower ty tid refattr aln algn = Ok t ->
  tier_id t = Some tid /\ a_type (t_attrs t) = ty /\ length (t_items t) = length (sources aln)
  /\ NoDup (map item_id (t_items t))
  /\ forall n tok, nth_error (sources aln) n = Some tok ->
       exists it, nth_error (t_items t) n = Some it /\ it_text it = Some tok /\ item_id it = Some (tid ++ dec_nat (n + 1)).
Proof. exact @tier_numbered. Qed.
Print Assumptions C45_numbered.
(* when it makes a tier at all *)
Theorem C45_made : forall (U : Unicode) (lower : str -> str) (ty : option str) (tid : str) (refattr : option str) (aln : list pair)
    (algn : option tier), (exists t, make_tier lower ty tid refattr aln algn = Ok t) <-> makes ty tid refattr aln algn.
Proof. exact @tier_made. Qed.
Print Assumptions C45_made.
(* an item of the k-th pair refers to the k-th item of the other tier *)
Theorem C45_refers : forall (U : Unicode) (lower : str -> str) (ty : option str) (tid ra : str) (aln : list pair) (rt t : tier),
  make_tier lower ty tid (Some ra) aln (Some rt) = Ok t -> aln <> [(None, None)] ->
  attr (t_attrs t) ra = Some (id_text (tier_id rt))
  /\ forall k p toks s tok, nth_error aln k = Some (p, Some toks) -> nth_error toks s = Some tok ->
       exists it e tg, nth_error (t_items t) (length (sources (firstn k aln)) + s) = Some it
         /\ attr (it_attrs it) ra = Some e /\ nth_error (t_items rt) k = Some tg
         /\ names (id_text (item_id tg)) e
         /\ (ty <> Some (L "words") -> ty <> Some (L "morphemes") -> e = id_text (item_id tg)).
Proof. exact @tier_refers. Qed.
Print Assumptions C45_refers.

Example C45_example : exists pt wt mt, @make_phrase_tier ascii_unicode (L "p") aln_w = Ok pt
  /\ @make_tier ascii_unicode id_lower (Some (L "words")) (L "w") (Some (L "segmentation")) aln_w (Some pt) = Ok wt
  /\ @make_tier ascii_unicode id_lower (Some (L "morphemes")) (L "m") (Some (L "segmentation")) aln_m (Some wt) = Ok mt
  /\ map item_id (t_items mt) = map Some [L "m1"; L "m2"; L "m3"; L "m4"].
Proof. eexists _, _, _. split; [vm_compute; reflexivity|]. split; [vm_compute; reflexivity|]. split; [vm_compute; reflexivity|]. reflexivity. Qed.

(* ---------- C56 ---------- *)

(* morphemes that make up the word, without hyphens, get adjacent segments *)
Theorem C56_tiles_partial : forall (lower : str -> str) (w : str) (toks ms : list str) (s : nat) (m : str),
  Forall2 bare toks ms -> lower w = List.concat ms -> ~ In (Ch "-") (lower w) -> 2 <= length toks -> nth_error ms s = Some m ->
  exists b, align_word lower (L "morphemes") s (Some w) toks = Ok (Z.of_nat b, Z.of_nat (b + length m), 0%Z)
    /\ b = length (List.concat (firstn s ms)).
Proof. exact @align_tiles. Qed.
Print Assumptions C56_tiles_partial.
(* and resolving the reference of such an item gives its morpheme, in the case
   of the word *)
Theorem C56_resolves_partial : forall (U : Unicode) (lower : str -> str) (mid ra : str) (aln : list pair) (rt mt : tier) (g : igt) (gid : str)
    (m : nat) (f : char -> char) (k : nat) (w : str) (toks ms : list str) (s : nat) (mo i : str) (tg : item),
  make_tier lower (Some (L "morphemes")) mid (Some ra) aln (Some rt) = Ok mt ->
  tier_id rt = Some gid -> the_member tier_id (g_tiers g) gid rt ->
  nth_error aln k = Some (Some w, Some toks) -> 2 <= length toks -> Forall2 bare toks ms ->
  lower w = List.concat ms -> lower w = map f w -> ~ In (Ch "-") (lower w) -> nth_error ms s = Some mo ->
  nth_error (t_items rt) k = Some tg -> the_member item_id (t_items rt) i tg -> id_shape i -> it_text tg = Some w ->
  exists it r, nth_error (t_items mt) (length (sources (firstn k aln)) + s) = Some it
    /\ resolve_ref (fun rt i => value (S m) (Some g) (Some rt) i value_refattrs) (Some g) (Some mt) it ra = Ok r /\ map f r = mo.
Proof. exact @morphemes_resolve. Qed.
Print Assumptions C56_resolves_partial.
(* if the first does not match, all are given the whole word, marked imprecise *)
Theorem C56_fails : forall (lower : str -> str) (w : str) (toks : list str) (t0 m0 : str) (s : nat),
  nth_error toks 0 = Some t0 -> bare t0 m0 -> ~ (exists r, lower w = m0 ++ r) ->
  (forall r, lower w <> Ch "-" :: r) -> 2 <= length toks -> s < length toks ->
  align_word lower (L "morphemes") s (Some w) toks = Ok (0%Z, Z.of_nat (length (lower w)), (-1)%Z).
Proof. exact @align_fails. Qed.
Print Assumptions C56_fails.
(* the documentation's own example of a word with hyphens *)
Theorem C56_hyphen_refuted : exists w toks ms b e, w = L "jack-" ++ L "o'-" ++ L "lantern" /\ Forall2 bare toks ms
  /\ ms = [L "jack"; L "o'"; L "lantern"]
  /\ align_word id_lower (L "morphemes") 2 (Some w) toks = Ok (Z.of_nat b, Z.of_nat e, 0%Z)
  /\ substring b e w = L "-lantern".
Proof. exact hyphen_refuted. Qed.
Print Assumptions C56_hyphen_refuted.
(* one morpheme does not always get the full word *)
Theorem C56_single_refuted : exists w tok e c, align_word id_lower (L "morphemes") 0 (Some w) [tok] = Ok (0%Z, e, c)
  /\ e <> Z.of_nat (length w).
Proof. exact full_word_refuted. Qed.
Print Assumptions C56_single_refuted.

Example C56_example : Forall2 bare [L "broom"; L "-s"] [L "broom"; L "s"]
  /\ id_lower (L "brooms") = List.concat [L "broom"; L "s"]
  /\ align_word id_lower (L "morphemes") 1 (Some (L "brooms")) [L "broom"; L "-s"] = Ok (5%Z, 6%Z, 0%Z)
  /\ ~ (exists r, L "horrify" = L "horror" ++ r)
  /\ align_word id_lower (L "morphemes") 1 (Some (L "horrify")) [L "horror"; L "-ify"] = Ok (0%Z, 7%Z, (-1)%Z).
Proof. split; [exact brooms|]. split; [reflexivity|]. split; [exact brooms_aligned|exact horrify]. Qed.

(* ---------- C57 ---------- *)

(* the igts are those of the records that are kept, in order *)
Theorem C57_records : forall (U : Unicode) (lower : str -> str) (isalpha : char -> bool) (o : tb_options) (ms : list str) (pri : str)
    (rs : list record) (l : list igt), o_markers o = ms ++ [pri] -> toolbox_igts lower isalpha o rs = Ok l ->
  kept (skips lower o pri) (keeps lower isalpha o pri) rs l.
Proof. exact @igts_kept. Qed.
Print Assumptions C57_records.
(* Full statement: a record that cannot be imported never stops the import.
   Missing: keys that begin with a letter outside ASCII, empty keys, and errors
   other than XigtImportError. *)
Theorem C57_goes_on_partial : forall (U : Unicode) (lower : str -> str) (isalpha : char -> bool) (o : tb_options) (ms : list str) (pri : str)
    (rs : list record), o_markers o = ms ++ [pri] -> (forall r, In r rs -> fine lower isalpha o r pri) ->
  exists l, toolbox_igts lower isalpha o rs = Ok l.
Proof. exact @igts_total. Qed.
Print Assumptions C57_goes_on_partial.
Theorem C57_key_refuted : exists r g, @toolbox_igts ascii_unicode id_lower alpha default_options [rec1] = Ok [g]
  /\ @toolbox_igts ascii_unicode id_lower alpha default_options [r; rec1] = Err ValueError
  /\ dget (r_context r) (L "\ref") = Some (Some [233%N]).
Proof. exact key_refuted. Qed.
Print Assumptions C57_key_refuted.

Example C57_example : o_markers default_options = [L "\id"] ++ [L "\ref"]
  /\ (exists g, @toolbox_igts ascii_unicode id_lower alpha default_options [header1; bad1; rec1] = Ok [g] /\ igt_id g = Some (L "igt1"))
  /\ @make_all_tiers ascii_unicode id_lower default_options (r_fields bad1) = Err XigtImportError.
Proof.
  split; [reflexivity|]. split; [|exact bad1_fails]. destruct rec1_made as (g & H1 & H2 & _). exists g. now split.
Qed.

(* ---------- C58 ---------- *)

(* a tier that refers by an attribute refers to a tier made before it, and each
   of its items to an item of that tier *)
Theorem C58_anchored : forall (U : Unicode) (lower : str -> str) (o : tb_options) (fields : list (str * list pair)) (ts : list tier),
  make_all_tiers lower o fields = Ok ts -> forall a t b, ts = a ++ t :: b -> anchored a t.
Proof. exact @tiers_anchored. Qed.
Print Assumptions C58_anchored.

Example C58_example : exists ts, @make_all_tiers ascii_unicode id_lower default_options fields1 = Ok ts
  /\ map tier_id ts = map Some [L "p"; L "w"; L "m"; L "g"; L "t"].
Proof. eexists. split; vm_compute; reflexivity. Qed.

(* ---------- C69 ---------- *)

(* Full statement: without the condition that no two markers share a tier; see
   the refutation. *)
Theorem C69_alignments_partial : forall (o : tb_options) (d : dict str),
  dicts o -> NoDup (map snd (o_tier_map o)) -> tb_alignments o = Ok d ->
  forall m1 m2, dget d m1 = Some m2 <-> exists t1 t2, marks o m1 t1 /\ marks o m2 t2 /\ aligns o t1 t2.
Proof. exact alignments_made. Qed.
Print Assumptions C69_alignments_partial.
Theorem C69_shared_refuted : exists o d m1 m2 t1 t2, dicts o /\ tb_alignments o = Ok d /\ marks o m1 t1 /\ marks o m2 t2 /\ aligns o t1 t2
  /\ dget d m1 <> Some m2.
Proof. exact shared_refuted. Qed.
Print Assumptions C69_shared_refuted.
(* it fails exactly if a tier of such an alignment has no marker *)
Theorem C69_total : forall o : tb_options,
  (exists d, tb_alignments o = Ok d) <-> forall t1 t2, aligns o t1 t2 -> (exists m, marks o m t1) /\ exists m, marks o m t2.
Proof. exact alignments_iff. Qed.
Print Assumptions C69_total.
Theorem C69_error : forall (o : tb_options) (e : exn), tb_alignments o = Err e -> e = KeyError.
Proof. exact alignments_err. Qed.
Print Assumptions C69_error.

Example C69_example : dicts default_options /\ NoDup (map snd (o_tier_map default_options))
  /\ tb_alignments default_options = Ok [(L "\m", L "\t"); (L "\g", L "\m"); (L "\p", L "\m")].
Proof. split; [exact (proj1 default_dicts)|]. split; [exact (proj2 default_dicts)|exact default_aligned]. Qed.
Example C69_example_fails : tb_alignments no_marker = Err KeyError /\ aligns no_marker (L "m") (L "w") /\ forall m, ~ marks no_marker m (L "w").
Proof. exact no_marker_fails. Qed.

(* ---------- C70 ---------- *)

(* Full statement: whatever was imported can be read again.  Missing: igts with
   the same id, and characters that XML does not allow; see the refutations. *)
Theorem C70_readable_partial : forall (U : Unicode) (lower : str -> str) (isalpha : char -> bool) (o : tb_options) (rs : list record) (gs : list igt),
  options_clean o -> Forall record_clean rs -> toolbox_igts lower isalpha o rs = Ok gs -> NoDup (some_ids (map igt_id gs)) ->
  exists e c, xml_dump (corpus_of gs) (Some 2) = Ok e /\ (forall ahead, xml_load ahead e = Ok c) /\ same_corpus (back_corpus (corpus_of gs)) c.
Proof. exact @toolbox_readable. Qed.
Print Assumptions C70_readable_partial.
(* two texts with a record of the same number *)
Theorem C70_texts_refuted : exists rs gs, Forall record_clean rs
  /\ map r_context rs = [[(L "\id", Some (L "a")); (L "\ref", Some (L "1"))]; [(L "\id", Some (L "b")); (L "\ref", Some (L "1"))]]
  /\ @toolbox_igts ascii_unicode id_lower alpha default_options rs = Ok gs /\ length gs = 2 /\ forall ahead, written ahead rs = Err XigtError.
Proof. exact texts_refuted. Qed.
Print Assumptions C70_texts_refuted.
(* different keys with the same id *)
Theorem C70_keys_refuted : exists rs gs, Forall record_clean rs
  /\ map (fun r => dget (r_context r) (L "\ref")) rs = [Some (Some (L "1")); Some (Some (L "igt1"))]
  /\ @toolbox_igts ascii_unicode id_lower alpha default_options rs = Ok gs /\ length gs = 2 /\ forall ahead, written ahead rs = Err XigtError.
Proof. exact keys_refuted. Qed.
Print Assumptions C70_keys_refuted.
Theorem C70_character_refuted : exists rs gs, @toolbox_igts ascii_unicode id_lower alpha default_options rs = Ok gs
  /\ NoDup (some_ids (map igt_id gs)) /\ length gs = 1 /\ forall ahead, written ahead rs = Err ParseError.
Proof. exact character_refuted. Qed.
Print Assumptions C70_character_refuted.

Example C70_example : options_clean default_options /\ Forall record_clean [header1; bad1; rec1]
  /\ exists g, @toolbox_igts ascii_unicode id_lower alpha default_options [header1; bad1; rec1] = Ok [g].
Proof.
  split; [exact default_clean|]. split; [exact rec1_clean|]. destruct rec1_made as (g & H & _). now exists g.
Qed.

(* ---------- what is raised ---------- *)

Example C45_raises :
  align_word id_lower (L "words") 2 (Some (L "ab")) [L "a"; L "b"] = Err IndexError
  /\ align_word id_lower (L "morphemes") 2 (Some (L "ab")) [L "a"; L "b"] = Err IndexError
  /\ align_word id_lower (L "words") 0 None [L "a"] = Err AttributeError
  /\ (forall pt, @make_phrase_tier ascii_unicode (L "p") aln_w = Ok pt ->
        @make_tier ascii_unicode id_lower (Some (L "words")) (L "w") (Some (L "segmentation")) [] (Some pt) = Err TypeError
        /\ @make_tier ascii_unicode id_lower (Some (L "words")) (L "w") (Some (L "segmentation")) [(Some (L "a"), None)] (Some pt) = Err TypeError)
  /\ @make_tier ascii_unicode id_lower (Some (L "words")) (L "w") None [(Some (L "a"), None)] None = Err TypeError.
Proof.
  split; [reflexivity|]. split; [reflexivity|]. split; [reflexivity|]. split; [|reflexivity].
  intros pt E. vm_compute in E. injection E as <-. split; vm_compute; reflexivity.
Qed.
(* a tier without id is referred to as None *)
Example C45_nameless : match @make_tier ascii_unicode id_lower (Some (L "glosses")) (L "g") (Some (L "alignment")) [(None, Some [L "x"])]
    (Some {| t_attrs := Odin.mk_attrs None None []; t_md := []; t_items := [{| it_attrs := Odin.mk_attrs None None []; it_text := None |}] |}) with
  | Ok t => attr (t_attrs t) (L "alignment") = Some (L "None") /\ map (fun i => attr (it_attrs i) (L "alignment")) (t_items t) = [Some (L "None")]
  | Err _ => False
  end.
Proof. vm_compute. split; reflexivity. Qed.
Definition untyped_tiers : tb_options :=
  {| o_tier_map := [(L "\t", L "w")]; o_phrase := None; o_types := []; o_alignments := []; o_attribute_map := []; o_markers := [] |}.
Example C57_raises :
  @make_all_tiers ascii_unicode id_lower untyped_tiers fields1 = Err KeyError
  /\ @toolbox_igts ascii_unicode id_lower alpha untyped_tiers [rec1] = Err AssertionError
  /\ @toolbox_igts ascii_unicode id_lower alpha default_options [keyed (L "a") [] (L "x")] = Err AssertionError.
Proof. repeat split; vm_compute; reflexivity. Qed.
(* parts of speech refer to the morphemes, with the default options *)
Example C58_pos : match @make_all_tiers ascii_unicode id_lower default_options [(L "\t", aln_w); (L "\m", aln_m); (L "\p", aln_g)] with
  | Ok ts => map (fun t => (tier_id t, a_type (t_attrs t), attr (t_attrs t) (L "alignment"))) ts
    = [(Some (L "p"), Some (L "phrases"), None); (Some (L "w"), Some (L "words"), None);
       (Some (L "m"), Some (L "morphemes"), None); (Some (L "pos"), Some (L "pos"), Some (L "m"))]
  | Err _ => False
  end.
Proof. vm_compute. reflexivity. Qed.
