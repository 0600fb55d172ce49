(* Property theorems about the ODIN importer: C40, C41, C54, C55. *)
From Verif Require Import PyStr SpecRef Model SpecModel XmlStd Xml SpecXml Odin SpecOdin OdinProofs OdinXmlProofs OdinExamples.

(* ---------- C40 ---------- *)

(* exactly the characters that are illegal in XML or beyond the basic plane are
   replaced, each by the replacement, and all others stay where they are *)
Theorem C40_replaces : forall s r : str,
  replaced (fun c => ~ (xml_legal c /\ basic c)) r s (replace_invalid_xml_chars s r).
Proof. exact replace_replaced. Qed.
Print Assumptions C40_replaces.
(* that says what the result is *)
Theorem C40_determined : forall (P : N -> Prop) (r s t t' : str), replaced P r s t -> replaced P r s t' -> t = t'.
Proof. exact replaced_det. Qed.
Print Assumptions C40_determined.
Theorem C40_legal : forall s r : str, legal r -> legal (replace_invalid_xml_chars s r).
Proof. exact replace_legal. Qed.
Print Assumptions C40_legal.
Theorem C40_length : forall s r : str, length r = 1 -> length (replace_invalid_xml_chars s r) = length s.
Proof. exact replace_length. Qed.
Print Assumptions C40_length.
Theorem C40_idempotent : forall s r : str, (forall c, In c r -> xml_legal c /\ basic c) ->
  replace_invalid_xml_chars (replace_invalid_xml_chars s r) r = replace_invalid_xml_chars s r.
Proof. exact replace_idem. Qed.
Print Assumptions C40_idempotent.

(* Full statement: a string of legal characters is left alone.  Missing: legal
   characters beyond the basic plane, see below. *)
Theorem C40_untouched_partial : forall s r : str, (forall c, In c s -> xml_legal c /\ basic c) ->
  replace_invalid_xml_chars s r = s.
Proof. exact replace_id. Qed.
Print Assumptions C40_untouched_partial.
Theorem C40_astral_refuted : exists c, xml_legal c /\ replace_invalid_xml_chars [c] default_replacement <> [c].
Proof. exact astral. Qed.
Print Assumptions C40_astral_refuted.

Example C40_example :
  replace_invalid_xml_chars (L "1SG" ++ [12%N; 233%N; 55296%N; 9%N]) default_replacement = L "1SG" ++ [65533%N; 233%N; 65533%N; 9%N]
  /\ legal default_replacement /\ (forall c, In c default_replacement -> xml_legal c /\ basic c)
  /\ length default_replacement = 1.
Proof.
  split; [now vm_compute|]. split; [exact (proj1 opts_fine)|]. split; [|easy].
  intros c [<-|[]]. split; [apply (proj1 opts_fine); now left|now vm_compute].
Qed.

(* ---------- C41 ---------- *)

(* one item per line, in order, numbered from 1, with the line's other keys as
   attributes; a line without content is a KeyError *)
Theorem C41_raw_tier : forall (U : Unicode) (b : block) (o : options),
  (forall line, In line (b_lines b) -> dget line (L "content") <> None) ->
  exists t, make_igt_raw_tier b o = Ok t /\ a_id (t_attrs t) = Some (L "r") /\ a_type (t_attrs t) = Some (L "odin")
    /\ a_dict (t_attrs t) = [(L "state", L "raw")] /\ t_md t = [] /\ a_ns (t_attrs t) = None /\ a_nsmap (t_attrs t) = None
    /\ all_items o (b_lines b) (t_items t) /\ NoDup (some_ids (map (fun i => a_id (it_attrs i)) (t_items t))).
Proof. exact @raw_tier_ok. Qed.
Print Assumptions C41_raw_tier.
Theorem C41_no_content : forall (U : Unicode) (b : block) (o : options),
  (exists line, In line (b_lines b) /\ dget line (L "content") = None) -> make_igt_raw_tier b o = Err KeyError.
Proof. exact @raw_tier_err. Qed.
Print Assumptions C41_no_content.
(* one Igt per block, in order; and these are the only blocks it can be made of *)
Theorem C41_igts : forall (U : Unicode) (title : str -> str) (bs : list block) (o : options), Forall block_ok bs ->
  exists gs, odin_igts title bs o = Ok gs /\ Forall2 (block_igt o) bs gs.
Proof. exact @odin_igts_ok. Qed.
Print Assumptions C41_igts.
Theorem C41_igts_iff : forall (U : Unicode) (title : str -> str) (bs : list block) (o : options),
  (exists gs, odin_igts title bs o = Ok gs) <-> Forall block_ok bs.
Proof. exact @odin_igts_iff. Qed.
Print Assumptions C41_igts_iff.
(* what is raised: that of the first block that cannot be imported *)
Theorem C41_raises : forall (U : Unicode) (title : str -> str) (bs : list block) (o : options) (e : exn),
  odin_igts title bs o = Err e <-> exists bs1 b bs2, bs = bs1 ++ b :: bs2 /\ Forall block_ok bs1 /\ block_error b e.
Proof. exact @odin_igts_err. Qed.
Print Assumptions C41_raises.

Example C41_raises_example : let bad r i := {| b_igt_id := Some i; b_doc_id := Some (L "1"); b_line_range := r; b_line_types := Some (L "L");
      b_iso := None; b_language := None; b_headers := []; b_lines := [] |} in
  @odin_igts ascii_unicode (fun s => s) [b1; bad None (L "1")] opts = Err KeyError
  /\ @odin_igts ascii_unicode (fun s => s) [b1; bad (Some (L "1 2 3")) (L "a")] opts = Err ValueError
  /\ @odin_igts ascii_unicode (fun s => s) [b1; bad (Some (L "1 2")) (L "1")] opts = Err ValueError.
Proof. repeat split; vm_compute; reflexivity. Qed.
Example C41_example : @block_ok ascii_unicode b1
  /\ match @make_igt ascii_unicode (fun s => s) b1 opts with
     | Ok g => map (fun t => map (fun i => (a_id (it_attrs i), a_dict (it_attrs i), it_text i)) (t_items t)) (g_tiers g)
            = [[(Some (L "r1"), [(L "line", L "959"); (L "tag", L "L")], Some (L "ni-na-ku-penda"));
                (Some (L "r2"), [(L "line", L "960"); (L "tag", L "G")], Some (L "1SG" ++ [65533%N] ++ L "PRES" ++ [65533%N]));
                (Some (L "r3"), [(L "line", L "961"); (L "tag", L "T")], Some (L "I love you"))]]
            /\ a_dict (g_attrs g) = [(L "doc-id", L "397"); (L "line-range", L "959-961"); (L "tag-types", L "L G T")]
            /\ map (fun m => map (fun x => (a_id (me_attrs x), me_text x)) (md_metas m)) (g_md g)
               = [[(Some (L "meta1"), Some (L "doc_id=397" ++ [10%N] ++ L "language: swahili")); (Some (L "meta2"), None)]]
     | Err _ => False
     end.
Proof. split; [exact b1_ok|exact b1_igt]. Qed.

(* ---------- C55 ---------- *)

Theorem C55_metadata : forall (U : Unicode) (title : str -> str) (b : block) (o : options) (g : igt),
  make_igt title b o = Ok g -> exists md, g_md g = [md] /\ block_metadata title o b md.
Proof. exact @igt_metadata. Qed.
Print Assumptions C55_metadata.
Example C55_example : match @make_igt ascii_unicode (fun s => s) b1 opts with
  | Ok g => map headers_of (g_md g) = [[Some (L "doc_id=397" ++ [10%N] ++ L "language: swahili")]]
            /\ map (fun md => languages_of md (L "subject")) (g_md g) = [[(Some (L "swh"), Some (L "swahili"))]]
  | Err _ => False
  end.
Proof. vm_compute. split; reflexivity. Qed.

(* ---------- C54 ---------- *)

(* The file can be read again, and what comes back is what the blocks say.
   Full statement: without block_clean and without distinct ids; see below. *)
Theorem C54_readable_partial : forall (U : Unicode) (title : str -> str) (bs : list block) (o : options),
  Forall block_ok bs -> Forall (block_clean title o) bs ->
  legal (o_replacement o) -> no_return (o_replacement o) -> NoDup (some_ids (map b_igt_id bs)) ->
  exists c e c', odin_corpus title bs o = Ok c /\ Forall2 (block_igt o) bs (c_igts c)
    /\ xml_dump c (Some 2) = Ok e /\ (forall ahead, xml_load ahead e = Ok c') /\ same_corpus (back_corpus c) c'.
Proof. exact @odin_readable. Qed.
Print Assumptions C54_readable_partial.

Example C54_example : Forall (@block_ok ascii_unicode) [b1; b2]
  /\ Forall (@block_clean ascii_unicode (fun s => s) opts) [b1; b2]
  /\ legal (o_replacement opts) /\ no_return (o_replacement opts) /\ NoDup (some_ids (map b_igt_id [b1; b2])).
Proof.
  split; [exact (Forall_cons _ b1_ok (Forall_cons _ b2_ok (Forall_nil _)))|].
  split; [exact (Forall_cons _ b1_clean (Forall_cons _ b2_clean (Forall_nil _)))|].
  split; [exact (proj1 opts_fine)|]. split; [exact (proj2 opts_fine)|]. repeat constructor; vm_compute; intuition discriminate.
Qed.

(* an illegal character in a header line *)
Theorem C54_header_refuted : exists bs, Forall (@block_ok ascii_unicode) bs /\ (forall ahead, written ahead bs opts = Err ParseError).
Proof. exact header_refuted. Qed.
Print Assumptions C54_header_refuted.
(* an illegal character in the tag of a line *)
Theorem C54_tag_refuted : exists bs, Forall (@block_ok ascii_unicode) bs /\ (forall ahead, written ahead bs opts = Err ParseError)
  /\ forall b, In b bs -> b_headers b = [].
Proof. exact tag_refuted. Qed.
Print Assumptions C54_tag_refuted.
(* two blocks with the same id *)
Theorem C54_ids_refuted : exists bs, Forall (@block_ok ascii_unicode) bs
  /\ Forall (@block_clean ascii_unicode (fun s => s) opts) bs /\ (forall ahead, written ahead bs opts = Err XigtError).
Proof. exact twice_refuted. Qed.
Print Assumptions C54_ids_refuted.
(* a carriage return in a line *)
Theorem C54_return_refuted : exists bs c c', Forall (@block_ok ascii_unicode) bs
  /\ @odin_corpus ascii_unicode (fun s => s) bs opts = Ok c /\ (forall ahead, written ahead bs opts = Ok c') /\ ~ same_corpus (@back_corpus ascii_unicode c) c'.
Proof. exact return_refuted. Qed.
Print Assumptions C54_return_refuted.
