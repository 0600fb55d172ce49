(* Model of the ODIN importer, xigt/importers/odin.py.  Definitions only.

   The blocks are the dicts that odintxt.odin_blocks (another package) yields.
   Simplifications: the replacement contains no backslash, so that it is no
   template with escapes; str.title is a parameter; odin_igts is the list of
   what the generator yields, or the exception that ends it.  Files and
   directories are in ImportRun.v. *)
From Verif Require Import PyStr Ref Model Xml.

Section Odin.
Context {U : Unicode}.

(* the characters 9, A, D, 20-D7FF and E000-FFFD (hexadecimal); the class
   invalid_char_re, lines 223-226, is the complement *)
Definition valid_char (c : char) : bool :=
  N.eqb c 9 || N.eqb c 10 || N.eqb c 13 || in_range 32 55295 c || in_range 57344 65533 c.
(* replace_invalid_xml_chars, lines 229-231: each match is one character *)
Definition replace_invalid_xml_chars (input replacement : str) : str :=
  flat_map (fun c => if valid_char c then [c] else replacement) input.

(* the default of options['replacement_char'], line 53 *)
Definition default_replacement : str := [65533%N].

(* s.split() *)
Fixpoint split_ (cur : str) (s : str) : list str :=
  match s with
  | [] => match cur with [] => [] | _ => [rev cur] end
  | c :: s' =>
    if is_space c then match cur with [] => split_ [] s' | _ => rev cur :: split_ [] s' end
    else split_ (c :: cur) s'
  end.
Definition split (s : str) : list str := split_ [] s.

(* a block: None where the key is missing (or, in b_iso and b_language, its
   value is None or, in b_headers and b_lines, the list is empty) *)
Record block := { b_igt_id : option str; b_doc_id : option str; b_line_range : option str; b_line_types : option str;
                  b_iso : option str; b_language : option str; b_headers : list str; b_lines : list (dict str) }.
(* options['replacement_char'], options['keep_headers'] *)
Record options := { o_replacement : str; o_keep_headers : bool }.

Definition key {A} (o : option A) : res A := match o with Some v => Ok v | None => Err KeyError end.

(* an object without namespace and nsmap *)
Definition mk_attrs (id type : option str) (d : dict str) : attrs :=
  {| a_id := id; a_type := type; a_dict := d; a_ns := None; a_nsmap := None |}.
(* the id setter, xigt/mixins.py:213-217 *)
Definition check_id (i : option str) : res unit :=
  match i with
  | Some v => if id_accepted v then Ok tt else Err ValueError
  | None => Ok tt
  end.

(* make_igt_attributes, lines 124-130 *)
Definition make_igt_attributes (b : block) : res (dict str) :=
  do lr <- key (b_line_range b);
  match split lr with
  | [start; end_] =>
    do doc <- key (b_doc_id b);
    do types <- key (b_line_types b);
    Ok [(L "doc-id", doc); (L "line-range", join (L "-") [start; end_]); (L "tag-types", types)]
  | _ => Err ValueError
  end.

(* _nsmap, lines 42-46, and qattrname, lines 133-141 *)
Definition OLAC_URI : str := L "http://www.language-archives.org/OLAC/1.1/".
Definition DC_URI : str := L "http://purl.org/dc/elements/1.1/".
Definition XSI_URI : str := L "http://www.w3.org/2001/XMLSchema-instance".
Definition odin_nsmap : dict str := [(L "olac", OLAC_URI); (L "dc", DC_URI); (L "xsi", XSI_URI)].
Definition qattrname (uri name : str) : str := L "{" ++ uri ++ L "}" ++ name.

Section Igt.
Context (title : str -> str).

(* the two MetaChild objects, lines 163-180 *)
Definition language_child (name code text : str) : mchild :=
  MChild name {| a_id := None; a_type := None; a_ns := Some DC_URI; a_nsmap := None;
                 a_dict := [(qattrname XSI_URI (L "type"), L "olac:language"); (qattrname OLAC_URI (L "code"), code)] |}
         (Some text) [].
(* make_igt_metadata, lines 144-183 *)
Definition make_igt_metadata (b : block) (o : options) : metadata :=
  let header := if o_keep_headers o then
                  match b_headers b with
                  | [] => []
                  | hs => [{| me_attrs := mk_attrs (Some (L "meta" ++ dec_nat 1)) (Some (L "odin-header")) [];
                              me_text := Some (join [10%N] hs); me_kids := [] |}]
                  end
                else [] in
  let mi := 1 + length header in
  let code := match b_iso b with Some c => c | None => L "und" end in
  let language := strip (match b_language b with Some s => s | None => [] end) in
  {| md_attrs := mk_attrs None None [];
     md_metas := header ++ [{| me_attrs := mk_attrs (Some (L "meta" ++ dec_nat mi)) None []; me_text := None;
                               me_kids := [language_child (L "subject") (strip code) (title language);
                                           language_child (L "language") (L "en") (L "English")] |}] |}.

(* the loop of make_igt_raw_tier, lines 188-195, from index j *)
Fixpoint raw_items (j : nat) (lines : list (dict str)) (o : options) : res (list item) :=
  match lines with
  | [] => Ok []
  | line :: lines' =>
    let text := replace_invalid_xml_chars (match dget line CONTENT with Some s => s | None => [] end) (o_replacement o) in
    if dmem line CONTENT then
      let id := Some (L "r" ++ dec_nat (j + 1)) in
      do _ <- check_id id;
      do l <- raw_items (S j) lines' o;
      Ok ({| it_attrs := mk_attrs id None (ddel line CONTENT); it_text := Some text |} :: l)
    else Err KeyError
  end.
(* make_igt_raw_tier, lines 186-202; the constructor appends the items *)
Definition make_igt_raw_tier (b : block) (o : options) : res tier :=
  do items <- raw_items 0 (b_lines b) o;
  do items <- new_container (fun i => a_id (it_attrs i)) items;
  Ok {| t_attrs := mk_attrs (Some (L "r")) (Some (L "odin")) [(L "state", L "raw")]; t_md := []; t_items := items |}.

(* make_igt, lines 109-121 *)
Definition make_igt (b : block) (o : options) : res igt :=
  do d <- make_igt_attributes b;
  let md := make_igt_metadata b o in
  do t <- make_igt_raw_tier b o;
  do _ <- check_id (b_igt_id b);
  Ok {| g_attrs := mk_attrs (b_igt_id b) None d; g_md := [md]; g_tiers := [t] |}.

(* odin_igts, lines 102-106: an Igt is yielded if it has a tier r *)
Fixpoint odin_igts (bs : list block) (o : options) : res (list igt) :=
  match bs with
  | [] => Ok []
  | b :: bs' =>
    do g <- make_igt b o;
    do l <- odin_igts bs' o;
    Ok (if existsb (fun t => opt_eqb str_eqb (a_id (t_attrs t)) (Some (L "r"))) (g_tiers g) then g :: l else l)
  end.
(* _xigt_import, lines 79-87: the corpus that is written (mode transient, so
   the ids of the igts are not compared) *)
Definition odin_corpus (bs : list block) (o : options) : res corpus :=
  do gs <- odin_igts bs o;
  Ok {| c_attrs := {| a_id := None; a_type := None; a_dict := []; a_ns := None; a_nsmap := Some odin_nsmap |};
        c_md := []; c_igts := gs |}.
End Igt.
End Odin.
