(* Specification for the ODIN importer. *)
From Verif Require Import PyStr Model SpecXml Odin.

(* Char of XML 1.0, and its part in the basic plane *)
Definition xml_legal (c : N) : Prop :=
  (c = 9 \/ c = 10 \/ c = 13 \/ (32 <= c <= 55295) \/ (57344 <= c <= 65533) \/ (65536 <= c <= 1114111))%N.
Definition basic (c : N) : Prop := (c < 65536)%N.

(* t is s with every character P picks replaced by the string r, in place *)
Inductive replaced (P : N -> Prop) (r : str) : str -> str -> Prop :=
| Rep_nil : replaced P r [] []
| Rep_keep c s t : ~ P c -> replaced P r s t -> replaced P r (c :: s) (c :: t)
| Rep_new c s t : P c -> replaced P r s t -> replaced P r (c :: s) (r ++ t).

(* the item made of line number n *)
Definition line_item (o : options) (n : nat) (line : dict str) (i : item) : Prop :=
  exists text text', dget line (L "content") = Some text
    /\ replaced (fun c => ~ (xml_legal c /\ basic c)) (o_replacement o) text text'
    /\ it_text i = Some text'
    /\ a_id (it_attrs i) = Some (L "r" ++ dec_nat n) /\ a_type (it_attrs i) = None
    /\ a_ns (it_attrs i) = None /\ a_nsmap (it_attrs i) = None
    /\ (forall k, k <> L "content" -> dget (a_dict (it_attrs i)) k = dget line k)
    /\ dget (a_dict (it_attrs i)) (L "content") = None.
Definition all_items (o : options) (lines : list (dict str)) (l : list item) : Prop :=
  length l = length lines
  /\ forall k line, nth_error lines k = Some line -> exists i, nth_error l k = Some i /\ line_item o (S k) line i.

Section SpecOdin.
Context {U : Unicode}.

(* a and b are the words of s, and there is no other *)
Definition blanks (s : str) : Prop := forall c, In c s -> is_space c = true.
Definition word (s : str) : Prop := s <> [] /\ forall c, In c s -> is_space c = false.
Definition two_words (s a b : str) : Prop :=
  exists x y z, s = x ++ a ++ y ++ b ++ z /\ blanks x /\ blanks y /\ y <> [] /\ blanks z /\ word a /\ word b.

(* the Igt of a block *)
Definition block_igt (o : options) (b : block) (g : igt) : Prop :=
  a_id (g_attrs g) = b_igt_id b
  /\ (exists doc lr types s e, b_doc_id b = Some doc /\ b_line_range b = Some lr /\ b_line_types b = Some types
        /\ two_words lr s e
        /\ a_dict (g_attrs g) = [(L "doc-id", doc); (L "line-range", s ++ L "-" ++ e); (L "tag-types", types)])
  /\ exists t, g_tiers g = [t] /\ a_id (t_attrs t) = Some (L "r") /\ a_type (t_attrs t) = Some (L "odin")
      /\ a_dict (t_attrs t) = [(L "state", L "raw")] /\ all_items o (b_lines b) (t_items t).

(* what the metadata says: the header lines, if wanted; and the language, as the
   one child named subject *)
Definition headers_of (md : metadata) : list (option str) :=
  map me_text (filter (fun m => opt_eqb str_eqb (a_type (me_attrs m)) (Some (L "odin-header"))) (md_metas md)).
Definition child_code (m : mchild) : option str * option str :=
  match m with MChild _ a t _ => (dget (a_dict a) (L "{http://www.language-archives.org/OLAC/1.1/}code"), t) end.
(* an element of the Dublin Core, said to name a language *)
Definition child_named (n : str) (m : mchild) : bool :=
  match m with
  | MChild n' a _ _ => str_eqb n' n && opt_eqb str_eqb (a_ns a) (Some (L "http://purl.org/dc/elements/1.1/"))
      && opt_eqb str_eqb (dget (a_dict a) (L "{http://www.w3.org/2001/XMLSchema-instance}type")) (Some (L "olac:language"))
  end.
Definition languages_of (md : metadata) (n : str) : list (option str * option str) :=
  map child_code (filter (child_named n) (flat_map me_kids (md_metas md))).
Definition default (d : str) (o : option str) : str := match o with Some s => s | None => d end.
Definition block_metadata (title : str -> str) (o : options) (b : block) (md : metadata) : Prop :=
  headers_of md = (if o_keep_headers o then match b_headers b with [] => [] | hs => [Some (join [10%N] hs)] end else [])
  /\ languages_of md (L "subject") = [(Some (strip (default (L "und") (b_iso b))), Some (title (strip (default [] (b_language b)))))]
  /\ languages_of md (L "language") = [(Some (L "en"), Some (L "English"))]
  /\ NoDup (some_ids (map (fun m => a_id (me_attrs m)) (md_metas md))).

(* what a block needs for its Igt to be made *)
Definition block_ok (b : block) : Prop :=
  (forall i, b_igt_id b = Some i -> accepted_id i)
  /\ b_doc_id b <> None /\ b_line_types b <> None
  /\ (exists lr s e, b_line_range b = Some lr /\ two_words lr s e)
  /\ forall line, In line (b_lines b) -> dget line (L "content") <> None.

(* what is raised for a block that cannot be imported *)
Definition range_ok (b : block) : Prop := exists lr s e, b_line_range b = Some lr /\ two_words lr s e.
Inductive block_error (b : block) : exn -> Prop :=
| BE_range : b_line_range b = None -> block_error b KeyError
| BE_words lr : b_line_range b = Some lr -> ~ range_ok b -> block_error b ValueError
| BE_key : range_ok b ->
    b_doc_id b = None \/ b_line_types b = None \/ (exists line, In line (b_lines b) /\ dget line (L "content") = None) -> block_error b KeyError
| BE_id i : range_ok b -> b_doc_id b <> None -> b_line_types b <> None ->
    (forall line, In line (b_lines b) -> dget line (L "content") <> None) ->
    b_igt_id b = Some i -> ~ accepted_id i -> block_error b ValueError.

(* what it needs for the file to be readable: attribute names and legal
   characters wherever they are not replaced *)
Definition plain_key (k : str) : Prop :=
  XmlStd.ncname k = true /\ k <> XmlStd.XMLNS /\ k <> L "id" /\ k <> L "type".
Definition legal (s : str) : Prop := forall c, In c s -> xml_legal c.
Definition no_return (s : str) : Prop := ~ In 13%N s.
Definition block_clean (title : str -> str) (o : options) (b : block) : Prop :=
  (forall i, b_igt_id b = Some i -> legal i)
  /\ (forall s, b_doc_id b = Some s \/ b_line_range b = Some s \/ b_line_types b = Some s \/ b_iso b = Some s -> legal s)
  /\ (let l := title (strip (match b_language b with Some s => s | None => [] end)) in legal l /\ no_return l)
  /\ (forall h, o_keep_headers o = true -> In h (b_headers b) -> legal h /\ no_return h)
  /\ forall line, In line (b_lines b) ->
      NoDup (map fst line) /\ (forall s, dget line (L "content") = Some s -> no_return s)
      /\ forall k v, In (k, v) line -> k <> L "content" -> plain_key k /\ legal v.

End SpecOdin.
