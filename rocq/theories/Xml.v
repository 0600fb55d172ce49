(* Model of xigt/codecs/xigtxml.py.  Definitions only.  Objects are the trees
   of Model.v. *)
From Verif Require Import PyStr Ref Model XmlStd.

(* ---------- encoding ---------- *)

(* the prefixes ElementTree knows by default, _namespace_map, line 11 *)
Definition namespace_map : dict str :=
  [(XML_URI, L "xml"); (L "http://www.w3.org/1999/xhtml", L "html");
   (L "http://www.w3.org/1999/02/22-rdf-syntax-ns#", L "rdf"); (L "http://schemas.xmlsoap.org/wsdl/", L "wsdl");
   (L "http://www.w3.org/2001/XMLSchema", L "xs"); (L "http://www.w3.org/2001/XMLSchema-instance", L "xsi");
   (L "http://purl.org/dc/elements/1.1/", L "dc")].

(* _qname_split, lines 149-155; a name beginning with a brace but without
   closing one cannot be unpacked by the callers *)
Definition qname_split (q : str) : res (option str * str) :=
  match q with
  | c :: r =>
    if N.eqb c (Ch "{") then
      match split1 (Ch "}") r with Some (u, n) => Ok (Some u, n) | None => Err ValueError end
    else Ok (None, q)
  | [] => Ok (None, q)
  end.

(* obj.nsmap: its own, or its parent's *)
Definition eff (a : attrs) (inherited : dict str) : dict str :=
  match a_nsmap a with Some m => m | None => inherited end.

(* dict((v, k) for k, v in nsmap.items()), line 360 *)
Definition revmap (m : dict str) : dict str := fold_left (fun d kv => dset d (snd kv) (fst kv)) m [].

(* the attributes, lines 373-384 *)
Fixpoint put_attributes (rm : dict str) (e : dict str) (l : dict str) : res (dict str) :=
  match l with
  | [] => Ok e
  | (k, v) :: l =>
    do (uri, n) <- qname_split k;
    do k' <- match uri with
             | Some (c :: u) =>
               match dget rm (c :: u) with
               | Some pre => Ok (pre ++ L ":" ++ n)
               | None => match dget namespace_map (c :: u) with
                         | Some pre => Ok (pre ++ L ":" ++ n)
                         | None => Err KeyError
                         end
               end
             | _ => Ok n
             end;
    put_attributes rm (dset e k' v) l
  end.
(* _build_elem, lines 358-385: tag and attributes *)
Definition build_elem (tag : str) (a : attrs) (nsmap nscontext : dict str) : res (str * dict str) :=
  let rm := revmap nsmap in
  let tag' := match a_ns a with
              | Some u => match dget rm u with Some pre => pre ++ L ":" ++ tag | None => tag end
              | None => tag
              end in
  let e1 := fold_left (fun e kv => if opt_eqb str_eqb (dget nscontext (fst kv)) (Some (snd kv)) then e
                                   else dset e (L "xmlns:" ++ fst kv) (snd kv)) nsmap [] in
  let e2 := match a_id a with Some i => dset e1 ID i | None => e1 end in
  let e3 := match a_type a with Some t => dset e2 TYPE t | None => e2 end in
  do e4 <- put_attributes rm e3 (a_dict a);
  Ok (tag', e4).

(* the _build_ functions, lines 388-447; [inh] is the nsmap of the object's parent *)
(* _build_metachild, lines 441-447 *)
Fixpoint build_child (inh ctx : dict str) (m : mchild) : res xelem :=
  match m with
  | MChild n a t kids =>
    let nm := eff a inh in
    do (tag, d) <- build_elem n a nm ctx;
    do ks <- traverse (build_child nm nm) kids;
    Ok (XElem tag d t None ks)
  end.
(* _build_meta, lines 432-438 *)
Definition build_meta (inh ctx : dict str) (m : meta) : res xelem :=
  let nm := eff (me_attrs m) inh in
  do (tag, d) <- build_elem (L "meta") (me_attrs m) nm ctx;
  do ks <- traverse (build_child nm nm) (me_kids m);
  Ok (XElem tag d (me_text m) None ks).
(* _build_metadata, lines 424-429 *)
Definition build_metadata (inh ctx : dict str) (m : metadata) : res xelem :=
  let nm := eff (md_attrs m) inh in
  do (tag, d) <- build_elem (L "metadata") (md_attrs m) nm ctx;
  do ks <- traverse (build_meta nm nm) (md_metas m);
  Ok (XElem tag d None None ks).
(* _build_item, lines 418-421 *)
Definition build_item (inh ctx : dict str) (i : item) : res xelem :=
  let nm := eff (it_attrs i) inh in
  do (tag, d) <- build_elem (L "item") (it_attrs i) nm ctx;
  Ok (XElem tag d (it_text i) None []).
(* _build_tier, lines 408-415 *)
Definition build_tier (inh ctx : dict str) (t : tier) : res xelem :=
  let nm := eff (t_attrs t) inh in
  do (tag, d) <- build_elem (L "tier") (t_attrs t) nm ctx;
  do ms <- traverse (build_metadata nm nm) (t_md t);
  do ks <- traverse (build_item nm nm) (t_items t);
  Ok (XElem tag d None None (ms ++ ks)).
(* _build_igt, lines 398-405 *)
Definition build_igt (inh ctx : dict str) (g : igt) : res xelem :=
  let nm := eff (g_attrs g) inh in
  do (tag, d) <- build_elem (L "igt") (g_attrs g) nm ctx;
  do ms <- traverse (build_metadata nm nm) (g_md g);
  do ks <- traverse (build_tier nm nm) (g_tiers g);
  Ok (XElem tag d None None (ms ++ ks)).
(* _build_corpus, lines 388-395 *)
Definition build_corpus (c : corpus) : res xelem :=
  let nm := eff (c_attrs c) [] in
  do (tag, d) <- build_elem (L "xigt-corpus") (c_attrs c) nm [];
  do ms <- traverse (build_metadata nm nm) (c_md c);
  do ks <- traverse (build_igt nm nm) (c_igts c);
  Ok (XElem tag d None None (ms ++ ks)).

Section Xml.
Context {U : Unicode}.

(* _indent, lines 451-469 *)
Definition blank (t : option str) : bool := match t with None => true | Some s => str_eqb (strip s) [] end.
Definition spaces (n : nat) : str := repeat (Ch " ") n.
Definition newline_indent (n level : nat) : str := 10%N :: spaces (n * level).
Definition set_blank_tail (i : str) (e : xelem) : xelem :=
  match e with XElem tag d text tail kids => XElem tag d text (if blank tail then Some i else tail) kids end.
Fixpoint on_last {A} (f : A -> A) (l : list A) : list A :=
  match l with
  | [] => []
  | [x] => [f x]
  | x :: l' => x :: on_last f l'
  end.
Fixpoint indent_elem (n level : nat) (e : xelem) : xelem :=
  match e with
  | XElem tag d text tail kids =>
    let i := newline_indent n level in
    match kids with
    | [] => XElem tag d text (if negb (level =? 0) && blank tail then Some i else tail) []
    | _ => XElem tag d (if blank text then Some (i ++ spaces n) else text) (if blank tail then Some i else tail)
             (on_last (set_blank_tail i) (map (indent_elem n (S level)) kids))
    end
  end.
Definition indent_opt (indent : option nat) (e : xelem) : xelem :=
  match indent with None => e | Some n => indent_elem n 0 e end.

(* ---------- decoding ---------- *)

(* XigtAttributeMixin.__init__ with the id check, after elem.attrib.nsmap was
   taken; get_attributes, lines 230-234 *)
Definition ignoring (ignore : list str) (d : dict str) : dict str :=
  filter (fun kv => negb (existsb (str_eqb (fst kv)) ignore)) d.
Definition decode_attrs (id type : option str) (ignore : list str) (ns : option str) (p : pelem) : res attrs :=
  match p_nsmap p with
  | None => Err AttributeError
  | Some m =>
    let a := {| a_id := id; a_type := type; a_dict := ignoring ignore (p_attrib p); a_ns := ns; a_nsmap := Some m |} in
    match id with
    | Some i => if id_accepted i then Ok a else Err ValueError
    | None => Ok a
    end
  end.
(* XigtContainerMixin.extend: ids must be new *)
Fixpoint check_ids (seen : list str) (l : list (option str)) : res unit :=
  match l with
  | [] => Ok tt
  | None :: l => check_ids seen l
  | Some i :: l => if existsb (str_eqb i) seen then Err XigtError else check_ids (i :: seen) l
  end.
Definition new_container {A} (idof : A -> option str) (l : list A) : res (list A) :=
  do _ <- check_ids [] (map idof l); Ok l.

(* ns, tag = _qname_split(elem.tag); assert tag == name *)
Definition expect_tag (name : str) (p : pelem) : res (option str) :=
  do (ns, tag) <- qname_split (p_tag p);
  if str_eqb tag name then Ok ns else Err AssertionError.
(* elem.findall(name) *)
Definition find_kids (name : str) (p : pelem) : list pelem := filter (fun k => str_eqb (p_tag k) name) (p_kids p).
Definition pget (k : str) (p : pelem) : option str := dget (p_attrib p) k.

(* name_re, xigt/metadata.py:15: ^[^\W\d][-.\w]*$ (the $ also matches before a
   final newline) *)
Definition name_accepted (n : str) : bool :=
  let word s := match s with
                | [] => false
                | c :: s => is_word c && negb (is_digit c) && forallb (fun c => is_word c || N.eqb c (Ch "-") || N.eqb c (Ch ".")) s
                end in
  word n || match rev n with c :: r => N.eqb c 10 && word (rev r) | [] => false end.

(* text if text.strip() else None, with text = elem.text or '' *)
Definition meta_text (p : pelem) : option str := if blank (p_text p) then None else p_text p.

(* default_decode_metachild, lines 338-350 *)
Fixpoint decode_child (p : pelem) : res mchild :=
  match p with
  | PElem tag d m text tail kids =>
    do (ns, name) <- qname_split tag;
    do ks <- traverse decode_child kids;
    do a <- decode_attrs None None [ID; TYPE] ns p;
    if name_accepted name then Ok (MChild name a (meta_text p) ks) else Err ValueError
  end.
(* default_decode_meta, lines 318-335 *)
Definition decode_meta (p : pelem) : res meta :=
  do ns <- expect_tag (L "meta") p;
  do ks <- traverse decode_child (p_kids p);
  do a <- decode_attrs (pget ID p) (pget TYPE p) [ID; TYPE] ns p;
  Ok {| me_attrs := a; me_text := meta_text p; me_kids := ks |}.
(* default_decode_metadata, lines 301-315 *)
Definition decode_metadata (p : pelem) : res metadata :=
  do ns <- expect_tag (L "metadata") p;
  do ms <- traverse decode_meta (find_kids (L "meta") p);
  do a <- decode_attrs (pget ID p) (pget TYPE p) [ID; TYPE] ns p;
  do ms <- new_container (fun m => a_id (me_attrs m)) ms;
  Ok {| md_attrs := a; md_metas := ms |}.
Definition decode_metadatas (p : pelem) : res (list metadata) :=
  do ms <- traverse decode_metadata (find_kids (L "metadata") p);
  new_container (fun m => a_id (md_attrs m)) ms.
(* default_decode_item, lines 286-298 *)
Definition decode_item (p : pelem) : res item :=
  do ns <- expect_tag (L "item") p;
  do a <- decode_attrs (pget ID p) (pget TYPE p) [ID; TYPE] ns p;
  Ok {| it_attrs := a; it_text := p_text p |}.
(* default_decode_tier, lines 270-283 *)
Definition decode_tier (p : pelem) : res tier :=
  do ns <- expect_tag (L "tier") p;
  do ms <- decode_metadatas p;
  do is_ <- traverse decode_item (find_kids (L "item") p);
  do a <- decode_attrs (pget ID p) (pget TYPE p) [ID; TYPE] ns p;
  do is_ <- new_container (fun i => a_id (it_attrs i)) is_;
  Ok {| t_attrs := a; t_md := ms; t_items := is_ |}.
(* default_decode_igt, lines 254-267 *)
Definition decode_igt (p : pelem) : res igt :=
  do ns <- expect_tag (L "igt") p;
  do ms <- decode_metadatas p;
  do ts <- traverse decode_tier (find_kids (L "tier") p);
  do a <- decode_attrs (pget ID p) (pget TYPE p) [ID; TYPE] ns p;
  do ts <- new_container (fun t => a_id (t_attrs t)) ts;
  Ok {| g_attrs := a; g_md := ms; g_tiers := ts |}.
(* default_decode_xigtcorpus, lines 237-251, with the igts to decode *)
Definition decode_xigtcorpus (p : pelem) (igts : list pelem) : res corpus :=
  do ns <- expect_tag (L "xigt-corpus") p;
  do ms <- decode_metadatas p;
  do a <- decode_attrs (pget ID p) None [ID] ns p;
  do gs <- traverse decode_igt igts;
  do gs <- new_container (fun g => a_id (g_attrs g)) gs;
  Ok {| c_attrs := a; c_md := ms; c_igts := gs |}.

(* the events of iterparse *)
Inductive event := EvStart (p : pelem) | EvEnd (p : pelem).
Fixpoint events (p : pelem) : list event :=
  match p with
  | PElem _ _ _ _ _ kids => EvStart p :: (fix go (l : list pelem) : list event :=
      match l with [] => [] | k :: l => events k ++ go l end) kids ++ [EvEnd p]
  end.
Definition is_start (name : str) (e : event) : bool :=
  match e with EvStart p => str_eqb (p_tag p) name | EvEnd _ => false end.
Definition is_end (name : str) (e : event) : bool :=
  match e with EvEnd p => str_eqb (p_tag p) name | EvStart _ => false end.
(* iter_elements, lines 201-209: None when the events run out *)
Fixpoint iter_elements (tag : str) (break_on : event -> bool) (evs : list event) : option (list pelem) :=
  match evs with
  | [] => None
  | e :: evs =>
    if break_on e then Some []
    else
      let rest := iter_elements tag break_on evs in
      match e with
      | EvEnd p => if str_eqb (p_tag p) tag then option_map (cons p) rest else rest
      | EvStart _ => rest
      end
  end.
(* the loop of default_decode, lines 216-217: the event found and what follows *)
Fixpoint skip_to (stop : event -> bool) (evs : list event) : option (event * list event) :=
  match evs with
  | [] => None
  | e :: evs => if stop e then Some (e, evs) else skip_to stop evs
  end.
(* The elements grow while the file is read.  When an event is taken, those
   before it were taken, and iterparse has read some more (the file comes in
   blocks of 16384 characters; how many events that is depends on the file).
   An element is in the tree from its start on, its text from the next event
   on; ns_iterparse (lines 175-196) exchanges its attrib when its start is
   taken.  What is seen of p, the start of which is event s, when c events were
   taken and a were read: *)
Fixpoint view (c a s : nat) (p : pelem) : pelem :=
  match p with
  | PElem tag d m text tail kids =>
    PElem tag d (if s <? c then m else None) (if S s <? a then text else None) tail
      ((fix go (s : nat) (l : list pelem) : list pelem :=
          match l with
          | [] => []
          | k :: l => if s <? a then view c a s k :: go (s + length (events k)) l else []
          end) (S s) kids)
  end.
(* Element.clear() leaves a plain dict (CPython, with the accelerator) and the tag *)
Definition cleared (p : pelem) : pelem := PElem (p_tag p) [] None None None [].
(* an igt at its end: igts within had theirs before, so they were decoded and
   cleared (line 266) *)
Fixpoint scrub (p : pelem) : pelem :=
  match p with
  | PElem tag d m text tail kids => if str_eqb tag (L "igt") then cleared p else PElem tag d m text tail (map scrub kids)
  end.
Definition at_end (p : pelem) : pelem :=
  match p with PElem tag d m text tail kids => PElem tag d m text tail (map scrub kids) end.
(* whether the first igt is in a meta of the corpus, so that decoding the corpus
   (for which its start was the signal) clears it (line 349) *)
Fixpoint has_igt (p : pelem) : bool :=
  match p with PElem tag _ _ _ _ kids => str_eqb tag (L "igt") || existsb has_igt kids end.
Definition igt_in_meta (root : pelem) : bool :=
  match find has_igt (p_kids root) with
  | Some md =>
    str_eqb (p_tag md) (L "metadata") &&
    match find has_igt (p_kids md) with Some m => str_eqb (p_tag m) (L "meta") | None => false end
  | None => false
  end.
(* then at its end, n events later, it has no attributes *)
Definition spent (p : pelem) : pelem := match p with PElem tag _ _ text tail kids => PElem tag [] None text tail kids end.
Fixpoint spend (n : nat) (evs : list event) : list event :=
  match n, evs with
  | O, EvEnd p :: evs => EvEnd (spent p) :: evs
  | S n, e :: evs => e :: spend n evs
  | _, _ => evs
  end.
(* default_decode, lines 212-227; mk is decode_xigtcorpus in mode full (other modes:
   PartitionRun.v); ahead is how many events were read
   beyond the one the loop stops at.  The loop inside the generator turns
   StopIteration into RuntimeError (PEP 479); it ends only after the igts
   before were added, which does not matter as the exception leaves nothing. *)
Definition decode_with {A} (mk : pelem -> list pelem -> res A) (ahead : nat) (root : pelem) : res A :=
  let evs := events root in
  match skip_to (fun e => is_start (L "igt") e || is_end (L "xigt-corpus") e) evs with
  | None => Err StopIteration
  | Some (e, rest) =>
    let taken := length evs - length rest in
    let seen := view taken (taken + ahead) 0 root in
    match e with
    | EvStart p =>
      let rest := if igt_in_meta root then spend (length (events p) - 2) rest else rest in
      match iter_elements (L "igt") (is_end (L "xigt-corpus")) rest with
      | Some igts => mk seen (map at_end igts)
      | None => Err RuntimeError
      end
    | EvEnd _ => mk seen (find_kids (L "igt") seen)
    end
  end.
Definition decode : nat -> pelem -> res corpus := decode_with decode_xigtcorpus.

(* loads(dumps(xc, indent=indent)) *)
Definition xml_dump (c : corpus) (indent : option nat) : res xelem :=
  do e <- build_corpus c; Ok (indent_opt indent e).
Definition xml_load (ahead : nat) (e : xelem) : res corpus :=
  do p <- reread [] e; decode ahead p.

End Xml.
