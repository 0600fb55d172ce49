(* Element trees, and what writing one with xml.etree.ElementTree and reading
   it back with iterparse gives.  Definitions only.

   This is the part of the standard library (and expat) that xigtxml.py relies
   on, not code of the project.  Assumed: the writer escapes markup, and tabs
   and newlines in attribute values (CPython 3.9 and later), so these survive;
   the reader checks well-formedness and namespaces, and turns \r and \r\n in
   text into \n.  Names are those of XML 1.0, fifth edition (expat implements
   the slightly smaller set of the fourth). *)
From Verif Require Import PyStr.

(* Element: tag, attrib, text, tail, children *)
Inductive xelem := XElem (tag : str) (attrib : dict str) (text tail : option str) (kids : list xelem).
(* an element as the parser delivers it: names in the form {uri}name, and the
   prefixes in scope (the NSAttribDict of ns_iterparse; None when attrib is a
   plain dict, which has no attribute nsmap) *)
Inductive pelem := PElem (tag : str) (attrib : dict str) (nsmap : option (dict str)) (text tail : option str) (kids : list pelem).

Definition p_tag (p : pelem) : str := let 'PElem t _ _ _ _ _ := p in t.
Definition p_attrib (p : pelem) : dict str := let 'PElem _ d _ _ _ _ := p in d.
Definition p_nsmap (p : pelem) : option (dict str) := let 'PElem _ _ m _ _ _ := p in m.
Definition p_text (p : pelem) : option str := let 'PElem _ _ _ t _ _ := p in t.
Definition p_kids (p : pelem) : list pelem := let 'PElem _ _ _ _ _ k := p in k.

(* Names without colons *)
Definition in_any (l : list (N * N)) (c : N) : bool := existsb (fun r => in_range (fst r) (snd r) c) l.
Definition name_start_char : N -> bool :=
  in_any [(65, 90); (95, 95); (97, 122); (192, 214); (216, 246); (248, 767); (880, 893); (895, 8191);
          (8204, 8205); (8304, 8591); (11264, 12271); (12289, 55295); (63744, 64975); (65008, 65533); (65536, 983039)]%N.
Definition name_char (c : N) : bool :=
  name_start_char c || in_any [(45, 46); (48, 57); (183, 183); (768, 879); (8255, 8256)]%N c.
Definition ncname (s : str) : bool :=
  match s with [] => false | c :: s => name_start_char c && forallb name_char s end.
(* Char *)
Definition xml_char : N -> bool := in_any [(9, 10); (13, 13); (32, 55295); (57344, 65533); (65536, 1114111)]%N.
Definition xml_chars (s : str) : bool := forallb xml_char s.

(* end-of-line handling *)
Fixpoint eol (s : str) : str :=
  match s with
  | [] => []
  | c :: s' =>
    if N.eqb c 13 then
      match s' with
      | c' :: s'' => if N.eqb c' 10 then 10%N :: eol s'' else 10%N :: eol s'
      | [] => [10%N]
      end
    else c :: eol s'
  end.
Definition read_text (t : option str) : res (option str) :=
  match t with
  | None | Some [] => Ok None
  | Some s => if xml_chars s then Ok (Some (eol s)) else Err ParseError
  end.

Definition XMLNS : str := L "xmlns".
Definition XML_URI : str := L "http://www.w3.org/XML/1998/namespace".
Definition XMLNS_URI : str := L "http://www.w3.org/2000/xmlns/".
Definition in_ns (uri name : str) : str := L "{" ++ uri ++ L "}" ++ name.

(* the prefix declared by an attribute: xmlns:p declares p, xmlns the empty one *)
Definition declares (k : str) : option str :=
  if str_eqb k XMLNS then Some []
  else if startswith (L "xmlns:") k then Some (skipn 6 k) else None.
Definition valid_decl (p uri : str) : bool :=
  xml_chars uri && negb (str_eqb uri XMLNS_URI) && Bool.eqb (str_eqb p (L "xml")) (str_eqb uri XML_URI)
  && match p with [] => true | _ => ncname p && negb (str_eqb p XMLNS) && negb (str_eqb uri []) end.
Fixpoint read_decls (scope : dict str) (d : dict str) : res (dict str) :=
  match d with
  | [] => Ok scope
  | (k, v) :: d =>
    match declares k with
    | None => read_decls scope d
    | Some p =>
      (* xmlns: with nothing after it is not a name *)
      if valid_decl p v && (str_eqb k XMLNS || negb (str_eqb p [])) then read_decls (dset scope p v) d else Err ParseError
    end
  end.
(* names with at most one colon; unprefixed tags are in the default namespace *)
Definition read_name (scope : dict str) (default : bool) (q : str) : res str :=
  match split1 (Ch ":") q with
  | None =>
    if ncname q then
      match (if default then dget scope [] else None) with
      | None | Some [] => Ok q
      | Some u => Ok (in_ns u q)
      end
    else Err ParseError
  | Some (p, l) =>
    if ncname p && ncname l then
      if str_eqb p (L "xml") then Ok (in_ns XML_URI l)
      else match dget scope p with Some u => Ok (in_ns u l) | None => Err ParseError end
    else Err ParseError
  end.
Fixpoint read_attrs (scope : dict str) (d : dict str) : res (dict str) :=
  match d with
  | [] => Ok []
  | (k, v) :: d =>
    match declares k with
    | Some _ => read_attrs scope d
    | None =>
      do k' <- read_name scope false k;
      do d' <- read_attrs scope d;
      if xml_chars v && negb (dmem d' k') then Ok ((k', v) :: d') else Err ParseError
    end
  end.

Definition traverse {A B} (f : A -> res B) : list A -> res (list B) :=
  fix go (l : list A) : res (list B) :=
    match l with
    | [] => Ok []
    | x :: l' => do y <- f x; do ys <- go l'; Ok (y :: ys)
    end.

Fixpoint reread (scope : dict str) (e : xelem) : res pelem :=
  match e with
  | XElem tag d text tail kids =>
    do scope' <- read_decls scope d;
    do tag' <- read_name scope' true tag;
    do d' <- read_attrs scope' d;
    do text' <- read_text text;
    do kids' <- traverse (reread scope') kids;
    do tail' <- read_text tail;
    Ok (PElem tag' d' (Some scope') text' tail' kids')
  end.
