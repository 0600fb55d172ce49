(* Element trees as text: what xml.etree.ElementTree writes, and what is read
   from a text.  Definitions only.

   As XmlStd.v this is the part of the standard library (and expat) that
   xigtxml.py relies on, not code of the project: ElementTree._serialize_xml,
   _escape_cdata and _escape_attrib of CPython 3.9 and later, and XML 1.0 without
   document type declarations.  Files are texts, their encoding is not modelled. *)
From Verif Require Import PyStr PySort Ref Model XmlStd Xml.

(* ---------- writing ---------- *)

Definition escape_cdata1 (c : N) : str :=
  if N.eqb c (Ch "&") then L "&amp;" else if N.eqb c (Ch "<") then L "&lt;" else if N.eqb c (Ch ">") then L "&gt;" else [c].
Definition escape_cdata (s : str) : str := flat_map escape_cdata1 s.
Definition escape_attrib1 (c : N) : str :=
  if N.eqb c 34 then L "&quot;" else if N.eqb c 13 then L "&#13;" else if N.eqb c 10 then L "&#10;" else if N.eqb c 9 then L "&#09;"
  else escape_cdata1 c.
Definition escape_attrib (s : str) : str := flat_map escape_attrib1 s.
Definition write_attr (kv : str * str) : str := Ch " " :: fst kv ++ L "=" ++ 34%N :: escape_attrib (snd kv) ++ [34%N].
Definition text_of (t : option str) : str := match t with Some s => s | None => [] end.
(* no text and no children: the short form *)
Definition is_short {A} (text : option str) (kids : list A) : bool :=
  match text_of text, kids with [], [] => true | _, _ => false end.
Fixpoint write_elem (e : xelem) : str :=
  match e with
  | XElem tag d text tail kids =>
    Ch "<" :: tag ++ flat_map write_attr d
    ++ (if is_short text kids then L " />"
        else Ch ">" :: escape_cdata (text_of text) ++ flat_map write_elem kids ++ L "</" ++ tag ++ L ">")
    ++ escape_cdata (text_of tail)
  end.

(* ---------- reading ---------- *)

(* white space, after ends of lines were normalised *)
Definition xml_ws (c : N) : bool := N.eqb c 32 || N.eqb c 9 || N.eqb c 10 || N.eqb c 13.
Fixpoint skip_ws (s : str) : str := match s with c :: r => if xml_ws c then skip_ws r else s | [] => [] end.
(* the characters of names; whether it is one is seen when prefixes are resolved *)
Definition tag_char (c : N) : bool := name_char c || N.eqb c (Ch ":").
Fixpoint take_name (s : str) : str * str :=
  match s with
  | c :: r => if tag_char c then let (n, r) := take_name r in (c :: n, r) else ([], s)
  | [] => ([], [])
  end.
(* references *)
Fixpoint digits_N (base : N) (val : N -> option N) (acc : N) (s : str) : option N :=
  match s with
  | [] => Some acc
  | c :: s => match val c with Some d => digits_N base val (acc * base + d) s | None => None end
  end.
Definition dec_val (c : N) : option N := if in_range 48 57 c then Some (c - 48)%N else None.
Definition hex_val (c : N) : option N :=
  if in_range 48 57 c then Some (c - 48)%N else if in_range 97 102 c then Some (c - 87)%N else if in_range 65 70 c then Some (c - 55)%N else None.
Definition char_of (o : option N) : res N := match o with Some c => if xml_char c then Ok c else Err ParseError | None => Err ParseError end.
Definition reference (b : str) : res N :=
  if str_eqb b (L "lt") then Ok (Ch "<") else if str_eqb b (L "gt") then Ok (Ch ">") else if str_eqb b (L "amp") then Ok (Ch "&")
  else if str_eqb b (L "quot") then Ok 34%N else if str_eqb b (L "apos") then Ok 39%N
  else match b with
       | h :: x :: r =>
         if N.eqb h (Ch "#") then
           if N.eqb x (Ch "x") then match r with [] => Err ParseError | _ => char_of (digits_N 16 hex_val 0 r) end
           else char_of (digits_N 10 dec_val 0 (x :: r))
         else Err ParseError
       | _ => Err ParseError
       end.
(* after the ampersand: the character and what follows *)
Definition read_reference (s : str) : res (N * str) :=
  match split1 (Ch ";") s with Some (b, r) => do c <- reference b; Ok (c, r) | None => Err ParseError end.
(* text up to the next markup *)
Fixpoint read_data (fuel : nat) (s : str) : res (str * str) :=
  match fuel, s with
  | _, [] => Ok ([], [])
  | O, _ => Err ParseError
  | S f, c :: r =>
    if N.eqb c (Ch "<") then Ok ([], s)
    else if N.eqb c (Ch "&") then do (x, r) <- read_reference r; do (t, r) <- read_data f r; Ok (x :: t, r)
    else if startswith (L "]]>") s then Err ParseError
    else if xml_char c then do (t, r) <- read_data f r; Ok (c :: t, r) else Err ParseError
  end.
(* the value of an attribute up to its quote *)
Fixpoint read_value (fuel : nat) (q : N) (s : str) : res (str * str) :=
  match fuel, s with
  | S f, c :: r =>
    if N.eqb c q then Ok ([], r)
    else if N.eqb c (Ch "<") then Err ParseError
    else if N.eqb c (Ch "&") then do (x, r) <- read_reference r; do (t, r) <- read_value f q r; Ok (x :: t, r)
    else if xml_char c then do (t, r) <- read_value f q r; Ok ((if xml_ws c then 32%N else c) :: t, r) else Err ParseError
  | _, _ => Err ParseError
  end.
(* the rest of a start tag: its attributes, whether the element is empty, and
   what follows *)
Fixpoint read_start (fuel : nat) (seen : list str) (s : str) : res (dict str * bool * str) :=
  match fuel with
  | O => Err ParseError
  | S f =>
    match skip_ws s with
    | c :: r =>
      if N.eqb c (Ch ">") then Ok ([], false, r)
      else if N.eqb c (Ch "/") then
        match r with c' :: r' => if N.eqb c' (Ch ">") then Ok ([], true, r') else Err ParseError | [] => Err ParseError end
      else if match s with c :: _ => xml_ws c | [] => false end then
        let (n, r) := take_name (c :: r) in
        match n, skip_ws r with
        | _ :: _, e :: r =>
          if N.eqb e (Ch "=") then
            match skip_ws r with
            | q :: r =>
              if N.eqb q 34 || N.eqb q 39 then
                do (v, r) <- read_value (S (length r)) q r;
                if existsb (str_eqb n) seen then Err ParseError
                else do (d, short, r) <- read_start f (n :: seen) r; Ok ((n, v) :: d, short, r)
              else Err ParseError
            | [] => Err ParseError
            end
          else Err ParseError
        | _, _ => Err ParseError
        end
      else Err ParseError
    | [] => Err ParseError
    end
  end.
(* text before the first occurrence of a mark, and what follows it *)
Fixpoint until (mark s : str) : option (str * str) :=
  if startswith mark s then Some ([], skipn (length mark) s)
  else match s with c :: r => option_map (fun '(a, b) => (c :: a, b)) (until mark r) | [] => None end.

(* the markup and the text of a document; [plain] text is neither a reference nor
   in a CDATA section *)
Inductive token := TOpen (tag : str) (d : dict str) | TClose (tag : str) | TData (plain : bool) (s : str).
Definition lower1 (c : N) : N := if in_range 65 90 c then (c + 32)%N else c.
Fixpoint tokens (fuel : nat) (s : str) : res (list token) :=
  match fuel, s with
  | _, [] => Ok []
  | O, _ => Err ParseError
  | S f, c :: r =>
    if negb (N.eqb c (Ch "<")) then
      do (t, r') <- read_data (length s) s;
      do l <- tokens f r'; Ok (TData (negb (char_in (Ch "&") (firstn (length s - length r') s))) t :: l)
    else if startswith (L "!--") r then
      match until (L "--") (skipn 3 r) with
      | Some (t, r) => match r with c :: r => if N.eqb c (Ch ">") && xml_chars t then tokens f r else Err ParseError | [] => Err ParseError end
      | None => Err ParseError
      end
    else if startswith (L "![CDATA[") r then
      match until (L "]]>") (skipn 8 r) with
      | Some (t, r) => if xml_chars t then do l <- tokens f r; Ok (TData false t :: l) else Err ParseError
      | None => Err ParseError
      end
    else if startswith (L "?") r then
      let (n, r) := take_name (skipn 1 r) in
      match until (L "?>") r with
      | Some (t, r) =>
        if ncname n && negb (str_eqb (map lower1 n) (L "xml")) && xml_chars t && match t with [] => true | c :: _ => xml_ws c end then tokens f r
        else Err ParseError
      | None => Err ParseError
      end
    else if startswith (L "/") r then
      let (n, r) := take_name (skipn 1 r) in
      match skip_ws r with c :: r => if N.eqb c (Ch ">") then do l <- tokens f r; Ok (TClose n :: l) else Err ParseError | [] => Err ParseError end
    else
      let (n, r) := take_name r in
      do (d, short, r) <- read_start (S (length r)) [] r;
      match n with
      | [] => Err ParseError
      | _ => do l <- tokens f r; Ok (TOpen n d :: if short : bool then TClose n :: l else l)
      end
  end.

(* TreeBuilder: the open elements, innermost first, their children last first *)
Record frame := { f_tag : str; f_attrib : dict str; f_text : str; f_kids : list xelem }.
Definition opt_text (s : str) : option str := match s with [] => None | _ => Some s end.
Definition add_data (s : str) (f : frame) : frame :=
  match f_kids f with
  | [] => {| f_tag := f_tag f; f_attrib := f_attrib f; f_text := f_text f ++ s; f_kids := [] |}
  | XElem tag d text tail kids :: l =>
    {| f_tag := f_tag f; f_attrib := f_attrib f; f_text := f_text f; f_kids := XElem tag d text (opt_text (text_of tail ++ s)) kids :: l |}
  end.
Definition add_kid (e : xelem) (f : frame) : frame :=
  {| f_tag := f_tag f; f_attrib := f_attrib f; f_text := f_text f; f_kids := e :: f_kids f |}.
Definition close_frame (f : frame) : xelem := XElem (f_tag f) (f_attrib f) (opt_text (f_text f)) None (rev (f_kids f)).
Definition blank_token (t : token) : bool := match t with TData plain s => plain && forallb xml_ws s | _ => false end.
Fixpoint grow (open : list frame) (l : list token) : res xelem :=
  match l with
  | [] => Err ParseError
  | TOpen tag d :: l => grow ({| f_tag := tag; f_attrib := d; f_text := []; f_kids := [] |} :: open) l
  | TData plain s :: l =>
    match open with
    | [] => if blank_token (TData plain s) then grow [] l else Err ParseError
    | f :: open => grow (add_data s f :: open) l
    end
  | TClose tag :: l =>
    match open with
    | [] => Err ParseError
    | f :: open =>
      if str_eqb tag (f_tag f) then
        match open with
        | [] => if forallb blank_token l then Ok (close_frame f) else Err ParseError
        | g :: open => grow (add_kid (close_frame f) g :: open) l
        end
      else Err ParseError
    end
  end.

(* a byte order mark and an XML declaration may come first; what the declaration
   says is not looked at *)
Definition prolog (s : str) : res str :=
  let s := match s with c :: r => if N.eqb c 65279 then r else s | [] => [] end in
  if startswith (L "<?xml") s && match skipn 5 s with c :: _ => xml_ws c | [] => false end
  then match until (L "?>") s with Some (t, r) => if xml_chars t then Ok r else Err ParseError | None => Err ParseError end
  else Ok s.
Definition parse_text (s : str) : res xelem :=
  do s <- prolog (eol s);
  do l <- tokens (S (length s)) s;
  grow [] l.

(* Names resolved as in XmlStd.reread; characters and ends of lines were seen to
   when the text was read. *)
Fixpoint resolve (scope : dict str) (e : xelem) : res pelem :=
  match e with
  | XElem tag d text tail kids =>
    do scope' <- read_decls scope d;
    do tag' <- read_name scope' true tag;
    do d' <- read_attrs scope' d;
    do kids' <- traverse (resolve scope') kids;
    Ok (PElem tag' d' (Some scope') text tail kids')
  end.

Section XmlText.
Context {U : Unicode}.
(* xigtxml.loads, lines 57-60, and dumps, lines 76-81 *)
Definition loads (ahead : nat) (s : str) : res corpus := do e <- parse_text s; do p <- resolve [] e; decode ahead p.
Definition dumps (c : corpus) (indent : option nat) : res str := do e <- xml_dump c indent; Ok (write_elem e).
End XmlText.
