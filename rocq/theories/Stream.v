(* Model of reading in mode transient, igt by igt: xigt/codecs/xigtxml.py lines 52-54
   and 201-251 with xigt/model.py lines 77-107.  Definitions only.

   A corpus in mode transient gives its igts while the document is read, so an error in
   the document comes after the igts before it.  Simplification: what is read of a text
   that is not well-formed is a parameter ([before]): nothing, so that loading fails, or
   some igts; it depends on the blocks in which the text is read. *)
From Verif Require Import PyStr Ref Model XmlStd Xml XmlText.

(* an exception after some results, if any *)
Fixpoint lazily {A B} (f : A -> res B) (l : list A) (end_ : option exn) : list B * option exn :=
  match l with
  | [] => ([], end_)
  | x :: l =>
    match f x with
    | Err e => ([], Some e)
    | Ok y => let (ys, e) := lazily f l end_ in (y :: ys, e)
    end
  end.
(* iter_elements, lines 201-209, as a generator: what it yields, and whether it comes
   to the end of the corpus; if not, next raises StopIteration in it, which is a
   RuntimeError outside (PEP 479) *)
Fixpoint iter_lazily (tag : str) (break_on : event -> bool) (evs : list event) : list pelem * bool :=
  match evs with
  | [] => ([], false)
  | e :: evs =>
    if break_on e then ([], true)
    else
      let (rest, b) := iter_lazily tag break_on evs in
      match e with
      | EvEnd p => (if str_eqb (p_tag p) tag then p :: rest else rest, b)
      | EvStart _ => (rest, b)
      end
  end.

Section Stream.
Context {U : Unicode}.

(* decode_xigtcorpus, lines 237-251: the corpus, which has no members *)
Definition open_corpus (p : pelem) : res corpus :=
  do ns <- expect_tag (L "xigt-corpus") p;
  do ms <- decode_metadatas p;
  do a <- decode_attrs (pget ID p) None [ID] ns p;
  Ok {| c_attrs := a; c_md := ms; c_igts := [] |}.
(* default_decode, lines 212-227, and iteration over the corpus.  Where no igt was
   found, the list of igts (it is empty) is made before the iteration. *)
Record stream := { st_corpus : corpus; st_igts : list igt; st_end : option exn }.
Definition decode_stream (ahead : nat) (root : pelem) : res stream :=
  let evs := events root in
  match skip_to (fun e => is_start (L "igt") e || is_end (L "xigt-corpus") e) evs with
  | None => Err StopIteration
  | Some (e, rest) =>
    let taken := length evs - length rest in
    let seen := view taken (taken + ahead) 0 root in
    match e with
    | EvStart p =>
      let rest := if igt_in_meta root then spend (length (events p) - 2) rest else rest in
      let (igts, ended) := iter_lazily (L "igt") (is_end (L "xigt-corpus")) rest in
      do c <- open_corpus seen;
      let (gs, x) := lazily decode_igt (map at_end igts) (if ended then None else Some RuntimeError) in
      Ok {| st_corpus := c; st_igts := gs; st_end := x |}
    | EvEnd _ =>
      do c <- open_corpus seen;
      do gs <- traverse decode_igt (find_kids (L "igt") seen);
      Ok {| st_corpus := c; st_igts := gs; st_end := None |}
    end
  end.

Variable before : str -> option stream.
(* xigtxml.load(f, mode='transient') *)
Definition load_stream (ahead : nat) (s : str) : res stream :=
  match (do e <- parse_text s; resolve [] e) with
  | Err x => match before s with None => Err x | Some st => Ok {| st_corpus := st_corpus st; st_igts := st_igts st; st_end := Some x |} end
  | Ok p => decode_stream ahead p
  end.
End Stream.
