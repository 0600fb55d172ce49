(* Model of the Toolbox importer, xigt/importers/toolbox.py.  Definitions only.

   What the package toolbox (not part of the repository) yields is given: the
   records, and for a record the aligned fields.  Simplifications: the options
   have the types shown in the comment at the top of the file; the error recovery method is part of what
   align_fields yields, and a ToolboxError of that package is not modelled; tiers and items
   that are aligned to have ids (make_tier gave them); str.lower and
   str.isalpha are parameters; warnings, logging and the output file are not
   modelled. *)
From Verif Require Import PyStr Regex Ref Model Xml Odin.

(* ---------- columns ---------- *)

(* \s in a bytes pattern *)
Definition byte_space (b : N) : bool := in_range 9 13 b || N.eqb b 32.
Definition byte_other (b : N) : bool := negb (byte_space b).
(* \s*\S+\s*, line 348 *)
Definition token_re : re :=
  RSeq (RStar true (RChr byte_space)) (RSeq (RPlus true (RChr byte_other)) (RStar true (RChr byte_space))).
(* line.rstrip(b'\n'), line 347 *)
Fixpoint lstrip_nl (s : list N) : list N :=
  match s with c :: s' => if N.eqb c 10 then lstrip_nl s' else s | [] => [] end.
Definition rstrip_nl (s : list N) : list N := rev (lstrip_nl (rev s)).
(* s.ljust(n) *)
Definition ljust (s : str) (n : nat) : str := s ++ repeat 32%N (n - length s).

(* _respace_decode, lines 345-352; decode is bytes.decode(encoding) *)
Definition respace_decode (decode : list N -> res str) (line : list N) : res str :=
  do toks <- mapM (fun m => do t <- decode (capd 0 m); Ok (ljust t (r_end m - r_start m)))
                  (finditer (RGroup 0 token_re) (rstrip_nl line));
  Ok (List.concat toks).

(* bytes.decode('utf-8'), the default encoding: the decoder of the standard
   library, strict.  UnicodeDecodeError is a ValueError. *)
Definition cont (b : N) : bool := in_range 128 191 b.
Definition push (c : N) (r : res str) : res str := do s <- r; Ok (c :: s).
Fixpoint utf8 (s : list N) : res str :=
  match s with
  | [] => Ok []
  | b :: s1 =>
    if (b <? 128)%N then push b (utf8 s1)
    else match s1 with
    | [] => Err ValueError
    | b1 :: s2 =>
      if in_range 194 223 b then
        if cont b1 then push ((b - 192) * 64 + (b1 - 128))%N (utf8 s2) else Err ValueError
      else match s2 with
      | [] => Err ValueError
      | b2 :: s3 =>
        if in_range 224 239 b then
          if (if N.eqb b 224 then in_range 160 191 b1 else if N.eqb b 237 then in_range 128 159 b1 else cont b1) && cont b2
          then push ((b - 224) * 4096 + (b1 - 128) * 64 + (b2 - 128))%N (utf8 s3) else Err ValueError
        else match s3 with
        | [] => Err ValueError
        | b3 :: s4 =>
          if in_range 240 244 b
             && (if N.eqb b 240 then in_range 144 191 b1 else if N.eqb b 244 then in_range 128 143 b1 else cont b1)
             && cont b2 && cont b3
          then push ((b - 240) * 262144 + (b1 - 128) * 4096 + (b2 - 128) * 64 + (b3 - 128))%N (utf8 s4)
          else Err ValueError
        end
      end
    end
  end.

(* ---------- tiers ---------- *)

Section Toolbox.
Context {U : Unicode} (lower : str -> str).

(* an aligned pair: the target token and the source tokens *)
Definition pair := (option str * option (list str))%type.

(* default_bounds, line 107, and s.strip(default_bounds) *)
Definition is_bound (c : char) : bool := existsb (N.eqb c) (L "-=~.").
Fixpoint lstrip_bounds (s : str) : str :=
  match s with c :: s' => if is_bound c then lstrip_bounds s' else s | [] => [] end.
Definition strip_bounds (s : str) : str := rev (lstrip_bounds (rev (lstrip_bounds s))).

(* src_toks[s] for a non-negative s *)
Definition index {A} (l : list A) (n : nat) : res A :=
  match nth_error l n with Some x => Ok x | None => Err IndexError end.
Definition zlen {A} (l : list A) : Z := Z.of_nat (length l).

(* the loop over the previous morphemes, lines 321-332: whether all match, and
   what they add up to *)
Fixpoint amalgam (tgt : str) (toks : list str) (prev try : str) : bool * str :=
  match toks with
  | [] => (true, prev)
  | t :: toks' =>
    let '(prev, try) := match try with
                        | c :: try' => if N.eqb c (Ch "-") then (prev ++ L "-", try') else (prev, try)
                        | [] => (prev, try)
                        end in
    if startswith (prev ++ strip_bounds t) tgt then
      let prev := prev ++ strip_bounds t in amalgam tgt toks' prev (skipn (length prev) try)
    else (false, prev)
  end.

(* align_word, lines 299-341 *)
Definition align_word (tier_type : str) (s : nat) (tgt_tok : option str) (src_toks : list str) : res (Z * Z * Z) :=
  match tgt_tok with
  | None => Err AttributeError
  | Some tgt =>
    let tgt := lower tgt in
    if str_eqb tier_type (L "words") then
      do before <- mapM (index src_toks) (seq 0 s);
      do tok <- index src_toks s;
      let beg := Z.of_nat (list_sum (map (@length N) before) + s) in
      Ok (beg, beg + zlen tok, 0)%Z
    else if str_eqb tier_type (L "morphemes") then
      do tok <- index src_toks s;
      if length src_toks =? 1 then Ok (0, zlen tok, 0)%Z
      else
        let new_tok := strip_bounds tok in
        if s =? 0 then
          if startswith new_tok tgt then Ok (0, zlen new_tok, 0)%Z else Ok (0, zlen tgt, -1)%Z
        else
          let '(all, prev) := amalgam tgt (firstn s src_toks) [] tgt in
          if all then
            if startswith prev tgt then
              if s =? length src_toks - 1 then Ok (zlen prev, zlen tgt, 0)%Z
              else
                let tgt := skipn (length prev) tgt in
                if startswith new_tok tgt then Ok (zlen prev, zlen new_tok + zlen prev, 0)%Z
                else Ok (zlen prev, zlen tgt, -1)%Z
            else Ok (zlen prev, zlen tgt, -1)%Z
          else Ok (zlen prev, zlen tgt, -1)%Z
    else Ok (0, 0, 0)%Z
  end.

Definition id_text (i : option str) : str := match i with Some s => s | None => L "None" end.
(* Item(id=..., attributes=..., text=...) *)
Definition new_item (id text : str) (d : dict str) : res item :=
  do _ <- check_id (Some id); Ok {| it_attrs := mk_attrs (Some id) None d; it_text := Some text |}.

(* the reference of the s-th source token, lines 263-286 *)
Definition reference (tier_type : option str) (tgt : option item) (p : option str) (src_toks : list str) (s : nat) : res str :=
  do (beg, end_) <-
    match tier_type with
    | Some ty => if str_eqb ty (L "words") || str_eqb ty (L "morphemes")
                 then do (b, e, _) <- align_word ty s p src_toks; Ok (b, e)
                 else Ok ((-1)%Z, 0%Z)
    | None => Ok ((-1)%Z, 0%Z)
    end;
  match tgt with
  | None => Err AttributeError
  | Some it =>
    let i := id_text (a_id (it_attrs it)) in
    Ok (if Z.eqb beg (-1) then i else i ++ L "[" ++ dec_Z beg ++ L ":" ++ dec_Z end_ ++ L "]")
  end.

(* for s in range(len(src_toks)), lines 262-287; todo is src_toks[s:], n the
   number of the next item *)
Fixpoint ref_items (tier_type : option str) (tid ra : str) (tgt : option item) (p : option str) (src_toks : list str)
    (s : nat) (todo : list str) (n : nat) : res (list item) :=
  match todo with
  | [] => Ok []
  | tok :: todo' =>
    do r <- reference tier_type tgt p src_toks s;
    do i <- new_item (tid ++ dec_nat n) tok [(ra, r)];
    do l <- ref_items tier_type tid ra tgt p src_toks (S s) todo' (S n);
    Ok (i :: l)
  end.
(* for tgt_item, src_data in zip_longest(algn_tier.items, aln_tokens), lines 259-287 *)
Fixpoint zip_items (tier_type : option str) (tid ra : str) (tgts : list item) (aln : list pair) (n : nat) : res (list item) :=
  match aln with
  | [] => match tgts with [] => Ok [] | _ => Err TypeError end
  | (p, src) :: aln' =>
    match src with
    | None => Err TypeError
    | Some toks =>
      do l <- ref_items tier_type tid ra (hd_error tgts) p toks 0 toks n;
      do l' <- zip_items tier_type tid ra (tl tgts) aln' (n + length toks);
      Ok (l ++ l')
    end
  end.
(* lines 289-292 *)
Fixpoint plain_toks (tid : str) (toks : list str) (n : nat) : res (list item) :=
  match toks with
  | [] => Ok []
  | t :: toks' => do i <- new_item (tid ++ dec_nat n) t []; do l <- plain_toks tid toks' (S n); Ok (i :: l)
  end.
Fixpoint plain_items (tid : str) (aln : list pair) (n : nat) : res (list item) :=
  match aln with
  | [] => Ok []
  | (_, None) :: _ => Err TypeError
  | (_, Some toks) :: aln' =>
    do l <- plain_toks tid toks n; do l' <- plain_items tid aln' (n + length toks); Ok (l ++ l')
  end.
(* Tier(id=..., type=..., items=..., attributes=...), line 293 *)
Definition new_tier (tid : str) (ty : option str) (d : dict str) (items : list item) : res tier :=
  do _ <- check_id (Some tid);
  do items <- new_container (fun i => a_id (it_attrs i)) items;
  Ok {| t_attrs := mk_attrs (Some tid) ty d; t_md := []; t_items := items |}.

(* make_tier, lines 251-293 *)
Definition make_tier (tier_type : option str) (tid : str) (refattr : option str) (aln : list pair) (algn : option tier) : res tier :=
  match aln with
  | [(None, None)] => new_tier tid tier_type [] []
  | _ =>
    match refattr, algn with
    | Some ra, Some t =>
      do items <- zip_items tier_type tid ra (t_items t) aln 1;
      new_tier tid tier_type [(ra, id_text (a_id (t_attrs t)))] items
    | _, _ => do items <- plain_items tid aln 1; new_tier tid tier_type [] items
    end
  end.

(* make_phrase_tier, lines 238-248 *)
Definition make_phrase_tier (tid : str) (aln : list pair) : res tier :=
  do i <- new_item (tid ++ dec_nat 1) (join (L " ") (flat_map (fun p : pair => match snd p with Some l => l | None => [] end) aln)) [];
  new_tier tid (Some (L "phrases")) [] [i].

(* the options, lines 112-123: tier_map, make_phrase_tier, tier_types (type and
   interlinear), alignments *)
Record tb_options := { o_tier_map : dict str; o_phrase : option (str * str);
                       o_types : dict (option str * bool); o_alignments : dict (str * str);
                       o_attribute_map : dict str; o_markers : list str }.

(* _make_tb_alignments, lines 133-142 *)
Definition inverse (m : dict str) : dict str := fold_left (fun d kv => dset d (snd kv) (fst kv)) m [].
Definition interlinear (o : tb_options) (t : str) : bool :=
  match dget (o_types o) t with Some (_, b) => b | None => false end.
Fixpoint tb_alignments_ (o : tb_options) (l : dict (str * str)) (d : dict str) : res (dict str) :=
  match l with
  | [] => Ok d
  | (t1, (_, t2)) :: l' =>
    if interlinear o t1 && interlinear o t2 then
      (* the right-hand side is evaluated first *)
      match dget (inverse (o_tier_map o)) t2, dget (inverse (o_tier_map o)) t1 with
      | Some m2, Some m1 => tb_alignments_ o l' (dset d m1 m2)
      | _, _ => Err KeyError
      end
    else tb_alignments_ o l' d
  end.
Definition tb_alignments (o : tb_options) : res (dict str) := tb_alignments_ o (o_alignments o) [].

(* the try statement around make_tier, lines 228-233 *)
Definition importing {A} (r : res A) : res A :=
  match r with Err AttributeError | Err AssertionError => Err XigtImportError | _ => r end.
(* make_all_tiers, lines 204-235: the loop over aligned_fields; prev as a dict *)
Fixpoint all_tiers (o : tb_options) (fields : list (str * list pair)) (prev : dict tier) : res (list tier) :=
  match fields with
  | [] => Ok []
  | (mkr, aln) :: fields' =>
    match dget (o_tier_map o) mkr with
    | None => all_tiers o fields' prev
    | Some tid =>
      do (first, prev) <-
        match o_phrase o with
        | Some (src, pid) => if str_eqb src tid then do t <- make_phrase_tier pid aln; Ok ([t], dset prev pid t) else Ok ([], prev)
        | None => Ok ([], prev)
        end;
      match dget (o_types o) tid with
      | None => Err KeyError
      | Some (ty, _) =>
        let '(refattr, algn) := match dget (o_alignments o) tid with
                                | Some (ra, aid) => (Some ra, dget prev aid)
                                | None => (None, None)
                                end in
        do t <- importing (make_tier ty tid refattr aln algn);
        do rest <- all_tiers o fields' (dset prev tid t);
        Ok (first ++ t :: rest)
      end
    end
  end.
Definition make_all_tiers (o : tb_options) (fields : list (str * list pair)) : res (list tier) := all_tiers o fields [].

(* ---------- igts ---------- *)

Context (isalpha : char -> bool).

(* make_igt, lines 167-173: the attributes; None is a marker without value *)
Fixpoint igt_attrs (m : dict str) (l : list (str * option str)) (d : dict str) : dict str :=
  match l with
  | [] => d
  | (mkr, Some v) :: l' => igt_attrs m l' (match dget m mkr with Some k => dset d k v | None => d end)
  | (_, None) :: l' => igt_attrs m l' d
  end.
(* lines 161-164 *)
Definition igt_key (key : str) : res str :=
  match key with
  | [] => Err AssertionError
  | c :: _ => Ok (if isalpha c then key else L "igt" ++ key)
  end.
(* make_igt, lines 160-201; None: the record could not be imported.  fields is
   what toolbox.align_fields yields for the record. *)
Definition make_tb_igt (key : str) (data context : list (str * option str)) (o : tb_options) (fields : list (str * list pair))
    : res (option igt) :=
  do k <- igt_key key;
  let d := igt_attrs (o_attribute_map o) (data ++ context) [] in
  let made := do _ <- check_id (Some k);
              do ts <- make_all_tiers o fields;
              do ts <- new_container (fun t => a_id (t_attrs t)) ts;
              Ok {| g_attrs := mk_attrs (Some k) None d; g_md := []; g_tiers := ts |} in
  match made with
  | Ok g => Ok (Some g)
  | Err XigtImportError => Ok None
  | Err e => Err e
  end.

(* a record: context, data and aligned fields *)
Record record := { r_context : list (str * option str); r_data : list (str * option str); r_fields : list (str * list pair) }.
(* toolbox_igts, lines 145-158 *)
Fixpoint toolbox_igts_ (o : tb_options) (pri : str) (rs : list record) : res (list igt) :=
  match rs with
  | [] => Ok []
  | r :: rs' =>
    match dget (r_context r) pri with
    | Some (Some key) =>
      do g <- make_tb_igt key (r_data r) (r_context r) o (r_fields r);
      do l <- toolbox_igts_ o pri rs';
      Ok (match g with Some g => g :: l | None => l end)
    | _ => toolbox_igts_ o pri rs'
    end
  end.
Definition toolbox_igts (o : tb_options) (rs : list record) : res (list igt) :=
  match rev (o_markers o) with
  | [] => Err AssertionError
  | pri :: _ => toolbox_igts_ o pri rs
  end.
End Toolbox.

(* the default options, lines 65-101 *)
Definition default_options : tb_options :=
  {| o_tier_map := [(L "\t", L "w"); (L "\m", L "m"); (L "\g", L "g"); (L "\p", L "pos"); (L "\f", L "t")];
     o_phrase := Some (L "w", L "p");
     o_types := [(L "p", (Some (L "phrases"), false)); (L "w", (Some (L "words"), true)); (L "m", (Some (L "morphemes"), true));
                 (L "g", (Some (L "glosses"), true)); (L "pos", (Some (L "pos"), true)); (L "t", (Some (L "translations"), false))];
     o_alignments := [(L "w", (L "segmentation", L "p")); (L "m", (L "segmentation", L "w")); (L "g", (L "alignment", L "m"));
                      (L "pos", (L "alignment", L "m")); (L "t", (L "alignment", L "p"))];
     o_attribute_map := [(L "\id", L "corpus-id")]; o_markers := [L "\id"; L "\ref"] |}.
