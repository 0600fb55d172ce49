(* Model of xigt/scripts/xigt_validate.py.  Definitions only.

   Corpora are the trees of Model.v.  [fuel] bounds the recursion of value()
   (the interpreter's stack); every theorem is for all fuels. *)
From Verif Require Import PyStr Regex Ref Model Value.

(* ---------- records and reports ---------- *)

(* must, should, may, lines 172-182: a level and a modal verb *)
Inductive modal := MUST | SHOULD | MAY.
Definition modal_text (m : modal) : str :=
  match m with MUST => L "MUST" | SHOULD => L "SHOULD" | MAY => L "MAY" end.
(* logging.ERROR, WARNING, INFO *)
Definition modal_level (m : modal) : Z := match m with MUST => 40%Z | SHOULD => 30%Z | MAY => 20%Z end.

Record record := { rec_level : Z; rec_msg : str }.
(* the dict made in validate, lines 47-54; index is the position in the parent *)
Inductive report := Report (recs : list record) (kids : list report) (rid : option str) (index : nat).
Definition report_recs (r : report) : list record := match r with Report a _ _ _ => a end.
Definition report_kids (r : report) : list report := match r with Report _ a _ _ => a end.
(* report['records'].extend(l) *)
Definition extend_recs (r : report) (l : list record) : report :=
  match r with Report a k i n => Report (a ++ l) k i n end.

(* make_context, lines 21-30.  The entry 'ids' of a corpus context is passed
   separately (only the corpus level reads it, and no message shows it). *)
Record context := { cx_id : option str; cx_index : nat; cx_name : str; cx_scope : str }.
Definition make_context (i : option str) (index : nat) (name scope : str) : context :=
  {| cx_id := i; cx_index := index; cx_name := name; cx_scope := scope |}.

(* result.format(modal=..., **context), line 42.  Replacement fields are looked
   up in the context.  Simplified: a field with an attribute, index, conversion
   or format specification (which no template of the file has) is a ValueError. *)
Definition special (c : N) : bool := char_in c (L ".[!:").
Definition field (m : modal) (cx : context) (f : str) : res str :=
  if str_eqb f (L "modal") then Ok (modal_text m)
  else if str_eqb f (L "id") then Ok (match cx_id cx with Some i => i | None => L "None" end)
  else if str_eqb f (L "index") then Ok (dec_nat (cx_index cx))
  else if str_eqb f (L "name") then Ok (cx_name cx)
  else if str_eqb f (L "scope") then Ok (cx_scope cx)
  else match f with
       | [] => Err IndexError
       | c :: _ => if existsb special f then Err ValueError
                   else if N.leb 48 c && N.leb c 57 then Err IndexError else Err KeyError
       end.
(* str.format on text; [inside] is the field name read so far.  (The test for a
   doubled brace looks at the next character only.) *)
Fixpoint format (m : modal) (cx : context) (inside : option str) (s : str) : res str :=
  match inside with
  | None =>
    match s with
    | [] => Ok []
    | c :: s' =>
      if N.eqb c (Ch "{") then
        match s' with
        | c' :: s'' =>
          if N.eqb c' (Ch "{") then do r <- format m cx None s''; Ok (c :: r)
          else format m cx (Some []) s'
        | [] => Err ValueError
        end
      else if N.eqb c (Ch "}") then
        match s' with
        | c' :: s'' => if N.eqb c' (Ch "}") then do r <- format m cx None s''; Ok (c :: r) else Err ValueError
        | [] => Err ValueError
        end
      else do r <- format m cx None s'; Ok (c :: r)
    end
  | Some f =>
    match s with
    | [] => Err ValueError
    | c :: s' =>
      if N.eqb c (Ch "}") then do v <- field m cx f; do r <- format m cx None s'; Ok (v ++ r)
      else format m cx (Some (f ++ [c])) s'
    end
  end.

(* validate_condition, lines 32-45: the condition's result is a template, or
   nothing when the test passed *)
Definition validate_condition (m : modal) (cx : context) (result : res (option str)) : res (list record) :=
  do r <- result;
  match r with
  | None | Some [] => Ok []
  | Some t => do msg <- format m cx None t; Ok [{| rec_level := modal_level m; rec_msg := msg |}]
  end.
(* validate, lines 47-54 *)
Fixpoint validate (cx : context) (conditions : list (modal * res (option str))) : res (list record) :=
  match conditions with
  | [] => Ok []
  | (m, c) :: l => do a <- validate_condition m cx c; do b <- validate cx l; Ok (a ++ b)
  end.

(* ---------- conditions ---------- *)

Section Conditions.
Context {U : Unicode}.
Variable fuel : nat.

Definition truthy (s : option str) : bool := match s with None | Some [] => false | _ => true end.

(* has_id, lines 210-212; has_type, lines 218-220 *)
Definition has_id (i : option str) : res (option str) :=
  Ok (if truthy i then None else Some (L "Each {name} {modal} specify an id.")).
Definition has_type (t : option str) : res (option str) :=
  Ok (if truthy t then None else Some (L "Each {name} {modal} specify a type.")).
(* id_is_unique, lines 214-216: the Counter is the list of its keys *)
Definition id_is_unique (i : option str) (idset : list str) : res (option str) :=
  Ok (match i with
      | Some (c :: i') =>
        if existsb (str_eqb (c :: i')) idset
        then Some (L "The given id for each {name} {modal} be unique within its {scope}.") else None
      | _ => None
      end).
(* add_id, lines 184-186 *)
Definition add_id (idset : list str) (i : option str) : list str :=
  match i with Some i => idset ++ [i] | None => idset end.

(* reference_attributes, line 15 *)
Definition reference_attributes : list str := [ALIGNMENT; SEGMENTATION; CONTENT].

(* reference_id_in_igt, lines 222-226 *)
Definition reference_id_in_igt (g : igt) (t : tier) (ra : str) : res (option str) :=
  Ok (match dget (a_dict (t_attrs t)) ra with
      | Some (c :: r) =>
        match container_get tier_id (g_tiers g) (c :: r) with
        | None => Some (L "The reference attribute """ ++ ra ++ L """ {modal} select an available <tier> id.")
        | Some _ => None
        end
      | _ => None
      end).

(* item_refattrs_specified_on_tier, lines 228-237: the set of names, sorted *)
Definition item_refattrs_specified_on_tier (t : tier) : res (option str) :=
  let missing := filter (fun ra => existsb (fun it => dmem (a_dict (it_attrs it)) ra) (t_items t)
                                   && negb (dmem (a_dict (t_attrs t)) ra)) [ALIGNMENT; CONTENT; SEGMENTATION] in
  Ok (match missing with
      | [] => None
      | _ => Some (L "Reference attributes on <item> elements {modal} be specified on their <tier> as well. The following are not: "
                   ++ join (L ", ") missing)
      end).

(* get_referred_tier, lines 188-192 *)
Definition get_referred_tier (g : igt) (t : tier) (ra : str) : option tier :=
  match dget (a_dict (t_attrs t)) ra with
  | None | Some [] => None
  | Some r => container_get tier_id (g_tiers g) r
  end.
(* "if not itemref or not reftier: return": the expression and the tier when
   both are there; an empty tier is an empty list and counts as absent *)
Definition reference (g : igt) (t : tier) (it : item) (ra : str) : option (str * tier) :=
  match dget (a_dict (it_attrs it)) ra, get_referred_tier g t ra with
  | Some (c :: e), Some rt => match t_items rt with [] => None | _ => Some (c :: e, rt) end
  | _, _ => None
  end.

(* algnexpr_ids_in_referred_tier, lines 239-254 *)
Definition missing_ids (rt : tier) (e : str) : list str :=
  filter (fun i => match container_get item_id (t_items rt) i with None => true | Some _ => false end) (ids e).
(* str(reftier.id) *)
Definition str_of (i : option str) : str := match i with Some i => i | None => L "None" end.
Definition algnexpr_ids_in_referred_tier (g : igt) (t : tier) (it : item) (ra : str) : res (option str) :=
  Ok (match reference g t it ra with
      | None => None
      | Some (e, rt) =>
        match missing_ids rt e with
        | [] => None
        | l => Some (L "The """ ++ ra ++ L """ alignment expression {modal} select available <item> ids from the aligned <tier> ("""
                     ++ str_of (tier_id rt) ++ L """). The following are unavailable: " ++ join (L ", ") l)
        end
      end).

(* item.value() *)
Definition item_value (g : igt) (t : tier) (it : item) : res (option str) :=
  value fuel (Some g) (Some t) it value_refattrs.
(* span in alignment_expression_delimiters, line 16 *)
Definition is_delimiter (s : str) : bool := str_eqb s (L "+") || str_eqb s (L ",").

(* one round of the loop in algnexpr_spans_in_aligned_item, lines 262-277: is
   the span outside its item?  A failed match has no groups: AttributeError. *)
Definition int_arg (s : option str) : res Z :=
  match s with
  | None => Err TypeError
  | Some s => match py_int s with Some z => Ok z | None => Err ValueError end
  end.
Definition span_outside (g : igt) (rt : tier) (span : str) : res bool :=
  if is_delimiter span then Ok false else
  match re_match selection_re span with
  | None => Err AttributeError
  | Some m =>
    match cap 3 m with
    | None | Some [] => Ok false
    | Some range =>
      match re_match span_re range with
      | None => Err AttributeError
      | Some m' =>
        do a <- int_arg (cap 2 m');
        do b <- int_arg (cap 3 m');
        match container_get item_id (t_items rt) (capd 2 m) with
        | None => Ok false
        | Some tgt =>
          do v <- item_value g rt tgt;
          match v with
          | None => Err TypeError
          | Some s => Ok ((Z.of_nat (length s) <? a)%Z || (Z.of_nat (length s) <? b)%Z)
          end
        end
      end
    end
  end.
Fixpoint filterM {A} (f : A -> res bool) (l : list A) : res (list A) :=
  match l with
  | [] => Ok []
  | x :: l => do b <- f x; do r <- filterM f l; Ok (if b then x :: r else r)
  end.
Definition algnexpr_spans_in_aligned_item (g : igt) (t : tier) (it : item) (ra : str) : res (option str) :=
  match reference g t it ra with
  | None => Ok None
  | Some (e, rt) =>
    do l <- filterM (span_outside g rt) (spans e true);
    Ok (match l with
        | [] => None
        | _ => Some (L "Alignment expressions {modal} select spans within the aligned <item> elements. The following spans are not valid: "
                     ++ join (L ", ") l)
        end)
  end.

(* algnexpr_spans_do_not_overlap, lines 285-315.  Every span is a str, so the
   first branch (line 294) is always taken.  spans_by_id maps a span to the
   lengths n of the updates range(0, n) its Counter received. *)
Definition count_span (g : igt) (rt : tier) (d : dict (list nat)) (span : str) : res (dict (list nat)) :=
  if is_delimiter span then Ok d else
  match container_get item_id (t_items rt) span with
  | None => Ok d
  | Some tgt =>
    do v <- item_value g rt tgt;
    match v with
    | None => Ok d
    | Some s => Ok (dset d span (match dget d span with Some l => l | None => [] end ++ [length s]))
    end
  end.
Fixpoint foldM {A B} (f : B -> A -> res B) (l : list A) (b : B) : res B :=
  match l with
  | [] => Ok b
  | x :: l => do b <- f b x; foldM f l b
  end.
(* any(count[c] > 1 for c in count): c was counted once for each n > c *)
Definition counted_twice (ns : list nat) : bool :=
  existsb (fun c => Nat.ltb 1 (length (filter (Nat.ltb c) ns))) (flat_map (seq 0) ns).
Definition algnexpr_spans_do_not_overlap (g : igt) (t : tier) (it : item) (ra : str) : res (option str) :=
  match reference g t it ra with
  | None => Ok None
  | Some (e, rt) =>
    do d <- foldM (count_span g rt) (spans e true) [];
    Ok (match map fst (filter (fun kv => counted_twice (snd kv)) d) with
        | [] => None
        | l => Some (L "Alignment expression spans {modal} NOT overlap. Spans for the following <item> elements overlap: "
                     ++ join (L ", ") l)
        end)
  end.

(* ---------- the levels ---------- *)

(* validate_item, lines 154-167 *)
Definition item_conditions (g : igt) (t : tier) (it : item) : list (modal * res (option str)) :=
  (SHOULD, has_id (item_id it))
  :: flat_map (fun ra => [(MUST, algnexpr_ids_in_referred_tier g t it ra);
                          (SHOULD, algnexpr_spans_in_aligned_item g t it ra);
                          (SHOULD, algnexpr_spans_do_not_overlap g t it ra)]) reference_attributes.
Definition validate_item (g : igt) (t : tier) (it : item) (cx : context) : res report :=
  do recs <- validate cx (item_conditions g t it);
  Ok (Report recs [] (item_id it) (cx_index cx)).

(* validate_tier, lines 123-151 *)
Definition unique_in (cx : context) (i : option str) (idset : list str) : res (list record) :=
  validate_condition MUST cx (id_is_unique i idset).
Fixpoint tier_items (g : igt) (t : tier) (n : nat) (seen : list str) (l : list item) : res (list report) :=
  match l with
  | [] => Ok []
  | it :: l =>
    let cx := make_context (item_id it) n (L "<item>") (L "<tier>") in
    do r <- validate_item g t it cx;
    do u <- unique_in cx (item_id it) seen;
    do rs <- tier_items g t (S n) (add_id seen (item_id it)) l;
    Ok (extend_recs r u :: rs)
  end.
Definition tier_conditions (g : igt) (t : tier) : list (modal * res (option str)) :=
  [(SHOULD, has_id (tier_id t)); (SHOULD, has_type (a_type (t_attrs t)));
   (MUST, item_refattrs_specified_on_tier t)]
  ++ map (fun ra => (MUST, reference_id_in_igt g t ra)) reference_attributes.
Definition validate_tier (g : igt) (t : tier) (cx : context) : res report :=
  do recs <- validate cx (tier_conditions g t);
  do kids <- tier_items g t 0 [] (t_items t);
  Ok (Report recs kids (tier_id t) (cx_index cx)).

(* validate_igt, lines 86-121: lines 107-116 go over the items again with the
   ids of the whole igt *)
Fixpoint igt_items (n : nat) (seen : list str) (l : list item) (rs : list report) : res (list report * list str) :=
  match l, rs with
  | it :: l, r :: rs =>
    let cx := make_context (item_id it) n (L "<item>") (L "<igt>") in
    do u <- unique_in cx (item_id it) seen;
    do p <- igt_items (S n) (add_id seen (item_id it)) l rs;
    Ok (extend_recs r u :: fst p, snd p)
  | _, _ => Ok ([], seen)
  end.
Fixpoint igt_tiers (g : igt) (n : nat) (tier_ids item_ids : list str) (l : list tier) : res (list report) :=
  match l with
  | [] => Ok []
  | t :: l =>
    let cx := make_context (tier_id t) n (L "<tier>") (L "<igt>") in
    do r <- validate_tier g t cx;
    do u <- unique_in cx (tier_id t) tier_ids;
    do p <- igt_items 0 item_ids (t_items t) (report_kids r);
    do rs <- igt_tiers g (S n) (add_id tier_ids (tier_id t)) (snd p) l;
    Ok (Report (report_recs r ++ u) (fst p) (tier_id t) n :: rs)
  end.
Definition validate_igt (g : igt) (cx : context) : res report :=
  do recs <- validate cx [(SHOULD, has_id (igt_id g))];
  do kids <- igt_tiers g 0 [] [] (g_tiers g);
  Ok (Report recs kids (igt_id g) (cx_index cx)).

(* validate_corpus, lines 58-83.  The corpus is transient: its igts come from
   the parser one by one, and reading may fail after some of them. *)
Fixpoint corpus_igts (n : nat) (seen : list str) (l : list igt) (end_ : option exn) : res (list report) :=
  match l with
  | [] => match end_ with Some e => Err e | None => Ok [] end
  | g :: l =>
    let cx := make_context (igt_id g) n (L "<igt>") (L "<xigt-corpus>") in
    do r <- validate_igt g cx;
    do u <- unique_in cx (igt_id g) seen;
    do rs <- corpus_igts (S n) (add_id seen (igt_id g)) l end_;
    Ok (extend_recs r u :: rs)
  end.
Definition validate_corpus (ci : option str) (igts : list igt) (end_ : option exn) (n : nat) (idset : list str) : res report :=
  let cx := make_context ci n (L "<xigt-corpus>") (L "collection") in
  do recs <- validate cx [(MAY, has_id ci); (MUST, id_is_unique ci idset)];
  do kids <- corpus_igts 0 [] igts end_;
  Ok (Report recs kids ci n).

End Conditions.

(* ---------- filtering and the verdict ---------- *)

(* a report after filtering: {} or a report with filtered children *)
Inductive freport := FEmpty | FReport (recs : list record) (kids : list freport) (rid : option str) (index : nat).
Definition is_dict_empty (r : freport) : bool := match r with FEmpty => true | _ => false end.

(* report_is_empty, lines 320-323: an empty dict is false, any other true *)
Definition at_level (minlevel : option Z) (r : record) : bool :=
  match minlevel with None => true | Some m => (m <=? rec_level r)%Z end.
Definition report_is_empty (minlevel : option Z) (r : freport) : bool :=
  match r with
  | FEmpty => true
  | FReport recs kids _ _ => negb (existsb (at_level minlevel) recs || existsb (fun k => negb (is_dict_empty k)) kids)
  end.
(* filter_empty_reports, lines 325-330 *)
Fixpoint filter_empty_reports (minlevel : option Z) (r : report) : freport :=
  match r with
  | Report recs kids i n =>
    let r' := FReport recs (map (filter_empty_reports minlevel) kids) i n in
    if report_is_empty minlevel r' then FEmpty else r'
  end.

Section Run.
Context {U : Unicode}.
Variable fuel : nat.

(* What opening and loading a file in transient mode gives: the parser fails on
   the start of the document, or another exception leaves run(), or a corpus
   whose igts are read during validation. *)
Inductive file := Unparsable | Unreadable (e : exn) | Loaded (cid : option str) (igts : list igt) (end_ : option exn).

(* run, lines 389-416: the verdicts.  What it prints is in Report.v. *)
Fixpoint run_files (minlevel : Z) (n : nat) (idset : list str) (l : list file) : res (list bool) :=
  match l with
  | [] => Ok []
  | Unparsable :: l => run_files minlevel (S n) idset l
  | Unreadable e :: _ => Err e
  | Loaded ci igts end_ :: l =>
    do r <- validate_corpus fuel ci igts end_ n idset;
    let r := filter_empty_reports (Some minlevel) r in
    do bs <- run_files minlevel (S n) (add_id idset ci) l;
    Ok (report_is_empty None r :: bs)
  end.
(* the exit status of main, lines 418-437, is 0 exactly if this is Ok true
   (an exception ends the interpreter with status 1); the level is
   60 - 10 * verbosity, and verbosity is 0 with -q and 2 + n with n times -v *)
Definition run (minlevel : Z) (l : list file) : res bool :=
  do passed <- run_files minlevel 0 [] l; Ok (forallb (fun b => b) passed).
Definition level_of_verbosity (v : nat) : Z := (60 - 10 * Z.of_nat v)%Z.
End Run.
