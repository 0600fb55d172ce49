(* Model of the deprecated functions of xigt/ref.py (lines 286-352).  Definitions only. *)
From Verif Require Import PyStr Regex Ref Model Value.
From Verif Require Attr.

Section RefOld.
Context {U : Unicode}.

(* algnexpr_re, line 288 *)
Definition algnexpr_re : re :=
  RGroup 1 (RAlt (RSeq (RGroup 2 id_re)
                       (ROpt (RGroup 3 (RSeq (RLit "[") (RSeq (RStar true (RChr not_rbr)) (RLit "]"))))))
                 (RAlt (RLit "+") (RLit ","))).
(* sel_re, line 289 *)
Definition int_re : re := RSeq (ROpt (RLit "-")) (RPlus true (RChr is_digit)).
Definition sel_re : re := RGroup 1 (RAlt (RSeq int_re (RSeq (RLit ":") int_re)) (RAlt (RLit "+") (RLit ","))).
Definition findall1 (r : re) (s : str) : list str := map (capd 1) (finditer r s).

(* get_aligned_tier, lines 294-302: the tier's attributes and those of its
   ancestors, and tier.igt.  XigtAttributeError is not imported, so raising it
   is a NameError. *)
Definition get_aligned_tier (chain : list attrs) (g : option igt) (ra : str) : res (option tier) :=
  do v <- Attr.get_attribute chain ra None false None;
  match v with
  | None => Err NameError
  | Some k =>
    match g with
    | None => Err AttributeError
    | Some g => Ok (container_get tier_id (g_tiers g) k)
    end
  end.

(* get_alignment_expression_ids, lines 305-306 *)
Definition get_alignment_expression_ids (e : str) : list str := ids e.

(* the two numbers of a match of sel_re, lines 316 and 349: map(int, match.split(':')) *)
Definition two_ints (m : str) : res (Z * Z) :=
  match split1 (Ch ":") m with
  | Some (a, b) =>
    match py_int a, py_int b with Some x, Some y => Ok (x, y) | _, _ => Err ValueError end
  | None => Err ValueError
  end.

(* get_alignment_expression_spans, lines 309-321 *)
Inductive old_span := OStr (s : str) | OTuple (i : str) (a b : Z).
Definition sel_spans (item_id m : str) : res old_span :=
  if negb (char_in (Ch ":") m) then Ok (OStr m)
  else do p <- two_ints m; Ok (OTuple item_id (fst p) (snd p)).
Definition match_spans (m : str * str * str) : res (list old_span) :=
  let '(all, item_id, selection) := m in
  if str_eqb item_id [] then Ok [OStr all]
  else if str_eqb selection [] then Ok [OStr item_id]
  else mapM (sel_spans item_id) (findall1 sel_re selection).
Definition get_alignment_expression_spans (e : option str) : res (list old_span) :=
  let e := match e with Some s => s | None => [] end in
  do l <- mapM match_spans (findall3 algnexpr_re e); Ok (List.concat l).

(* ''.join(parts): a None among the parts is a TypeError *)
Definition join_parts (l : list (option str)) : res str :=
  do x <- mapM (fun o => match o with Some s => Ok s | None => Err TypeError end) l; Ok (List.concat x).

(* resolve_alignment, lines 333-352.  The tier is its item getter, as in Ref.v;
   the module does not import warnings, so a missing item is a NameError. *)
Definition sel_part (v : res (option str)) (plus comma m : str) : res (option str) :=
  if str_eqb m (L "+") then Ok (Some plus)
  else if str_eqb m (L ",") then Ok (Some comma)
  else do p <- two_ints m;
       do v <- v;
       Ok (option_map (py_slice (Some (fst p)) (Some (snd p))) v).
Definition resolve_alignment (get : item_getter) (item_id selection plus comma : str) : res (option str) :=
  match get item_id with
  | None => Err NameError
  | Some v =>
    if str_eqb selection [] then v
    else do parts <- mapM (sel_part v plus comma) (findall1 sel_re selection);
         do s <- join_parts parts; Ok (Some s)
  end.

(* resolve_alignment_expression, lines 324-330; resolve_alignment is called with
   its own defaults for plus and comma (lines 291-292) *)
Definition expr_part (get : item_getter) (plus comma : str) (m : str * str * str) : res (option str) :=
  let '(all, item_id, selection) := m in
  if str_eqb all (L "+") then Ok (Some plus)
  else if str_eqb all (L ",") then Ok (Some comma)
  else resolve_alignment get item_id selection [] (L " ").
Definition resolve_alignment_expression (get : item_getter) (e plus comma : str) : res str :=
  do parts <- mapM (expr_part get plus comma) (findall3 algnexpr_re e);
  join_parts parts.

End RefOld.
