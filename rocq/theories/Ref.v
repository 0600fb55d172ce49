(* Model of xigt/ref.py: alignment expressions.  Definitions only. *)
From Verif Require Import PyStr Regex.

Section Ref.
Context {U : Unicode}.

(* ---------- the patterns, xigt/ref.py:13-26 ---------- *)

(* [-.\w] *)
Definition idchar (c : N) : bool := N.eqb c (Ch "-") || N.eqb c (Ch ".") || is_word c.
(* id_re, xigt/ref.py:13: [a-zA-Z][-.\w]* *)
Definition id_re : re := RSeq (RChr is_letter) (RStar true (RChr idchar)).

Definition not_nl (c : N) : bool := negb (N.eqb c 10).                       (* . *)
Definition numchar (c : N) : bool := N.eqb c (Ch ".") || is_digit c.          (* [.\d] *)
Definition span_delim (c : N) : bool :=                                      (* [^-.:\d] *)
  negb (N.eqb c (Ch "-") || N.eqb c (Ch ".") || N.eqb c (Ch ":") || is_digit c).
Definition sel_delim (c : N) : bool :=                                       (* [^-a-zA-Z:.] *)
  negb (N.eqb c (Ch "-") || is_letter c || N.eqb c (Ch ":") || N.eqb c (Ch ".")).
Definition not_rbr (c : N) : bool := negb (N.eqb c (Ch "]")).                 (* [^\]] *)

(* -?[.\d]+ *)
Definition num_re : re := RSeq (ROpt (RLit "-")) (RPlus true (RChr numchar)).

(* robust_ref_re, xigt/ref.py:16-20 *)
Definition range_body : re :=
  RPlus true (RSeq (ROpt (RChr span_delim)) (RSeq num_re (RSeq (RLit ":") num_re))).
Definition robust_ref_re : re :=
  RSeq (RGroup 1 (RAlt RBol (RPlus false (RChr not_nl))))
  (RSeq (RGroup 2 (RAlt REol id_re))
        (ROpt (RAlt REol (RSeq (RLit "[") (RSeq (RGroup 3 range_body) (RLit "]")))))).

(* selection_re, xigt/ref.py:21-25 *)
Definition selection_re : re :=
  RSeq (RGroup 1 (RAlt RBol (RChr sel_delim)))
  (RSeq (RGroup 2 id_re)
        (ROpt (RSeq (RLit "[") (RSeq (RGroup 3 (RStar true (RChr not_rbr))) (RLit "]"))))).

(* span_re, xigt/ref.py:26 *)
Definition span_re : re :=
  RSeq (ROpt (RGroup 1 (RChr span_delim)))
  (RSeq (RGroup 2 num_re) (RSeq (RLit ":") (RGroup 3 num_re))).

(* delimiters.get(d, ''), xigt/ref.py:28-31 *)
Definition delim_text (d : str) : str :=
  if str_eqb d (L ",") then L " " else if str_eqb d (L "+") then [] else [].

(* '{}[{}:{}]'.format(...) and friends *)
Definition fmt_span (delim id_ start end_ : str) : str :=
  delim ++ id_ ++ L "[" ++ start ++ L ":" ++ end_ ++ L "]".

(* expand, xigt/ref.py:36-62 *)
Definition expand_tokens (m : str * str * str) : list str :=
  let '(pre, id_, range) := m in
  match range with
  | [] => [pre ++ id_]
  | _ => pre :: map (fun '(delim, start, end_) => fmt_span delim id_ start end_)
                    (findall3 span_re range)
  end.
Definition expand (e : str) : str :=
  List.concat (flat_map expand_tokens (findall3 robust_ref_re e)).

(* compress, xigt/ref.py:65-101.  State: tokens, selection, last_id. *)
Definition compress_step (st : list str * list str * option str) (m : str * str * str) :=
  let '(tokens, selection, last_id) := st in
  let '(pre, id_, range) := m in
  if negb (str_eqb range []) && opt_eqb str_eqb (Some id_) last_id
  then (tokens, selection ++ [pre; range], last_id)
  else
    let tokens := match selection with [] => tokens | _ => tokens ++ selection ++ [L "]"] end in
    let tokens := tokens ++ [pre; id_] in
    if negb (str_eqb range []) then (tokens, [L "["; range], Some id_)
    else (tokens, [], None).
Definition compress (e : str) : str :=
  let '(tokens, selection, _) :=
    fold_left compress_step (findall3 robust_ref_re e) ([], [], None) in
  List.concat (match selection with [] => tokens | _ => tokens ++ selection ++ [L "]"] end).

(* selections, xigt/ref.py:104-134 *)
Definition selection_tokens (keep : bool) (m : str * str * str) : list str :=
  let '(pre, id_, range) := m in
  (if keep && negb (str_eqb pre []) then [pre] else [])
  ++ (if str_eqb id_ [] then []
      else if str_eqb range [] then [id_] else [id_ ++ L "[" ++ range ++ L "]"]).
Definition selections (e : str) (keep_delimiters : bool) : list str :=
  flat_map (selection_tokens keep_delimiters) (findall3 robust_ref_re e).

(* spans, xigt/ref.py:138-159 *)
Definition spans (e : str) (keep_delimiters : bool) : list str :=
  selections (expand e) keep_delimiters.

(* ids, xigt/ref.py:162-176 *)
Definition ids (e : str) : list str :=
  filter (fun i => negb (str_eqb i [])) (findall0 id_re e).

(* XigtAttributeMixin.id setter, xigt/mixins.py:213-217: is this string accepted? *)
Definition id_accepted (v : str) : bool :=
  match re_match id_re v with Some _ => true | None => false end.

(* resolve, xigt/ref.py:181-210.  The container is represented by its item
   getter (container.get_item or container.get, line 186): None when the item
   does not exist, otherwise the outcome of item.value(). *)
Definition item_getter := str -> option (res (option str)).

(* int(start) if start else None, lines 202-203 *)
Definition slice_arg (s : str) : res (option Z) :=
  match s with
  | [] => Ok None
  | _ => match py_int s with Some z => Ok (Some z) | None => Err ValueError end
  end.

(* lines 201-207 *)
Definition resolve_span (value : str) (m : str * str * str) : res (list str) :=
  let '(delim, start, end_) := m in
  do a <- slice_arg start;
  do b <- slice_arg end_;
  Ok [delim_text delim; py_slice a b value].

(* lines 189-209 *)
Definition resolve_selection (get : item_getter) (m : str * str * str) : res (list str) :=
  let '(delim, id_, range) := m in
  match get id_ with
  | None => Err XigtStructureError
  | Some v =>
    do v <- v;
    let value := match v with Some s => s | None => [] end in
    match range with
    | [] => Ok [delim_text delim; value]
    | _ => do l <- mapM (resolve_span value) (findall3 span_re range);
           Ok (delim_text delim :: List.concat l)
    end
  end.

Definition resolve (get : item_getter) (e : str) : res str :=
  do l <- mapM (resolve_selection get) (findall3 selection_re (strip e));
  Ok (List.concat (List.concat l)).

End Ref.
