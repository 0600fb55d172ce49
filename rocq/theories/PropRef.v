(* Properties of alignment expressions and ids (C01, C02, C08-C12).
   Specification vocabulary: SpecRef.v (abstract syntax [expr], concrete syntax
   [show], well-formedness, meaning).  Models: Ref.v. *)
From Verif Require Import PyStr Regex Ref SpecRef RefProofs RefLaws RefLossless SpecInt IntProofs.

(* two selections with spans on the same item, a bare id, single-character delimiters:
   a1[0:3,-2:10]+a1[4:5],b.2 *)
Definition sample : expr :=
  [ {| sl_delim := []; sl_id := L "a1";
       sl_spans := [ {| sp_delim := []; sp_start := L "0"; sp_end := L "3" |};
                     {| sp_delim := L ","; sp_start := L "-2"; sp_end := L "10" |} ] |};
    {| sl_delim := L "+"; sl_id := L "a1";
       sl_spans := [ {| sp_delim := []; sp_start := L "4"; sp_end := L "5" |} ] |};
    {| sl_delim := L ","; sl_id := L "b.2"; sl_spans := [] |} ].

Ltac crunch := repeat match goal with
  | |- _ /\ _ => split
  | |- Forall _ _ => constructor
  | |- True => exact I
  end.
Ltac shape_num := match goal with
  | |- num_shape (L "-2") => exists (L "-"), (L "2")
  | |- num_shape ?x => exists [], x
  end; crunch; auto; try discriminate; try (right; reflexivity).

Example sample_wf : forall U : Unicode, @wf1 U sample.
Proof.
  intros U. unfold wf1, wf, sample. cbn [wf_sels]. crunch.
  all: try (unfold wf_sel; cbn [sl_delim sl_id sl_spans wf_spans]; crunch).
  all: try (unfold wf_span; cbn [sp_delim sp_start sp_end]; crunch).
  all: try reflexivity; try discriminate; try (cbn; lia).
  all: try shape_num.
  all: try (unfold delim_char; crunch; [reflexivity|vm_compute; intuition discriminate|discriminate]).
  all: match goal with |- id_shape ?x =>
         let y := eval vm_compute in x in
         match y with ?c :: ?t => exists c, t end end; crunch;
       [reflexivity|unfold ascii_letter; lia|..].
  all: unfold id_char; (right; right; reflexivity) || (right; left; reflexivity).
Qed.

Example sample_text : show sample = L "a1[0:3,-2:10]+a1[4:5],b.2".
Proof. reflexivity. Qed.

(* ---------- C01 ---------- *)

(* the strings the id setter accepts are those that start with an ASCII letter ... *)
Theorem C01_accepted_ids_start_with_letter : forall (U : Unicode) (v : str),
  id_accepted v = true <-> exists c t, v = c :: t /\ ascii_letter c.
Proof. exact @id_accepted_spec. Qed.
Print Assumptions C01_accepted_ids_start_with_letter.

(* ... and no such string is an integer literal *)
Theorem C01_accepted_ids_are_not_integers : forall (U : Unicode) (v : str),
  id_accepted v = true -> py_int v = None.
Proof. exact @accepted_not_int. Qed.
Print Assumptions C01_accepted_ids_are_not_integers.

(* the strings that int() reads, and with which value *)
Theorem C01_integers : forall (U : Unicode) (s : str) (z : Z), py_int s = Some z <-> int_text s z.
Proof. exact @int_reads. Qed.
Print Assumptions C01_integers.
(* among them the decimal form of every integer *)
Theorem C01_decimal : forall (U : Unicode) (z : Z), py_int (dec_Z z) = Some z.
Proof. exact @int_of_str. Qed.
Print Assumptions C01_decimal.
Example C01_integers_example : forall U : Unicode,
  @int_text U (L " -1_0 ") (-10)
  /\ dec_Z (-12) = L "-12" /\ py_int (L "+7") = Some 7%Z /\ py_int (L "1__0") = None /\ py_int (L "1_") = None
  /\ py_int (L "_1") = None /\ py_int (L "- 1") = None /\ py_int (L "-") = None /\ py_int [] = None.
Proof. intros U. split; [now apply int_reads|]. repeat split. Qed.

Example C01_example : forall U : Unicode, @id_accepted U (L "i1") = true /\ @py_int U (L " -1_0 ") = Some (-10)%Z.
Proof. intros U. split; reflexivity. Qed.

(* ---------- C02 ---------- *)

(* Full statement: forall v, id_accepted v = true -> ids v = [v].  False: the
   setter only checks a prefix, so 'a b' is accepted but cannot be referred to. *)
Theorem C02_accepted_ids_are_referable_refuted : forall U : Unicode,
  exists v : str, id_accepted v = true /\ ids v <> [v].
Proof. intros U. exists (L "a b"). split; [reflexivity|discriminate]. Qed.
Print Assumptions C02_accepted_ids_are_referable_refuted.

(* The ids that can be referred to are exactly the fully id-shaped strings,
   and all of them are accepted. *)
Theorem C02_referable_ids_partial : forall (U : Unicode) (v : str),
  ids v = [v] <-> id_shape v.
Proof. exact @ids_shape_iff. Qed.
Print Assumptions C02_referable_ids_partial.

Theorem C02_shaped_ids_accepted : forall (U : Unicode) (v : str),
  id_shape v -> id_accepted v = true.
Proof. exact @shape_accepted. Qed.
Print Assumptions C02_shaped_ids_accepted.

(* ---------- C08 ---------- *)

Theorem C08_ids_of_expression : forall (U : Unicode) (e : expr),
  wf_loose e -> ids (show e) = map sl_id e.
Proof. exact @ids_show. Qed.
Print Assumptions C08_ids_of_expression.

Theorem C08_ids_of_any_string : forall (U : Unicode) (s : str) (l : list str),
  ids s = l <-> id_pieces s l.
Proof. exact @ids_pieces. Qed.
Print Assumptions C08_ids_of_any_string.

Example C08_example : forall U : Unicode,
  wf_loose sample /\ ids (show sample) = [L "a1"; L "a1"; L "b.2"] /\ ids (L " w1 [] 2x--") = [L "w1"; L "x--"]
  /\ ids (L "a_b,_c`d") = [L "a_b"; L "c"; L "d"].
Proof.
  intros U. split; [|repeat split].
  exact (wf_weaken _ _ _ (proj1 (sample_wf U))).
Qed.

(* ---------- C09 ---------- *)

Theorem C09_selections_lossless : forall (U : Unicode) (s : str),
  ~ In 10%N s -> List.concat (selections s true) = s.
Proof. exact @selections_lossless. Qed.
Print Assumptions C09_selections_lossless.

Theorem C09_selections_of_expression : forall (U : Unicode) (e : expr) (keep : bool),
  wf e -> selections (show e) keep = expr_selections keep e.
Proof. exact @selections_show. Qed.
Print Assumptions C09_selections_of_expression.

(* line breaks are dropped, which is why the first theorem excludes them *)
Theorem C09_selections_line_break_refuted : forall U : Unicode,
  exists s : str, List.concat (selections s true) <> s.
Proof. intros U. exists [97; 32; 10; 98]%N. discriminate. Qed.
Print Assumptions C09_selections_line_break_refuted.

Example C09_example : forall U : Unicode,
  wf sample /\
  expr_selections true sample = [L "a1[0:3,-2:10]"; L "+"; L "a1[4:5]"; L ","; L "b.2"] /\
  expr_selections false sample = [L "a1[0:3,-2:10]"; L "a1[4:5]"; L "b.2"] /\
  selections (L "? a1[3] ]") true = [L "? "; L "a1"; L "[3] ]"].
Proof. intros U. split; [exact (proj1 (sample_wf U))|]. repeat split. Qed.

(* ---------- C10 ---------- *)

Theorem C10_expand_of_expression : forall (U : Unicode) (e : expr),
  wf e -> expand (show e) = show (expand_expr e) /\ expanded (expand_expr e).
Proof. exact @expand_normal_form. Qed.
Print Assumptions C10_expand_of_expression.

Theorem C10_compress_of_expression : forall (U : Unicode) (e : expr),
  wf e -> compress (show e) = show (compress_expr e) /\ compressed (compress_expr e).
Proof. exact @compress_normal_form. Qed.
Print Assumptions C10_compress_of_expression.

(* spans(): the pieces of the expanded expression *)
Theorem C10_spans_of_expression : forall (U : Unicode) (e : expr) (keep : bool),
  wf e -> spans (show e) keep = expr_selections keep (expand_expr e).
Proof. exact @spans_show. Qed.
Print Assumptions C10_spans_of_expression.

Theorem C10_expand_idempotent : forall (U : Unicode) (e : expr),
  wf e -> expand (expand (show e)) = expand (show e).
Proof. exact @expand_idempotent. Qed.
Print Assumptions C10_expand_idempotent.

Theorem C10_compress_idempotent : forall (U : Unicode) (e : expr),
  wf1 e -> compress (compress (show e)) = compress (show e).
Proof. exact @compress_idempotent. Qed.
Print Assumptions C10_compress_idempotent.

Theorem C10_compress_expand : forall (U : Unicode) (e : expr),
  wf e -> compress (expand (show e)) = compress (show e).
Proof. exact @compress_expand. Qed.
Print Assumptions C10_compress_expand.

Theorem C10_expand_compress : forall (U : Unicode) (e : expr),
  wf1 e -> expand (compress (show e)) = expand (show e).
Proof. exact @expand_compress. Qed.
Print Assumptions C10_expand_compress.

(* the last law needs one-character delimiters: 'a1[1:2]  a1[3:4]' (two spaces) *)
Theorem C10_expand_compress_wide_delimiter_refuted : forall U : Unicode,
  exists e : expr, wf e /\ expand (compress (show e)) <> expand (show e).
Proof. exact @expand_compress_refuted. Qed.
Print Assumptions C10_expand_compress_wide_delimiter_refuted.

Example C10_example : forall U : Unicode,
  wf1 sample /\
  expand (show sample) = L "a1[0:3],a1[-2:10]+a1[4:5],b.2" /\
  compress (show sample) = L "a1[0:3,-2:10+4:5],b.2".
Proof. intros U. split; [exact (sample_wf U)|]. split; vm_compute; reflexivity. Qed.

(* ---------- C11 ---------- *)

Theorem C11_expand_preserves_meaning : forall (U : Unicode) (env : str -> option (res (option str))) (e : expr),
  wf e -> resolve env (expand (show e)) = resolve env (show e).
Proof. exact @resolve_expand. Qed.
Print Assumptions C11_expand_preserves_meaning.

Theorem C11_compress_preserves_meaning : forall (U : Unicode) (env : str -> option (res (option str))) (e : expr),
  wf e -> resolve env (compress (show e)) = resolve env (show e).
Proof. exact @resolve_compress. Qed.
Print Assumptions C11_compress_preserves_meaning.

(* a1 has a value, b.2 has none *)
Definition sample_env : str -> option (res (option str)) := fun i =>
  if str_eqb i (L "a1") then Some (Ok (Some (L "abcdefgh")))
  else if str_eqb i (L "b.2") then Some (Ok None) else None.

Example C11_example : forall U : Unicode,
  wf sample /\
  resolve sample_env (show sample) = Ok (L "abc ghe ") /\
  resolve sample_env (expand (show sample)) = Ok (L "abc ghe ") /\
  resolve sample_env (compress (show sample)) = Ok (L "abc ghe ").
Proof. intros U. split; [exact (proj1 (sample_wf U))|]. repeat split; vm_compute; reflexivity. Qed.

(* ---------- C12 ---------- *)

Theorem C12_resolve_meaning : forall (U : Unicode) (env : str -> option (res (option str))) (e : expr),
  wf_loose e -> resolve env (show e) = expr_text env e.
Proof. exact @resolve_loose. Qed.
Print Assumptions C12_resolve_meaning.

(* when the bounds are integers and the referred values can be computed, the
   outcome is a structure error exactly if a referred item is missing *)
Theorem C12_resolve_missing_item : forall (U : Unicode) (env : str -> option (res (option str))) (e : expr),
  wf_loose e -> bounds_ok e ->
  (forall i, In i (map sl_id e) -> forall r, env i = Some r -> is_ok r = true) ->
  (resolve env (show e) = Err XigtStructureError <-> exists i, In i (map sl_id e) /\ env i = None)
  /\ ((exists t, resolve env (show e) = Ok t) <-> forall i, In i (map sl_id e) -> env i <> None).
Proof. exact @resolve_missing. Qed.
Print Assumptions C12_resolve_missing_item.

Example C12_example : forall U : Unicode,
  wf_loose sample /\ bounds_ok sample /\
  (forall i, In i (map sl_id sample) -> forall r, sample_env i = Some r -> is_ok r = true) /\
  expr_text sample_env sample = Ok (L "abc ghe ") /\
  resolve (fun _ => None) (show sample) = Err XigtStructureError.
Proof.
  intros U. split; [exact (wf_weaken _ _ _ (proj1 (sample_wf U)))|].
  split; [repeat constructor; discriminate|]. split; [|split; vm_compute; reflexivity].
  intros i [<-|[<-|[<-|[]]]] r E; injection E as <-; reflexivity.
Qed.
