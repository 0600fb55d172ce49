(* Property theorems about the [incr tsdb()] exporter: C59-C61. *)
From Verif Require Import PyStr SpecRef Model Value SpecValue Itsdb SpecItsdb ItsdbProofs ItsdbExamples.

(* ---------- C59 ---------- *)

(* one row per igt, numbered from the start in steps of the skip (0 and 10 by
   default), with the number and the cells and nothing else *)
Theorem C59_numbered : forall (V : Type) (ev : str -> igt -> res V) (c : config) (cells : list (str * str)) (gs : list igt)
    (c' : config) (rows : list (dict (cell V))),
  cf_cells c = Some (given cells) -> ~ In (L "i-id") (map fst cells) ->
  xigt_export ev true gs c = Ok (c', Some rows) ->
  length rows = length gs
  /\ forall n row, nth_error rows n = Some row ->
       dget row (L "i-id") = Some (Number (or_else (cf_start c) 0 + Z.of_nat n * or_else (cf_skip c) 10)%Z)
       /\ forall k, dget row k <> None <-> k = L "i-id" \/ In k (map fst cells).
Proof. exact @rows_numbered. Qed.
Print Assumptions C59_numbered.

Example C59_example : cf_cells config1 = Some (given cells1) /\ ~ In (L "i-id") (map fst cells1)
  /\ exists c, xigt_export ev1 true [igt1; igt2] config1 =
       Ok (c, Some [[(L "i-id", Number 5%Z); (L "i-comment", Value (L "1")); (L "i-length", Value (L "1"))];
                    [(L "i-id", Number 15%Z); (L "i-comment", Value (L "2")); (L "i-length", Value (L "2"))]]).
Proof. split; [exact (proj1 config1_shape)|]. split; [exact (proj1 (proj2 config1_shape))|exact config1_rows]. Qed.

(* ---------- C60 ---------- *)

(* Full statement: every cell holds the value of its own expression.  Missing:
   configurations with different expressions; see the refutation. *)
Theorem C60_own_partial : forall (V : Type) (ev : str -> igt -> res V) (c : config) (cells : list (str * str)) (gs : list igt)
    (c' : config) (rows : list (dict (cell V))),
  cf_cells c = Some (given cells) -> (forall k e k' e', In (k, e) cells -> In (k', e') cells -> e = e') ->
  xigt_export ev true gs c = Ok (c', Some rows) ->
  forall n g row k e, nth_error gs n = Some g -> nth_error rows n = Some row -> expression_of cells k e ->
    exists v, ev e g = Ok v /\ dget row k = Some (Value v).
Proof. exact @cells_same. Qed.
Print Assumptions C60_own_partial.
(* what the cells hold instead: the value of the last expression *)
Theorem C60_last : forall (V : Type) (ev : str -> igt -> res V) (c : config) (cells : list (str * str)) (e : str) (gs : list igt)
    (c' : config) (rows : list (dict (cell V))),
  cf_cells c = Some (given cells) -> last_expression cells e -> xigt_export ev true gs c = Ok (c', Some rows) ->
  forall n g row k, nth_error gs n = Some g -> nth_error rows n = Some row -> In k (map fst cells) ->
    exists v, ev e g = Ok v /\ dget row k = Some (Value v).
Proof. exact @cells_last. Qed.
Print Assumptions C60_last.
(* the export succeeds exactly if that expression does for every igt *)
Theorem C60_succeeds : forall (V : Type) (ev : str -> igt -> res V) (c : config) (cells : list (str * str)) (e : str) (gs : list igt),
  cf_cells c = Some (given cells) -> last_expression cells e ->
  (exists c' rows, xigt_export ev true gs c = Ok (c', Some rows)) <-> forall g, In g gs -> exists v, ev e g = Ok v.
Proof. exact @export_total. Qed.
Print Assumptions C60_succeeds.
Theorem C60_own_refuted : exists (ev : str -> igt -> res str) c cells gs c' rows row g k e v,
  cf_cells c = Some (given cells) /\ xigt_export ev true gs c = Ok (c', Some rows)
  /\ nth_error gs 0 = Some g /\ nth_error rows 0 = Some row /\ expression_of cells k e
  /\ ev e g = Ok v /\ dget row k <> Some (Value v).
Proof. exact own_refuted. Qed.
Print Assumptions C60_own_refuted.
(* a configuration with cells can be used once only *)
Theorem C60_again : forall (V : Type) (ev : str -> igt -> res V) (c : config) (cells : list (str * str)) (gs : list igt),
  cf_cells c = Some (given cells) -> cells <> [] -> gs <> [] ->
  xigt_export ev true gs (prepare_config c) = Err TypeError.
Proof. exact @export_again. Qed.
Print Assumptions C60_again.
Theorem C60_again_refuted : exists (ev : str -> igt -> res str) c gs c' rows,
  xigt_export ev true gs c = Ok (c', Some rows) /\ xigt_export ev true gs c' = Err TypeError.
Proof. exact again_refuted. Qed.
Print Assumptions C60_again_refuted.

Example C60_example : last_expression cells1 (L "str(len(igt))")
  /\ expression_of [(L "a", L "igt.id"); (L "b", L "igt.id")] (L "a") (L "igt.id")
  /\ exists c, xigt_export ev1 true [igt1] {| cf_start := None; cf_skip := None; cf_cells := Some (given [(L "a", L "igt.id"); (L "b", L "igt.id")]) |}
       = Ok (c, Some [[(L "i-id", Number 0%Z); (L "a", Value (L "i1")); (L "b", Value (L "i1"))]]).
Proof.
  split; [exact (proj2 (proj2 config1_shape))|]. split.
  - exists [], [(L "b", L "igt.id")]. split; [reflexivity|]. intros [E|[]]; discriminate.
  - eexists. vm_compute. reflexivity.
Qed.

(* ---------- C61 ---------- *)

(* Full statement: the default i-input is the text of the first phrase, or else
   the words.  Missing: igts with a phrases tier; see the refutations. *)
Theorem C61_words_partial : forall (U : Unicode) (g : igt) (t : tier) (ws : list str),
  none_of_type g (L "phrases") -> first_of_type g (L "words") t ->
  Forall2 (fun i w => evaluates g t i (Ok (Some w))) (t_items t) ws ->
  exists n, forall m, n <= m -> default_value m g = Ok (Joined (join (L " ") ws)).
Proof. exact @default_words. Qed.
Print Assumptions C61_words_partial.
Theorem C61_neither : forall (U : Unicode) (fuel : nat) (g : igt),
  none_of_type g (L "phrases") -> none_of_type g (L "words") -> default_value fuel g = Ok (Joined []).
Proof. exact @default_neither. Qed.
Print Assumptions C61_neither.
(* what is exported instead: the item *)
Theorem C61_phrase : forall (U : Unicode) (fuel : nat) (g : igt) (t : tier) (i : item) (l : list item),
  first_of_type g (L "phrases") t -> t_items t = i :: l -> default_value fuel g = Ok (Phrase i).
Proof. exact @default_phrase. Qed.
Print Assumptions C61_phrase.
Theorem C61_no_phrase : forall (U : Unicode) (fuel : nat) (g : igt) (t : tier),
  first_of_type g (L "phrases") t -> t_items t = [] -> default_value fuel g = Err IndexError.
Proof. exact @default_no_phrase. Qed.
Print Assumptions C61_no_phrase.
Theorem C61_phrase_refuted : exists g t i s, first_of_type g (L "phrases") t /\ nth_error (t_items t) 0 = Some i /\ it_text i = Some s
  /\ forall m, @default_value ascii_unicode m g = Ok (Phrase i) /\ @default_value ascii_unicode m g <> Ok (Joined s).
Proof. exact phrase_refuted. Qed.
Print Assumptions C61_phrase_refuted.
Theorem C61_empty_refuted : exists g t ws, first_of_type g (L "words") t
  /\ Forall2 (fun i w => @evaluates ascii_unicode g t i (Ok (Some w))) (t_items t) ws
  /\ (forall t i, In t (g_tiers g) -> a_type (t_attrs t) = Some (L "phrases") -> ~ In i (t_items t))
  /\ forall m, @default_value ascii_unicode m g = Err IndexError.
Proof. exact empty_refuted. Qed.
Print Assumptions C61_empty_refuted.

Example C61_example : none_of_type igt1 (L "phrases") /\ first_of_type igt1 (L "words") words1
  /\ Forall2 (fun i w => @evaluates ascii_unicode igt1 words1 i (Ok (Some w))) (t_items words1) [L "a"; L "dog"]
  /\ @default_value ascii_unicode 1 igt1 = Ok (Joined (L "a dog")).
Proof. destruct igt1_words as (H1 & H2 & H3). split; [exact H1|]. split; [exact H2|]. split; [exact H3|exact (igt1_input 0)]. Qed.
(* a word without content cannot be joined *)
Example C61_no_text : @default_value ascii_unicode 5
  (igt_of (L "i") [tier_of (L "w") (L "words") [{| it_attrs := at_ (L "w1") None; it_text := None |}]]) = Err TypeError.
Proof. vm_compute. reflexivity. Qed.

(* the expression whose value that is, and the cell it goes to *)
Theorem C61_cell : forall (V : Type) (ev : str -> igt -> res V) (c : config) (gs : list igt) (c' : config) (rows : list (dict (cell V))),
  cf_cells c = None -> xigt_export ev true gs c = Ok (c', Some rows) ->
  forall n g row, nth_error gs n = Some g -> nth_error rows n = Some row ->
    exists v, ev default_expression g = Ok v
      /\ row = [(L "i-id", Number (or_else (cf_start c) 0 + Z.of_nat n * or_else (cf_skip c) 10)%Z); (L "i-input", Value v)].
Proof. exact @default_cell. Qed.
Print Assumptions C61_cell.
Example C61_cell_example : exists c, xigt_export (fun e g => if str_eqb e default_expression then @default_value ascii_unicode 5 g else Err AttributeError)
  true [igt1] no_config = Ok (c, Some [[(L "i-id", Number 0%Z); (L "i-input", Value (Joined (L "a dog")))]]).
Proof. eexists. vm_compute. reflexivity. Qed.
