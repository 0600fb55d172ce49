(* Examples for the [incr tsdb()] exporter, and what it gets wrong. *)
From Verif Require Import PyStr PyStrFacts SpecRef Model Value SpecValue Itsdb SpecItsdb ItsdbProofs.
#[local] Existing Instance ascii_unicode.

Definition at_ (i : str) (ty : option str) : attrs := {| a_id := Some i; a_type := ty; a_dict := []; a_ns := None; a_nsmap := None |}.
Definition word (i s : str) : item := {| it_attrs := at_ i None; it_text := Some s |}.
Definition tier_of (i ty : str) (l : list item) : tier := {| t_attrs := at_ i (Some ty); t_md := []; t_items := l |}.
Definition igt_of (i : str) (l : list tier) : igt := {| g_attrs := at_ i None; g_md := []; g_tiers := l |}.

Definition words1 : tier := tier_of (L "w") (L "words") [word (L "w1") (L "a"); word (L "w2") (L "dog")].
Definition phrases1 : tier := tier_of (L "p") (L "phrases") [word (L "p1") (L "a dog")].
Definition igt1 : igt := igt_of (L "i1") [words1].
Definition igt2 : igt := igt_of (L "i2") [phrases1; words1].
Definition igt3 : igt := igt_of (L "i3") [tier_of (L "p") (L "phrases") []; words1].

(* expressions igt.id and str(len(igt)) *)
Definition ev1 (e : str) (g : igt) : res str :=
  if str_eqb e (L "igt.id") then match igt_id g with Some i => Ok i | None => Err TypeError end
  else if str_eqb e (L "str(len(igt))") then Ok (dec_nat (length (g_tiers g)))
  else Err AttributeError.
Definition cells1 : list (str * str) := [(L "i-comment", L "igt.id"); (L "i-length", L "str(len(igt))")].
Definition config1 : config := {| cf_start := Some 5%Z; cf_skip := None; cf_cells := Some (given cells1) |}.

Lemma config1_rows : exists c, xigt_export ev1 true [igt1; igt2] config1 =
  Ok (c, Some [[(L "i-id", Number 5%Z); (L "i-comment", Value (L "1")); (L "i-length", Value (L "1"))];
               [(L "i-id", Number 15%Z); (L "i-comment", Value (L "2")); (L "i-length", Value (L "2"))]]).
Proof. eexists. vm_compute. reflexivity. Qed.
Lemma config1_shape : cf_cells config1 = Some (given cells1) /\ ~ In (L "i-id") (map fst cells1)
  /\ last_expression cells1 (L "str(len(igt))").
Proof.
  split; [reflexivity|]. split; [intros [H|[H|[]]]; discriminate|]. now exists [(L "i-comment", L "igt.id")], (L "i-length").
Qed.

(* the first cell does not get the value of its expression *)
Lemma own_refuted : exists (ev : str -> igt -> res str) c cells gs c' rows row g k e v,
  cf_cells c = Some (given cells) /\ xigt_export ev true gs c = Ok (c', Some rows)
  /\ nth_error gs 0 = Some g /\ nth_error rows 0 = Some row /\ expression_of cells k e
  /\ ev e g = Ok v /\ dget row k <> Some (Value v).
Proof.
  destruct config1_rows as [c H].
  exists ev1, config1, cells1, [igt1; igt2], c. do 3 eexists. exists (L "i-comment"), (L "igt.id"), (L "i1").
  split; [reflexivity|]. split; [exact H|]. split; [reflexivity|]. split; [reflexivity|]. split.
  { exists [], [(L "i-length", L "str(len(igt))")]. split; [reflexivity|]. intros [E|[]]; discriminate. }
  split; [reflexivity|]. vm_compute. discriminate.
Qed.

(* the second export with the same configuration *)
Lemma again_refuted : exists (ev : str -> igt -> res str) c gs c' rows,
  xigt_export ev true gs c = Ok (c', Some rows) /\ xigt_export ev true gs c' = Err TypeError.
Proof.
  destruct config1_rows as [c H]. exists ev1, config1, [igt1; igt2], c. eexists. split; [exact H|].
  apply export_rows in H as [-> _]. now apply (export_again ev1 config1 cells1).
Qed.

Lemma igt1_words : none_of_type igt1 (L "phrases") /\ first_of_type igt1 (L "words") words1
  /\ Forall2 (fun i w => evaluates igt1 words1 i (Ok (Some w))) (t_items words1) [L "a"; L "dog"].
Proof.
  split; [intros t [<-|[]]; vm_compute; discriminate|]. split.
  { exists [], []. repeat split. easy. }
  repeat constructor; try discriminate; exists 1; intros [|m] Hm; try reflexivity; inversion Hm.
Qed.
Lemma igt1_input m : default_value (S m) igt1 = Ok (Joined (L "a dog")).
Proof. reflexivity. Qed.

(* an igt with a phrase gets the item and not its text *)
Lemma phrase_refuted : exists g t i s, first_of_type g (L "phrases") t /\ nth_error (t_items t) 0 = Some i /\ it_text i = Some s
  /\ forall m, default_value m g = Ok (Phrase i) /\ default_value m g <> Ok (Joined s).
Proof.
  exists igt2, phrases1, (word (L "p1") (L "a dog")), (L "a dog"). split.
  { exists [], [words1]. repeat split. easy. }
  split; [reflexivity|]. split; [reflexivity|]. intros m. assert (E : default_value m igt2 = Ok (Phrase (word (L "p1") (L "a dog")))) by reflexivity.
  split; [exact E|]. rewrite E. discriminate.
Qed.
(* words are not used if the phrases tier is empty *)
Lemma empty_refuted : exists g t ws, first_of_type g (L "words") t
  /\ Forall2 (fun i w => evaluates g t i (Ok (Some w))) (t_items t) ws
  /\ (forall t i, In t (g_tiers g) -> a_type (t_attrs t) = Some (L "phrases") -> ~ In i (t_items t))
  /\ forall m, default_value m g = Err IndexError.
Proof.
  exists igt3, words1, [L "a"; L "dog"]. split.
  { exists [tier_of (L "p") (L "phrases") []], []. repeat split. intros t' [<-|[]]. vm_compute. discriminate. }
  split. { repeat constructor; try discriminate; exists 1; intros [|m] Hm; try reflexivity; inversion Hm. }
  split; [|reflexivity]. intros t i [<-|[<-|[]]]; [easy|]. intros H. vm_compute in H. discriminate.
Qed.
