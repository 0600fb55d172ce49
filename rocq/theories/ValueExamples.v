(* A concrete igt for the examples, and counterexamples. *)
From Verif Require Import PyStr SpecRef Model ModelExamples Value SpecValue.

Definition mk_attrs (i : str) (d : dict str) : attrs :=
  {| a_id := Some i; a_type := None; a_dict := d; a_ns := None; a_nsmap := None |}.
Definition ref_item (i : str) (d : dict str) : item := {| it_attrs := mk_attrs i d; it_text := None |}.
Definition mk_tier (i : str) (d : dict str) (l : list item) : tier :=
  {| t_attrs := mk_attrs i d; t_md := []; t_items := l |}.

(* phrases, words selecting from phrases, morphemes selecting from words *)
Definition p1 : item := mk_item (L "p1") (L "abcdefgh").
Definition w1 : item := ref_item (L "w1") [(L "segmentation", L "p1[1:6]")].
Definition m1 : item := ref_item (L "m1") [(L "segmentation", L "w1[1:9]")].
(* content wins over segmentation *)
Definition m2 : item := ref_item (L "m2") [(L "segmentation", L "w1[0:1]"); (L "content", L "p1[0:1],p1[7:8]")].
Definition tp : tier := mk_tier (L "p") [] [p1].
Definition tw : tier := mk_tier (L "w") [(L "segmentation", L "p")] [w1].
Definition tm : tier := mk_tier (L "m") [(L "segmentation", L "w"); (L "content", L "p")] [m1; m2].
Definition sample_igt : igt := {| g_attrs := mk_attrs (L "i1") []; g_md := []; g_tiers := [tm; tp; tw] |}.
Definition sample_rank (t : tier) : nat :=
  if str_eqb (match tier_id t with Some i => i | None => [] end) (L "m") then 2
  else if str_eqb (match tier_id t with Some i => i | None => [] end) (L "w") then 1 else 0.

(* an item that is its own content *)
Definition loop_item : item := ref_item (L "a") [(L "content", L "a")].
Definition loop_tier : tier := mk_tier (L "t") [(L "content", L "t")] [loop_item].
Definition loop_igt : igt := {| g_attrs := mk_attrs (L "i1") []; g_md := []; g_tiers := [loop_tier] |}.

Definition m2_expr : expr :=
  [{| sl_delim := []; sl_id := L "p1"; sl_spans := [{| sp_delim := []; sp_start := L "0"; sp_end := L "1" |}] |};
   {| sl_delim := L ","; sl_id := L "p1"; sl_spans := [{| sp_delim := []; sp_start := L "7"; sp_end := L "8" |}] |}].
Definition loop_expr : expr := [{| sl_delim := []; sl_id := L "a"; sl_spans := [] |}].

From Verif Require Import ValueProofs.

Lemma the_member_by {A} (idof : A -> option str) l i x :
  find_id idof l i = Some x -> length (filter (fun y => opt_eqb str_eqb (idof y) (Some i)) l) = 1 ->
  the_member idof l i x.
Proof.
  intros H Hl. apply find_id_some in H as [H1 H2]. split; [easy|]. split; [easy|]. intros y Hy Ey.
  assert (Hf : forall z, In z l -> idof z = Some i -> In z (filter (fun y => opt_eqb str_eqb (idof y) (Some i)) l)).
  { intros z Hz Ez. apply filter_In. split; [easy|]. rewrite Ez. cbn. apply PyStrFacts.str_eqb_refl. }
  assert (Fx := Hf x H1 H2). assert (Fy := Hf y Hy Ey).
  destruct (filter _ l) as [|a [|b l']]; try discriminate. destruct Fx as [<-|[]], Fy as [<-|[]]. easy.
Qed.

Section Ex.
Context {U : Unicode}.

Lemma lit_digit c : In c (L "0123456789") -> num_shape [c].
Proof.
  intros H. exists [], [c]. split; [easy|]. split; [now left|]. split; [easy|]. constructor; [|constructor]. right.
  vm_compute in H. repeat destruct H as [<-|H]; try reflexivity. destruct H.
Qed.
Lemma lit_id c d : ascii_letter c -> id_char d -> id_shape [c; d].
Proof. intros. exists c, [d]. auto. Qed.
Lemma digit_id_char c : In c (L "0123456789") -> id_char c.
Proof. intros H. right. right. vm_compute in H. repeat destruct H as [<-|H]; try reflexivity. destruct H. Qed.
Lemma id_p1 : id_shape (L "p1"). Proof. apply lit_id; [right; vm_compute; intuition discriminate|apply digit_id_char; vm_compute; auto 20]. Qed.
Lemma id_w1 : id_shape (L "w1"). Proof. apply lit_id; [right; vm_compute; intuition discriminate|apply digit_id_char; vm_compute; auto 20]. Qed.
Lemma id_a : id_shape (L "a"). Proof. exists (Ch "a"), []. split; [easy|]. split; [right; vm_compute; intuition discriminate|constructor]. Qed.

Lemma wf_m2 : wf_loose m2_expr.
Proof.
  cbn -[L]. unfold wf_sel, wf_span. cbn -[L]. 
  repeat match goal with
  | |- _ /\ _ => split
  | |- id_shape _ => exact id_p1
  | |- num_shape _ => apply lit_digit; vm_compute; auto 20
  | |- True => exact I
  | |- wf_span _ _ _ => unfold wf_span; cbn [sp_delim sp_start sp_end]
  | |- [] = [] => reflexivity
  end.
  - discriminate.
  - constructor; [|constructor]. split; [reflexivity|]. split; [vm_compute; intuition discriminate|discriminate].
Qed.

Lemma c13_example :
  first_ref m2 (L "content") /\ attr (it_attrs m2) (L "content") = Some (show m2_expr) /\ wf_loose m2_expr
  /\ attr (t_attrs tm) (L "content") = Some (L "p") /\ the_member tier_id (g_tiers sample_igt) (L "p") tp
  /\ env_of sample_igt tp (expr_ids m2_expr) (fun _ => Some (Ok (Some (L "abcdefgh"))))
  /\ evaluates sample_igt tm m2 (Ok (Some (L "a h")))
  /\ (forall t ra rid rt, In t (g_tiers sample_igt) -> (ra = L "content" \/ ra = L "segmentation") ->
     attr (t_attrs t) ra = Some rid -> names_tier sample_igt rid rt -> sample_rank rt < sample_rank t)
  /\ overflows loop_igt loop_tier loop_item.
Proof.
  assert (H1 : first_ref m2 (L "content")) by (split; [easy|]; left; split; [easy|discriminate]).
  assert (H2 : the_member tier_id (g_tiers sample_igt) (L "p") tp) by (apply the_member_by; reflexivity).
  assert (H3 : env_of sample_igt tp (expr_ids m2_expr) (fun _ => Some (Ok (Some (L "abcdefgh"))))).
  { intros i Hi. right. exists p1, (Ok (Some (L "abcdefgh"))). split; [|split; [|easy]].
    - apply the_member_by; destruct Hi as [<-|[<-|[]]]; reflexivity.
    - split; [easy|]. exists 1. intros [|m] Hm; [lia|reflexivity]. }
  split; [exact H1|]. split; [reflexivity|]. split; [exact wf_m2|]. split; [reflexivity|]. split; [exact H2|].
  split; [exact H3|]. split; [|split].
  - apply (value_resolves sample_igt tm m2 (L "content") (L "p") tp m2_expr _ H1 eq_refl wf_m2 eq_refl H2 H3).
  - intros t ra rid rt [<-|[<-|[<-|[]]]] [->| ->] E (Hin & Hn); cbn in E; try discriminate E; injection E as <-;
      (destruct Hin as [<-|[<-|[<-|[]]]]; destruct Hn as [Hn|[Hn Hi]];
        try discriminate Hn; try (vm_compute; lia); exfalso; apply Hi; vm_compute; reflexivity).
  - apply (value_cycle loop_igt (fun t it => t = loop_tier /\ it = loop_item)); [|easy].
    intros t it [-> ->]. exists (L "content"), [], {| sl_delim := []; sl_id := L "a"; sl_spans := [] |}, (L "t"), loop_tier, loop_item.
    split; [split; [easy|]; left; split; [easy|discriminate]|]. split; [reflexivity|].
    split; [split; [|exact I]; split; [easy|]; split; [exact id_a|exact I]|]. split; [reflexivity|].
    split; [apply the_member_by; reflexivity|]. split; [apply the_member_by; reflexivity|easy].
Qed.

Lemma c14_example :
  segment sample_igt (L "abcdefgh") tm m1 (0 + 1 + 1) (Nat.min (0 + 1 + 9) (Nat.min (0 + 6) 8))
  /\ substring 2 6 (L "abcdefgh") = L "cdef".
Proof.
  split; [|reflexivity].
  eapply Seg_step with (rid := L "w") (rt := tw) (i := L "w1") (it' := w1);
    [reflexivity|reflexivity|reflexivity|apply the_member_by; reflexivity|exact id_w1|apply the_member_by; reflexivity|reflexivity|].
  eapply Seg_step with (rid := L "p") (rt := tp) (i := L "p1") (it' := p1);
    [reflexivity|reflexivity|reflexivity|apply the_member_by; reflexivity|exact id_p1|apply the_member_by; reflexivity|reflexivity|].
  apply (Seg_base sample_igt (L "abcdefgh")). reflexivity.
Qed.
End Ex.
