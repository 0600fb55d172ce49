(* Examples and counterexamples for the LaTeX exporter. *)
From Coq Require Import Lia.
From Verif Require Import PyStr PyStrFacts SpecRef Ref Model Value Latex SpecLatex SpecLatexDoc LatexEscProofs.
#[local] Existing Instance ascii_unicode.

Definition at0 (i : str) (ty : option str) (d : dict str) : attrs :=
  {| a_id := Some i; a_type := ty; a_dict := d; a_ns := None; a_nsmap := None |}.
Definition it (i : str) (d : dict str) (t : option str) : item := {| it_attrs := at0 i None d; it_text := t |}.
Definition ti (i ty : str) (d : dict str) (l : list item) : tier := {| t_attrs := at0 i (Some ty) d; t_md := []; t_items := l |}.

(* w1 w2 w3; m1 m2 segment w1, m3 w2, m4 w3; g3 is aligned with m3 and m4 *)
Definition tw : tier := ti (L "w") (L "words") [] [it (L "w1") [] (Some (L "dogs")); it (L "w2") [] (Some (L "in")); it (L "w3") [] (Some (L "a_b"))].
Definition tm : tier := ti (L "m") (L "Morphemes") [(SEGMENTATION, L "w")]
  [it (L "m1") [(SEGMENTATION, L "w1[0:3]")] None; it (L "m2") [(SEGMENTATION, L "w1[3:4]")] None;
   it (L "m3") [(SEGMENTATION, L "w2")] None; it (L "m4") [(SEGMENTATION, L "w3")] None].
Definition tg : tier := ti (L "g") (L "glosses") [(ALIGNMENT, L "m")]
  [it (L "g1") [(ALIGNMENT, L "m1")] (Some (L "dog")); it (L "g2") [(ALIGNMENT, L "m2")] (Some (L "PL"));
   it (L "g3") [(ALIGNMENT, L "m3,m4")] (Some (L "100%"))].
Definition tt_ : tier := ti (L "t") (L "translations") [] [it (L "t1") [] (Some (L "dogs & more"))].
Definition ex : igt := {| g_attrs := at0 (L "i1") None []; g_md := []; g_tiers := [tw; tm; tg; tt_] |}.
Definition lower_ascii (s : str) : str := map (fun c => if in_range 65 90 c then (c + 32)%N else c) s.
Definition same (ty s : str) : str := s.

Definition ids_of (r : res (list (list (list titem)))) : list (list (list str)) :=
  match r with
  | Ok cols => map (map (map (fun x => match titem_id x with Some i => i | None => [] end))) cols
  | Err _ => []
  end.
Lemma ex_table : ids_of (group_tiers [tw; tm; tg])
  = [ [[L "w1"]; [L "m1"; L "m2"]; [L "g1"; L "g2"]]; [[L "w2"; L "w3"]; [L "m3"; L "m4"]; [L "g3"]] ].
Proof. vm_compute. reflexivity. Qed.
Lemma ex_text : export_igt lower_ascii (fun ty s => Ok (same ty s)) (fun ty s => Ok (same ty s)) 10 default_tier_types ex
  = Ok (join newline [L "\begin{exe}\small"; L "\ex\glll"; L "{dogs} {in a\_b}\\"; L "{dog s} {in a\_b}\\"; L "{dog PL} {100\%}\\";
                      L "\trans dogs \& more"; L "\end{exe}"]).
Proof. vm_compute. reflexivity. Qed.

(* the hypotheses of the theorems hold of it *)
Lemma nodup_dec (l : list (option str)) : (fix nd l := match l with [] => true | x :: l' => negb (existsb (opt_eqb str_eqb x) l') && nd l' end) l = true -> NoDup l.
Proof.
  induction l as [|x l IH]; intros H; [constructor|]. apply andb_prop in H as [H1 H2]. constructor; [|apply IH; exact H2].
  intros I. rewrite (proj2 (existsb_exists _ _)) in H1; [discriminate|]. exists x. split; [exact I|].
  destruct x as [x|]; [|reflexivity]. cbn. destruct (str_eqb_spec x x); congruence.
Qed.
Lemma identified_dec l : forallb (fun x => match titem_id x with Some _ => true | None => false end) l = true ->
  (fix nd l := match l with [] => true | x :: l' => negb (existsb (opt_eqb str_eqb x) l') && nd l' end) (map titem_id l) = true -> identified titem_id l.
Proof.
  intros H1 H2. split; [|apply nodup_dec; exact H2]. intros x Hx. rewrite forallb_forall in H1. specialize (H1 x Hx). destruct (titem_id x); congruence.
Qed.
(* covers, computed *)
Definition pos_of (above : list titem) (k : str) : option nat :=
  (fix go n l := match l with [] => None | x :: l' => if opt_eqb str_eqb (titem_id x) (Some k) then Some n else go (S n) l' end) 0 above.
Definition span_of (above : list titem) (x : titem) : option (nat * nat) :=
  match titem_expr x with
  | None => None
  | Some e => match ids e with
              | [] => None
              | i :: is => match pos_of above i, pos_of above (last is i) with Some p, Some q => Some (p, q) | _, _ => None end
              end
  end.
Lemma pos_of_spec above k p : pos_of above k = Some p -> exists a, nth_error above p = Some a /\ titem_id a = Some k.
Proof.
  unfold pos_of. assert (G : forall l n, (fix go n l := match l with [] => None | x :: l' => if opt_eqb str_eqb (titem_id x) (Some k) then Some n else go (S n) l' end) n l = Some p ->
    exists a, n <= p /\ nth_error l (p - n) = Some a /\ titem_id a = Some k).
  { induction l as [|x l IH]; intros n H; [discriminate|]. destruct (opt_eqb str_eqb (titem_id x) (Some k)) eqn:E.
    - inversion H; subst. exists x. rewrite Nat.sub_diag. repeat split; auto. destruct (titem_id x) as [s|]; [|discriminate]. cbn in E. destruct (str_eqb_spec s k); congruence.
    - destruct (IH _ H) as (a & H1 & H2 & H3). exists a. replace (p - n) with (S (p - S n)) by lia. auto with arith. }
  intros H. destruct (G _ _ H) as (a & _ & H1 & H2). rewrite Nat.sub_0_r in H1. eauto.
Qed.
Lemma pos_of_some above k p a : NoDup (map titem_id above) -> nth_error above p = Some a -> titem_id a = Some k -> pos_of above k = Some p.
Proof.
  intros N H E. destruct (pos_of above k) as [q|] eqn:Q.
  - destruct (pos_of_spec _ _ _ Q) as (b & H1 & H2). f_equal. rewrite NoDup_nth_error in N. apply N.
    + rewrite map_length. apply nth_error_Some. congruence.
    + rewrite !nth_error_map, H, H1. cbn. congruence.
  - exfalso. revert Q. unfold pos_of. generalize 0. clear N. revert p H. induction above as [|x l IH]; intros p H n Q; [destruct p; discriminate|].
    destruct (opt_eqb str_eqb (titem_id x) (Some k)) eqn:E'; [discriminate|]. destruct p as [|p].
    + inversion H; subst x. rewrite E in E'. cbn in E'. destruct (str_eqb_spec k k); congruence.
    + exact (IH p H _ Q).
Qed.
Lemma span_covers above x p q : span_of above x = Some (p, q) -> covers titem_id titem_expr above x p q.
Proof.
  unfold span_of, covers. destruct (titem_expr x) as [e|]; [|discriminate]. destruct (ids e) as [|i is] eqn:E; [discriminate|].
  destruct (pos_of above i) as [p'|] eqn:P; [|discriminate]. destruct (pos_of above (last is i)) as [q'|] eqn:Q; [|discriminate].
  intros H. inversion H; subst. destruct (pos_of_spec _ _ _ P) as (a & A1 & A2). destruct (pos_of_spec _ _ _ Q) as (b & B1 & B2).
  exists e, i, is, a, b. auto 7.
Qed.
Lemma covers_span above x p q : NoDup (map titem_id above) -> covers titem_id titem_expr above x p q -> span_of above x = Some (p, q).
Proof.
  intros N (e & i & is & a & b & H1 & H2 & H3 & H4 & H5 & H6). unfold span_of. rewrite H1, H2.
  rewrite (pos_of_some _ _ _ _ N H3 H4), (pos_of_some _ _ _ _ N H5 H6). reflexivity.
Qed.
(* all items are aligned, in order *)
Fixpoint in_order (above : list titem) (p0 : nat) (l : list titem) : bool :=
  match l with
  | [] => true
  | x :: l' => match span_of above x with Some (p, q) => (p0 <=? p) && (p <=? q) && in_order above p l' | None => false end
  end.
Lemma in_order_covers above l : forall p0, in_order above p0 l = true -> forall x, In x l -> exists p q, covers titem_id titem_expr above x p q /\ p <= q.
Proof.
  induction l as [|y l IH]; intros p0 H x Hx; [destruct Hx|]. cbn in H. destruct (span_of above y) as [[p q]|] eqn:E; [|discriminate].
  apply andb_prop in H as [H H2]. apply andb_prop in H as [_ H1]. apply Nat.leb_le in H1.
  destruct Hx as [->|Hx]; [|eapply IH; eassumption]. exists p, q. split; [apply span_covers; exact E|exact H1].
Qed.
Lemma in_order_mono above : NoDup (map titem_id above) -> forall l p0 a x y r p q p' q', in_order above p0 l = true -> l = a ++ x :: y :: r ->
  covers titem_id titem_expr above x p q -> covers titem_id titem_expr above y p' q' -> p <= p'.
Proof.
  intros N l. induction l as [|z l IH]; intros p0 a x y r p q p' q' H E C C'; [destruct a; discriminate|].
  cbn in H. destruct (span_of above z) as [[s e]|] eqn:Sz; [|discriminate]. apply andb_prop in H as [_ H].
  destruct a as [|a0 a]; cbn in E; inversion E; subst.
  - cbn in H. rewrite (covers_span _ _ _ _ N C) in Sz. inversion Sz; subst. rewrite (covers_span _ _ _ _ N C') in H.
    apply andb_prop in H as [H _]. apply andb_prop in H as [H _]. apply Nat.leb_le in H. exact H.
  - eapply IH; eauto.
Qed.
Definition is_unaligned (x : titem) : bool :=
  match titem_expr x with Some e => match ids e with [] => true | _ => false end | None => false end.
Lemma is_unaligned_spec x : is_unaligned x = true -> unaligned titem_expr x.
Proof. unfold is_unaligned, unaligned. destruct (titem_expr x) as [e|]; [|discriminate]. destruct (ids e) eqn:E; [|discriminate]. eauto. Qed.
Lemma ordered_dec above pre mid post : NoDup (map titem_id above) -> forallb is_unaligned pre = true -> forallb is_unaligned post = true ->
  in_order above 0 mid = true -> ordered titem_id titem_expr above (pre ++ mid ++ post).
Proof.
  intros N H1 H2 H3. exists pre, mid, post. split; [reflexivity|].
  split; [apply Forall_forall; intros x Hx; apply is_unaligned_spec; rewrite forallb_forall in H1; auto|].
  split; [apply Forall_forall; intros x Hx; apply is_unaligned_spec; rewrite forallb_forall in H2; auto|].
  split; [eapply in_order_covers; exact H3|]. intros. eapply in_order_mono; eauto.
Qed.

Lemma id_tw : identified titem_id (titems tw). Proof. apply identified_dec; vm_compute; reflexivity. Qed.
Lemma id_tm : identified titem_id (titems tm). Proof. apply identified_dec; vm_compute; reflexivity. Qed.
Lemma id_tg : identified titem_id (titems tg). Proof. apply identified_dec; vm_compute; reflexivity. Qed.
Lemma ex_hyps : identified titem_id (titems tw) /\ ordered_stack titem_id titem_expr (titems tw) [titems tm; titems tg].
Proof.
  split; [apply id_tw|]. cbn [ordered_stack]. split; [apply id_tm|]. split.
  { apply (ordered_dec _ [] (titems tm) []); [apply id_tw|vm_compute; reflexivity..]. }
  split; [apply id_tg|]. split; [|exact I].
  apply (ordered_dec _ [] (titems tg) []); [apply id_tm|vm_compute; reflexivity..].
Qed.
Lemma ex_ends : Forall (ends_aligned titem_expr) [titems tm; titems tg].
Proof.
  repeat apply Forall_cons; [| |apply Forall_nil]; intros l x E (e & H1 & H2);
    apply (f_equal (@rev titem)) in E; rewrite rev_app_distr in E; cbn in E; injection E as E _; subst x; vm_compute in H1; inversion H1; subst e; vm_compute in H2; discriminate.
Qed.
(* the last gloss is aligned with the span of m3 and m4 *)
Lemma ex_covers : covers titem_id titem_expr (titems tm) (tg, it (L "g3") [(ALIGNMENT, L "m3,m4")] (Some (L "100%"))) 2 3.
Proof. apply span_covers. vm_compute. reflexivity. Qed.
Lemma ex_contents t i : In t (g_tiers ex) -> In i (t_items t) ->
  content_or 10 ex (t, i) = Ok (match content_or 10 ex (t, i) with Ok s => s | Err _ => [] end).
Proof.
  intros H1 H2. cbn in H1. repeat (destruct H1 as [<-|H1]; [cbn in H2; repeat (destruct H2 as [<-|H2]; [vm_compute; reflexivity|]); destruct H2|]). destruct H1.
Qed.

(* ---------- counterexamples ---------- *)

(* a last item whose reference is empty: that column is deeper than the others *)
Definition tm_tail : tier := ti (L "m") (L "morphemes") [] [it (L "m1") [(ALIGNMENT, L "w1")] (Some (L "a")); it (L "m2") [(ALIGNMENT, L "?")] (Some (L "b"))].
Definition tw1 : tier := ti (L "w") (L "words") [] [it (L "w1") [] (Some (L "ab"))].
Lemma id_tw1 : identified titem_id (titems tw1). Proof. apply identified_dec; vm_compute; reflexivity. Qed.
Lemma depth_differs : exists first tiers cols, first <> [] /\ identified titem_id first /\ ordered_stack titem_id titem_expr first tiers
  /\ group_alignments titem_id titem_expr (first :: tiers) = Ok cols
  /\ exists c c', In c cols /\ In c' cols /\ length c <> length c'.
Proof.
  exists (titems tw1), [titems tm_tail]. eexists. split; [discriminate|]. split; [apply id_tw1|]. split.
  - cbn [ordered_stack]. split; [apply identified_dec; vm_compute; reflexivity|]. split; [|exact I].
    apply (ordered_dec _ [] (firstn 1 (titems tm_tail)) (skipn 1 (titems tm_tail))); [apply id_tw1|vm_compute; reflexivity..].
  - split; [vm_compute; reflexivity|]. eexists _, _. split; [left; reflexivity|]. split; [right; left; reflexivity|].
    cbv. discriminate.
Qed.

(* an unaligned item between two that fall into one column comes first *)
Definition tm2 : tier := ti (L "m") (L "morphemes") [] [it (L "m1") [(SEGMENTATION, L "w1[0:1]")] None; it (L "m2") [(SEGMENTATION, L "w1[1:2]")] None].
Definition tg_mid : tier := ti (L "g") (L "glosses") []
  [it (L "g1") [(ALIGNMENT, L "m1")] (Some (L "x")); it (L "g2") [(ALIGNMENT, L "?")] (Some (L "y")); it (L "g3") [(ALIGNMENT, L "m2")] (Some (L "z"))].
Lemma id_tm2 : identified titem_id (titems tm2). Proof. apply identified_dec; vm_compute; reflexivity. Qed.
Lemma order_broken : exists first tiers last_tier cols, first <> [] /\ identified titem_id first
  /\ ordered_stack titem_id titem_expr first tiers /\ identified titem_id last_tier
  /\ ordered_loosely titem_id titem_expr (last tiers first) last_tier
  /\ group_alignments titem_id titem_expr (first :: tiers ++ [last_tier]) = Ok cols
  /\ whole_row (S (length tiers)) cols <> last_tier.
Proof.
  exists (titems tw1), [titems tm2], (titems tg_mid). eexists. split; [discriminate|]. split; [apply id_tw1|].
  split.
  { cbn [ordered_stack]. split; [apply id_tm2|]. split; [|exact I].
    apply (ordered_dec _ [] (titems tm2) []); [apply id_tw1|vm_compute; reflexivity..]. }
  split; [apply identified_dec; vm_compute; reflexivity|]. split.
  { split.
    - intros x Hx. cbn in Hx. destruct Hx as [<-|[<-|[<-|[]]]].
      + right. exists 0, 0. split; [apply span_covers; vm_compute; reflexivity|lia].
      + left. apply is_unaligned_spec. vm_compute. reflexivity.
      + right. exists 1, 1. split; [apply span_covers; vm_compute; reflexivity|lia].
    - intros m n x y p q p' q' L Hm Hn C C'.
      apply covers_span in C; [|apply id_tm2]. apply covers_span in C'; [|apply id_tm2].
      destruct n as [|[|[|n]]]; [lia| | |destruct n; discriminate]; cbn in Hn; inversion Hn; subst y; vm_compute in C'; inversion C'; subst.
      destruct m as [|[|m]]; [| |lia]; cbn in Hm; inversion Hm; subst x; vm_compute in C; inversion C; subst; lia. }
  split; [vm_compute; reflexivity|]. vm_compute. intros H. discriminate H.
Qed.

(* an item without a reference stops the export *)
Definition tm_none : tier := ti (L "m") (L "morphemes") [] [it (L "m1") [] (Some (L "a"))].
Lemma no_reference : exists first items, first <> [] /\ identified titem_id first /\ identified titem_id items
  /\ group_alignments titem_id titem_expr [first; items] = Err TypeError.
Proof.
  exists (titems tw1), (titems tm_none). split; [discriminate|]. split; [apply id_tw1|].
  split; [apply identified_dec; vm_compute; reflexivity|]. vm_compute. reflexivity.
Qed.
(* two ids in reverse order stop it too *)
Definition tm_rev : tier := ti (L "m") (L "morphemes") [] [it (L "m1") [(ALIGNMENT, L "w2,w1")] (Some (L "a"))].
Lemma reversed : exists first x p q, identified titem_id first /\ covers titem_id titem_expr first x p q /\ q < p
  /\ group_alignments titem_id titem_expr [first; [x]] = Err IndexError.
Proof.
  exists (titems tw), (tm_rev, it (L "m1") [(ALIGNMENT, L "w2,w1")] (Some (L "a"))), 1, 0.
  split; [apply id_tw|]. split; [apply span_covers; vm_compute; reflexivity|]. split; [lia|]. vm_compute. reflexivity.
Qed.

(* ---------- escaping ---------- *)

Lemma tex_ascii : tex_letters is_letter.
Proof.
  split; [auto|]. intros c H. unfold tex_blank, tex_special, char_in in H.
  assert (In c ([32; 9; 10; 13]%N ++ L "~^&%$#_{}" ++ [Ch "\"])) as I.
  { rewrite !in_app_iff. destruct H as [H|[H|H]].
    - left. apply existsb_exists in H as (d & Hd & E). apply N.eqb_eq in E. subst d. exact Hd.
    - right. left. apply existsb_exists in H as (d & Hd & E). apply N.eqb_eq in E. subst d. exact Hd.
    - right. right. left. symmetry. exact H. }
  vm_compute in I. repeat (destruct I as [<-|I]; [vm_compute; reflexivity|]). destruct I.
Qed.
(* a backslash before a letter is read as part of another control word *)
Lemma not_typeset : exists s, ~ typesets is_letter (escape s) s.
Proof.
  exists (L "\foo"). rewrite (typesets_iff is_letter tex_ascii). intros H. apply H.
  exists [], (Ch "\"), (Ch "f"), (L "oo"). split; [reflexivity|]. split; [left; reflexivity|left; reflexivity].
Qed.
Lemma no_run_on : ~ runs_on is_letter (L "50% of {a_b} ~1").
Proof.
  intros (a & x & y & b & E & HX & HY). vm_compute in E.
  do 14 (destruct a as [|? a]; [injection E as <- <- _; vm_compute in HX; vm_compute in HY; intuition discriminate|injection E as _ E]).
  destruct a as [|? [|? ?]]; discriminate E.
Qed.
(* content that is missing is printed as braces *)
Lemma placeholder : exists g x, value 10 (Some g) (Some (fst x)) (snd x) value_refattrs = Ok None
  /\ cell_text (fun _ s => Ok s) 10 g [] [x] = Ok (L "{\{\}}").
Proof. exists ex, (tw, it (L "w9") [] None). split; vm_compute; reflexivity. Qed.

(* an id with a line feed is accepted, and ends the comment it stands in *)
Lemma comment_broken : exists i, id_accepted i = true /\ ~ all_comment (comment (Some i)).
Proof.
  exists (L "a" ++ [10%N] ++ L "b"). split; [vm_compute; reflexivity|]. intros H.
  destruct (H (L "%" ++ [10%N] ++ L "% cannot export IGT a" ++ [10%N]) (L "b" ++ [10%N] ++ L "%") eq_refl) as (b & E).
  - right. exists (L "%" ++ [10%N] ++ L "% cannot export IGT a"). reflexivity.
  - discriminate E.
Qed.
