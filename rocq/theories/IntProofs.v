(* What int() reads: the integer literals, and str() of every integer. *)
From Verif Require Import PyStr PyStrFacts Ref SpecRef RefLaws SpecInt DecFacts.

Section P.
Context {U : Unicode}.

Lemma space_class c : is_space c = true <-> cclass c = USpace.
Proof. unfold is_space. destruct (cclass c); easy. Qed.
Lemma digit_class c d : digit_val c = Some d <-> digit_of c d.
Proof. unfold digit_val, digit_of. destruct (cclass c); split; congruence. Qed.
Lemma digit_not_space c d : digit_of c d -> is_space c = false.
Proof. unfold digit_of, is_space. now intros ->. Qed.

Lemma lstrip_split s : exists u, s = u ++ lstrip s /\ Forall (fun c => cclass c = USpace) u.
Proof.
  induction s as [|c s (u & E & Hu)]; [exists []; split; [reflexivity|constructor]|]. cbn [lstrip].
  destruct (is_space c) eqn:Ec; [|exists []; split; [reflexivity|constructor]].
  exists (c :: u). split; [cbn; congruence|]. constructor; [now apply space_class|exact Hu].
Qed.
Lemma strip_split s : exists u v, s = u ++ strip s ++ v /\ Forall (fun c => cclass c = USpace) (u ++ v).
Proof.
  destruct (lstrip_split s) as (u & E & Hu). destruct (lstrip_split (rev (lstrip s))) as (v & E' & Hv).
  exists u, (rev v). split.
  - unfold strip, rstrip. rewrite <- rev_app_distr, <- E', rev_involutive. exact E.
  - apply Forall_app. split; [exact Hu|]. now apply Forall_rev.
Qed.
Lemma lstrip_spaces u s : Forall (fun c => cclass c = USpace) u -> lstrip (u ++ s) = lstrip s.
Proof. induction 1 as [|c u Hc _ IH]; [reflexivity|]. cbn. apply space_class in Hc. now rewrite Hc. Qed.
Lemma strip_around u t v : Forall (fun c => cclass c = USpace) (u ++ v) ->
  match t with [] => False | c :: _ => is_space c = false end -> is_space (last t 0%N) = false ->
  strip (u ++ t ++ v) = t.
Proof.
  intros H Hf Hl. apply Forall_app in H as [Hu Hv]. unfold strip. rewrite lstrip_spaces by exact Hu.
  destruct t as [|c t]; [easy|]. cbn [app lstrip]. rewrite Hf. unfold rstrip.
  change (c :: t ++ v) with ((c :: t) ++ v). rewrite rev_app_distr, lstrip_spaces by now apply Forall_rev.
  destruct (@exists_last _ (c :: t) ltac:(easy)) as (t' & d & E). rewrite E in *. rewrite last_last in Hl.
  rewrite rev_app_distr. cbn [rev app lstrip]. rewrite Hl. cbn [rev]. now rewrite rev_involutive.
Qed.

(* ---------- digits and underscores ---------- *)

Definition num (acc : N) (ds : list N) : N := fold_left (fun a d => a * 10 + d)%N ds acc.
Lemma number_num ds : number ds = Z.of_N (num 0 ds).
Proof.
  unfold number, num. change 0%Z with (Z.of_N 0). generalize 0%N. induction ds as [|d ds IH]; intros a; cbn [fold_left]; [reflexivity|].
  rewrite <- IH. f_equal. lia.
Qed.
(* digits and underscores: if [need] the text begins with a digit *)
Fixpoint body (need : bool) (s : str) (ds : list N) : Prop :=
  match s with
  | [] => need = false /\ ds = []
  | c :: s => (exists d ds', ds = d :: ds' /\ digit_of c d /\ body false s ds') \/ (c = 95%N /\ need = false /\ body true s ds)
  end.
Lemma under_not_digit : digit_val 95 = None.
Proof. reflexivity. Qed.
Lemma int_digits_body s : forall acc need n, int_digits acc need s = Some n <-> exists ds, body need s ds /\ n = num acc ds.
Proof.
  induction s as [|c s IH]; intros acc need n; cbn [int_digits body].
  - destruct need; split; [easy|intros (ds & [[=] _] & _)|intros [= <-]; exists []; easy|intros (ds & [_ ->] & ->); reflexivity].
  - destruct (digit_val c) as [d|] eqn:Ed.
    + rewrite IH. split.
      * intros (ds & Hb & ->). exists (d :: ds). split; [|reflexivity]. left. exists d, ds. now rewrite <- digit_class.
      * intros (ds & [(d' & ds' & -> & Hd & Hb)|(-> & _)] & ->); [|discriminate Ed].
        exists ds'. split; [exact Hb|]. apply digit_class in Hd. rewrite Ed in Hd. injection Hd as <-. reflexivity.
    + destruct (N.eqb_spec c 95) as [->|Hc]; cbn [andb].
      * destruct need; cbn [negb].
        -- split; [easy|]. intros (ds & [(d & ds' & _ & Hd & _)|(_ & Q & _)] & _); [|discriminate Q].
           apply digit_class in Hd. congruence.
        -- rewrite IH. split.
           ++ intros (ds & Hb & ->). exists ds. split; [|reflexivity]. right. auto.
           ++ intros (ds & [(d & ds' & _ & Hd & _)|(_ & _ & Hb)] & ->); [apply digit_class in Hd; congruence|].
              exists ds. auto.
      * split; [easy|]. intros (ds & [(d & ds' & _ & Hd & _)|(Q & _)] & _); [apply digit_class in Hd; congruence|contradiction].
Qed.

Lemma body_digits g s ds ds' : forall need, Forall2 digit_of g ds -> (g = [] -> need = false) -> body false s ds' -> body need (g ++ s) (ds ++ ds').
Proof.
  intros need H. revert need. induction H as [|c d g ds Hc H IH]; intros need Hn Hb.
  - cbn. now rewrite (Hn eq_refl).
  - cbn [app body]. left. exists d, (ds ++ ds'). split; [reflexivity|]. split; [exact Hc|]. now apply IH.
Qed.
Lemma groups_body gs ds : gs <> [] -> ~ In [] gs -> Forall2 digit_of (concat gs) ds -> body true (join (L "_") gs) ds.
Proof.
  revert ds. induction gs as [|g gs IH]; intros ds Hne Hin Hf; [easy|]. cbn [concat] in Hf.
  apply Forall2_app_inv_l in Hf as (d1 & d2 & H1 & H2 & ->).
  assert (Hg : g = [] -> true = false) by (intros ->; destruct Hin; now left).
  destruct gs as [|h gs].
  - cbn in *. inversion H2; subst. rewrite <- (app_nil_r g). apply body_digits; [exact H1|exact Hg|]. cbn. auto.
  - change (join (L "_") (g :: h :: gs)) with (g ++ L "_" ++ join (L "_") (h :: gs)). apply body_digits; [exact H1|exact Hg|].
    change (L "_" ++ join (L "_") (h :: gs)) with (95%N :: join (L "_") (h :: gs)). right. split; [reflexivity|]. split; [reflexivity|].
    apply IH; [easy| |exact H2]. intros Q. apply Hin. now right.
Qed.
(* the first group of digits, and the others *)
Lemma body_groups s : forall need ds, body need s ds ->
  exists g gs, s = join (L "_") (g :: gs) /\ ~ In [] gs /\ (need = true -> g <> []) /\ Forall2 digit_of (concat (g :: gs)) ds.
Proof.
  induction s as [|c s IH]; intros need ds; cbn [body].
  - intros [-> ->]. exists [], []. repeat split; auto; try discriminate. constructor.
  - intros [(d & ds' & -> & Hd & Hb)|(-> & -> & Hb)].
    + destruct (IH _ _ Hb) as (g & gs & -> & Hin & _ & Hf). exists (c :: g), gs.
      split; [destruct gs; reflexivity|]. split; [exact Hin|]. split; [discriminate|]. cbn [concat app]. constructor; auto.
    + destruct (IH _ _ Hb) as (g & gs & -> & Hin & Hg & Hf). exists [], (g :: gs). split; [reflexivity|].
      split; [intros [Q|Q]; [now apply (Hg eq_refl)|auto]|]. split; [discriminate|exact Hf].
Qed.
Lemma int_digits_groups s n : int_digits 0 true s = Some n <->
  exists gs ds, s = join (L "_") gs /\ gs <> [] /\ ~ In [] gs /\ Forall2 digit_of (concat gs) ds /\ n = num 0 ds.
Proof.
  rewrite int_digits_body. split.
  - intros (ds & Hb & ->). destruct (body_groups _ _ _ Hb) as (g & gs & -> & Hin & Hg & Hf).
    exists (g :: gs), ds. repeat split; auto; try discriminate. intros [Q|Q]; [now apply (Hg eq_refl)|auto].
  - intros (gs & ds & -> & Hne & Hin & Hf & ->). exists ds. split; [now apply groups_body|reflexivity].
Qed.

Lemma body_ends s : forall need ds, body need s ds -> s <> [] -> exists s' c, s = s' ++ [c] /\ is_space c = false.
Proof.
  intros need ds Hb Hne. destruct (@exists_last _ s Hne) as (s' & c & ->). exists s', c. split; [reflexivity|].
  revert need ds Hb Hne. induction s' as [|d s' IH]; intros need ds Hb Hne; cbn [app body] in Hb.
  - destruct Hb as [(d & ds' & _ & Hd & _)|(-> & _)]; [|reflexivity]. now apply digit_not_space in Hd.
  - destruct Hb as [(e & ds' & _ & Hd & Hb)|(-> & _ & Hb)]; eapply IH; try exact Hb; now destruct s'.
Qed.

Theorem int_reads s z : py_int s = Some z <-> int_text s z.
Proof.
  unfold py_int, int_text. split.
  - intros H. destruct (strip_split s) as (u & v & E & Hw). revert E H. destruct (strip s) as [|c t] eqn:Et; [easy|]. intros E H.
    assert (D : exists sign w n, c :: t = sign ++ w /\ int_digits 0 true w = Some n
      /\ ((sign = [] \/ sign = L "+") /\ z = Z.of_N n \/ sign = L "-" /\ z = (- Z.of_N n)%Z)).
    { destruct (N.eqb_spec c 45) as [->|H45]; [|destruct (N.eqb_spec c 43) as [->|H43]].
      - destruct (int_digits 0 true t) as [n|] eqn:En; [|easy]. injection H as <-. exists (L "-"), t, n. repeat split; [exact En|right]; auto.
      - destruct (int_digits 0 true t) as [n|] eqn:En; [|easy]. injection H as <-. exists (L "+"), t, n. repeat split; [exact En|left]; auto.
      - destruct (int_digits 0 true (c :: t)) as [n|] eqn:En; [|easy]. injection H as <-. exists [], (c :: t), n. repeat split; [exact En|left]; auto. }
    destruct D as (sign & w & n & Ew & Hn & Hs). apply int_digits_groups in Hn as (gs & ds & -> & Hne & Hin & Hf & ->).
    exists u, sign, gs, v, ds. rewrite Ew in E. rewrite <- app_assoc in E.
    split; [exact E|]. split; [exact Hw|]. split; [exact Hne|]. split; [exact Hin|]. split; [exact Hf|].
    rewrite number_num. exact Hs.
  - intros (u & sign & gs & v & ds & -> & Hw & Hne & Hin & Hf & Hs).
    assert (Hb : body true (join (L "_") gs) ds) by now apply groups_body.
    assert (Hj : join (L "_") gs <> []) by (intros Q; rewrite Q in Hb; destruct Hb as [[=] _]).
    assert (Hd : match join (L "_") gs with [] => False | c :: _ => exists d, digit_of c d end).
    { destruct (join (L "_") gs) as [|c t]; [easy|]. destruct Hb as [(d & ds' & _ & Hd & _)|(_ & [=] & _)]. now exists d. }
    destruct (body_ends _ _ _ Hb Hj) as (b' & e & Ee & He).
    assert (Hi : int_digits 0 true (join (L "_") gs) = Some (num 0 ds)) by (apply int_digits_body; eauto).
    rewrite (app_assoc sign). rewrite strip_around; [|exact Hw| |].
    + rewrite number_num in Hs. destruct (join (L "_") gs) as [|c t]; [easy|]. destruct Hs as [[[->| ->] ->]|[-> ->]].
      * cbn [app]. destruct Hd as (d & Hd). apply digit_class in Hd.
        destruct (N.eqb_spec c 45) as [->|_]; [discriminate Hd|]. destruct (N.eqb_spec c 43) as [->|_]; [discriminate Hd|].
        now rewrite Hi.
      * change (L "+") with [43%N]. cbn [app]. cbn [N.eqb Pos.eqb]. now rewrite Hi.
      * change (L "-") with [45%N]. cbn [app]. cbn [N.eqb Pos.eqb]. now rewrite Hi.
    + destruct Hs as [[[->| ->] _]|[-> _]]; [|reflexivity|reflexivity]. cbn [app].
      destruct (join (L "_") gs) as [|c t]; [easy|]. destruct Hd as (d & Hd). now apply digit_not_space in Hd.
    + rewrite Ee, app_assoc, last_last. exact He.
Qed.

Theorem int_of_str z : py_int (dec_Z z) = Some z.
Proof.
  destruct z as [|p|p]; [reflexivity| |].
  - cbn [dec_Z Z.to_N]. now rewrite py_int_dec_N.
  - cbn [dec_Z]. unfold py_int.
    assert (Hs : strip (45%N :: dec_N (N.pos p)) = 45%N :: dec_N (N.pos p)).
    { apply strip_id; [reflexivity|]. intros _. assert (Ha := dec_N_ascii (N.pos p)). assert (Hn := dec_N_ne (N.pos p)).
      destruct (@exists_last _ _ Hn) as (l & c & E). rewrite E in *. change (45%N :: l ++ [c]) with ((45%N :: l) ++ [c]). rewrite last_last.
      apply Forall_app in Ha as [_ Ha]. inversion Ha; subst. now apply ascii_digit_val. }
    rewrite Hs. cbn [N.eqb Pos.eqb]. rewrite int_digits_ascii; [|apply dec_N_ascii|apply dec_N_ne].
    rewrite dec_N_value. reflexivity.
Qed.
End P.
