(* Decimal numerals: str(n) consists of ASCII digits and int(str(n)) = n. *)
From Verif Require Import PyStr PyStrFacts Ref SpecRef RefLaws.

Definition ascii_digit (c : N) : Prop := (48 <= c <= 57)%N.
Definition digits_value (acc : N) (s : str) : N := fold_left (fun a c => a * 10 + (c - 48))%N s acc.

Lemma dec_digits_ascii f : forall n, Forall ascii_digit (dec_digits f n).
Proof.
  induction f as [|f IH]; intros n; cbn [dec_digits]; [constructor|].
  destruct (N.ltb_spec n 10).
  - constructor; [|constructor]. unfold ascii_digit. lia.
  - apply Forall_app. split; [apply IH|]. constructor; [|constructor]. unfold ascii_digit.
    assert (Hm := N.mod_lt n 10 ltac:(discriminate)). revert Hm. generalize (n mod 10)%N. intros. lia.
Qed.
Lemma dec_digits_ne f n : dec_digits (S f) n <> [].
Proof. cbn [dec_digits]. destruct (N.ltb n 10); [easy|]. now destruct (dec_digits f (n / 10)). Qed.

Lemma dec_digits_value f : forall n, (n < 2 ^ N.of_nat f)%N -> digits_value 0 (dec_digits f n) = n.
Proof.
  induction f as [|f IH]; intros n Hn; cbn [dec_digits].
  - cbn in *. unfold digits_value; cbn. lia.
  - destruct (N.ltb_spec n 10).
    + unfold digits_value; cbn [fold_left]. lia.
    + unfold digits_value. rewrite fold_left_app. fold (digits_value 0 (dec_digits f (n / 10))).
      rewrite IH.
      * cbn [fold_left]. assert (Hd := N.div_mod n 10 ltac:(discriminate)). revert Hd. generalize (n mod 10)%N, (n / 10)%N. intros. lia.
      * replace (N.of_nat (S f)) with (N.succ (N.of_nat f)) in Hn by lia. rewrite N.pow_succ_r' in Hn.
        apply N.div_lt_upper_bound; lia.
Qed.
Lemma dec_N_value n : digits_value 0 (dec_N n) = n.
Proof.
  unfold dec_N. apply dec_digits_value.
  destruct n as [|p]; [cbn; lia|]. assert (H := N.log2_spec (Npos p)). 
  replace (N.of_nat (S (N.to_nat (N.log2 (N.pos p))))) with (N.succ (N.log2 (N.pos p))) by lia. lia.
Qed.
Lemma dec_N_ascii n : Forall ascii_digit (dec_N n).
Proof. apply dec_digits_ascii. Qed.
Lemma dec_N_ne n : dec_N n <> [].
Proof. apply dec_digits_ne. Qed.
Lemma dec_N_inj n m : dec_N n = dec_N m -> n = m.
Proof. intros H. rewrite <- (dec_N_value n), <- (dec_N_value m). now rewrite H. Qed.
Lemma dec_nat_inj n m : dec_nat n = dec_nat m -> n = m.
Proof. intros H. apply dec_N_inj in H. lia. Qed.
Lemma dec_nat_ne n : dec_nat n <> [].
Proof. apply dec_N_ne. Qed.
Lemma dec_nat_ascii n : Forall ascii_digit (dec_nat n).
Proof. apply dec_N_ascii. Qed.

Section D.
Context {U : Unicode}.
Lemma ascii_digit_val c : ascii_digit c -> digit_val c = Some (c - 48)%N /\ is_digit c = true /\ is_space c = false.
Proof.
  intros H. unfold ascii_digit in H. unfold digit_val, is_digit, is_space, cclass, ascii_class, in_range.
  destruct (N.ltb_spec c 128); [|lia].
  destruct (N.leb_spec 48 c); [|lia]. destruct (N.leb_spec c 57); [|lia]. easy.
Qed.
Lemma int_digits_ascii s : Forall ascii_digit s -> forall acc b, s <> [] ->
  int_digits acc b s = Some (digits_value acc s).
Proof.
  induction 1 as [|c s Hc Hs IH]; intros acc b Hne; [easy|]. cbn [int_digits].
  destruct (ascii_digit_val c Hc) as [-> _]. destruct s as [|d s]; [reflexivity|].
  now rewrite IH.
Qed.
Lemma strip_digits s : Forall ascii_digit s -> strip s = s.
Proof.
  intros H. apply strip_id.
  - destruct H as [|c s Hc]; [easy|]. now apply ascii_digit_val.
  - destruct s as [|c s] using rev_ind; [easy|]. rewrite last_last.
    apply Forall_app in H as [_ H]. inversion H; subst. intros _. now apply ascii_digit_val.
Qed.
Lemma py_int_digits s : Forall ascii_digit s -> s <> [] -> py_int s = Some (Z.of_N (digits_value 0 s)).
Proof.
  intros H Hne. unfold py_int. rewrite strip_digits by easy.
  destruct s as [|c s]; [easy|]. inversion H as [|? ? Hc]; subst. unfold ascii_digit in Hc.
  destruct (N.eqb_spec c 45); [lia|]. destruct (N.eqb_spec c 43); [lia|].
  now rewrite int_digits_ascii.
Qed.
Lemma py_int_dec_N n : py_int (dec_N n) = Some (Z.of_N n).
Proof. rewrite py_int_digits by (apply dec_N_ascii || apply dec_N_ne). now rewrite dec_N_value. Qed.
Lemma py_int_dec_nat n : py_int (dec_nat n) = Some (Z.of_nat n).
Proof. unfold dec_nat. rewrite py_int_dec_N. f_equal. lia. Qed.
Lemma dec_nat_num n : num_shape (dec_nat n).
Proof.
  exists [], (dec_nat n). split; [easy|]. split; [now left|]. split; [apply dec_nat_ne|].
  eapply Forall_impl; [|apply dec_nat_ascii]. intros c Hc. right. now apply ascii_digit_val.
Qed.
End D.
