(* Proofs about xigt sort: C36, C37. *)
From Coq Require Import Permutation Sorted.
From Verif Require Import PyStr PyStrFacts PySort PySortFacts Regex RegexFacts RefMatch RefLossless Ref Model Container SpecContainer ContainerProofs Scripts SpecScripts.

(* ---------- the pieces of a key ---------- *)

Section Keys.
Context {U : Unicode}.
Notation nd := (fun c => negb (is_digit c)).

Lemma no_digit_nd t : no_digit t <-> Forall (fun c => nd c = true) t.
Proof. unfold no_digit. split; intros H; eapply Forall_impl; try exact H; cbn; intros c; destruct (is_digit c); easy. Qed.

Lemma digits_match pos s : match_at false digits_re pos s =
  match s with
  | c :: _ => if is_digit c then Some {| r_start := pos; r_end := pos + length (takew is_digit s); r_rest := dropw is_digit s;
                                         r_caps := [(1, takew is_digit s)] |} else None
  | [] => None
  end.
Proof.
  unfold match_at, digits_re. change {| m_pos := pos; m_rest := s; m_caps := [] |} with (st pos s []).
  rewrite rmatch_group. unfold RPlus. rewrite rm_seq, rm_chr. destruct s as [|c t]; [easy|].
  destruct (is_digit c) eqn:E; [|easy].
  rewrite rmatch_star_chr.
  rewrite (star_g_some _ _ _ _ _ {| r_start := pos; r_end := pos + length (takew is_digit (c :: t)); r_rest := dropw is_digit (c :: t);
                                    r_caps := [(1, takew is_digit (c :: t))] |}); [reflexivity|].
  cbn [st m_pos m_rest m_caps andb takew dropw]. rewrite E. f_equal. f_equal; [cbn; lia|]. f_equal. f_equal.
  replace (S pos + length (takew is_digit t) - pos) with (length (c :: takew is_digit t)) by (cbn [length]; lia).
  rewrite <- (takew_dropw is_digit t) at 2. change (c :: takew is_digit t ++ dropw is_digit t) with ((c :: takew is_digit t) ++ dropw is_digit t).
  apply firstn_app_len.
Qed.
Lemma digits_search t : no_digit t -> forall pos s, (s = [] \/ exists c r, s = c :: r /\ is_digit c = true) ->
  search_from false digits_re pos (t ++ s) = match_at false digits_re (pos + length t) s.
Proof.
  induction 1 as [|c t Hc Ht IH]; intros pos s Hs.
  - cbn [app length]. rewrite Nat.add_0_r. destruct Hs as [->|(c & r & -> & Hc)].
    + rewrite search_nil; rewrite digits_match; reflexivity.
    + rewrite digits_match, Hc. apply search_here. rewrite digits_match, Hc. reflexivity.
  - cbn [app]. rewrite search_skip by (rewrite digits_match, Hc; reflexivity). rewrite IH by exact Hs. f_equal. cbn; lia.
Qed.
Lemma digit_space c : is_digit c = true -> is_space c = false.
Proof. unfold is_digit, is_space. now destruct (cclass c). Qed.
Lemma digit_not c d : is_digit c = true -> is_digit d = false -> N.eqb c d = false.
Proof. intros H K. apply N.eqb_neq. intros ->. congruence. Qed.
Lemma int_digits_number d : all_digits d -> forall acc b, (d <> [] \/ b = false) ->
  int_digits acc b d = Some (Z.to_N (number_from (Z.of_N acc) d)).
Proof.
  induction 1 as [|c d Hc Hd IH]; intros acc b Hb; cbn.
  - destruct Hb as [Hb| ->]; [easy|]. now rewrite N2Z.id.
  - unfold is_digit in Hc. unfold digit_val. destruct (cclass c); try discriminate.
    rewrite IH by now right. f_equal. f_equal. f_equal. lia.
Qed.
Lemma number_nonneg d : forall a, (0 <= a)%Z -> (0 <= number_from a d)%Z.
Proof. induction d as [|c d IH]; intros a Ha; cbn; [easy|]. apply IH. destruct (digit_val c); lia. Qed.
Lemma lstrip_nospace s : Forall (fun c => is_space c = false) s -> lstrip s = s.
Proof. intros H. destruct H as [|c s Hc]; cbn; [easy|]. now rewrite Hc. Qed.
Lemma strip_nospace s : Forall (fun c => is_space c = false) s -> strip s = s.
Proof.
  intros H. unfold strip, rstrip. rewrite (lstrip_nospace s) by exact H. rewrite lstrip_nospace by now apply Forall_rev. apply rev_involutive.
Qed.
Lemma py_int_number d : all_digits d -> d <> [] -> py_int d = Some (number d).
Proof.
  intros H Hne. unfold py_int. rewrite strip_nospace by (eapply Forall_impl; [|exact H]; intros c; apply digit_space).
  destruct d as [|c d]; [easy|]. inversion H; subst.
  rewrite (digit_not c 45), (digit_not c 43) by (auto; reflexivity).
  rewrite int_digits_number by (auto; now left). cbn [option_map]. f_equal. unfold number. rewrite Z2N.id; [reflexivity|].
  apply number_nonneg. easy.
Qed.
Lemma lstrip_in s c : In c (lstrip s) -> In c s.
Proof. induction s as [|d s IH]; cbn; [easy|]. destruct (is_space d); cbn; auto. Qed.
Lemma strip_in s c : In c (strip s) -> In c s.
Proof. unfold strip, rstrip. intros H. apply in_rev, lstrip_in in H. apply in_rev in H. now apply lstrip_in in H. Qed.
Lemma int_digits_none s : no_digit s -> forall acc, int_digits acc true s = None.
Proof.
  intros H acc. destruct H as [|c s Hc]; [reflexivity|]. cbn. unfold is_digit in Hc. unfold digit_val.
  destruct (cclass c); try discriminate; now rewrite andb_false_r.
Qed.
Lemma py_int_text s : no_digit s -> py_int s = None.
Proof.
  intros H. unfold py_int. destruct (strip s) as [|c t] eqn:E; [reflexivity|].
  assert (Hct : no_digit (c :: t)).
  { apply Forall_forall. intros x Hx. rewrite <- E in Hx. apply strip_in in Hx. unfold no_digit in H. rewrite Forall_forall in H. auto. }
  inversion Hct; subst. rewrite !int_digits_none by auto. destruct (N.eqb c 45); [reflexivity|]. now destruct (N.eqb c 43).
Qed.
Lemma safe_int_text s : no_digit s -> safe_int s = PStr s.
Proof. intros H. unfold safe_int. now rewrite py_int_text. Qed.
Lemma safe_int_digits d : all_digits d -> d <> [] -> safe_int d = PInt (number d).
Proof. intros H K. unfold safe_int. now rewrite py_int_number. Qed.

Lemma split_text t pos : no_digit t -> split_at pos t (finditer_at false digits_re pos t) = [t].
Proof.
  intros H. rewrite finditer_none; [reflexivity|]. pose proof (digits_search t H pos [] (or_introl eq_refl)) as E.
  rewrite app_nil_r in E. rewrite E. rewrite digits_match. reflexivity.
Qed.
Lemma split_more t d rest pos : no_digit t -> all_digits d -> d <> [] -> ~ starts_with_digit rest ->
  split_at pos (t ++ d ++ rest) (finditer_at false digits_re pos (t ++ d ++ rest))
  = t :: d :: split_at (pos + length t + length d) rest (finditer_at false digits_re (pos + length t + length d) rest).
Proof.
  intros Ht Hd Hne Hr.
  assert (Hr' : match rest with c :: _ => is_digit c = false | [] => True end).
  { destruct rest as [|c r]; [easy|]. destruct (is_digit c) eqn:E; [|easy]. destruct Hr. exists c, r. auto. }
  assert (Htk : takew is_digit (d ++ rest) = d) by now apply takew_app_all.
  assert (Hdr : dropw is_digit (d ++ rest) = rest) by now apply dropw_app_all.
  assert (Hc : exists c r, d ++ rest = c :: r /\ is_digit c = true).
  { destruct d as [|c d]; [easy|]. inversion Hd; subst. cbn. eauto. }
  assert (Hm : search_from false digits_re pos (t ++ d ++ rest) =
     Some {| r_start := pos + length t; r_end := pos + length t + length d; r_rest := rest; r_caps := [(1, d)] |}).
  { rewrite digits_search by (auto; now right). destruct Hc as (c & r & E & Hc). rewrite digits_match.
    rewrite E at 1. cbn match. rewrite Hc, Htk, Hdr. reflexivity. }
  rewrite (finditer_some _ _ _ _ _ Hm). cbn [r_start r_end r_rest split_at].
  replace (pos + length t - pos) with (length t) by lia. rewrite firstn_app_len.
  replace (pos + length t + length d =? pos + length t) with false; [reflexivity|].
  symmetry. apply Nat.eqb_neq. destruct d; [easy|cbn; lia].
Qed.

Lemma natural_split s ps : natural s ps -> forall pos, map safe_int (split_at pos s (finditer_at false digits_re pos s)) = ps.
Proof.
  induction 1 as [t Ht|t d rest ps Ht Hd Hne Hr Hn IH]; intros pos.
  - rewrite split_text by exact Ht. cbn. now rewrite safe_int_text.
  - rewrite split_more by assumption. cbn. now rewrite safe_int_text, safe_int_digits, IH.
Qed.
Lemma natural_exists_ n : forall s, length s <= n -> exists ps, natural s ps.
Proof.
  induction n as [|n IH]; intros s Hs.
  - destruct s; [|cbn in Hs; lia]. exists [PStr []]. constructor. constructor.
  - pose proof (takew_dropw nd s) as E. destruct (dropw nd s) as [|c r] eqn:Ed.
    + exists [PStr s]. constructor. apply no_digit_nd. rewrite app_nil_r in E. rewrite <- E. apply takew_forall.
    + pose proof (dropw_head nd _ _ _ Ed) as Hc. apply negb_false_iff in Hc.
      pose proof (takew_dropw is_digit (c :: r)) as E2.
      assert (Hne : takew is_digit (c :: r) <> []) by (cbn; rewrite Hc; discriminate).
      destruct (IH (dropw is_digit (c :: r))) as (ps & Hps).
      { apply (f_equal (@length _)) in E, E2. rewrite app_length in E, E2. destruct (takew is_digit (c :: r)); [easy|]. cbn in E2, E, Hs |- *. cbn in *. lia. }
      exists (PStr (takew nd s) :: PInt (number (takew is_digit (c :: r))) :: ps). rewrite <- E2 in E. rewrite <- E at 1. apply nat_more; [| | exact Hne | | exact Hps].
      * apply no_digit_nd, takew_forall.
      * apply takew_forall.
      * intros (c' & t' & Ec & Hc'). apply dropw_head in Ec. congruence.
Qed.
Lemma natural_exists s : exists ps, natural s ps.
Proof. exact (natural_exists_ (length s) s (le_n _)). Qed.
Lemma key_natural s : natural s (map safe_int (split_digits s)).
Proof. destruct (natural_exists s) as (ps & H). unfold split_digits. rewrite finditer_0. now rewrite (natural_split _ _ H). Qed.
Lemma natural_fun s ps qs : natural s ps -> natural s qs -> ps = qs.
Proof. intros H K. now rewrite <- (natural_split _ _ H 0), <- (natural_split _ _ K 0). Qed.
End Keys.

(* ---------- comparison ---------- *)

Lemma str_ltb_spec s : forall t, str_ltb s t = true <-> str_less s t.
Proof.
  induction s as [|c s IH]; intros [|d t]; cbn.
  - split; [easy|]. intros [(l & c & r & d & r' & E & _)|(c & r & E)]; [destruct l|]; discriminate.
  - split; [|easy]. intros _. right. exists d, t. reflexivity.
  - split; [easy|]. intros [(l & ? & r & ? & r' & _ & E & _)|(? & r & E)]; [destruct l|]; discriminate.
  - rewrite orb_true_iff, andb_true_iff, N.ltb_lt, N.eqb_eq. split.
    + intros [H|[<- H]]; [left; exists [], c, s, d, t; auto|].
      apply IH in H as [(l & a & r & b & r' & -> & -> & H)|(a & r & ->)].
      * left. exists (c :: l), a, r, b, r'. auto.
      * right. exists a, r. reflexivity.
    + intros [(l & a & r & b & r' & E & E' & H)|(a & r & E)].
      * destruct l as [|x l]; cbn in E, E'; injection E as -> ->; injection E' as -> ->; [now left|].
        right. split; [easy|]. apply IH. left. exists l, a, r, b, r'. auto.
      * injection E as -> ->. right. split; [easy|]. apply IH. right. eauto.
Qed.
Lemma str_ltb_irrefl s : str_ltb s s = false.
Proof. induction s as [|c s IH]; cbn; [easy|]. now rewrite N.ltb_irrefl, N.eqb_refl, IH. Qed.
Lemma str_trichotomy s : forall t, str_ltb s t = true \/ s = t \/ str_ltb t s = true.
Proof.
  induction s as [|c s IH]; intros [|d t]; cbn; auto. rewrite !orb_true_iff, !andb_true_iff, !N.ltb_lt, !N.eqb_eq.
  destruct (N.lt_trichotomy c d) as [H|[->|H]]; auto. destruct (IH t) as [H|[->|H]]; auto.
Qed.
Lemma str_ltb_trans a : forall b c, str_ltb a b = true -> str_ltb b c = true -> str_ltb a c = true.
Proof.
  induction a as [|x a IH]; intros [|y b] [|z c]; cbn; try easy.
  rewrite !orb_true_iff, !andb_true_iff, !N.ltb_lt, !N.eqb_eq.
  intros [H|[-> H]] [K|[-> K]]; [left; lia|left; lia|left; lia|right; split; [easy|eauto]].
Qed.

Lemma piece_eqb_spec a b : reflect (a = b) (piece_eqb a b).
Proof.
  destruct a as [s|x], b as [t|y]; cbn; try (constructor; discriminate).
  - destruct (str_eqb_spec s t); constructor; congruence.
  - destruct (Z.eqb_spec x y); constructor; congruence.
Qed.
Lemma piece_less_spec a b : piece_lt a b = Ok true <-> piece_less a b.
Proof.
  split.
  - destruct a as [s|x], b as [t|y]; cbn; try discriminate; intros [= H].
    + left. exists s, t. repeat split. now apply str_ltb_spec.
    + right. exists x, y. repeat split. lia.
  - intros [(s & t & -> & -> & H)|(x & y & -> & -> & H)]; cbn; f_equal; [now apply str_ltb_spec|lia].
Qed.
Lemma piece_irrefl a : ~ piece_less a a.
Proof. intros H. apply piece_less_spec in H. destruct a; cbn in H; injection H as H; [rewrite str_ltb_irrefl in H; discriminate|lia]. Qed.

(* a key compares as less exactly in the natural order *)
Lemma key_lt_less a : forall b, key_lt a b = Ok true <-> natural_less a b.
Proof.
  induction a as [|x a IH]; intros [|y b]; cbn.
  - split; [easy|]. intros [(l & c & r & d & r' & E & _)|(c & r & E)]; [destruct l|]; discriminate.
  - split; [|easy]. intros _. right. exists y, b. reflexivity.
  - split; [easy|]. intros [(l & ? & r & ? & r' & _ & E & _)|(? & r & E)]; [destruct l|]; discriminate.
  - destruct (piece_eqb_spec x y) as [<-|Ne].
    + rewrite IH. split.
      * intros [(l & a1 & r & b1 & r' & -> & -> & H)|(a1 & r & ->)]; [left; exists (x :: l), a1, r, b1, r'; auto|right; exists a1, r; reflexivity].
      * intros [(l & a1 & r & b1 & r' & E & E' & H)|(a1 & r & E)].
        -- destruct l as [|z l]; cbn in E, E'; injection E as -> ->; injection E' as ->; [now apply piece_irrefl in H|].
           left. exists l, a1, r, b1, r'. auto.
        -- injection E as ->. right. eauto.
    + rewrite piece_less_spec. split; [intros H; left; exists [], x, a, y, b; auto|].
      intros [(l & a1 & r & b1 & r' & E & E' & H)|(a1 & r & E)].
      * destruct l as [|z l]; cbn in E, E'; injection E as -> ->; injection E' as -> ->; [exact H|easy].
      * injection E as ->. easy.
Qed.
Lemma piece_lt_flip a b v : piece_lt a b = Ok v -> exists w, piece_lt b a = Ok w.
Proof. destruct a, b; cbn; try discriminate; eauto. Qed.
Lemma key_lt_flip a : forall b v, key_lt a b = Ok v -> exists w, key_lt b a = Ok w.
Proof.
  induction a as [|x a IH]; intros [|y b] v; cbn; eauto.
  destruct (piece_eqb_spec x y) as [<-|Ne].
  - destruct (piece_eqb_spec x x); [|easy]. eauto.
  - destruct (piece_eqb_spec y x); [now subst|]. apply piece_lt_flip.
Qed.
(* not less: equal or greater *)
Lemma key_le a : forall b, key_lt b a = Ok false <-> a = b \/ natural_less a b.
Proof.
  intros b. rewrite <- key_lt_less. revert b. induction a as [|x a IH]; intros [|y b]; cbn.
  - split; auto.
  - split; auto.
  - split; [easy|]. intros [H|H]; discriminate.
  - destruct (piece_eqb_spec y x) as [<-|Ne].
    + destruct (piece_eqb_spec y y) as [_|]; [|easy]. rewrite IH. split; intros [H|H]; auto; left; congruence.
    + destruct (piece_eqb_spec x y) as [|_]; [now subst|]. split.
      * intros H. right. destruct x as [s|u], y as [t|w]; cbn in H |- *; try discriminate; injection H as H; f_equal.
        -- destruct (str_trichotomy s t) as [K|[->|K]]; [easy|easy|congruence].
        -- assert (u <> w) by congruence. lia.
      * intros [E|H]; [injection E as -> ->; easy|].
        destruct x as [s|u], y as [t|w]; cbn in H |- *; try discriminate; injection H as H; f_equal.
        -- destruct (str_ltb t s) eqn:E; [|easy]. pose proof (str_ltb_trans _ _ _ H E) as K. now rewrite str_ltb_irrefl in K.
        -- lia.
Qed.
Lemma piece_less_trans a b c : piece_less a b -> piece_less b c -> piece_less a c.
Proof.
  rewrite <- !piece_less_spec. destruct a, b, c; cbn; try discriminate; intros [= H] [= K]; f_equal; [eapply str_ltb_trans; eauto|lia].
Qed.
Lemma natural_less_trans a : forall b c, natural_less a b -> natural_less b c -> natural_less a c.
Proof.
  intros b c. rewrite <- !key_lt_less. revert b c.
  induction a as [|x a IH]; intros [|y b] [|z c]; cbn; try easy.
  destruct (piece_eqb_spec x y) as [<-|N1]; intros H K.
  - destruct (piece_eqb_spec x z) as [<-|N2]; eauto.
  - apply piece_less_spec in H. destruct (piece_eqb_spec y z) as [<-|N2].
    + destruct (piece_eqb_spec x y); [now subst|]. now apply piece_less_spec.
    + apply piece_less_spec in K. pose proof (piece_less_trans _ _ _ H K) as T.
      destruct (piece_eqb_spec x z) as [->|]; [now apply piece_irrefl in T|]. now apply piece_less_spec.
Qed.
Lemma key_le_trans a b c : key_lt b a = Ok false -> key_lt c b = Ok false -> key_lt c a = Ok false.
Proof.
  rewrite !key_le. intros [->|H] [->|K]; auto. right. eapply natural_less_trans; eauto.
Qed.
Lemma key_lt_le a b : key_lt a b = Ok true -> key_lt b a = Ok false.
Proof. intros H. apply key_le. right. now apply key_lt_less. Qed.

(* ---------- comparable keys ---------- *)

(* strings and numbers at the same places *)
Fixpoint same_kinds (a b : list piece) : bool :=
  match a, b with
  | PStr _ :: a, PStr _ :: b | PInt _ :: a, PInt _ :: b => same_kinds a b
  | [], _ | _, [] => true
  | _, _ => false
  end.
Lemma same_kinds_comparable a : forall b, same_kinds a b = true -> exists v, key_lt a b = Ok v.
Proof.
  induction a as [|x a IH]; intros [|y b] H; cbn; eauto.
  destruct x as [s|u], y as [t|w]; cbn in *; try discriminate.
  - destruct (str_eqb s t); eauto.
  - destruct (Z.eqb u w); eauto.
Qed.
Section Comparable.
Context {U : Unicode}.
Lemma natural_kinds s ps : natural s ps -> forall t qs, natural t qs -> same_kinds ps qs = true.
Proof.
  induction 1 as [t Ht|t d rest ps Ht Hd Hne Hr Hn IH]; intros u qs Hq.
  - destruct Hq; reflexivity.
  - destruct Hq; [reflexivity|]. cbn. eauto.
Qed.
Lemma same_kinds_app a b c d : length a = length b -> same_kinds a b = true -> same_kinds c d = true -> same_kinds (a ++ c) (b ++ d) = true.
Proof.
  revert b. induction a as [|x a IH]; intros [|y b] Hl H K; try discriminate; [exact K|].
  destruct x, y; cbn in *; try discriminate; apply IH; auto.
Qed.
End Comparable.

Lemma mapM_ok {A B} (f : A -> res B) l ys : mapM f l = Ok ys <-> Forall2 (fun x y => f x = Ok y) l ys.
Proof.
  revert ys. induction l as [|x l IH]; intros ys; cbn.
  - split; [intros [= <-]; constructor|inversion 1; reflexivity].
  - split.
    + destruct (f x) eqn:E; [|discriminate]. cbn. destruct (mapM f l) eqn:E2; [|discriminate]. cbn. intros [= <-].
      constructor; [exact E|]. now apply IH.
    + inversion 1 as [|? y ? ys' Hx Hl]; subst. rewrite Hx. cbn. apply IH in Hl. now rewrite Hl.
Qed.

Section SortKeys.
Context {U : Unicode} {A : Type} (find : A -> str -> res (option str)).
Definition text (r : option str) : str := match r with Some s => s | None => [] end.
Lemma make_sortkey_spec sks x : forall k, make_sortkey find sks x = Ok k <->
  exists vs, Forall2 (fun sk v => find x sk = Ok v) sks vs /\ k = concat (map (fun v => map safe_int (split_digits (text v))) vs).
Proof.
  intros k. unfold make_sortkey. split.
  - destruct (mapM _ sks) eqn:E; [|discriminate]. cbn. intros [= <-]. apply mapM_ok in E.
    induction E as [|sk p sks l H E IH].
    + exists []. split; constructor.
    + destruct IH as (vs & Hv & Ek). destruct (find x sk) as [v|] eqn:Ef; [|discriminate]. cbn in H. injection H as <-.
      exists (v :: vs). split; [constructor; auto|]. cbn. now rewrite Ek.
  - intros (vs & H & ->).
    rewrite (proj2 (mapM_ok _ sks (map (fun v => map safe_int (split_digits (text v))) vs))); [reflexivity|].
    induction H; cbn; constructor; auto. now rewrite H.
Qed.
Theorem sortkey_one sk x k : make_sortkey find [sk] x = Ok k <->
  exists v, find x sk = Ok v /\ natural (match v with Some s => s | None => [] end) k.
Proof.
  rewrite make_sortkey_spec. split.
  - intros (vs & H & ->). inversion H as [|? v ? vs' Hv Hn]; subst. inversion Hn; subst. exists v. split; [exact Hv|].
    cbn. rewrite app_nil_r. apply key_natural.
  - intros (v & Hv & Hk). exists [v]. split; [constructor; auto|]. cbn. rewrite app_nil_r.
    eapply natural_fun; [exact Hk|]. apply key_natural.
Qed.
Theorem one_comparable sk x y kx ky : make_sortkey find [sk] x = Ok kx -> make_sortkey find [sk] y = Ok ky ->
  exists v, key_lt kx ky = Ok v.
Proof.
  rewrite !sortkey_one. intros (v & _ & Hv) (w & _ & Hw). apply same_kinds_comparable. eapply natural_kinds; eauto.
Qed.
(* several paths: every path but the last gives equally many runs *)
Theorem several_comparable sks sk x y kx ky :
  (forall p, In p sks -> exists vx vy px py, find x p = Ok vx /\ find y p = Ok vy
     /\ natural (match vx with Some s => s | None => [] end) px
     /\ natural (match vy with Some s => s | None => [] end) py /\ length px = length py) ->
  make_sortkey find (sks ++ [sk]) x = Ok kx -> make_sortkey find (sks ++ [sk]) y = Ok ky ->
  exists v, key_lt kx ky = Ok v.
Proof.
  intros H Hx Hy. apply make_sortkey_spec in Hx as (vs & Hx & ->). apply make_sortkey_spec in Hy as (ws & Hy & ->).
  apply same_kinds_comparable. revert vs ws Hx Hy. induction sks as [|p sks IH]; intros vs ws Hx Hy; cbn [app] in *.
  - inversion Hx as [|? v ? ? Hv Hn]; subst. inversion Hn; subst. inversion Hy as [|? w ? ? Hw Hm]; subst. inversion Hm; subst.
    cbn. rewrite !app_nil_r. eapply natural_kinds; apply key_natural.
  - inversion Hx as [|? v ? vs' Hv Hx']; subst. inversion Hy as [|? w ? ws' Hw Hy']; subst. cbn.
    destruct (H p (or_introl eq_refl)) as (vx & vy & px & py & E1 & E2 & N1 & N2 & Hl).
    rewrite Hv in E1. injection E1 as <-. rewrite Hw in E2. injection E2 as <-.
    pose proof (natural_fun _ _ _ N1 (key_natural _)) as ->. pose proof (natural_fun _ _ _ N2 (key_natural _)) as ->.
    apply same_kinds_app; [exact Hl|eapply natural_kinds; apply key_natural|]. apply IH; auto. intros q Hq. apply H. now right.
Qed.
End SortKeys.

Section Numbers.
Context {U : Unicode}.
(* texts that agree up to a number are ordered by it *)
Theorem numeric_order p d1 d2 r1 r2 ps qs : (forall q c, p = q ++ [c] -> is_digit c = false) ->
  all_digits d1 -> d1 <> [] -> ~ starts_with_digit r1 -> all_digits d2 -> d2 <> [] -> ~ starts_with_digit r2 ->
  (number d1 < number d2)%Z -> natural (p ++ d1 ++ r1) ps -> natural (p ++ d2 ++ r2) qs -> natural_less ps qs.
Proof.
  intros Hp H1 N1 S1 H2 N2 S2 Hlt.
  destruct (natural_exists p) as (pp & Hpp).
  assert (Hgen : forall d r, all_digits d -> d <> [] -> ~ starts_with_digit r -> forall rs, natural r rs ->
            exists pre t, natural (p ++ d ++ r) (pre ++ PStr t :: PInt (number d) :: rs) /\ natural p (pre ++ [PStr t])).
  { clear - Hp Hpp. intros d r Hd Hn Hr rs Hrs. induction Hpp as [t Ht|t d' rest ps Ht Hd' Hne Hr' Hn' IH].
    - exists [], t. split; [now constructor|now constructor].
    - destruct IH as (pre & u & I1 & I2).
      { intros q c E. apply (Hp (t ++ d' ++ q) c). rewrite E, !app_assoc. reflexivity. }
      exists (PStr t :: PInt (number d') :: pre), u. cbn. split.
      + rewrite <- !app_assoc. apply nat_more; auto.
        intros (c & s & E & Hc). destruct rest as [|c' rest].
        * destruct (exists_last Hne) as (q & c0 & Eq). specialize (Hp (t ++ q) c0). rewrite app_nil_r, Eq, app_assoc in Hp. specialize (Hp eq_refl).
          rewrite Eq in Hd'. apply Forall_app in Hd' as (_ & Hd'). inversion Hd'; congruence.
        * injection E as -> _. apply Hr'. eexists. eexists. split; [reflexivity|exact Hc].
      + now apply nat_more. }
  intros K1 K2. destruct (natural_exists r1) as (rs1 & Hrs1). destruct (natural_exists r2) as (rs2 & Hrs2).
  destruct (Hgen d1 r1 H1 N1 S1 rs1 Hrs1) as (pre1 & t1 & G1 & P1). destruct (Hgen d2 r2 H2 N2 S2 rs2 Hrs2) as (pre2 & t2 & G2 & P2).
  pose proof (natural_fun _ _ _ P1 P2) as E. apply app_inj_tail in E as (-> & E). injection E as ->.
  rewrite (natural_fun _ _ _ K1 G1), (natural_fun _ _ _ K2 G2).
  left. exists (pre2 ++ [PStr t2]), (PInt (number d1)), rs1, (PInt (number d2)), rs2. rewrite <- !app_assoc. split; [reflexivity|]. split; [reflexivity|].
  right. eauto.
Qed.
End Numbers.

(* ---------- the sort ---------- *)

Section MSort.
Context {A : Type} (lt : A -> A -> res bool).
Definition ltb a b := match lt a b with Ok true => true | _ => false end.
Lemma minsert_ssort x l r : minsert lt x l = Ok r -> r = sinsert ltb x l.
Proof.
  revert r. induction l as [|y l IH]; intros r; cbn; [now intros [= <-]|]. unfold ltb at 1.
  destruct (lt y x) as [[|]|]; cbn; [|now intros [= <-]|discriminate].
  destruct (minsert lt x l); [|discriminate]. cbn. intros [= <-]. now rewrite (IH _ eq_refl).
Qed.
Lemma msort_ssort l : forall r, msort lt l = Ok r -> r = ssort ltb l.
Proof.
  induction l as [|x l IH]; intros r; cbn; [now intros [= <-]|].
  destruct (msort lt l) as [r'|]; [|discriminate]. cbn. intros H. apply minsert_ssort in H. now rewrite <- (IH _ eq_refl).
Qed.
Notation le a b := (lt b a = Ok false).
Hypothesis lt_le : forall a b, lt a b = Ok true -> le a b.
Hypothesis le_trans : forall a b c, le a b -> le b c -> le a c.
Lemma minsert_sorted x l r : StronglySorted (fun a b => le a b) l -> minsert lt x l = Ok r -> StronglySorted (fun a b => le a b) r.
Proof.
  intros H. revert r. induction H as [|y l Hl IH Hy]; intros r; cbn; [intros [= <-]; repeat constructor|].
  destruct (lt y x) as [[|]|] eqn:E; cbn; [| |discriminate].
  - destruct (minsert lt x l) as [r'|] eqn:Em; [|discriminate]. cbn. intros [= <-]. constructor; [auto|].
    apply Forall_forall. intros z Hz. rewrite (minsert_ssort _ _ _ Em) in Hz.
    apply (Permutation_in _ (sinsert_perm ltb x l)) in Hz as [<-|Hz]; [auto|]. rewrite Forall_forall in Hy. auto.
  - intros [= <-]. constructor; [constructor; auto|]. constructor; [exact E|].
    apply Forall_forall. intros z Hz. rewrite Forall_forall in Hy. eapply le_trans; eauto.
Qed.
Lemma msort_sorted l : forall r, msort lt l = Ok r -> StronglySorted (fun a b => le a b) r.
Proof.
  induction l as [|x l IH]; intros r; cbn; [intros [= <-]; constructor|].
  destruct (msort lt l) as [r'|]; [|discriminate]. cbn. apply minsert_sorted; auto.
Qed.
End MSort.
Lemma minsert_total {A} (lt : A -> A -> res bool) x l : (forall y, In y l -> exists v, lt y x = Ok v) -> exists r, minsert lt x l = Ok r.
Proof.
  induction l as [|y l IH]; intros H; cbn; [eauto|]. destruct (H y (or_introl eq_refl)) as ([|] & ->); cbn; [|eauto].
  destruct IH as (r & ->); [intros; apply H; now right|]. cbn. eauto.
Qed.
Lemma msort_total {A} (lt : A -> A -> res bool) l : (forall x y, In x l -> In y l -> exists v, lt x y = Ok v) -> exists r, msort lt l = Ok r.
Proof.
  induction l as [|x l IH]; intros H; cbn; [eauto|]. destruct IH as (r & E); [intros; apply H; now right|]. rewrite E. cbn.
  apply minsert_total. intros y Hy. rewrite (msort_ssort _ _ _ E) in Hy. apply (Permutation_in _ (ssort_perm _ _)) in Hy.
  apply H; [now right|now left].
Qed.

Section Keyed.
Context {A : Type} (key : A -> res (list piece)).
Notation klt := (fun a b : list piece * A => key_lt (fst a) (fst b)).
Lemma keyed_ok l ks : mapM (fun x => do k <- key x; Ok (k, x)) l = Ok ks ->
  map snd ks = l /\ Forall (fun kx => key (snd kx) = Ok (fst kx)) ks.
Proof.
  intros H. apply mapM_ok in H. induction H as [|x kx l ks Hx H IH]; [split; constructor|].
  destruct (key x) eqn:E; [|discriminate]. cbn in Hx. injection Hx as <-. destruct IH as (<- & IH). split; [reflexivity|constructor; auto].
Qed.
Lemma filter_map {X Y} (f : X -> Y) p l : filter p (map f l) = map f (filter (fun x => p (f x)) l).
Proof. induction l as [|x l IH]; cbn; [easy|]. rewrite IH. now destruct (p (f x)). Qed.
Lemma SSorted_map {X Y} (f : X -> Y) (R : X -> X -> Prop) (S : Y -> Y -> Prop) l :
  StronglySorted R l -> (forall a b, In a l -> In b l -> R a b -> S (f a) (f b)) -> StronglySorted S (map f l).
Proof.
  induction 1 as [|x l Hl IH Hx]; intros H; cbn; constructor.
  - apply IH. intros; apply H; auto; now right.
  - apply Forall_forall. intros y Hy. apply in_map_iff in Hy as (z & <- & Hz). rewrite Forall_forall in Hx.
    apply H; [now left|now right|auto].
Qed.
Theorem sort_keyed_spec l l' : sort_keyed key l = Ok l' -> sorted_by key l l'.
Proof.
  unfold sort_keyed. destruct (mapM _ l) as [ks|] eqn:E; [|discriminate]. cbn.
  destruct (msort klt ks) as [r|] eqn:Em; [|discriminate]. cbn. intros [= <-].
  apply keyed_ok in E as (<- & Hk). rewrite Forall_forall in Hk.
  pose proof (msort_ssort _ _ _ Em) as Es.
  assert (Hin : forall kx, In kx r -> In kx ks) by (intros kx; rewrite Es; apply Permutation_in, ssort_perm).
  split; [|split].
  - apply Permutation_map. rewrite Es. apply ssort_perm.
  - apply (SSorted_map snd (fun a b => klt b a = Ok false)).
    + apply (msort_sorted klt) with (l := ks); [intros a b; apply key_lt_le|intros a b c; apply key_le_trans|exact Em].
    + intros a b Ha Hb H. exists (fst a), (fst b). split; [auto|]. split; [auto|]. now apply key_le.
  - intros p Hp. rewrite !filter_map. f_equal. rewrite Es. apply ssort_stable.
    intros x y Hx Hy Px Py. unfold ltb. pose proof (Hp _ _ Px Py) as E. rewrite !Hk in E by auto. injection E as E. rewrite E.
    destruct (key_lt (fst y) (fst y)) as [[|]|] eqn:K; try reflexivity.
    pose proof (key_lt_le _ _ K). congruence.
Qed.
Theorem sort_keyed_ends l : (forall x, In x l -> exists k, key x = Ok k) ->
  (forall x y kx ky, In x l -> In y l -> key x = Ok kx -> key y = Ok ky -> exists v, key_lt kx ky = Ok v) ->
  exists l', sort_keyed key l = Ok l'.
Proof.
  intros H1 H2. unfold sort_keyed.
  assert (Hk : exists ks, mapM (fun x => do k <- key x; Ok (k, x)) l = Ok ks).
  { clear H2. induction l as [|x l IH]; cbn; [eauto|]. destruct (H1 x (or_introl eq_refl)) as (k & ->). cbn.
    destruct IH as (ks & ->); [intros; apply H1; now right|]. cbn. eauto. }
  destruct Hk as (ks & Hk). rewrite Hk. cbn. apply keyed_ok in Hk as (Hm & Hk). rewrite Forall_forall in Hk.
  destruct (msort_total klt ks) as (r & ->); [|cbn; eauto].
  intros x y Hx Hy. apply (H2 (snd x) (snd y)); auto; rewrite <- Hm; now apply in_map.
Qed.
(* sorting by one path never fails once the path gives strings *)
End Keyed.

Theorem sort_one_path {U : Unicode} {A} (find : A -> str -> res (option str)) sk l :
  (forall x, In x l -> exists v, find x sk = Ok v) -> exists l', sort_keyed (make_sortkey find [sk]) l = Ok l'.
Proof.
  intros H. apply sort_keyed_ends.
  - intros x Hx. destruct (H x Hx) as (v & Hv). exists (map safe_int (split_digits (text v))).
    apply sortkey_one. exists v. split; [exact Hv|]. apply key_natural.
  - intros x y kx ky _ _. apply one_comparable.
Qed.

(* ---------- containers and corpora ---------- *)

Section Heap.
Context {U : Unicode} {B : Type}.
Theorem sort_container_spec key (s : state (B := B)) k : snd (sort_container key s k) = RNone ->
  let s' := fst (sort_container key s k) in
  sorted_by key (members s k) (members s' k)
  /\ (forall i, id_accepted i = true -> getitem (conts s' k) (KStr i) = getitem (conts s k) (KStr i))
  /\ (forall j, j <> k -> conts s' j = conts s j) /\ (forall a, objs s' a = objs s a).
Proof.
  unfold sort_container. destruct (sort_keyed key (c_items (conts s k))) as [l|] eqn:E; [|discriminate]. intros _. cbn -[getitem].
  unfold members. cbn -[getitem]. rewrite upd_same. cbn -[getitem]. split; [now apply sort_keyed_spec|]. split; [|split].
  - intros i Hi. cbn. rewrite accepted_not_int by exact Hi. reflexivity.
  - intros j Hj. now rewrite upd_other.
  - reflexivity.
Qed.
End Heap.

Section Corpora.
Context {U : Unicode}.
Lemma sort_if_spec {A} (key : option (A -> res (list piece))) l l' : sort_if key l = Ok l' -> sorted_if key l l'.
Proof. destruct key; cbn; [apply sort_keyed_spec|now intros [= <-]]. Qed.
Lemma Forall2_impl {A B} (P Q : A -> B -> Prop) l l' : (forall a b, P a b -> Q a b) -> Forall2 P l l' -> Forall2 Q l l'.
Proof. intros H. induction 1; constructor; auto. Qed.
Lemma Forall2_comp {A B C} (P : A -> B -> Prop) (Q : B -> C -> Prop) (R : A -> C -> Prop) l l' l'' :
  (forall a b c, P a b -> Q b c -> R a c) -> Forall2 P l l' -> Forall2 Q l' l'' -> Forall2 R l l''.
Proof. intros H K. revert l''. induction K; intros l'' L; inversion L; subst; constructor; eauto. Qed.
Theorem sort_corpus_spec fuel a c c' : sort_corpus fuel a c = Ok c' -> sorted_corpus fuel a c c'.
Proof.
  unfold sort_corpus. destruct (sort_if (by_igt a) (c_igts c)) as [gs|] eqn:E1; [|discriminate]. cbn [bind].
  match goal with |- bind ?m _ = _ -> _ => destruct m as [gs2|] eqn:E2; [|discriminate] end. cbn [bind].
  match goal with |- bind ?m _ = _ -> _ => destruct m as [gs3|] eqn:E3; [|discriminate] end. cbn [bind]. intros [= <-].
  split; [reflexivity|]. split; [reflexivity|]. exists gs. split; [now apply sort_if_spec|]. cbn [c_igts with_igts_].
  assert (H2 : Forall2 (fun g g2 => g_attrs g2 = g_attrs g /\ g_md g2 = g_md g /\ tiers_sorted fuel a g (g_tiers g2)) gs gs2).
  { unfold tiers_sorted. destruct (by_tier a) as [k|].
    - apply mapM_ok in E2. eapply Forall2_impl; [|exact E2]. intros g g2 H. cbn in H.
      destruct (sort_keyed (k g) (g_tiers g)) eqn:E; [|discriminate]. injection H as <-. cbn. split; [easy|]. split; [easy|]. now apply sort_keyed_spec.
    - destruct (by_deps a) as [ras|].
      + apply mapM_ok in E2. eapply Forall2_impl; [|exact E2]. intros g g2 H. unfold sort_tiers_by in H.
        destruct (SortTiers.sort_tiers fuel g ras) as [[ts|]|] eqn:E; try discriminate. injection H as <-. cbn. auto.
      + injection E2 as <-. clear. induction gs; constructor; auto. }
  apply mapM_ok in E3. eapply Forall2_comp; [|exact H2|exact E3]. intros g g2 g3 (A1 & A2 & A3) H. cbn in H.
  match type of H with bind ?m _ = _ => destruct m as [ts|] eqn:E; [|discriminate] end. injection H as <-. cbn.
  split; [exact A1|]. split; [exact A2|]. exists (g_tiers g2). split; [exact A3|].
  apply mapM_ok in E. eapply Forall2_impl; [|exact E]. intros t t' H. cbn beta in H.
  destruct (sort_if _ (t_items t)) eqn:Ei; [|discriminate]. injection H as <-. cbn. split; [easy|]. split; [easy|].
  assert (Eg : g2 = igt_with g (g_tiers g2)) by (destruct g2; cbn in *; now subst). rewrite Eg in Ei.
  apply sort_if_spec in Ei. now destruct (by_item a).
Qed.
End Corpora.

Lemma natural_unique {U : Unicode} s : exists ps, natural s ps /\ forall qs, natural s qs -> qs = ps.
Proof. destruct (natural_exists s) as (ps & H). exists ps. split; [exact H|]. intros qs K. eapply natural_fun; eauto. Qed.
Lemma key_order a b : (key_lt a b = Ok true <-> natural_less a b) /\ (key_lt b a = Ok false <-> a = b \/ natural_less a b).
Proof. split; [apply key_lt_less|apply key_le]. Qed.
