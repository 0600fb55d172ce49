(* Proofs about the ODIN importer. *)
From Verif Require Import PyStr PyStrFacts DecFacts Ref SpecRef Model SpecModel XmlStd Xml SpecXml XmlProofs Odin SpecOdin.

(* ---------- characters ---------- *)

Lemma valid_spec c : valid_char c = true <-> xml_legal c /\ basic c.
Proof.
  unfold valid_char, xml_legal, basic, in_range.
  rewrite !orb_true_iff, !andb_true_iff, !N.eqb_eq, !N.leb_le. lia.
Qed.
Lemma replace_replaced s r : replaced (fun c => ~ (xml_legal c /\ basic c)) r s (replace_invalid_xml_chars s r).
Proof.
  induction s as [|c s IH]; [constructor|]. unfold replace_invalid_xml_chars in *. cbn [flat_map].
  destruct (valid_char c) eqn:E.
  - apply (proj1 (valid_spec c)) in E. constructor; auto.
  - constructor; [|exact IH]. intros H. apply valid_spec in H. congruence.
Qed.
Lemma replaced_det P r s t t' : replaced P r s t -> replaced P r s t' -> t = t'.
Proof.
  intros H. revert t'. induction H; intros t' H'; inversion H'; subst; try tauto; f_equal; auto.
Qed.
Lemma replace_legal s r : legal r -> legal (replace_invalid_xml_chars s r).
Proof.
  intros Hr c H. apply in_flat_map in H as (x & _ & H). destruct (valid_char x) eqn:E; [|now apply Hr].
  destruct H as [<-|[]]. now apply valid_spec in E.
Qed.
Lemma replace_length s r : length r = 1 -> length (replace_invalid_xml_chars s r) = length s.
Proof.
  intros Hr. unfold replace_invalid_xml_chars. induction s as [|c s IH]; [easy|]. cbn [flat_map]. rewrite app_length, IH.
  destruct (valid_char c); cbn; lia.
Qed.
Lemma replace_id s r : (forall c, In c s -> xml_legal c /\ basic c) -> replace_invalid_xml_chars s r = s.
Proof.
  unfold replace_invalid_xml_chars. induction s as [|c s IH]; [easy|]. intros H. cbn [flat_map].
  destruct (valid_char c) eqn:E.
  - cbn. f_equal. apply IH. intros; apply H; now right.
  - rewrite (proj2 (valid_spec c)) in E; [easy|]. apply H. now left.
Qed.
Lemma replace_id_inv s r : replace_invalid_xml_chars s r = s -> legal r -> (forall c, In c r -> basic c) ->
  forall c, In c s -> xml_legal c /\ basic c.
Proof.
  intros E Hr Hb c Hc. rewrite <- E in Hc. apply in_flat_map in Hc as (x & _ & H). destruct (valid_char x) eqn:Ex.
  - destruct H as [<-|[]]. now apply valid_spec in Ex.
  - split; auto.
Qed.
Lemma replace_idem s r : (forall c, In c r -> xml_legal c /\ basic c) ->
  replace_invalid_xml_chars (replace_invalid_xml_chars s r) r = replace_invalid_xml_chars s r.
Proof.
  intros Hr. apply replace_id. intros c H. apply in_flat_map in H as (x & _ & H). destruct (valid_char x) eqn:E; [|now apply Hr].
  destruct H as [<-|[]]. now apply valid_spec in E.
Qed.

(* ---------- split ---------- *)

Section Split.
Context {U : Unicode}.

Lemma split_blanks x s : blanks x -> split_ [] (x ++ s) = split_ [] s.
Proof.
  induction x as [|c x IH]; intros H; [easy|]. cbn. rewrite (H c) by now left. apply IH. intros d Hd; apply H; now right.
Qed.
Lemma split_cur w : forall cur s, (forall c, In c w -> is_space c = false) -> split_ cur (w ++ s) = split_ (rev w ++ cur) s.
Proof.
  induction w as [|c w IH]; intros cur s H; [easy|]. cbn. rewrite (H c) by now left.
  rewrite IH by (intros d Hd; apply H; now right). now rewrite <- app_assoc.
Qed.
Lemma split_end cur z : blanks z -> cur <> [] -> split_ cur z = [rev cur].
Proof.
  intros Hz Hc. destruct z as [|c z]; cbn; [now destruct cur|]. rewrite (Hz c) by now left.
  destruct cur; [easy|]. f_equal. rewrite <- (app_nil_r z), split_blanks; [easy|]. intros d Hd; apply Hz; now right.
Qed.
Lemma split_two s a b : two_words s a b -> split s = [a; b].
Proof.
  intros (x & y & z & -> & Hx & Hy & Yn & Hz & [An Ha] & [Bn Hb]). unfold split. rewrite split_blanks, split_cur by easy.
  destruct y as [|c y]; [easy|]. cbn. rewrite (Hy c) by now left. rewrite app_nil_r.
  destruct (rev a) eqn:E; [apply (f_equal (@rev _)) in E; rewrite rev_involutive in E; now subst|].
  rewrite <- E, rev_involutive. f_equal. rewrite split_blanks by (intros d Hd; apply Hy; now right).
  rewrite split_cur by easy. rewrite app_nil_r, split_end; [now rewrite rev_involutive|easy|].
  intros E'. apply (f_equal (@rev _)) in E'. rewrite rev_involutive in E'. now subst.
Qed.

(* converse: cut the string at the words *)
Lemma take_blanks s : exists x t, s = x ++ t /\ blanks x /\ (t = [] \/ exists c t', t = c :: t' /\ is_space c = false).
Proof.
  induction s as [|c s (x & t & -> & Hx & Ht)]; [exists [], []; split; [easy|]; split; [intros ? []|auto]|].
  destruct (is_space c) eqn:E.
  - exists (c :: x), t. split; [easy|]. split; [|easy]. intros d [<-|Hd]; auto.
  - exists [], (c :: x ++ t). split; [easy|]. split; [intros ? []|]. right. exists c, (x ++ t). auto.
Qed.
Lemma take_word s : exists w t, s = w ++ t /\ (forall c, In c w -> is_space c = false) /\ (t = [] \/ exists c t', t = c :: t' /\ is_space c = true).
Proof.
  induction s as [|c s (w & t & -> & Hw & Ht)]; [exists [], []; split; [easy|]; split; [intros ? []|auto]|].
  destruct (is_space c) eqn:E.
  - exists [], (c :: w ++ t). split; [easy|]. split; [intros ? []|]. right. exists c, (w ++ t). auto.
  - exists (c :: w), t. split; [easy|]. split; [|easy]. intros d [<-|Hd]; auto.
Qed.
Lemma split_cases s : split_ [] s = [] /\ blanks s
  \/ exists x w t, s = x ++ w ++ t /\ blanks x /\ word w /\ split_ [] s = w :: split_ [] t
       /\ (t = [] \/ exists c t', t = c :: t' /\ is_space c = true).
Proof.
  destruct (take_blanks s) as (x & t & -> & Hx & [->|(c & t' & -> & Hc)]).
  - left. rewrite split_blanks by easy. rewrite app_nil_r. auto.
  - right. destruct (take_word (c :: t')) as (w & r & E & Hw & Hr).
    assert (Wn : w <> []).
    { intros ->. cbn in E. subst r. destruct Hr as [?|(c' & ? & [= <- _] & ?)]; [easy|congruence]. }
    exists x, w, r. rewrite E. split; [easy|]. split; [easy|]. split; [now split|].
    rewrite split_blanks, split_cur by easy. rewrite app_nil_r. split; [|easy].
    assert (Rn : rev w <> []) by (intros E'; apply (f_equal (@rev _)) in E'; rewrite rev_involutive in E'; now subst).
    destruct Hr as [->|(c' & r' & -> & Hc')].
    + cbn. destruct (rev w) eqn:E'; [easy|]. now rewrite <- E', rev_involutive.
    + cbn. rewrite Hc'. destruct (rev w) eqn:E'; [easy|]. now rewrite <- E', rev_involutive.
Qed.
Lemma split_two_inv s a b : split s = [a; b] -> two_words s a b.
Proof.
  unfold split. destruct (split_cases s) as [[-> _]|(x & w & t & -> & Hx & Hw & -> & Ht)]; [easy|]. intros [= -> E].
  destruct (split_cases t) as [[E' _]|(y & w' & t' & -> & Hy & Hw' & E' & Ht')]; [congruence|]. rewrite E' in E. injection E as -> E.
  destruct (split_cases t') as [[_ Hz]|(? & ? & ? & _ & _ & _ & E2 & _)]; [|congruence].
  exists x, y, t'. repeat (split; [easy|]). split; [|easy]. intros ->.
  destruct Ht as [Ht|(c & r & Ht & Hc)].
  - destruct Hw' as [Hn _]. destruct b; [easy|discriminate].
  - destruct b as [|c' b]; [now destruct Hw'|]. injection Ht as -> _. destruct Hw' as [_ Hw']. rewrite Hw' in Hc by now left. easy.
Qed.

(* ---------- the raw tier ---------- *)

Lemma accepted_iff i : id_accepted i = true <-> accepted_id i.
Proof. exact (RefProofs.id_accepted_spec i). Qed.

Lemma rid_accepted n : id_accepted (L "r" ++ dec_nat n) = true.
Proof. apply accepted_iff. exists (Ch "r"), (dec_nat n). split; [easy|]. unfold ascii_letter. vm_compute. intuition discriminate. Qed.

Lemma raw_items_ok o lines : forall j, (forall line, In line lines -> dget line CONTENT <> None) ->
  exists l, raw_items j lines o = Ok l /\ length l = length lines
    /\ forall k line, nth_error lines k = Some line -> exists i, nth_error l k = Some i /\ line_item o (j + S k) line i.
Proof.
  induction lines as [|line lines IH]; intros j H; cbn [raw_items].
  - exists []. repeat split. intros [|k]; discriminate.
  - assert (Hl : dget line CONTENT <> None) by (apply H; now left).
    unfold dmem. destruct (dget line CONTENT) as [text|] eqn:E; [|easy]. cbn [check_id]. rewrite rid_accepted. cbn [bind].
    destruct (IH (S j)) as (l & -> & Hlen & Hn); [intros; apply H; now right|]. cbn [bind].
    eexists; split; [reflexivity|]. split; [cbn; now rewrite Hlen|]. intros [|k] line' Hk.
    + injection Hk as <-. eexists; split; [reflexivity|]. exists text, (replace_invalid_xml_chars text (o_replacement o)).
      split; [exact E|]. split; [apply replace_replaced|]. cbn. replace (j + 1) with (j + 1) by lia.
      repeat (split; [easy|]). unfold dget, ddel in *. split.
      * intros k Hk. rewrite (dget_ddel str_eqb str_eqb_spec). destruct (str_eqb_spec k CONTENT); [now subst|easy].
      * rewrite (dget_ddel str_eqb str_eqb_spec). destruct (str_eqb_spec (L "content") CONTENT) as [|n]; [easy|]. now exfalso; apply n.
    + destruct (Hn k line' Hk) as (i & Hi & Hx). exists i. split; [easy|]. now replace (j + S (S k)) with (S j + S k) by lia.
Qed.
Lemma raw_items_err o lines : forall j, (exists line, In line lines /\ dget line CONTENT = None) -> raw_items j lines o = Err KeyError.
Proof.
  induction lines as [|line lines IH]; intros j (line' & Hin & E); [easy|]. cbn [raw_items].
  unfold dmem. destruct (dget line CONTENT) as [text|] eqn:E'; [|easy]. cbn [check_id]. rewrite rid_accepted. cbn [bind].
  rewrite IH; [easy|]. destruct Hin as [->|Hin]; [congruence|]. now exists line'.
Qed.

Lemma nth_error_ext_ {A} (l : list A) : forall l', (forall k, nth_error l k = nth_error l' k) -> l = l'.
Proof.
  induction l as [|x l IH]; intros [|y l'] H; [easy|specialize (H 0); discriminate|specialize (H 0); discriminate|].
  pose proof (H 0) as H0. injection H0 as ->. f_equal. apply IH. intros k. exact (H (S k)).
Qed.
(* ids of all items *)
Lemma items_ids o lines l : all_items o lines l -> map (fun i => a_id (it_attrs i)) l = map (fun n => Some (L "r" ++ dec_nat n)) (seq 1 (length l)).
Proof.
  intros [Hlen H]. apply nth_error_ext_. intros k. rewrite !nth_error_map. destruct (nth_error l k) as [i|] eqn:E.
  - assert (Hk : k < length l) by (apply nth_error_Some; congruence).
    destruct (nth_error lines k) as [line|] eqn:El; [|apply nth_error_None in El; lia].
    destruct (H k line El) as (i' & Ei & Hi). rewrite E in Ei. injection Ei as <-.
    destruct Hi as (? & ? & _ & _ & _ & Hid & _). cbn. rewrite Hid. rewrite nth_error_nth' with (d := 0) by now rewrite seq_length.
    rewrite seq_nth by easy. cbn. reflexivity.
  - apply nth_error_None in E. destruct (nth_error (seq 1 (length l)) k) eqn:E'; [|easy].
    assert (k < length (seq 1 (length l))) by (apply nth_error_Some; congruence). rewrite seq_length in *. lia.
Qed.
Lemma nodup_map_some (f : nat -> str) l : (forall x y, f x = f y -> x = y) -> NoDup l -> NoDup (map f l).
Proof.
  intros Hf. induction 1 as [|x l Hx Hl IH]; [constructor|]. constructor; [|easy].
  intros H. apply in_map_iff in H as (y & E & Hy). apply Hf in E. now subst.
Qed.
Lemma some_ids_map {A} (f : A -> str) l : some_ids (map (fun x => Some (f x)) l) = map f l.
Proof. induction l as [|x l IH]; [easy|]. cbn. f_equal. exact IH. Qed.
Lemma items_nodup o lines l : all_items o lines l -> NoDup (some_ids (map (fun i => a_id (it_attrs i)) l)).
Proof.
  intros H. rewrite (items_ids _ _ _ H), some_ids_map. apply nodup_map_some; [|apply seq_NoDup].
  intros x y E. apply app_inv_head in E. now apply dec_nat_inj.
Qed.

Lemma raw_tier_ok b o : (forall line, In line (b_lines b) -> dget line CONTENT <> None) ->
  exists t, make_igt_raw_tier b o = Ok t /\ a_id (t_attrs t) = Some (L "r") /\ a_type (t_attrs t) = Some (L "odin")
    /\ a_dict (t_attrs t) = [(L "state", L "raw")] /\ t_md t = [] /\ a_ns (t_attrs t) = None /\ a_nsmap (t_attrs t) = None
    /\ all_items o (b_lines b) (t_items t) /\ NoDup (some_ids (map (fun i => a_id (it_attrs i)) (t_items t))).
Proof.
  intros H. unfold make_igt_raw_tier. destruct (raw_items_ok o (b_lines b) 0 H) as (l & -> & Hl). cbn [bind].
  assert (Ha : all_items o (b_lines b) l) by (destruct Hl as [Hlen Hl]; split; auto).
  unfold new_container. rewrite check_ids_ok; [|now apply (items_nodup o (b_lines b))|auto]. cbn [bind].
  eexists; split; [reflexivity|]. cbn. repeat (split; [easy|]). now apply (items_nodup o (b_lines b)).
Qed.
Lemma raw_tier_err b o : (exists line, In line (b_lines b) /\ dget line CONTENT = None) -> make_igt_raw_tier b o = Err KeyError.
Proof. intros H. unfold make_igt_raw_tier. now rewrite raw_items_err. Qed.

(* ---------- the igts ---------- *)

Context (title : str -> str).

Lemma igt_attributes_ok b doc lr types s e : b_doc_id b = Some doc -> b_line_range b = Some lr -> b_line_types b = Some types ->
  two_words lr s e ->
  make_igt_attributes b = Ok [(L "doc-id", doc); (L "line-range", s ++ L "-" ++ e); (L "tag-types", types)].
Proof.
  intros H1 H2 H3 H4. unfold make_igt_attributes. rewrite H1, H2, H3. cbn [key bind]. now rewrite (split_two _ _ _ H4).
Qed.
Lemma make_igt_ok b o : block_ok b -> exists g, make_igt title b o = Ok g /\ block_igt o b g
   /\ g_md g = [make_igt_metadata title b o] /\ a_type (g_attrs g) = None /\ a_ns (g_attrs g) = None /\ a_nsmap (g_attrs g) = None
   /\ Forall (fun t => t_md t = [] /\ a_ns (t_attrs t) = None /\ a_nsmap (t_attrs t) = None
        /\ NoDup (some_ids (map (fun i => a_id (it_attrs i)) (t_items t)))) (g_tiers g).
Proof.
  intros (Hid & Hdoc & Hty & (lr & s & e & Hlr & Hw) & Hl).
  destruct (b_doc_id b) as [doc|] eqn:Ed; [|easy]. destruct (b_line_types b) as [types|] eqn:Et; [|easy].
  unfold make_igt. rewrite (igt_attributes_ok b doc lr types s e) by easy. cbn [bind].
  destruct (raw_tier_ok b o Hl) as (t & -> & H1 & H2 & H3 & H4 & H5 & H6 & H7 & H8). cbn [bind].
  assert (Hc : check_id (b_igt_id b) = Ok tt).
  { unfold check_id. destruct (b_igt_id b) as [i|]; [|easy]. now rewrite (proj2 (accepted_iff i) (Hid i eq_refl)). }
  rewrite Hc. cbn [bind]. eexists; split; [reflexivity|]. split; [|cbn; auto 10].
  split; [easy|]. split.
  - exists doc, lr, types, s, e. auto.
  - exists t. cbn. auto.
Qed.
Lemma make_igt_inv b o g : make_igt title b o = Ok g -> block_ok b.
Proof.
  unfold make_igt, make_igt_attributes. destruct (b_line_range b) as [lr|] eqn:Elr; [|easy]. cbn [key bind].
  destruct (split lr) as [|s [|e [|]]] eqn:Es; try easy.
  destruct (b_doc_id b) as [doc|] eqn:Ed; [|easy]. cbn [key bind]. destruct (b_line_types b) as [ty|] eqn:Et; [|easy]. cbn [key bind].
  intros H. unfold block_ok. rewrite Ed, Et, Elr. split; [|split; [easy|split; [easy|split]]].
  - intros i Ei. rewrite Ei in H. destruct (make_igt_raw_tier b o); [|easy]. cbn [bind check_id] in H.
    destruct (id_accepted i) eqn:E; [now apply accepted_iff in E|easy].
  - exists lr, s, e. split; [easy|]. now apply split_two_inv.
  - intros line Hl Hn. rewrite raw_tier_err in H; [easy|]. now exists line.
Qed.

Lemma content_dec (ls : list (dict str)) : (exists line, In line ls /\ dget line CONTENT = None) \/ forall line, In line ls -> dget line CONTENT <> None.
Proof.
  induction ls as [|l ls [(x & H1 & H2)|IH]]; [right; intros ? []|left; exists x; split; [now right|easy]|].
  destruct (dget l CONTENT) eqn:E; [right; intros x [<-|Hx]; [congruence|now apply IH]|left; exists l; split; [now left|easy]].
Qed.
Lemma make_igt_fails b o e : make_igt title b o = Err e -> block_error b e.
Proof.
  unfold make_igt, make_igt_attributes. destruct (b_line_range b) as [lr|] eqn:Elr.
  2:{ cbn. intros [= <-]. now apply BE_range. }
  cbn [key bind].
  assert (W : (exists s x, split lr = [s; x]) \/ forall s x, split lr <> [s; x]).
  { destruct (split lr) as [|s [|x [|]]]; [right; easy|right; easy|left; now exists s, x|right; easy]. }
  destruct W as [(s & x & W)|W].
  2:{ intros E. assert (e = ValueError) as ->.
      { destruct (split lr) as [|s [|x [|]]]; cbn in E; try congruence. now exfalso; apply (W s x). }
      apply (BE_words _ lr Elr). intros (lr' & s & x & E1 & E2). rewrite Elr in E1. injection E1 as <-. apply split_two in E2. now apply (W s x). }
  assert (R : range_ok b) by (exists lr, s, x; split; [easy|now apply split_two_inv]). rewrite W.
  destruct (b_doc_id b) as [doc|] eqn:Ed; cbn [key bind].
  2:{ intros [= <-]. apply BE_key; auto. }
  destruct (b_line_types b) as [ty|] eqn:Et; cbn [key bind].
  2:{ intros [= <-]. apply BE_key; auto. }
  destruct (content_dec (b_lines b)) as [Hc|Hc].
  - rewrite raw_tier_err by easy. cbn [bind]. intros [= <-]. apply BE_key; auto.
  - destruct (raw_tier_ok b o Hc) as (t & -> & _). cbn [bind]. unfold check_id. destruct (b_igt_id b) as [i|] eqn:Ei; [|easy].
    destruct (id_accepted i) eqn:Ea; [easy|]. cbn [bind]. intros [= <-]. apply (BE_id _ i); [easy|congruence|congruence|exact Hc|easy|].
    intros Ha. apply accepted_iff in Ha. congruence.
Qed.
Lemma block_error_fails b o e : block_error b e -> make_igt title b o = Err e.
Proof.
  intros H. unfold make_igt, make_igt_attributes. destruct H as [Hr|lr Hr Hn|(lr & s & x & Hr & Hw) Hk|i (lr & s & x & Hr & Hw) Hd Ht Hc Hi Hn]; rewrite Hr; cbn [key bind].
  - easy.
  - destruct (split lr) as [|s [|x [|]]] eqn:E; try easy. exfalso. apply Hn. exists lr, s, x. split; [easy|now apply split_two_inv].
  - rewrite (split_two _ _ _ Hw). destruct (b_doc_id b); [|easy]. cbn [key bind]. destruct (b_line_types b); [|easy]. cbn [key bind].
    destruct Hk as [Hk|[Hk|Hk]]; [easy|easy|]. now rewrite raw_tier_err.
  - rewrite (split_two _ _ _ Hw). destruct (b_doc_id b); [|easy]. cbn [key bind]. destruct (b_line_types b); [|easy]. cbn [key bind].
    destruct (raw_tier_ok b o Hc) as (t & -> & _). cbn [bind]. rewrite Hi. cbn [check_id].
    destruct (id_accepted i) eqn:Ea; [|easy]. exfalso. now apply Hn, accepted_iff.
Qed.
Theorem make_igt_err b o e : make_igt title b o = Err e <-> block_error b e.
Proof. split; [apply make_igt_fails|apply block_error_fails]. Qed.
Theorem odin_igts_err bs o e : odin_igts title bs o = Err e <->
  exists bs1 b bs2, bs = bs1 ++ b :: bs2 /\ Forall block_ok bs1 /\ block_error b e.
Proof.
  induction bs as [|b bs IH]; cbn [odin_igts]; [split; [discriminate|]; intros (a & b & c & E & _); now destruct a|].
  destruct (make_igt title b o) as [g|e'] eqn:E; cbn [bind].
  - assert (Hb : block_ok b) by now apply make_igt_inv in E.
    assert (X : (do l <- odin_igts title bs o; Ok (if existsb (fun t => opt_eqb str_eqb (a_id (t_attrs t)) (Some (L "r"))) (g_tiers g) then g :: l else l)) = Err e
      <-> odin_igts title bs o = Err e) by (destruct (odin_igts title bs o); cbn [bind]; [easy|split; congruence]).
    rewrite X, IH. split.
    + intros (a & x & c & -> & H1 & H2). exists (b :: a), x, c. split; [easy|]. split; [now constructor|easy].
    + intros ([|y a] & x & c & [= -> ->] & H1 & H2).
      * apply (block_error_fails x o) in H2. congruence.
      * inversion_clear H1. now exists a, x, c.
  - split.
    + intros [= <-]. exists [], b, bs. split; [easy|]. split; [constructor|now apply make_igt_fails in E].
    + intros ([|y a] & x & c & [= -> ->] & H1 & H2).
      * apply (block_error_fails x o) in H2. congruence.
      * inversion_clear H1 as [|? ? Hy _]. destruct (make_igt_ok y o Hy) as (g & Eg & _). congruence.
Qed.

Lemma has_r o b g : block_igt o b g -> existsb (fun t => opt_eqb str_eqb (a_id (t_attrs t)) (Some (L "r"))) (g_tiers g) = true.
Proof. intros (_ & _ & t & -> & Ht & _). cbn [existsb]. rewrite Ht. reflexivity. Qed.

Lemma odin_igts_ok bs o : Forall block_ok bs -> exists gs, odin_igts title bs o = Ok gs /\ Forall2 (block_igt o) bs gs.
Proof.
  induction 1 as [|b bs Hb Hbs (gs & E & IH)]; [exists []; split; [easy|constructor]|]. cbn [odin_igts].
  destruct (make_igt_ok b o Hb) as (g & -> & Hg & _). cbn [bind]. rewrite E. cbn [bind]. rewrite (has_r o b g Hg).
  eexists; split; [reflexivity|]. now constructor.
Qed.
Lemma metadata_says b o : block_metadata title o b (make_igt_metadata title b o).
Proof.
  unfold block_metadata, make_igt_metadata, default. destruct (o_keep_headers o); [destruct (b_headers b) as [|h hs]|];
    (split; [|split; [|split]]); unfold headers_of, languages_of;
    cbn [md_metas app length filter map flat_map me_attrs me_text me_kids a_type a_id mk_attrs opt_eqb child_named language_child app];
    try (vm_compute; reflexivity); try reflexivity; repeat constructor; vm_compute; intuition discriminate.
Qed.
Lemma igt_metadata b o g : make_igt title b o = Ok g -> exists md, g_md g = [md] /\ block_metadata title o b md.
Proof.
  intros H. unfold make_igt in H. destruct (make_igt_attributes b); [|easy]. cbn [bind] in H.
  destruct (make_igt_raw_tier b o); [|easy]. cbn [bind] in H. destruct (check_id _); [|easy]. injection H as <-.
  eexists; split; [reflexivity|]. apply metadata_says.
Qed.
Lemma odin_igts_inv bs o gs : odin_igts title bs o = Ok gs -> Forall block_ok bs.
Proof.
  revert gs; induction bs as [|b bs IH]; intros gs; cbn [odin_igts]; [constructor|].
  destruct (make_igt title b o) as [g|] eqn:E; [|easy]. cbn [bind]. destruct (odin_igts title bs o) as [l|]; [|easy].
  intros _. constructor; [now apply make_igt_inv in E|]. now apply (IH l).
Qed.
Lemma odin_igts_iff bs o : (exists gs, odin_igts title bs o = Ok gs) <-> Forall block_ok bs.
Proof.
  split; [intros [gs H]; now apply odin_igts_inv in H|]. intros H. destruct (odin_igts_ok bs o H) as (gs & E & _). now exists gs.
Qed.
End Split.
