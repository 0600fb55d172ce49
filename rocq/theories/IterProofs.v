(* Proofs about the loading modes. *)
From Verif Require Import PyStr PyStrFacts Ref Model Value Iter SpecIter.

Lemma has_id_in l i : has_id l i = true <-> exists g, In g l /\ igt_id g = Some i.
Proof.
  unfold has_id. rewrite existsb_exists. split; intros (g & Hg & H); exists g; split; auto.
  - destruct (igt_id g) as [j|]; cbn in H; [|discriminate]. apply str_eqb_eq in H. now subst.
  - rewrite H. cbn. apply str_eqb_refl.
Qed.

Lemma distinct_new l g l' i : distinct_ids (l ++ g :: l') -> igt_id g = Some i -> has_id l i = false.
Proof.
  intros H Hi. destruct (has_id l i) eqn:E; [|reflexivity]. exfalso.
  apply has_id_in in E as (g' & Hin & Hg'). apply In_nth_error in Hin as [n Hn].
  assert (n < length l) by (apply nth_error_Some; congruence).
  assert (n = length l); [|lia]. eapply H with (i := i).
  - rewrite nth_error_app1 by easy. congruence.
  - rewrite nth_error_app1 by easy. rewrite Hn. cbn. congruence.
  - rewrite nth_error_app2, Nat.sub_diag by lia. cbn. congruence.
Qed.
Lemma add_new l g l' : distinct_ids (l ++ g :: l') -> add l g = Ok (l ++ [g]).
Proof.
  intros H. unfold add. destruct (igt_id g) as [i|] eqn:E; [|reflexivity].
  now rewrite (distinct_new _ _ _ _ H E).
Qed.
Lemma extend_new l' : forall l, distinct_ids (l ++ l') -> extend l l' = Ok (l ++ l').
Proof.
  induction l' as [|g l' IH]; intros l H; cbn [extend]; [now rewrite app_nil_r|].
  rewrite (add_new _ _ _ H). cbn [bind]. rewrite IH; rewrite <- app_assoc; [reflexivity|exact H].
Qed.

(* a list with distinct ids, seen from a member added at the end *)
Lemma distinct_snoc l g : distinct_ids l -> (forall i, igt_id g = Some i -> has_id l i = false) -> distinct_ids (l ++ [g]).
Proof.
  intros H Hg a b i _ Ha Hb.
  assert (Hcase : forall n, option_map igt_id (nth_error (l ++ [g]) n) = Some (Some i) ->
            (n < length l /\ option_map igt_id (nth_error l n) = Some (Some i)) \/ (n = length l /\ igt_id g = Some i)).
  { intros n Hn. destruct (Nat.lt_ge_cases n (length l)).
    - left. rewrite nth_error_app1 in Hn by easy. auto.
    - right. rewrite nth_error_app2 in Hn by easy. destruct (n - length l) as [|[|k]] eqn:E; cbn in Hn; try discriminate.
      split; [lia|congruence]. }
  assert (Hno : forall n, option_map igt_id (nth_error l n) = Some (Some i) -> igt_id g = Some i -> False).
  { intros n Hn Hi. specialize (Hg _ Hi). destruct (nth_error l n) as [g'|] eqn:E; [|discriminate].
    assert (has_id l i = true); [|congruence]. apply has_id_in. exists g'. split; [eapply nth_error_In; eauto|].
    cbn in Hn. congruence. }
  destruct (Hcase _ Ha) as [[Ha1 Ha2]|[Ha1 Ha2]], (Hcase _ Hb) as [[Hb1 Hb2]|[Hb1 Hb2]].
  - eapply H; eauto. destruct (nth_error l a); [easy|discriminate].
  - exfalso; eauto.
  - exfalso; eauto.
  - congruence.
Qed.
Lemma extend_distinct l' : forall l r, distinct_ids l -> extend l l' = Ok r -> r = l ++ l' /\ distinct_ids r.
Proof.
  induction l' as [|g l' IH]; intros l r Hl; cbn [extend].
  - intros [= <-]. rewrite app_nil_r. auto.
  - unfold add. destruct (igt_id g) as [i|] eqn:Ei.
    + destruct (has_id l i) eqn:E; cbn [bind]; [discriminate|]. intros H.
      apply IH in H as [-> H].
      * rewrite <- app_assoc. rewrite <- app_assoc in H. auto.
      * apply distinct_snoc; [easy|]. intros j Hj. congruence.
    + cbn [bind]. intros H. apply IH in H as [-> H].
      * rewrite <- app_assoc. rewrite <- app_assoc in H. auto.
      * apply distinct_snoc; [easy|]. intros j Hj. congruence.
Qed.
Lemma distinct_nil : distinct_ids [].
Proof. intros [|a] b i H; now destruct (H eq_refl). Qed.

Lemma construct_full_iff l : (exists x, construct FULL (SGen l None) = Ok x) <-> distinct_ids l.
Proof.
  split.
  - intros [x H]. cbn in H. destruct (extend [] l) as [r|e] eqn:E; [|discriminate].
    destruct (extend_distinct _ _ _ distinct_nil E) as [-> Hd]. exact Hd.
  - intros H. cbn. rewrite (extend_new l []) by exact H. eexists. reflexivity.
Qed.

(* ---------- one iterator from start to end ---------- *)

Lemma run_cons x its k h : run x its (k :: h) =
  let '(x', i, r) := next x (its k) in
  let '(x'', its', rs) := run x' (fun j => if Nat.eqb j k then i else its j) h in (x'', its', r :: rs).
Proof. reflexivity. Qed.
Arguments run : simpl never.

Lemma run_members x l its n : xc_members x = l -> its 0 = IMembers n -> n <= length l ->
  exists its', run x its (repeat 0 (S (length l - n))) = (x, its', map Yield (skipn n l) ++ [Stop]).
Proof.
  intros Hx. remember (length l - n) as m eqn:Hm. revert n its Hm.
  induction m as [|m IH]; intros n its Hm Hi Hn; cbn [repeat]; rewrite run_cons.
  - rewrite Hi. cbn [next]. unfold next_members. rewrite Hx.
    rewrite (proj2 (nth_error_None l n)) by lia. rewrite skipn_all2 by lia. cbn. eexists. reflexivity.
  - rewrite Hi. cbn [next]. unfold next_members. rewrite Hx.
    destruct (nth_error l n) as [g|] eqn:E; [|apply nth_error_None in E; lia].
    destruct (IH (S n) (fun j => if Nat.eqb j 0 then IMembers (S n) else its j)) as [its' Hr]; [lia|reflexivity|lia|].
    cbn [repeat] in Hr. cbn. rewrite Hr.
    exists its'. f_equal.
    assert (Hs : skipn n l = g :: skipn (S n) l).
    { clear -E. revert l E. induction n as [|n IH]; intros [|y l] E; cbn in *; try discriminate; [congruence|auto]. }
    rewrite Hs. reflexivity.
Qed.
Lemma iterates_full x l : xc_mode x = FULL -> xc_members x = l -> iterates x l x.
Proof.
  intros Hm Hx. destruct l as [|g l].
  - exists (fun _ => INew), [0]. eexists. split; [easy|]. split; [intros k [<-|[]]; reflexivity|].
    rewrite run_cons. cbn. rewrite Hm. unfold next_members. rewrite Hx. reflexivity.
  - destruct (run_members x (g :: l) (fun j => if Nat.eqb j 0 then IMembers 1 else INew) 1 Hx eq_refl) as [its' Hr]; [cbn; lia|].
    exists (fun _ => INew), (0 :: repeat 0 (S (length (g :: l) - 1))), its'. split; [easy|].
    split; [intros k [<-|Hk]; [reflexivity|now apply repeat_spec in Hk]|].
    rewrite run_cons. cbn [next]. rewrite Hm. unfold next_members at 1. rewrite Hx. cbn [nth_error].
    rewrite Hr. reflexivity.
Qed.

(* the source part: generator or list *)
Definition rest_of (src : source) (n : nat) : option (list igt) :=
  match src with SGen l None => Some l | SList l => Some (skipn n l) | _ => None end.
Lemma fetch_rest src n l : rest_of src n = Some l ->
  match l with
  | [] => fetch src n = (src, Stop)
  | g :: l' => exists src', fetch src n = (src', Yield g) /\ rest_of src' (S n) = Some l'
  end.
Proof.
  destruct src as [l0 [e|]|l0|]; cbn; try discriminate.
  - intros [= ->]. destruct l as [|g l]; [reflexivity|]. eexists. split; reflexivity.
  - intros [= <-]. revert n. induction l0 as [|g0 l0 IH]; intros [|n]; cbn.
    + reflexivity.
    + reflexivity.
    + eexists. split; reflexivity.
    + specialize (IH n). destruct (skipn n l0) as [|g l] eqn:E.
      * destruct (nth_error l0 n); congruence.
      * destruct IH as (src' & H1 & H2).
        destruct (nth_error l0 n) as [g'|] eqn:En; [|congruence]. injection H1 as <- <-.
        cbn in H2. eexists. split; [reflexivity|exact H2].
Qed.

Definition kept (m : mode) (l : list igt) : list igt := match m with TRANSIENT => [] | _ => l end.

Lemma run_source l : forall x its n done,
  (its 0 = ISource n \/ (its 0 = INew /\ n = 0)) ->
  (xc_mode x = INCREMENTAL /\ distinct_ids (done ++ l) \/ xc_mode x = TRANSIENT) ->
  rest_of (xc_source x) n = Some l -> xc_members x = kept (xc_mode x) done ->
  exists x' its', run x its (repeat 0 (S (length l))) = (x', its', map Yield l ++ [Stop])
    /\ xc_mode x' = FULL /\ xc_members x' = kept (xc_mode x) (done ++ l).
Proof.
  induction l as [|g l IH]; intros x its n done Hi Hm Hs Hk; cbn [length repeat]; rewrite run_cons.
  - assert (E : next x (its 0) = next_source x n).
    { destruct Hi as [->|[-> ->]]; [reflexivity|]. cbn. destruct Hm as [[-> _]| ->]; reflexivity. }
    rewrite E. unfold next_source. rewrite (fetch_rest _ _ _ Hs).
    cbn. eexists _, _. split; [reflexivity|]. cbn. split; [reflexivity|]. now rewrite app_nil_r.
  - assert (E : next x (its 0) = next_source x n).
    { destruct Hi as [->|[-> ->]]; [reflexivity|]. cbn. destruct Hm as [[-> _]| ->]; reflexivity. }
    rewrite E. unfold next_source. destruct (fetch_rest _ _ _ Hs) as (src' & -> & Hs').
    destruct Hm as [[Hm Hd]|Hm]; rewrite Hm.
    + rewrite Hk, Hm. cbn [kept]. rewrite (add_new _ _ _ Hd).
      edestruct (IH {| xc_mode := INCREMENTAL; xc_members := done ++ [g]; xc_source := src' |}
                   (fun j => if Nat.eqb j 0 then ISource (S n) else its j) (S n) (done ++ [g])) as (x' & its' & Hr & H1 & H2);
        [now left|left; split; [reflexivity|now rewrite <- app_assoc]|exact Hs'|reflexivity|].
      cbn [length repeat] in Hr. rewrite Hr. exists x', its'. split; [reflexivity|]. split; [exact H1|].
      rewrite H2. cbn [kept xc_mode]. now rewrite <- app_assoc.
    + edestruct (IH {| xc_mode := TRANSIENT; xc_members := xc_members x; xc_source := src' |}
                   (fun j => if Nat.eqb j 0 then ISource (S n) else its j) (S n) (done ++ [g])) as (x' & its' & Hr & H1 & H2);
        [now left|now right|exact Hs'|cbn; rewrite Hk, Hm; reflexivity|].
      cbn [length repeat] in Hr. rewrite Hr. exists x', its'. split; [reflexivity|]. split; [exact H1|].
      rewrite H2. reflexivity.
Qed.

Lemma modes_agree m src l : src = SGen l None \/ src = SList l -> distinct_ids l ->
  exists x x', construct m src = Ok x /\ iterates x l x' /\ xc_mode x' = FULL
    /\ xc_members x' = match m with TRANSIENT => [] | _ => l end.
Proof.
  intros Hsrc Hd. assert (He : extend [] l = Ok l) by exact (extend_new l [] Hd).
  destruct m.
  - exists {| xc_mode := FULL; xc_members := l; xc_source := SNone |}, {| xc_mode := FULL; xc_members := l; xc_source := SNone |}.
    split; [destruct Hsrc as [->| ->]; cbn; rewrite He; reflexivity|].
    split; [now apply iterates_full|]. auto.
  - destruct (run_source l {| xc_mode := INCREMENTAL; xc_members := []; xc_source := src |} (fun _ => INew) 0 [])
      as (x' & its' & Hr & H1 & H2).
    + now right.
    + left. split; [reflexivity|exact Hd].
    + destruct Hsrc as [->| ->]; reflexivity.
    + reflexivity.
    + eexists _, x'. split; [reflexivity|]. split; [|split; [exact H1|exact H2]].
      eexists _, _, _. split; [|split; [|exact Hr]]; [reflexivity|]. intros k Hk. now apply repeat_spec in Hk.
  - destruct (run_source l {| xc_mode := TRANSIENT; xc_members := []; xc_source := src |} (fun _ => INew) 0 [])
      as (x' & its' & Hr & H1 & H2).
    + now right.
    + now right.
    + destruct Hsrc as [->| ->]; reflexivity.
    + reflexivity.
    + eexists _, x'. split; [reflexivity|]. split; [|split; [exact H1|exact H2]].
      eexists _, _, _. split; [|split; [|exact Hr]]; [reflexivity|]. intros k Hk. now apply repeat_spec in Hk.
Qed.

(* after that, every further iteration gives the members again *)
Lemma iterates_unique x l x' l' x'' : iterates x l x' -> iterates x l' x'' -> l = l' /\ x' = x''.
Proof.
  intros (i1 & h1 & j1 & A1 & B1 & R1) (i2 & h2 & j2 & A2 & B2 & R2).
  assert (Hrep : forall h, (forall k, In k h -> k = 0) -> h = repeat 0 (length h)).
  { induction h as [|k h IH]; intros Hh; [reflexivity|]. cbn. f_equal; [apply Hh; now left|].
    apply IH. intros; apply Hh; now right. }
  rewrite (Hrep _ B1) in R1. rewrite (Hrep _ B2) in R2.
  clear B1 B2 Hrep. revert R1 R2. generalize (length h1) as n1, (length h2) as n2. clear h1 h2.
  assert (Hf : i1 0 = i2 0) by now rewrite A1, A2. clear A1 A2.
  revert x i1 i2 l l' Hf.
  intros x i1 i2 l l' Hf n1. revert x i1 i2 l l' Hf.
  induction n1 as [|n1 IH]; intros x i1 i2 l l' Hf n2 R1 R2.
  - unfold run in R1; cbn in R1. destruct l; discriminate.
  - destruct n2 as [|n2]; [unfold run in R2; cbn in R2; destruct l'; discriminate|].
    cbn [repeat] in R1, R2. rewrite run_cons in R1, R2. rewrite Hf in R1.
    destruct (next x (i2 0)) as [[y i] r] eqn:En.
    destruct (run y (fun j => if Nat.eqb j 0 then i else i1 j) (repeat 0 n1)) as [[y1 k1] rs1] eqn:E1.
    destruct (run y (fun j => if Nat.eqb j 0 then i else i2 j) (repeat 0 n2)) as [[y2 k2] rs2] eqn:E2.
    injection R1 as -> -> R1. injection R2 as -> -> R2.
    destruct r as [g| |e].
    + destruct l as [|a l]; cbn in R1; [discriminate|]. destruct l' as [|b l']; cbn in R2; [discriminate|].
      injection R1 as <- R1. injection R2 as <- R2. subst rs1 rs2.
      destruct (fun H => IH y _ _ l l' H n2 E1 E2) as [-> ->]; [reflexivity|]. auto.
    + destruct l as [|a l]; cbn in R1; [|discriminate]. destruct l' as [|b l']; cbn in R2; [|discriminate].
      injection R1 as ->. injection R2 as ->.
      destruct n1; [|cbn [repeat] in E1; rewrite run_cons in E1; cbn in E1; destruct (next y i) as [[? ?] ?]; match type of E1 with context [run ?a ?b ?c] => destruct (run a b c) as [[? ?] ?] end; discriminate].
      destruct n2; [|cbn [repeat] in E2; rewrite run_cons in E2; cbn in E2; destruct (next y i) as [[? ?] ?]; match type of E2 with context [run ?a ?b ?c] => destruct (run a b c) as [[? ?] ?] end; discriminate].
      unfold run in E1, E2; cbn in E1, E2. split; congruence.
    + destruct l; discriminate.
Qed.

(* ---------- histories with several iterators ---------- *)

Definition loading (m : mode) (l : list igt) (done rest : list igt) (x : xcorpus) (its : iters) : Prop :=
  xc_mode x = m /\ xc_source x = SGen rest None /\ l = done ++ rest /\ xc_members x = kept m done
  /\ forall k, its k = INew \/ exists n, its k = ISource n.
Definition loaded (m : mode) (l : list igt) (x : xcorpus) : Prop :=
  xc_mode x = FULL /\ xc_members x = kept m l /\ xc_source x = SGen [] None.

Lemma loaded_next m l x i : loaded m l x ->
  fst (fst (next x i)) = x /\ (forall e, snd (next x i) <> Raise e) /\ (m = TRANSIENT -> snd (next x i) = Stop).
Proof.
  intros (H1 & H2 & H3).
  assert (Hmem : forall n, fst (fst (next_members x n)) = x /\ (forall e, snd (next_members x n) <> Raise e)
                  /\ (m = TRANSIENT -> snd (next_members x n) = Stop)).
  { intros n. unfold next_members. destruct (nth_error (xc_members x) n) eqn:E; cbn; repeat split; try congruence.
    intros ->. rewrite H2 in E. destruct n; discriminate. }
  destruct i as [|n|n|]; cbn [next]; try (cbn; repeat split; congruence).
  - rewrite H1. apply Hmem.
  - apply Hmem.
  - unfold next_source. rewrite H3. cbn. destruct x; cbn in *; subst. repeat split; congruence.
Qed.
Lemma loaded_run m l h : forall x its x' its' rs, loaded m l x -> run x its h = (x', its', rs) ->
  x' = x /\ (forall e, ~ In (Raise e) rs) /\ (m = TRANSIENT -> delivered rs = []).
Proof.
  induction h as [|k h IH]; intros x its x' its' rs Hx Hr; try rewrite run_cons in Hr.
  - injection Hr as <- <- <-. repeat split; auto.
  - destruct (loaded_next m l x (its k) Hx) as (H1 & H2 & H3).
    destruct (next x (its k)) as [[y i] r]. cbn in H1, H2, H3. subst y.
    destruct (run x _ h) as [[y k'] rs'] eqn:E. injection Hr as <- <- <-.
    destruct (IH _ _ _ _ _ Hx E) as (-> & H4 & H5). split; [reflexivity|]. split.
    + intros e [->|Hin]; [now apply (H2 e)|now apply (H4 e)].
    + intros Hm. rewrite (H3 Hm). cbn. auto.
Qed.

Lemma loading_run m l h : (m = INCREMENTAL /\ distinct_ids l) \/ m = TRANSIENT ->
  forall x its done rest x' its' rs, loading m l done rest x its -> run x its h = (x', its', rs) ->
  (forall e, ~ In (Raise e) rs)
  /\ (~ In Stop rs -> exists rest', loading m l (done ++ delivered rs) rest' x' its')
  /\ (In Stop rs -> loaded m l x' /\ (m = TRANSIENT -> l = done ++ delivered rs)).
Proof.
  intros Hml. induction h as [|k h IH]; intros x its done rest x' its' rs Hx Hr; try rewrite run_cons in Hr.
  - injection Hr as <- <- <-. split; [auto|]. split; [|intros []]. intros _. exists rest. now rewrite app_nil_r.
  - destruct Hx as (H1 & H2 & H3 & H4 & H5).
    assert (En : exists n, next x (its k) = next_source x n).
    { destruct (H5 k) as [->|[n ->]]; [|now exists n]. exists 0. cbn. rewrite H1.
      destruct Hml as [[-> _]| ->]; reflexivity. }
    destruct En as [n En]. rewrite En in Hr. unfold next_source in Hr. rewrite H2 in Hr.
    destruct rest as [|g rest]; cbn in Hr.
    + destruct (run _ _ h) as [[y k'] rs'] eqn:E. injection Hr as <- <- <-.
      assert (HL : loaded m l {| xc_mode := FULL; xc_members := xc_members x; xc_source := SGen [] None |}).
      { split; [reflexivity|]. split; [|reflexivity]. cbn. rewrite H4, H3, app_nil_r. reflexivity. }
      destruct (loaded_run m l h _ _ _ _ _ HL E) as (-> & H6 & H7). split.
      * intros e [H|H]; [discriminate|now apply (H6 e)].
      * split; [intros H; exfalso; apply H; now left|]. intros _. split; [exact HL|].
        intros Hm. cbn. rewrite (H7 Hm). exact H3.
    + assert (Hgo : exists ms, kept m (done ++ [g]) = ms /\
                (let '(x'0, i, r) := ({| xc_mode := m; xc_members := ms; xc_source := SGen rest None |}, ISource (S n), Yield g) in
                 let '(x'', its'0, rs0) := run x'0 (fun j : nat => if Nat.eqb j k then i else its j) h in (x'', its'0, r :: rs0))
                = (x', its', rs)).
      { destruct Hml as [[-> Hd]| ->]; rewrite H1 in Hr.
        - rewrite H4 in Hr. cbn [kept] in Hr. subst l. rewrite (add_new _ _ _ Hd) in Hr. eexists. split; [reflexivity|exact Hr].
        - rewrite H4 in Hr. eexists. split; [reflexivity|exact Hr]. }
      destruct Hgo as (ms & Hms & Hr'). clear Hr.
      destruct (run _ _ h) as [[y k'] rs'] eqn:E in Hr'. injection Hr' as <- <- <-.
      eapply IH with (done := done ++ [g]) (rest := rest) in E.
      2:{ split; [reflexivity|]. split; [reflexivity|]. split; [now rewrite <- app_assoc|]. split; [now rewrite Hms|].
          intros j. destruct (Nat.eqb j k); [right; eauto|apply H5]. }
      destruct E as (E1 & E2 & E3). split.
      * intros e [H|H]; [discriminate|now apply (E1 e)].
      * split.
        -- intros H. destruct E2 as [rest' Hl]; [intros Hin; apply H; now right|]. exists rest'.
           cbn [delivered]. rewrite <- app_assoc in Hl. exact Hl.
        -- intros [H|H]; [discriminate|]. destruct (E3 H) as [E4 E5]. split; [exact E4|].
           intros Hm. cbn [delivered]. rewrite (E5 Hm) at 1. now rewrite <- app_assoc.
Qed.

Lemma fresh_loading m l : loading m l [] l {| xc_mode := m; xc_members := []; xc_source := SGen l None |} (fun _ => INew).
Proof. repeat split; try reflexivity. - now destruct m. - intros k. now left. Qed.

Lemma incremental_history l h x x' its' rs : distinct_ids l ->
  construct INCREMENTAL (SGen l None) = Ok x -> run x (fun _ => INew) h = (x', its', rs) ->
  (forall e, ~ In (Raise e) rs) /\ (exists rest, l = xc_members x' ++ rest)
  /\ (~ In Stop rs -> delivered rs = xc_members x')
  /\ (In Stop rs -> xc_mode x' = FULL /\ xc_members x' = l).
Proof.
  intros Hd [= <-] Hr.
  destruct (loading_run INCREMENTAL l h (or_introl (conj eq_refl Hd)) _ _ _ _ _ _ _ (fresh_loading INCREMENTAL l) Hr) as (H1 & H2 & H3).
  split; [exact H1|].
  assert (Hdec : In Stop rs \/ ~ In Stop rs).
  { clear. induction rs as [|r rs IH]; [now right|]. destruct r; [|left; now left|]; (destruct IH as [IH|IH]; [left; now right|right]);
      intros [H|H]; (discriminate || auto). }
  destruct Hdec as [Hs|Hs].
  - destruct (H3 Hs) as [(H4 & H5 & _) _]. cbn in H5. rewrite H5, H4. split; [exists []; now rewrite app_nil_r|].
    split; [now intros ?|]. auto.
  - destruct (H2 Hs) as (rest' & _ & _ & H6 & H7 & _). cbn in H6, H7. split; [exists rest'; congruence|].
    split; [intros _; congruence|]. now intros ?.
Qed.
Lemma transient_history l h x x' its' rs :
  construct TRANSIENT (SGen l None) = Ok x -> run x (fun _ => INew) h = (x', its', rs) ->
  (forall e, ~ In (Raise e) rs) /\ xc_members x' = []
  /\ (~ In Stop rs -> exists rest, l = delivered rs ++ rest)
  /\ (In Stop rs -> delivered rs = l /\ xc_mode x' = FULL).
Proof.
  intros [= <-] Hr.
  destruct (loading_run TRANSIENT l h (or_intror eq_refl) _ _ _ _ _ _ _ (fresh_loading TRANSIENT l) Hr) as (H1 & H2 & H3).
  split; [exact H1|].
  assert (Hdec : In Stop rs \/ ~ In Stop rs).
  { clear. induction rs as [|r rs IH]; [now right|]. destruct r; [|left; now left|]; (destruct IH as [IH|IH]; [left; now right|right]);
      intros [H|H]; (discriminate || auto). }
  destruct Hdec as [Hs|Hs].
  - destruct (H3 Hs) as [(H4 & H5 & _) H6]. cbn in H5. split; [exact H5|]. split; [now intros ?|].
    intros _. split; [symmetry; now apply H6|exact H4].
  - destruct (H2 Hs) as (rest' & _ & _ & H6 & H7 & _). cbn in H6, H7. split; [exact H7|]. split; [intros _; exists rest'; exact H6|].
    now intros ?.
Qed.

(* ---------- a source that fails ---------- *)

(* the error is seen once; the next iteration ends normally with what was read *)
Theorem failing_construction l e : distinct_ids l -> construct FULL (SGen l (Some e)) = Err e.
Proof. intros Hd. cbn [construct]. now rewrite (extend_new l [] Hd). Qed.
Lemma failing_source l e m : (m = INCREMENTAL /\ distinct_ids l) \/ m = TRANSIENT -> exists x x' its' x'' its'',
  construct m (SGen l (Some e)) = Ok x
  /\ run x (fun _ => INew) (repeat 0 (S (length l))) = (x', its', map Yield l ++ [Raise e])
  /\ run x' its' [1] = (x'', its'', [Stop])
  /\ xc_mode x'' = FULL /\ xc_members x'' = match m with TRANSIENT => [] | _ => l end.
Proof.
  intros Hm.
  assert (H : forall l' done its n, (its 0 = INew /\ n = 0 \/ its 0 = ISource n) -> (forall k, its (S k) = INew) -> l = done ++ l' ->
    exists x' its', run {| xc_mode := m; xc_members := kept m done; xc_source := SGen l' (Some e) |} its (repeat 0 (S (length l')))
       = (x', its', map Yield l' ++ [Raise e])
     /\ x' = {| xc_mode := m; xc_members := kept m l; xc_source := SGen [] None |} /\ forall k, its' (S k) = INew).
  { induction l' as [|g l' IH]; intros done its n Hi Hi' Hl; cbn [length repeat]; rewrite run_cons.
    - assert (En : forall x, xc_mode x = m -> next x (its 0) = next_source x n).
      { intros x Hx. destruct Hi as [[-> ->]| ->]; [cbn|reflexivity]. rewrite Hx. destruct Hm as [[-> _]| ->]; reflexivity. }
      rewrite En by reflexivity. unfold next_source. cbn. rewrite app_nil_r in Hl. subst done.
      eexists _, _. split; [reflexivity|]. split; [reflexivity|]. cbn. exact Hi'.
    - assert (En : forall x, xc_mode x = m -> next x (its 0) = next_source x n).
      { intros x Hx. destruct Hi as [[-> ->]| ->]; [cbn|reflexivity]. rewrite Hx. destruct Hm as [[-> _]| ->]; reflexivity. }
      rewrite En by reflexivity. unfold next_source. cbn [xc_source fetch xc_mode xc_members].
      destruct (IH (done ++ [g]) (fun j => if Nat.eqb j 0 then ISource (S n) else its j) (S n)) as (x' & its' & Hr & Hx & Hk);
        [now right|exact Hi'|now rewrite <- app_assoc|].
      exists x', its'. split; [|auto].
      assert (Hkept : m = INCREMENTAL -> add (kept m done) g = Ok (kept m (done ++ [g]))).
      { intros ->. destruct Hm as [[_ Hd]|]; [|discriminate]. rewrite Hl in Hd. exact (add_new _ _ _ Hd). }
      cbn [length repeat] in Hr. destruct m.
      + destruct Hm as [[? _]|?]; discriminate.
      + rewrite (Hkept eq_refl). rewrite Hr. reflexivity.
      + cbn [kept] in Hr |- *. rewrite Hr. reflexivity. }
  destruct (H l [] (fun _ => INew) 0) as (x' & its' & Hr & Hx & Hk); [now left|reflexivity|reflexivity|].
  eexists {| xc_mode := m; xc_members := []; xc_source := SGen l (Some e) |}, x', its', _, _.
  split; [destruct Hm as [[-> _]| ->]; reflexivity|]. split; [destruct m; exact Hr|].
  subst x'. rewrite run_cons, Hk. cbn. split; [destruct Hm as [[-> _]| ->]; reflexivity|]. split; [reflexivity|].
  destruct m; reflexivity.
Qed.

(* ---------- concrete corpora ---------- *)

Definition anigt (i : option str) : igt :=
  {| g_attrs := {| a_id := i; a_type := None; a_dict := []; a_ns := None; a_nsmap := None |}; g_md := []; g_tiers := [] |}.
Definition three : list igt := [anigt (Some (L "i1")); anigt (Some (L "i2")); anigt None].

Lemma three_distinct : distinct_ids three.
Proof.
  intros a b i _ Ha Hb.
  destruct a as [|[|[|[|a]]]]; cbn in Ha; try discriminate; destruct b as [|[|[|[|b]]]]; cbn in Hb; try discriminate;
    try reflexivity; exfalso; rewrite <- Hb in Ha; discriminate.
Qed.

(* two iterators interleaved on one incremental corpus *)
Lemma c26_example : exists x x' its', construct INCREMENTAL (SGen three None) = Ok x
  /\ run x (fun _ => INew) [0; 1; 0; 1; 0; 2] =
     (x', its', [Yield (anigt (Some (L "i1"))); Yield (anigt (Some (L "i2"))); Yield (anigt None); Stop; Stop;
                 Yield (anigt (Some (L "i1")))])
  /\ xc_members x' = three.
Proof. eexists _, _, _. split; [reflexivity|]. split; [reflexivity|reflexivity]. Qed.

(* a list as source is read again from its start by every iterator *)
Lemma c26_list : exists l x x' its' g, distinct_ids l /\ construct INCREMENTAL (SList l) = Ok x
  /\ run x (fun _ => INew) [0; 1] = (x', its', [Yield g; Raise XigtError]).
Proof.
  exists three. eexists _, _, _, _. split; [exact three_distinct|]. split; [reflexivity|]. vm_compute. reflexivity.
Qed.
Lemma c26_list_twice : exists l x x' its' g, distinct_ids l /\ construct INCREMENTAL (SList l) = Ok x
  /\ run x (fun _ => INew) [0; 1; 1] = (x', its', [Yield g; Yield g; Stop]) /\ xc_mode x' = FULL
  /\ l = [g] /\ xc_members x' = [g; g].
Proof.
  exists [anigt None]. eexists _, _, _, _. split.
  - intros a b i _ Ha. destruct a as [|[|a]]; discriminate.
  - split; [reflexivity|]. split; [reflexivity|]. split; [reflexivity|]. split; reflexivity.
Qed.
