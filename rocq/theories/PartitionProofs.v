(* Proofs about xigt partition: C35. *)
From Coq Require Import Permutation.
From Verif Require Import PyStr PyStrFacts Model Xml XmlProofs LoadProofs Scripts SpecScripts.

Lemma keyeq_spec a b : reflect (a = b) (keyeq a b).
Proof. apply opt_eqb_spec. apply str_eqb_spec. Qed.

(* ---------- lists ---------- *)

Lemma filter_filter {A} (p q : A -> bool) l : filter p (filter q l) = filter (fun x => q x && p x) l.
Proof. induction l as [|x l IH]; cbn; [easy|]. destruct (q x); cbn; [destruct (p x); now rewrite IH|exact IH]. Qed.
Lemma filter_ext' {A} (p q : A -> bool) l : (forall x, In x l -> p x = q x) -> filter p l = filter q l.
Proof. induction l as [|x l IH]; intros H; cbn; [easy|]. rewrite H by now left. rewrite IH by (intros; apply H; now right). easy. Qed.
Lemma filter_app' {A} (p : A -> bool) l l' : filter p (l ++ l') = filter p l ++ filter p l'.
Proof. induction l as [|x l IH]; cbn; [easy|]. rewrite IH. now destruct (p x). Qed.
Lemma filter_flat_map {A B} (p : B -> bool) (f : A -> list B) l : filter p (flat_map f l) = flat_map (fun x => filter p (f x)) l.
Proof. induction l as [|x l IH]; cbn; [easy|]. now rewrite filter_app', IH. Qed.
Lemma flat_map_ext' {A B} (f g : A -> list B) l : (forall x, In x l -> f x = g x) -> flat_map f l = flat_map g l.
Proof. induction l as [|x l IH]; intros H; cbn; [easy|]. rewrite H by now left. now rewrite IH by (intros; apply H; now right). Qed.

Definition other (x y : str) : bool := negb (str_eqb y x).
Lemma firsts_in l x : In x (firsts l) <-> In x l.
Proof.
  induction l as [|y l IH]; cbn; [tauto|]. rewrite filter_In, IH. destruct (str_eqb_spec x y) as [->|N]; cbn; [tauto|]. intuition congruence.
Qed.
Lemma firsts_nodup l : NoDup (firsts l).
Proof.
  induction l as [|y l IH]; cbn; constructor; [|now apply NoDup_filter].
  rewrite filter_In, str_eqb_refl. now intros [_ H].
Qed.
Lemma firsts_snoc l x : firsts (l ++ [x]) = if existsb (str_eqb x) l then firsts l else firsts l ++ [x].
Proof.
  induction l as [|y l IH]; cbn; [easy|]. rewrite IH. destruct (str_eqb_spec x y) as [->|N]; cbn.
  - f_equal. destruct (existsb (str_eqb y) l); [easy|]. rewrite filter_app'. cbn. rewrite str_eqb_refl. cbn. apply app_nil_r.
  - destruct (existsb (str_eqb x) l); [easy|]. f_equal. rewrite filter_app'. cbn. apply str_eqb_neq in N. now rewrite N.
Qed.
Lemma firsts_repeat x n r : firsts (repeat x (S n) ++ r) = x :: filter (other x) (firsts r).
Proof.
  induction n as [|n IH]; [reflexivity|]. change (repeat x (S (S n)) ++ r) with (x :: repeat x (S n) ++ r). cbn [firsts].
  rewrite IH. cbn [filter]. rewrite str_eqb_refl. cbn [negb]. f_equal. change (fun y => negb (str_eqb y x)) with (other x).
  rewrite filter_filter. apply filter_ext'. intros y _. now destruct (other x y).
Qed.
Lemma firsts_counts (n : str -> nat) l :
  firsts (flat_map (fun x => repeat x (n x)) l) = filter (fun x => Nat.ltb 0 (n x)) (firsts l).
Proof.
  induction l as [|x l IH]; [easy|]. cbn [flat_map firsts filter]. destruct (n x) as [|m] eqn:E.
  - cbn [repeat app Nat.ltb Nat.leb]. rewrite IH, filter_filter. apply filter_ext'. intros y Hy. unfold other.
    destruct (str_eqb_spec y x) as [->|]; cbn; [now rewrite E|easy].
  - rewrite firsts_repeat, IH. cbn [Nat.ltb Nat.leb]. f_equal. rewrite !filter_filter. apply filter_ext'. intros y _. apply andb_comm.
Qed.

Lemma dset_fst {K A} (keqb : K -> K -> bool) (Hk : forall a b, reflect (a = b) (keqb a b)) (d : list (K * A)) k v :
  map fst (dset_ keqb d k v) = if existsb (keqb k) (map fst d) then map fst d else map fst d ++ [k].
Proof.
  induction d as [|[k0 v0] d IH]; cbn; [easy|]. destruct (Hk k k0) as [->|N]; cbn; [easy|]. rewrite IH. now destruct (existsb _ _).
Qed.

(* ---------- the index ---------- *)

Definition event := (option str * str * nat)%type.
Definition e_key (e : event) := fst (fst e).
Definition e_fn (e : event) := snd (fst e).
Definition e_ix (e : event) := snd e.
Definition add (idx : pindex) (e : event) : pindex := idx_add idx (e_key e) (e_fn e) (e_ix e).
Definition build (es : list event) : pindex := fold_left add es [].

Definition fns_of (k : option str) (es : list event) : list str := map e_fn (filter (fun e => keyeq (e_key e) k) es).
Record described (es : list event) (idx : pindex) : Prop := {
  d_nodup : NoDup (map fst idx);
  d_key : forall k, (exists d, dget_ keyeq idx k = Some d) <-> exists e, In e es /\ e_key e = k;
  d_files : forall k d, dget_ keyeq idx k = Some d -> map fst d = firsts (fns_of k es);
  d_places : forall k d fn l i, dget_ keyeq idx k = Some d -> dget d fn = Some l -> (In i l <-> In (k, fn, i) es) }.

Lemma in_snoc {A} (x y : A) l : In x (l ++ [y]) <-> In x l \/ y = x.
Proof. rewrite in_app_iff. cbn. tauto. Qed.
Lemma dget_str {A} (d : dict A) k v k' : dget (dset d k v) k' = if str_eqb k' k then Some v else dget d k'.
Proof. apply dget_dset. apply str_eqb_spec. Qed.
Lemma existsb_in {A} (eqb : A -> A -> bool) (H : forall a b, reflect (a = b) (eqb a b)) x l : existsb (eqb x) l = true <-> In x l.
Proof.
  rewrite existsb_exists. split; [intros (y & Hy & E); destruct (H x y); [now subst|discriminate]|].
  intros Hx. exists x. split; [easy|]. destruct (H x x); easy.
Qed.
Lemma described_add es idx e : described es idx -> described (es ++ [e]) (add idx e).
Proof.
  intros [H1 H2 H3 H4]. destruct e as [[k fn] i]. unfold add, idx_add. cbn [e_key e_fn e_ix fst snd].
  set (d0 := match dget_ keyeq idx k with Some d => d | None => [] end).
  set (l0 := match dget d0 fn with Some l => l | None => [] end).
  assert (Hd0 : map fst d0 = firsts (fns_of k es)).
  { unfold d0. destruct (dget_ keyeq idx k) eqn:E; [now apply H3|]. unfold fns_of.
    replace (filter (fun e => keyeq (e_key e) k) es) with (@nil event); [reflexivity|]. symmetry.
    destruct (filter _ es) as [|e l] eqn:Ef; [easy|]. assert (He : In e (filter (fun e => keyeq (e_key e) k) es)) by (rewrite Ef; now left).
    apply filter_In in He as (He & Hk). destruct (keyeq_spec (e_key e) k); [|discriminate].
    destruct (proj2 (H2 k)) as (d & Hd); [eauto|]. congruence. }
  constructor.
  - apply dset_nodup; [apply keyeq_spec|exact H1].
  - intros k'. rewrite (dget_dset keyeq keyeq_spec). destruct (keyeq_spec k' k) as [->|N].
    + split; [intros _; exists (k, fn, i); rewrite in_snoc; auto|eauto].
    + rewrite H2. split; intros (e & He & Hk).
      * exists e. rewrite in_snoc. auto.
      * apply in_snoc in He as [He|<-]; [eauto|]. cbn in Hk. congruence.
  - intros k' d. rewrite (dget_dset keyeq keyeq_spec). unfold fns_of. rewrite filter_app', map_app. cbn [filter e_key fst].
    destruct (keyeq_spec k' k) as [->|N].
    + destruct (keyeq_spec k k) as [_|]; [|easy]. intros [= <-]. cbn [map e_fn fst snd]. rewrite firsts_snoc. fold (fns_of k es).
      unfold dset. rewrite (dset_fst str_eqb str_eqb_spec), Hd0.
      replace (existsb (str_eqb fn) (firsts (fns_of k es))) with (existsb (str_eqb fn) (fns_of k es)); [reflexivity|].
      apply eq_true_iff_eq. rewrite !(existsb_in str_eqb str_eqb_spec). now rewrite firsts_in.
    + intros Hd. destruct (keyeq_spec k k'); [congruence|]. rewrite app_nil_r. now apply H3.
  - intros k' d fn' l i'. rewrite (dget_dset keyeq keyeq_spec). rewrite in_snoc. destruct (keyeq_spec k' k) as [->|N].
    + intros [= <-]. rewrite dget_str. destruct (str_eqb_spec fn' fn) as [->|Nf].
      * intros [= <-]. cbn [In]. unfold l0, d0. destruct (dget_ keyeq idx k) as [d|] eqn:Ed.
        -- destruct (dget d fn) as [l|] eqn:El.
           ++ rewrite (H4 k d fn l i' Ed El). split; [intros [<-|H]; auto|]. intros [H|H]; [auto|]. injection H as <-. auto.
           ++ split; [intros [<-|[]]; auto|]. intros [H|H]; [|injection H as <-; auto]. exfalso.
              apply (dget_none str_eqb str_eqb_spec) in El. apply El. rewrite (H3 k d Ed). apply firsts_in.
              apply in_map_iff. exists (k, fn, i'). split; [easy|]. apply filter_In. split; [easy|]. cbn. now destruct (keyeq_spec k k).
        -- cbn. split; [intros [<-|[]]; auto|]. intros [H|H]; [|injection H as <-; auto]. exfalso.
           destruct (proj2 (H2 k)) as (d & Hd); [exists (k, fn, i'); auto|congruence].
      * unfold d0. destruct (dget_ keyeq idx k) as [d|] eqn:Ed; [|discriminate]. intros El. rewrite (H4 k d fn' l i' Ed El).
        split; [auto|]. intros [H|H]; [auto|]. injection H as <-. congruence.
    + intros Hd El. rewrite (H4 k' d fn' l i' Hd El). split; [auto|]. intros [H|H]; [auto|]. injection H as <-. congruence.
Qed.
Lemma build_described es : described es (build es).
Proof.
  induction es as [|e es IH] using rev_ind.
  - constructor; cbn; [constructor| |discriminate|discriminate]. intros k. split; [intros (d & H); discriminate|intros (e & [] & _)].
  - unfold build. rewrite fold_left_app. cbn. now apply described_add.
Qed.

Section P.
Context {M : Type}.
Variable key : M -> res (option str).
Variable load : str -> res (list M).
Variable idof : M -> option str.
Notation contents := (contents load). Notation has_keyb := (has_keyb key).
Definition keyd (g : M) : option str := match key g with Ok k => k | Err _ => None end.
Fixpoint evs (fn : str) (i : nat) (l : list M) : list event :=
  match l with [] => [] | g :: l => (keyd g, fn, i) :: evs fn (S i) l end.
Definition keys_ok (l : list M) : Prop := forall g, In g l -> exists k, key g = Ok k.

Lemma index_igts_build fn l : forall i idx idx', index_igts key fn i l idx = Ok idx' ->
  keys_ok l /\ idx' = fold_left add (evs fn i l) idx.
Proof.
  induction l as [|g l IH]; intros i idx idx'; cbn; [intros [= <-]; split; [intros ? []|easy]|].
  destruct (key g) as [k|] eqn:E; [|discriminate]. cbn. intros H. apply IH in H as (H & ->). split.
  - intros g' [<-|Hg]; eauto.
  - unfold keyd. rewrite E. reflexivity.
Qed.
Definition all_evs (fns : list str) : list event := flat_map (fun fn => evs fn 0 (contents fn)) fns.
Lemma index_files_build fns : forall idx idx', index_files key load fns idx = Ok idx' ->
  (forall fn, In fn fns -> exists l, load fn = Ok l /\ keys_ok l) /\ idx' = fold_left add (all_evs fns) idx.
Proof.
  induction fns as [|fn fns IH]; intros idx idx'; cbn; [intros [= <-]; split; [intros ? []|easy]|].
  destruct (load fn) as [l|] eqn:El; [|discriminate]. cbn. destruct (index_igts key fn 0 l idx) as [idx1|] eqn:Ei; [|discriminate]. cbn.
  intros H. apply IH in H as (H & ->). apply index_igts_build in Ei as (Hk & ->). split.
  - intros fn' [<-|Hf]; eauto.
  - assert (Ec : contents fn = l) by (unfold SpecScripts.contents; now rewrite El). unfold all_evs. cbn [flat_map]. now rewrite fold_left_app, Ec.
Qed.
Lemma index_igts_ok fn l : keys_ok l -> forall i idx, exists idx', index_igts key fn i l idx = Ok idx'.
Proof.
  induction l as [|g l IH]; intros H i idx; cbn; [eauto|]. destruct (H g (or_introl eq_refl)) as (k & ->). cbn. apply IH. intros g' Hg. apply H. now right.
Qed.
Lemma index_files_ok fns : (forall fn, In fn fns -> exists l, load fn = Ok l /\ keys_ok l) -> forall idx, exists idx', index_files key load fns idx = Ok idx'.
Proof.
  induction fns as [|fn fns IH]; intros H idx; cbn; [eauto|]. destruct (H fn (or_introl eq_refl)) as (l & -> & Hk). cbn.
  destruct (index_igts_ok fn l Hk 0 idx) as (idx1 & ->). cbn. apply IH. intros f Hf. apply H. now right.
Qed.

Lemma evs_in fn l : forall i k f j, In (k, f, j) (evs fn i l) <-> f = fn /\ exists g, i <= j /\ nth_error l (j - i) = Some g /\ keyd g = k.
Proof.
  induction l as [|g l IH]; intros i k f j; cbn [evs In].
  - split; [easy|]. intros (_ & g & _ & H & _). destruct (j - i); discriminate.
  - rewrite IH. split.
    + intros [H|(-> & g' & Hle & Hn & Hk)].
      * injection H as <- <- <-. split; [easy|]. exists g. rewrite Nat.sub_diag. auto.
      * split; [easy|]. exists g'. split; [lia|]. replace (j - i) with (S (j - S i)) by lia. auto.
    + intros (-> & g' & Hle & Hn & Hk). destruct (Nat.eq_dec i j) as [<-|N].
      * left. rewrite Nat.sub_diag in Hn. injection Hn as <-. now rewrite Hk.
      * right. split; [easy|]. exists g'. split; [lia|]. replace (j - i) with (S (j - S i)) in Hn by lia. auto.
Qed.
Lemma all_evs_in fns k f j : In (k, f, j) (all_evs fns) <-> In f fns /\ exists g, nth_error (contents f) j = Some g /\ keyd g = k.
Proof.
  unfold all_evs. rewrite in_flat_map. split.
  - intros (fn & Hf & H). apply evs_in in H as (-> & g & _ & Hn & Hk). rewrite Nat.sub_0_r in Hn. eauto.
  - intros (Hf & g & Hn & Hk). exists f. split; [easy|]. apply evs_in. split; [easy|]. exists g. rewrite Nat.sub_0_r. auto with arith.
Qed.
Lemma evs_fns fn k l : forall i, fns_of k (evs fn i l) = repeat fn (length (filter (fun g => keyeq (keyd g) k) l)).
Proof.
  unfold fns_of. induction l as [|g l IH]; intros i; [easy|]. cbn [evs filter e_key fst]. destruct (keyeq (keyd g) k); cbn [map length repeat].
  - f_equal. apply IH.
  - apply IH.
Qed.
Lemma all_evs_fns k fns : fns_of k (all_evs fns) = flat_map (fun fn => repeat fn (length (filter (fun g => keyeq (keyd g) k) (contents fn)))) fns.
Proof.
  unfold all_evs. induction fns as [|fn fns IH]; [easy|]. cbn [flat_map]. unfold fns_of in *. rewrite filter_app', map_app, IH. f_equal. apply evs_fns.
Qed.

Lemma chosen_filter (p : M -> bool) ixs l : forall i, (forall j g, nth_error l j = Some g -> (In (i + j) ixs <-> p g = true)) ->
  chosen i ixs l = filter p l.
Proof.
  induction l as [|g l IH]; intros i H; cbn; [easy|].
  assert (E : existsb (Nat.eqb i) ixs = p g).
  { apply eq_true_iff_eq. rewrite (existsb_in Nat.eqb Nat.eqb_spec). specialize (H 0 g eq_refl). now rewrite Nat.add_0_r in H. }
  rewrite E. rewrite (IH (S i)).
  - now destruct (p g).
  - intros j g' Hj. specialize (H (S j) g' Hj). now rewrite Nat.add_succ_r in H.
Qed.
Lemma gather_spec (p : M -> bool) d : (forall fn ixs, In (fn, ixs) d -> load fn <> Err RuntimeError ->
     forall j g, nth_error (contents fn) j = Some g -> (In j ixs <-> p g = true)) ->
  (forall fn, In fn (map fst d) -> exists l, load fn = Ok l) ->
  gather load d = Ok (flat_map (fun fn => filter p (contents fn)) (map fst d)).
Proof.
  induction d as [|[fn ixs] d IH]; intros H Hl; cbn; [easy|]. destruct (Hl fn (or_introl eq_refl)) as (l & El). rewrite El. cbn.
  rewrite IH; [|intros fn' ixs' Hin; apply (H fn' ixs'); now right|intros f Hf; apply Hl; now right]. cbn. f_equal. f_equal.
  unfold SpecScripts.contents. rewrite El. apply chosen_filter. intros j g Hj. cbn.
  apply (H fn ixs (or_introl eq_refl)); [congruence|]. unfold SpecScripts.contents. now rewrite El.
Qed.

Notation readable fns := (forall fn, In fn fns -> exists l, load fn = Ok l /\ keys_ok l).
Lemma keyd_has fns k fn g : readable fns -> In fn fns -> In g (contents fn) -> keyeq (keyd g) k = has_keyb k g.
Proof.
  intros H Hf Hg. destruct (H fn Hf) as (l & El & Hk). unfold SpecScripts.contents in Hg. rewrite El in Hg.
  destruct (Hk g Hg) as (k' & Ek). unfold keyd, SpecScripts.has_keyb. now rewrite Ek.
Qed.
Lemma files_of_key fns k d : readable fns -> dget_ keyeq (build (all_evs fns)) k = Some d ->
  gather load d = Ok (of_key key load k fns).
Proof.
  intros Hr Hd. destruct (build_described (all_evs fns)) as [H1 H2 H3 H4].
  assert (Hfn : forall fn, In fn (map fst d) -> In fn fns).
  { intros fn Hf. rewrite (H3 k d Hd), firsts_in in Hf. apply in_map_iff in Hf as ([[k' f] j] & <- & He). apply filter_In in He as (He & _).
    now apply all_evs_in in He. }
  assert (Hnd : NoDup (map fst d)) by (rewrite (H3 k d Hd); apply firsts_nodup).
  rewrite (gather_spec (has_keyb k)).
  - f_equal. rewrite (H3 k d Hd), all_evs_fns, firsts_counts. unfold of_key, inputs. rewrite filter_flat_map.
    assert (G : forall fs, (forall f, In f fs -> In f fns) ->
       flat_map (fun fn => filter (has_keyb k) (contents fn)) (filter (fun fn => Nat.ltb 0 (length (filter (fun g => keyeq (keyd g) k) (contents fn)))) fs)
       = flat_map (fun fn => filter (has_keyb k) (contents fn)) fs).
    { induction fs as [|f fs IH]; intros Hf; [easy|]. cbn [filter flat_map].
      replace (filter (fun g => keyeq (keyd g) k) (contents f)) with (filter (has_keyb k) (contents f)).
      2:{ apply filter_ext'. intros g Hg. symmetry. eapply keyd_has; eauto. apply Hf. now left. }
      destruct (filter (has_keyb k) (contents f)) eqn:E; cbn [length Nat.ltb Nat.leb flat_map].
      - apply IH. intros; apply Hf. now right.
      - rewrite E. f_equal. apply IH. intros; apply Hf. now right. }
    apply G. intros f Hf. now apply firsts_in.
  - intros fn ixs Hin _ j g Hj.
    assert (Hdg : dget d fn = Some ixs) by (apply dget_nodup; [apply str_eqb_spec|exact Hnd|exact Hin]).
    assert (Hf : In fn fns) by (apply Hfn; now apply (in_map fst) in Hin).
    rewrite (H4 k d fn ixs j Hd Hdg), all_evs_in.
    rewrite <- (keyd_has fns k fn g Hr Hf (nth_error_In _ _ Hj)). split.
    + intros (_ & g' & Hj' & Hk). rewrite Hj in Hj'. injection Hj' as <-. destruct (keyeq_spec (keyd g) k); easy.
    + intros E. destruct (keyeq_spec (keyd g) k); [|discriminate]. eauto.
  - intros fn Hf. destruct (Hr fn (Hfn fn Hf)) as (l & El & _). eauto.
Qed.
Lemma keys_occur fns k : readable fns -> (exists d, dget_ keyeq (build (all_evs fns)) k = Some d) <-> occurs key load fns k.
Proof.
  intros Hr. rewrite (d_key _ _ (build_described (all_evs fns))). unfold occurs, inputs. split.
  - intros ([[k' f] j] & He & Hk). cbn in Hk. subst k'. apply all_evs_in in He as (Hf & g & Hj & Hg). exists g. split.
    + apply in_flat_map. exists f. split; [now apply (proj2 (firsts_in _ _))|now apply nth_error_In in Hj].
    + destruct (Hr f Hf) as (l & El & Hk). apply nth_error_In in Hj. unfold SpecScripts.contents in Hj. rewrite El in Hj.
      destruct (Hk g Hj) as (k' & Ek). unfold keyd in Hg. rewrite Ek in Hg. now subst.
  - intros (g & Hg & Hk). apply in_flat_map in Hg as (f & Hf & Hg). rewrite firsts_in in Hf. apply In_nth_error in Hg as (j & Hj).
    exists (k, f, j). split; [|easy]. apply all_evs_in. split; [easy|]. exists g. split; [easy|]. unfold keyd. now rewrite Hk.
Qed.

Lemma write_ids d r : write load idof d = Ok r <-> gather load d = Ok r /\ ids_distinct idof r.
Proof.
  unfold write, new_container. destruct (gather load d) as [l|e]; cbn; [|split; [discriminate|intros [H _]; discriminate]].
  assert (Ei : forall l, ids_of idof l = SpecXml.some_ids (map idof l)).
  { unfold ids_of, SpecXml.some_ids. induction l0 as [|g l0 IH]; cbn; [easy|]. now rewrite IH. }
  unfold ids_distinct. destruct (check_ids [] (map idof l)) as [[]|e] eqn:E; cbn.
  - split; [intros [= <-]; split; [easy|]; rewrite Ei; now apply (check_ids_sound _ [])|intros [[= <-] _]; easy].
  - split; [discriminate|]. intros [[= <-] H]. rewrite Ei in H. rewrite check_ids_ok in E; [discriminate|exact H|auto].
Qed.

Lemma filter_split {A} (p : A -> bool) l : Permutation (filter p l ++ filter (fun x => negb (p x)) l) l.
Proof.
  induction l as [|x l IH]; cbn; [constructor|]. destruct (p x); cbn; [now constructor|].
  symmetry. etransitivity; [|apply Permutation_middle]. constructor. now symmetry.
Qed.
Lemma partition_perm_gen ks : NoDup ks -> forall l, (forall g, In g l -> exists k, In k ks /\ key g = Ok k) ->
  Permutation (concat (map (fun k => filter (has_keyb k) l) ks)) l.
Proof.
  induction ks as [|k ks IH]; intros Hnd l Hl; cbn.
  - destruct l as [|g l]; [constructor|]. destruct (Hl g (or_introl eq_refl)) as (k & [] & _).
  - inversion Hnd as [|? ? Hni Hnd']; subst. etransitivity; [|apply (filter_split (has_keyb k))]. apply Permutation_app_head.
    rewrite <- (IH Hnd' (filter (fun g => negb (has_keyb k g)) l)).
    + apply Permutation_refl'. f_equal. apply map_ext_in. intros k' Hk'. rewrite filter_filter. apply filter_ext'. intros g _.
      unfold SpecScripts.has_keyb. destruct (key g) as [k0|]; [|easy]. fold keyeq. destruct (keyeq_spec k0 k') as [->|N]; [|now rewrite ?andb_false_r].
      rewrite ?andb_true_r. destruct (keyeq_spec k' k); [now subst|easy].
    + intros g Hg. apply filter_In in Hg as (Hg & Hb). destruct (Hl g Hg) as (k' & Hk' & Ek). exists k'. split; [|easy].
      destruct Hk' as [<-|H]; [|easy]. unfold SpecScripts.has_keyb in Hb. rewrite Ek in Hb. fold keyeq in Hb. destruct (keyeq_spec k k); easy.
Qed.
Variables (outdir default_key : str).
Notation path := (out_path outdir default_key).
Notation partition_ := (partition key load idof outdir default_key).

Definition apart (ks : list (option str)) : Prop := forall k k', In k ks -> In k' ks -> path k = path k' -> k = k'.
Lemma write_all_spec idx : forall out out', NoDup (map fst idx) -> apart (map fst idx) ->
  (forall k, In k (map fst idx) -> ~ In (path k) (map fst out)) ->
  write_all load idof outdir default_key idx out = Ok out' ->
  exists new, out' = out ++ new /\ Forall2 (fun kd pl => fst pl = path (fst kd) /\ write load idof (snd kd) = Ok (snd pl)) idx new.
Proof.
  induction idx as [|[k d] idx IH]; intros out out' Hnd Ha Hout; cbn.
  - intros [= <-]. exists []. split; [now rewrite app_nil_r|constructor].
  - destruct (write load idof d) as [l|] eqn:Ew; [|discriminate]. cbn. unfold dset.
    rewrite (dset_new str_eqb str_eqb_spec) by (apply dget_none; [apply str_eqb_spec|]; apply Hout; now left).
    cbn in Hnd. inversion Hnd as [|? ? Hni Hnd']; subst. intros H. apply IH in H as (new & -> & HF).
    + exists ((path k, l) :: new). split; [now rewrite <- app_assoc|]. constructor; auto.
    + exact Hnd'.
    + intros k1 k2 H1 H2. apply Ha; now right.
    + intros k' Hk'. rewrite map_app, in_app_iff. cbn. intros [Hi|[E|[]]]; [apply (Hout k'); [now right|exact Hi]|].
      apply Ha in E; [subst; easy|now left|now right].
Qed.
Lemma write_all_ok idx : (forall k d, In (k, d) idx -> exists l, write load idof d = Ok l) -> forall out, exists out', write_all load idof outdir default_key idx out = Ok out'.
Proof.
  induction idx as [|[k d] idx IH]; intros H out; cbn; [eauto|]. destruct (H k d (or_introl eq_refl)) as (l & ->). cbn. apply IH. intros k' d' Hi. apply (H k' d'). now right.
Qed.
Lemma write_all_err idx out out' : write_all load idof outdir default_key idx out = Ok out' -> forall k d, In (k, d) idx -> exists l, write load idof d = Ok l.
Proof.
  revert out. induction idx as [|[k d] idx IH]; intros out; cbn; [easy|]. destruct (write load idof d) as [l|] eqn:E; [|discriminate]. cbn.
  intros H k' d' [[= <- <-]|Hi]; eauto.
Qed.

Definition distinct_paths (fns : list str) : Prop :=
  forall k k', occurs key load fns k -> occurs key load fns k' -> path k = path k' -> k = k'.

Lemma in_keys idx k : NoDup (map fst idx) -> In k (map fst idx) <-> exists d : dict (list nat), dget_ keyeq idx k = Some d.
Proof.
  intros Hnd. split.
  - intros H. apply in_map_iff in H as ([k' d] & <- & Hi). exists d. now apply dget_nodup; [apply keyeq_spec| |].
  - intros (d & H). apply (dget_in keyeq keyeq_spec) in H. now apply (in_map fst) in H.
Qed.

Theorem partition_exact fns out : partition_ fns = Ok out -> distinct_paths fns ->
  NoDup (map fst out)
  /\ (forall k, occurs key load fns k -> In (path k, of_key key load k fns) out)
  /\ (forall p l, In (p, l) out -> exists k, occurs key load fns k /\ p = path k /\ l = of_key key load k fns)
  /\ Permutation (concat (map snd out)) (inputs load fns).
Proof.
  unfold partition. destruct (index_files key load fns []) as [idx|] eqn:Ei; [|discriminate]. cbn. intros Hw Hp.
  apply index_files_build in Ei as (Hr & ->). change (fold_left add (all_evs fns) []) with (build (all_evs fns)) in Hw.
  pose proof (build_described (all_evs fns)) as [H1 H2 H3 H4]. set (idx := build (all_evs fns)) in *.
  assert (Hocc : forall k, In k (map fst idx) <-> occurs key load fns k).
  { intros k. rewrite in_keys by exact H1. now apply keys_occur. }
  apply write_all_spec in Hw as (new & -> & HF); [|exact H1| |intros k _ []].
  2:{ intros k k' Hk Hk'. apply Hp; now apply Hocc. }
  cbn [app].
  assert (Hnew : new = map (fun k => (path k, of_key key load k fns)) (map fst idx)).
  { assert (Hin : forall kd, In kd idx -> gather load (snd kd) = Ok (of_key key load (fst kd) fns)).
    { intros [k d] Hk. apply (files_of_key fns k d Hr). now apply dget_nodup; [apply keyeq_spec| |]. }
    clear - HF Hin. induction HF as [|[k d] [p l] kds pls [Hp Hl] HF IH]; cbn [map fst snd]; [easy|].
    rewrite IH by (intros; apply Hin; now right). f_equal. cbn in Hp, Hl. apply write_ids in Hl as (Hl & _).
    specialize (Hin (k, d) (or_introl eq_refl)). cbn in Hin. rewrite Hl in Hin. injection Hin as ->. now subst p. }
  subst new. split; [|split; [|split]].
  - rewrite map_map. cbn. assert (Ha : apart (map fst idx)) by (intros k k' Hk Hk'; apply Hp; now apply Hocc).
    clear - H1 Ha. induction (map fst idx) as [|k ks IH]; cbn; [constructor|]. inversion H1; subst. constructor.
    + intros Hi. apply in_map_iff in Hi as (k' & E & Hk'). apply Ha in E; [now subst|now right|now left].
    + apply IH; [easy|]. intros k1 k2 Hk1 Hk2. apply Ha; now right.
  - intros k Hk. apply Hocc in Hk. apply in_map_iff. eauto.
  - intros p l Hpl. apply in_map_iff in Hpl as (k & [= <- <-] & Hk). exists k. split; [now apply Hocc|easy].
  - rewrite map_map. cbn [snd]. apply partition_perm_gen; [exact H1|].
    intros g Hg. unfold inputs in Hg. pose proof Hg as Hg'. apply in_flat_map in Hg' as (f & Hf & Hg'). rewrite firsts_in in Hf.
      destruct (Hr f Hf) as (l & El & Hk). unfold SpecScripts.contents in Hg'. rewrite El in Hg'. destruct (Hk g Hg') as (k & Ek).
      exists k. split; [apply Hocc; exists g; auto|exact Ek].
Qed.

Theorem partition_ok fns : (exists out, partition_ fns = Ok out) <->
  (forall fn, In fn fns -> exists l, load fn = Ok l)
  /\ (forall g, In g (inputs load fns) -> exists k, key g = Ok k)
  /\ (forall k, ids_distinct idof (of_key key load k fns)).
Proof.
  unfold partition. split.
  - intros (out & H). destruct (index_files key load fns []) as [idx|] eqn:Ei; [|discriminate]. cbn in H.
    apply index_files_build in Ei as (Hr & ->). change (fold_left add (all_evs fns) []) with (build (all_evs fns)) in H.
    split; [|split].
    + intros fn Hf. destruct (Hr fn Hf) as (l & Hl & _). eauto.
    + intros g Hg. apply in_flat_map in Hg as (f & Hf & Hg). rewrite firsts_in in Hf.
      destruct (Hr f Hf) as (l & El & Hk). unfold SpecScripts.contents in Hg. rewrite El in Hg. now apply Hk.
    + intros k. destruct (dget_ keyeq (build (all_evs fns)) k) as [d|] eqn:Ed.
      * pose proof (files_of_key fns k d Hr Ed) as Hg. apply (dget_in keyeq keyeq_spec) in Ed.
        destruct (write_all_err _ _ _ H k d Ed) as (l & Hl). apply write_ids in Hl as (Hl & Hi). congruence.
      * replace (of_key key load k fns) with (@nil M); [constructor|]. unfold of_key.
        destruct (filter (has_keyb k) (inputs load fns)) as [|g l] eqn:Ef; [easy|]. exfalso.
        assert (Hg : In g (filter (has_keyb k) (inputs load fns))) by (rewrite Ef; now left). apply filter_In in Hg as (Hg & Hk).
        destruct (proj2 (keys_occur fns k Hr)) as (d & Hd); [|congruence]. exists g. split; [easy|]. unfold SpecScripts.has_keyb in Hk.
        destruct (key g) as [k'|]; [|discriminate]. fold keyeq in Hk. destruct (keyeq_spec k' k); [now subst|discriminate].
  - intros (Hl & Hk & Hi).
    assert (Hr : readable fns).
    { intros fn Hf. destruct (Hl fn Hf) as (l & El). exists l. split; [easy|]. intros g Hg. apply Hk. apply in_flat_map. exists fn.
      split; [now apply (proj2 (firsts_in _ _))|]. unfold SpecScripts.contents. now rewrite El. }
    destruct (index_files_ok fns Hr []) as (idx & Ei). rewrite Ei. cbn. apply index_files_build in Ei as (_ & ->).
    apply write_all_ok. intros k d Hd. exists (of_key key load k fns). apply write_ids. split; [|apply Hi].
    apply files_of_key; [exact Hr|]. apply dget_nodup; [apply keyeq_spec| |exact Hd]. apply build_described.
Qed.
End P.

Lemma normalize_same s : forall t, normalize_key s = normalize_key t <-> same_but_colons s t.
Proof.
  unfold same_but_colons. induction s as [|a s IH]; intros [|b t]; cbn [normalize_key map]; try (split; [discriminate|inversion 1]).
  - split; [constructor|easy].
  - split.
    + intros [= H1 H2]. constructor; [|now apply IH]. revert H1.
      destruct (N.eqb_spec a (Ch ":")) as [->|Na], (N.eqb_spec b (Ch ":")) as [->|Nb]; auto; intros E; right; subst; split; vm_compute; auto.
    + inversion 1 as [|? ? ? ? H1 H2]; subst. apply IH in H2. unfold normalize_key in H2. f_equal; [|exact H2].
      destruct H1 as [->|(Ha & Hb)]; [easy|]. vm_compute in Ha, Hb.
      destruct Ha as [<-|[<-|[]]], Hb as [<-|[<-|[]]]; reflexivity.
Qed.
Lemma join_relative d n : relative n -> path_join d (normalize_key n ++ L ".xml")
  = if Nat.eqb (length d) 0 || endswith (L "/") d then d ++ normalize_key n ++ L ".xml" else d ++ L "/" ++ normalize_key n ++ L ".xml".
Proof.
  intros H. unfold path_join. destruct n as [|c n]; [reflexivity|].
  set (r := L ".xml"). cbn [normalize_key map app]. subst r.
  assert (E : N.eqb (if N.eqb c (Ch ":") then Ch "-" else c) (Ch "/") = false).
  { destruct (N.eqb_spec c (Ch ":")) as [->|Nc]; [reflexivity|]. apply N.eqb_neq. intros ->. now apply (H n). }
  rewrite E. reflexivity.
Qed.
Theorem same_path d dk k k' : relative (name_of dk k) -> relative (name_of dk k') ->
  (out_path d dk k = out_path d dk k' <-> same_but_colons (name_of dk k) (name_of dk k')).
Proof.
  intros H H'. rewrite <- normalize_same. change (out_path d dk k) with (path_join d (normalize_key (name_of dk k) ++ L ".xml")).
  change (out_path d dk k') with (path_join d (normalize_key (name_of dk k') ++ L ".xml")).
  rewrite !join_relative by easy. split; [|now intros ->].
  destruct (_ || _); intros E; apply app_inv_head in E; [|apply app_inv_head in E]; now apply app_inv_tail in E.
Qed.
