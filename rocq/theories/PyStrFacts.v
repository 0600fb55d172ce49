(* Facts about the Python built-ins of PyStr.v. *)
From Verif Require Import PyStr.

Lemma str_eqb_spec a b : reflect (a = b) (str_eqb a b).
Proof.
  revert b; induction a as [|x a IH]; intros [|y b]; cbn; try (constructor; congruence).
  destruct (N.eqb_spec x y); cbn; [|constructor; congruence].
  destruct (IH b); constructor; congruence.
Qed.

Lemma str_eqb_eq a b : str_eqb a b = true <-> a = b.
Proof. destruct (str_eqb_spec a b); split; congruence. Qed.

Lemma str_eqb_refl a : str_eqb a a = true.
Proof. now apply str_eqb_eq. Qed.

Lemma str_eqb_neq a b : str_eqb a b = false <-> a <> b.
Proof. destruct (str_eqb_spec a b); split; congruence. Qed.

Lemma str_eqb_sym a b : str_eqb a b = str_eqb b a.
Proof. destruct (str_eqb_spec a b), (str_eqb_spec b a); congruence. Qed.

Lemma str_eq_dec (a b : str) : {a = b} + {a <> b}.
Proof. destruct (str_eqb_spec a b); [left|right]; assumption. Qed.

Lemma opt_eqb_spec {A} (eqb : A -> A -> bool) :
  (forall a b, reflect (a = b) (eqb a b)) ->
  forall a b, reflect (a = b) (opt_eqb eqb a b).
Proof.
  intros H [a|] [b|]; cbn; try (constructor; congruence).
  destruct (H a b); constructor; congruence.
Qed.

(* longest prefix satisfying a class *)
Fixpoint takew {A} (p : A -> bool) (s : list A) : list A :=
  match s with c :: t => if p c then c :: takew p t else [] | [] => [] end.
Fixpoint dropw {A} (p : A -> bool) (s : list A) : list A :=
  match s with c :: t => if p c then dropw p t else s | [] => [] end.

Lemma takew_dropw {A} p (s : list A) : takew p s ++ dropw p s = s.
Proof. induction s as [|c s IH]; cbn; [easy|]. destruct (p c); cbn; congruence. Qed.

Lemma takew_forall {A} p (s : list A) : Forall (fun c => p c = true) (takew p s).
Proof. induction s as [|c s IH]; cbn; [constructor|]. destruct (p c) eqn:E; constructor; auto. Qed.

Lemma dropw_head {A} p (s : list A) c t : dropw p s = c :: t -> p c = false.
Proof. induction s as [|d s IH]; cbn; [easy|]. destruct (p d) eqn:E; [auto|intros [= -> ->]; auto]. Qed.

Lemma takew_app_all {A} p (u s : list A) :
  Forall (fun c => p c = true) u ->
  (match s with c :: _ => p c = false | [] => True end) ->
  takew p (u ++ s) = u.
Proof.
  induction 1 as [|c u Hc Hu IH]; cbn; intros Hs.
  - destruct s as [|c s]; cbn; [easy|]. now rewrite Hs.
  - rewrite Hc, IH; auto.
Qed.

Lemma dropw_app_all {A} p (u s : list A) :
  Forall (fun c => p c = true) u ->
  (match s with c :: _ => p c = false | [] => True end) ->
  dropw p (u ++ s) = s.
Proof.
  induction 1 as [|c u Hc Hu IH]; cbn; intros Hs.
  - destruct s as [|c s]; cbn; [easy|]. now rewrite Hs.
  - rewrite Hc; auto.
Qed.

Lemma firstn_app_len {A} (u v : list A) : firstn (List.length u) (u ++ v) = u.
Proof. rewrite firstn_app, Nat.sub_diag, firstn_all; cbn. apply app_nil_r. Qed.

Lemma skipn_app_len {A} (u v : list A) : skipn (List.length u) (u ++ v) = v.
Proof. rewrite skipn_app, Nat.sub_diag, skipn_all; reflexivity. Qed.

(* ---------- dict facts ---------- *)
Section DictFacts.
Context {K A : Type} (keqb : K -> K -> bool) (Hk : forall a b, reflect (a = b) (keqb a b)).

Lemma dget_dset (d : list (K * A)) k v k' :
  dget_ keqb (dset_ keqb d k v) k' = if keqb k' k then Some v else dget_ keqb d k'.
Proof.
  induction d as [|[k0 v0] d IH]; cbn.
  - destruct (Hk k' k); reflexivity.
  - destruct (Hk k k0) as [->|Hne]; cbn.
    + destruct (Hk k' k0); reflexivity.
    + destruct (Hk k' k0) as [->|]; cbn; [|apply IH].
      destruct (Hk k0 k); congruence.
Qed.

Lemma dget_ddel (d : list (K * A)) k k' :
  dget_ keqb (ddel_ keqb d k) k' = if keqb k' k then None else dget_ keqb d k'.
Proof.
  induction d as [|[k0 v0] d IH]; cbn.
  - destruct (Hk k' k); reflexivity.
  - destruct (Hk k k0) as [->|Hne]; cbn.
    + rewrite IH. destruct (Hk k' k0); reflexivity.
    + rewrite IH. destruct (Hk k' k0) as [->|]; [destruct (Hk k0 k)|destruct (Hk k' k)]; congruence.
Qed.

Lemma dget_in (d : list (K * A)) k v : dget_ keqb d k = Some v -> In (k, v) d.
Proof.
  induction d as [|[k0 v0] d IH]; cbn; [easy|].
  destruct (Hk k k0) as [->|]; [intros [= ->]; now left|auto].
Qed.

Lemma dget_none (d : list (K * A)) k : dget_ keqb d k = None <-> ~ In k (map fst d).
Proof.
  induction d as [|[k0 v0] d IH]; cbn; [tauto|].
  destruct (Hk k k0) as [->|Hne].
  - split; [easy|intros H; exfalso; apply H; now left].
  - rewrite IH. split; [intros H [->|H']; auto|tauto].
Qed.

Lemma dget_nodup (d : list (K * A)) k v :
  NoDup (map fst d) -> In (k, v) d -> dget_ keqb d k = Some v.
Proof.
  induction d as [|[k0 v0] d IH]; cbn; [easy|].
  intros Hnd Hin; inversion Hnd as [|? ? Hni Hnd']; subst.
  destruct Hin as [[= -> ->]|Hin].
  - now destruct (Hk k k).
  - destruct (Hk k k0) as [->|]; [|auto].
    exfalso; apply Hni. now apply (in_map fst) in Hin.
Qed.

Lemma dset_keys (d : list (K * A)) k v x :
  In x (map fst (dset_ keqb d k v)) <-> x = k \/ In x (map fst d).
Proof.
  induction d as [|[k0 v0] d IH]; cbn; [intuition congruence|].
  destruct (Hk k k0) as [->|]; cbn; [intuition congruence|]. rewrite IH. intuition congruence.
Qed.

Lemma ddel_keys (d : list (K * A)) k x :
  In x (map fst (ddel_ keqb d k)) <-> x <> k /\ In x (map fst d).
Proof.
  induction d as [|[k0 v0] d IH]; cbn; [tauto|].
  destruct (Hk k k0) as [->|]; cbn; rewrite IH; intuition congruence.
Qed.

Lemma dset_nodup (d : list (K * A)) k v : NoDup (map fst d) -> NoDup (map fst (dset_ keqb d k v)).
Proof.
  induction d as [|[k0 v0] d IH]; cbn; intros H.
  - constructor; [easy|constructor].
  - inversion H; subst. destruct (Hk k k0) as [->|]; cbn; constructor; auto.
    rewrite dset_keys. intuition congruence.
Qed.

Lemma ddel_nodup (d : list (K * A)) k : NoDup (map fst d) -> NoDup (map fst (ddel_ keqb d k)).
Proof.
  induction d as [|[k0 v0] d IH]; cbn; intros H; [constructor|].
  inversion H; subst. destruct (Hk k k0) as [->|]; cbn; auto. constructor; auto.
  rewrite ddel_keys. intuition congruence.
Qed.

Lemma dset_new (d : list (K * A)) k v :
  dget_ keqb d k = None -> dset_ keqb d k v = d ++ [(k, v)].
Proof.
  induction d as [|[k0 v0] d IH]; cbn; [easy|].
  destruct (Hk k k0); [easy|]. intros H; now rewrite IH.
Qed.

Lemma ddel_absent (d : list (K * A)) k : dget_ keqb d k = None -> ddel_ keqb d k = d.
Proof.
  induction d as [|[k0 v0] d IH]; cbn; [easy|].
  destruct (Hk k k0); [easy|]. intros H; now rewrite IH.
Qed.
End DictFacts.

Lemma dget_app {A} (a b : dict A) k :
  dget (a ++ b) k = match dget a k with Some v => Some v | None => dget b k end.
Proof.
  unfold dget. induction a as [|[k0 v0] a IH]; cbn; [easy|].
  destruct (str_eqb k k0); auto.
Qed.
