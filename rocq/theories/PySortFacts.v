From Coq Require Export Permutation Sorted.
From Verif Require Import PyStr PySort.

Section Facts.
Context {A : Type} (lt : A -> A -> bool).
Notation ins := (sinsert lt). Notation sort := (ssort lt).

Lemma sinsert_perm x l : Permutation (ins x l) (x :: l).
Proof.
  induction l as [|y l IH]; cbn; [easy|]. destruct (lt y x); [|easy].
  now rewrite IH, perm_swap.
Qed.
Lemma ssort_perm l : Permutation (sort l) l.
Proof. induction l as [|x l IH]; cbn; [easy|]. now rewrite sinsert_perm, IH. Qed.

Lemma ssort_length l : length (sort l) = length l.
Proof. apply Permutation_length, ssort_perm. Qed.

Section Order.
Hypothesis asym : forall a b, lt a b = true -> lt b a = false.
Hypothesis trans : forall a b c, lt b a = false -> lt c b = false -> lt c a = false.
Notation le a b := (lt b a = false).

Lemma sinsert_sorted x l : StronglySorted (fun a b => le a b) l -> StronglySorted (fun a b => le a b) (ins x l).
Proof.
  induction 1 as [|y l Hl IH Hy]; cbn; [repeat constructor|].
  destruct (lt y x) eqn:E.
  - constructor; [exact IH|]. apply Forall_forall. intros z Hz.
    apply (Permutation_in _ (sinsert_perm x l)) in Hz as [<-|Hz]; [now apply asym|].
    rewrite Forall_forall in Hy. auto.
  - constructor; [constructor; auto|]. constructor; [exact E|].
    apply Forall_forall. intros z Hz. rewrite Forall_forall in Hy. eapply trans; eauto.
Qed.
Lemma ssort_sorted l : StronglySorted (fun a b => le a b) (sort l).
Proof. induction l as [|x l IH]; cbn; [constructor|]. now apply sinsert_sorted. Qed.
End Order.

Lemma sinsert_filter (p : A -> bool) x l :
  (forall y, In y l -> p x = true -> p y = true -> lt y x = false) ->
  filter p (ins x l) = filter p (x :: l).
Proof.
  induction l as [|y l IH]; intros H; [reflexivity|]. cbn [sinsert].
  destruct (lt y x) eqn:E; [|reflexivity].
  assert (Hxy : p x = true -> p y = true -> False).
  { intros Hx Hy. rewrite (H y (or_introl eq_refl) Hx Hy) in E. discriminate. }
  cbn [filter]. rewrite IH by (intros; apply H; auto; now right). cbn [filter].
  destruct (p x), (p y); auto. exfalso; auto.
Qed.
(* elements that are mutually incomparable keep their order *)
Lemma ssort_stable (p : A -> bool) l :
  (forall x y, In x l -> In y l -> p x = true -> p y = true -> lt y x = false) ->
  filter p (sort l) = filter p l.
Proof.
  induction l as [|x l IH]; intros H; [reflexivity|]. cbn [ssort].
  rewrite sinsert_filter.
  - cbn [filter]. rewrite IH; [easy|]. intros; apply H; auto; now right.
  - intros y Hy. apply H; [now left|]. right. eapply Permutation_in; [apply ssort_perm|exact Hy].
Qed.

Lemma ssort_sorted_id l : StronglySorted (fun a b => lt b a = false) l -> sort l = l.
Proof.
  induction 1 as [|x l Hl IH Hx]; [reflexivity|]. cbn. rewrite IH.
  destruct l as [|y l]; [reflexivity|]. cbn. inversion Hx as [|? ? E]; subst. now rewrite E.
Qed.
End Facts.
