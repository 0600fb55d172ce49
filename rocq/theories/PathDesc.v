(* //name finds all and only the descendants of that name (C28). *)
From Coq Require Import Sorted.
From Verif Require Import PyStr PyStrFacts Model Attr SpecAttr Index Path SpecPath PathTokenProofs PathFuel PathProofs PathLaws.

Section Desc.
Context {U : Unicode}.

(* ---------- the children and the height ---------- *)

Lemma all_kids n : find_child (VNode n) (L "*") = (map (fun o => VNode (child_of n o)) (kid_objs (n_obj n)), None).
Proof.
  destruct (child_picked n (L "*") None (L "*")) as (l & Hp & ->); [reflexivity|].
  rewrite (picked_fun _ _ _ _ Hp (picked_all _ (kid_objs (n_obj n)) (fun x _ => or_introl eq_refl))). reflexivity.
Qed.
Lemma list_max_le {A} (f : A -> nat) l x : In x l -> f x <= list_max_ f l.
Proof.
  induction l as [|y l IH]; intros H; [easy|]. cbn. destruct H as [->|H]; [lia|]. specialize (IH H).
  unfold list_max_ in IH. lia.
Qed.
Lemma kid_height n o : In o (kid_objs (n_obj n)) -> height (VNode (child_of n o)) < height (VNode n).
Proof.
  destruct n as [p up]. cbn [n_obj height child_of].
  destruct p as [i|t|g|c|m|m|[cn ca ct ck]]; cbn [kid_objs]; rewrite ?in_app_iff, ?in_map_iff.
  - easy.
  - intros [(x & <- & H)|(x & <- & H)]; unfold height_tier.
    + pose proof (list_max_le height_md _ _ H). lia.
    + lia.
  - intros [(x & <- & H)|(x & <- & H)]; unfold height_igt.
    + pose proof (list_max_le height_md _ _ H). lia.
    + pose proof (list_max_le height_tier _ _ H). lia.
  - intros [(x & <- & H)|(x & <- & H)]; unfold height_corpus.
    + pose proof (list_max_le height_md _ _ H). lia.
    + pose proof (list_max_le height_igt _ _ H). lia.
  - intros (x & <- & H). unfold height_md. pose proof (list_max_le height_meta _ _ H). lia.
  - intros (x & <- & H). unfold height_meta. pose proof (list_max_le height_c _ _ H). lia.
  - intros (x & <- & H). cbn [height_c]. pose proof (list_max_le height_c _ _ H) as Hm. unfold list_max_ in Hm. lia.
Qed.
Lemma height_pos v : 1 <= height v.
Proof.
  destruct v as [[o up]| | |]; cbn; try lia. destruct o as [| | | | | |[]]; cbn; unfold height_tier, height_igt, height_corpus, height_md, height_meta; lia.
Qed.

(* ---------- positions below a list of children ---------- *)

Definition found (n : pnode) (P : list nat -> obj -> Prop) (ps : list (list nat)) (l : list pval) : Prop :=
  StronglySorted before ps
  /\ (forall p, In p ps <-> exists m, node_at n p = Some m /\ P p (n_obj m))
  /\ Forall2 (fun p v => exists m, node_at n p = Some m /\ v = VNode m) ps l.

Lemma sorted_app (R : list nat -> list nat -> Prop) a b :
  StronglySorted R a -> StronglySorted R b -> (forall x y, In x a -> In y b -> R x y) -> StronglySorted R (a ++ b).
Proof.
  induction 1 as [|x a Ha IH Hx]; intros Hb H; [easy|]. cbn. constructor.
  - apply IH; [easy|]. intros; apply H; [now right|easy].
  - apply Forall_app. split; [easy|]. apply Forall_forall. intros y Hy. apply H; [now left|easy].
Qed.
Lemma sorted_cons i ps : StronglySorted before ps -> StronglySorted before (map (cons i) ps).
Proof.
  induction 1 as [|p ps H IH Hp]; cbn; constructor; [easy|]. apply Forall_forall. intros y Hy.
  apply in_map_iff in Hy as (q & <- & Hq). apply before_same. rewrite Forall_forall in Hp. auto.
Qed.

(* the results for the children from number k on *)
Lemma kids_found n (P : obj -> Prop) (f : pval -> stream) : forall ks k,
  (forall i o, nth_error ks i = Some o -> nth_error (kid_objs (n_obj n)) (k + i) = Some o) ->
  (forall o, In o ks -> exists ps l, f (VNode (child_of n o)) = (l, None) /\ found (child_of n o) (fun _ => P) ps l) ->
  exists ps l, sbind f (map (fun o => VNode (child_of n o)) ks, None) = (l, None)
  /\ StronglySorted before ps
  /\ (forall p, In p ps <-> exists i q m, p = (k + i) :: q /\ i < length ks /\ node_at n p = Some m /\ P (n_obj m))
  /\ Forall2 (fun p v => exists m, node_at n p = Some m /\ v = VNode m) ps l.
Proof.
  induction ks as [|o ks IH]; intros k Hk Hf.
  - exists [], []. split; [easy|]. split; [constructor|]. split; [|constructor].
    intros p. split; [easy|]. intros (i & q & m & _ & Hi & _). cbn in Hi. lia.
  - destruct (IH (S k)) as (ps2 & l2 & E2 & S2 & M2 & F2).
    { intros i x Hx. replace (S k + i) with (k + S i) by lia. now apply Hk. }
    { intros x Hx. apply Hf. now right. }
    destruct (Hf o (or_introl eq_refl)) as (ps1 & l1 & E1 & S1 & M1 & F1).
    assert (Hat : forall q, node_at n (k :: q) = node_at (child_of n o) q).
    { intros q. cbn. unfold kid. specialize (Hk 0 o eq_refl). rewrite Nat.add_0_r in Hk. now rewrite Hk. }
    exists (map (cons k) ps1 ++ ps2), (l1 ++ l2). split; [|split; [|split]].
    + unfold sbind in *. cbn [fst snd map] in *. cbn [sbind_]. rewrite E1, E2. reflexivity.
    + apply sorted_app; [now apply sorted_cons|easy|]. intros x y Hx Hy. apply in_map_iff in Hx as (q & <- & _).
      apply M2 in Hy as (i & q' & m & -> & _). apply before_less. lia.
    + intros p. rewrite in_app_iff, in_map_iff, M2. split.
      * intros [(q & <- & Hq)|(i & q & m & -> & Hi & Hm)].
        -- apply M1 in Hq as (m & Hm1 & Hm2). exists 0, q, m. rewrite Nat.add_0_r, Hat. cbn. repeat split; try easy; lia.
        -- exists (S i), q, m. replace (k + S i) with (S k + i) by lia. cbn [length]. repeat split; try easy; lia.
      * intros (i & q & m & -> & Hi & Hm1 & Hm2). destruct i as [|i].
        -- left. rewrite Nat.add_0_r in *. exists q. split; [easy|]. apply M1. exists m. now rewrite <- Hat.
        -- right. exists i, q, m. replace (k + S i) with (S k + i) in * by lia. cbn in Hi. repeat split; try easy; lia.
    + apply Forall2_app; [|easy]. clear - F1 Hat. induction F1 as [|p v ps l (m & Hm & ->) F IH]; cbn; constructor; [|easy].
      exists m. now rewrite Hat.
Qed.

(* the object itself, then the results for the children *)
Lemma node_found n (P : list nat -> obj -> Prop) (Q : obj -> Prop) (f : pval -> stream) (b : bool) :
  (b = true <-> P [] (n_obj n)) -> (forall i q o, P (i :: q) o <-> Q o) ->
  (forall o, In o (kid_objs (n_obj n)) -> exists ps l, f (VNode (child_of n o)) = (l, None) /\ found (child_of n o) (fun _ => Q) ps l) ->
  exists ps l, (let '(l, e) := sbind f (find_child (VNode n) (L "*")) in ((if b then [VNode n] else []) ++ l, e)) = (l, None)
  /\ found n P ps l.
Proof.
  intros Hb HP Hf. rewrite all_kids.
  destruct (kids_found n Q f (kid_objs (n_obj n)) 0) as (ps & l & E & S & M & F); [easy|easy|].
  rewrite E. exists ((if b then [[]] else []) ++ ps), ((if b then [VNode n] else []) ++ l). split; [easy|].
  split; [|split].
  - apply sorted_app; [destruct b; repeat constructor|easy|]. intros x y Hx Hy. apply M in Hy as (i & q & m & -> & _).
    destruct b; [|easy]. destruct Hx as [<-|[]]. constructor.
  - intros p. rewrite in_app_iff, M. split.
    + intros [H|(i & q & m & -> & Hi & Hm & HQ)].
      * destruct b; [|easy]. destruct H as [<-|[]]. exists n. split; [easy|]. now apply Hb.
      * exists m. split; [easy|]. now apply HP.
    + intros (m & Hm & Hp). destruct p as [|i q].
      * left. cbn in Hm. injection Hm as <-. rewrite (proj2 Hb Hp). now left.
      * right. exists i, q, m. cbn [Nat.add]. split; [easy|]. split; [|split; [easy|now apply HP in Hp]].
        apply nth_error_Some. cbn in Hm. unfold kid in Hm. now destruct (nth_error (kid_objs (n_obj n)) i).
  - apply Forall2_app; [|easy]. destruct b; repeat constructor. now exists n.
Qed.

Lemma objname_element n : objname (VNode n) = element_name (n_obj n).
Proof. reflexivity. Qed.

Lemma descend_plain nm : no_colon nm -> forall f n, height (VNode n) <= f ->
  exists ps l, descend f (VNode n) nm = (l, None) /\ found n (fun _ o => element_name o = nm) ps l.
Proof.
  intros Hc. induction f as [|f IH]; intros n Hf; [pose proof (height_pos (VNode n)); lia|].
  cbn [descend]. rewrite split_ns_plain by easy.
  apply (node_found n (fun _ o => element_name o = nm) (fun o => element_name o = nm) (fun c => descend f c nm)); [|easy|].
  - rewrite objname_element. apply str_eqb_eq.
  - intros o Ho. apply IH. pose proof (kid_height n o Ho). lia.
Qed.
Lemma descend_prefix p nm : no_colon p -> no_colon nm -> forall f n, height (VNode n) <= f ->
  exists ps l, descend f (VNode n) (p ++ Ch ":" :: nm) = (l, None)
  /\ found n (fun pos o => element_name o = nm /\ (pos = [] -> a_ns (attrs_of o) = Some p)) ps l.
Proof.
  intros Hc Hn f n Hf. destruct f as [|f]; [pose proof (height_pos (VNode n)); lia|].
  cbn [descend]. rewrite split_ns_prefix by easy.
  apply (node_found n (fun pos o => element_name o = nm /\ (pos = [] -> a_ns (attrs_of o) = Some p))
           (fun o => element_name o = nm) (fun c => descend f c nm)).
  - rewrite objname_element, andb_true_iff, str_eqb_eq, opt_str_eqb. intuition.
  - intros i q o. split; [easy|]. intros H. now split.
  - intros o Ho. apply descend_plain; [easy|]. pose proof (kid_height n o Ho). lia.
Qed.

Variable ix : igt -> index.
Variable vfuel : nat.
Theorem descendants_plain n name : valid_name true name -> no_colon name ->
  exists l, findall ix vfuel (VNode n) (L ".//" ++ name) = Ok l
  /\ lists_exactly n (fun _ o => element_name o = name) l.
Proof.
  intros Hv Hc. destruct (descend_plain name Hc (S (height (VNode n))) n) as (ps & l & E & Hf); [lia|].
  exists l. split; [|now exists ps].
  rewrite <- show_self_desc, show_ok by now apply wf_self_desc. rewrite den_self_desc. unfold find_descendant_or_self.
  now rewrite E.
Qed.
Theorem descendants_prefix n p name : valid_name true (p ++ L ":" ++ name) -> no_colon p -> no_colon name ->
  exists l, findall ix vfuel (VNode n) (L ".//" ++ p ++ L ":" ++ name) = Ok l
  /\ lists_exactly n (fun pos o => element_name o = name /\ (pos = [] -> a_ns (attrs_of o) = Some p)) l.
Proof.
  intros Hv Hp Hc. destruct (descend_prefix p name Hp Hc (S (height (VNode n))) n) as (ps & l & E & Hf); [lia|].
  exists l. split; [|now exists ps].
  rewrite <- show_self_desc, show_ok by now apply wf_self_desc. rewrite den_self_desc. unfold find_descendant_or_self.
  change (L ":" ++ name) with (Ch ":" :: name). now rewrite E.
Qed.
End Desc.
