(* Proofs about how objects are shown. *)
From Coq Require Import Lia.
From Verif Require Import PyStr PyStrFacts Ref Model Value SpecValue Repr SpecRepr DecFacts.
From Verif Require LoadProofs.
Import LoadProofs.

(* splitting at a character that one side does not have *)
Lemma split_at (P : char -> Prop) a : forall b x y r s, (forall c, In c a -> ~ P c) -> (forall c, In c b -> ~ P c) -> P x -> P y ->
  a ++ x :: r = b ++ y :: s -> a = b /\ x = y /\ r = s.
Proof.
  induction a as [|c a IH]; intros [|d b] x y r s Ha Hb Hx Hy E; cbn [app] in E.
  - repeat split; congruence.
  - exfalso. apply (Hb x); [left; congruence|easy].
  - exfalso. apply (Ha y); [left; congruence|easy].
  - assert (c = d) by congruence. subst d. destruct (IH b x y r s) as (-> & -> & ->); try easy; [intros z Hz; apply Ha; now right|intros z Hz; apply Hb; now right|congruence].
Qed.
Lemma digits_no_space n : forall c, In c (dec_N n) -> c <> Ch " ".
Proof. intros c Hc ->. pose proof (dec_N_ascii n) as H. rewrite Forall_forall in H. specialize (H _ Hc). unfold ascii_digit in H. revert H. now compute. Qed.
Lemma nat_no_space n : forall c, In c (dec_nat n) -> c <> Ch " ".
Proof. intros c Hc ->. pose proof (dec_nat_ascii n) as H. rewrite Forall_forall in H. specialize (H _ Hc). unfold ascii_digit in H. revert H. now compute. Qed.
(* the same from the other end *)
Lemma split_last a b r s : ~ In (Ch " ") r -> ~ In (Ch " ") s -> a ++ Ch " " :: r = b ++ Ch " " :: s -> a = b /\ r = s.
Proof.
  intros Hr Hs E. assert (R : rev (a ++ Ch " " :: r) = rev (b ++ Ch " " :: s)) by congruence. rewrite !rev_app_distr in R. cbn [rev] in R. rewrite <- !app_assoc in R. cbn [app] in R.
  destruct (split_at (eq (Ch " ")) (rev r) (rev s) (Ch " ") (Ch " ") (rev a) (rev b)) as (E1 & _ & E2); try easy.
  - intros c Hc <-. apply Hr. now apply in_rev.
  - intros c Hc <-. apply Hs. now apply in_rev.
  - split; [rewrite <- (rev_involutive a), E2|rewrite <- (rev_involutive r), E1]; apply rev_involutive.
Qed.
Lemma address_split u v a b : u ++ at_address a = v ++ at_address b -> u = v /\ a = b.
Proof.
  unfold at_address. intros E. change (L " at ") with ((Ch " " :: L "at") ++ [Ch " "]) in E. rewrite <- !app_assoc in E. rewrite !app_assoc in E. rewrite <- (app_assoc _ (dec_N a)), <- (app_assoc _ (dec_N b)) in E.
  change ([Ch " "] ++ ?x) with (Ch " " :: x) in E.
  assert (E' : (u ++ Ch " " :: L "at") ++ Ch " " :: (dec_N a ++ L ">") = (v ++ Ch " " :: L "at") ++ Ch " " :: (dec_N b ++ L ">")).
  { rewrite <- !app_assoc in E. rewrite <- !app_assoc. exact E. }
  apply split_last in E' as (E1 & E2).
  - apply app_inv_tail in E1, E2. split; [easy|now apply dec_N_inj].
  - intros H. apply in_app_or in H as [H|[H|[]]]; [now apply digits_no_space in H|discriminate].
  - intros H. apply in_app_or in H as [H|[H|[]]]; [now apply digits_no_space in H|discriminate].
Qed.

Section Repr.
Context {U : Unicode}.
Variable fuel : nat.
Notation repr := (repr fuel).

Theorem repr_total a x : ~ is_item x -> exists s, repr a x = Ok s.
Proof. destruct x as [| | | | | |[]]; cbn; intros H; eauto. now destruct H. Qed.
Theorem repr_item a g t i x : repr a (TItem g t i) = Err x <-> value fuel g t i [L "content"; L "segmentation"] = Err x.
Proof. cbn [Repr.repr]. change [L "content"; L "segmentation"] with value_refattrs. destruct (value fuel g t i value_refattrs); cbn [bind]; split; congruence. Qed.
Theorem repr_value a g t i v : value fuel g t i [L "content"; L "segmentation"] = Ok v ->
  exists u, repr a (TItem g t i) = Ok (u ++ L "with value """ ++ (match v with Some s => s | None => L "None" end) ++ L """ at " ++ dec_N a ++ L ">").
Proof.
  change [L "content"; L "segmentation"] with value_refattrs. intros E. cbn [Repr.repr]. rewrite E. cbn [bind].
  exists (L "<Item object (id: " ++ id_or (a_id (it_attrs i)) ++ L ") "). unfold at_address, or_none. rewrite <- !app_assoc. easy.
Qed.
Lemma label_or o : id_or o = match o with Some (c :: r) => c :: r | _ => L "--" end.
Proof. now destruct o as [[|]|]. Qed.
Theorem repr_shows a x s : repr a x = Ok s -> shows s (class_of x) (label_of x) a.
Proof.
  destruct x as [c|g|t|g t i|m|m|[n at_ tx ks]]; cbn [Repr.repr class_of label_of]; intros E.
  4: inv_bind E.
  all: match type of E with Ok ?e = Ok ?s => assert (H : s = e) by congruence; clear E end; unfold shows; unfold at_address in H.
  - exists (L "id"), (L ") with " ++ dec_nat (length (c_igts c)) ++ L " Igts"). split; [now left|]. split; [rewrite H, label_or; change (L "<XigtCorpus object (id: ") with (L "<" ++ L "XigtCorpus" ++ L " object (" ++ L "id" ++ L ": "); rewrite <- ?app_assoc; reflexivity|]. eexists. left. reflexivity.
  - exists (L "id"), (L ") with " ++ dec_nat (length (g_tiers g)) ++ L " Tiers"). split; [now left|]. split; [rewrite H, label_or; change (L "<Igt object (id: ") with (L "<" ++ L "Igt" ++ L " object (" ++ L "id" ++ L ": "); rewrite <- ?app_assoc; reflexivity|]. eexists. left. reflexivity.
  - exists (L "id"), (L "; type: " ++ or_none (a_type (t_attrs t)) ++ L ") with " ++ dec_nat (length (t_items t)) ++ L " Items"). split; [now left|]. split; [rewrite H, label_or; change (L "<Tier object (id: ") with (L "<" ++ L "Tier" ++ L " object (" ++ L "id" ++ L ": "); rewrite <- ?app_assoc; reflexivity|]. eexists. right. reflexivity.
  - exists (L "id"), (L ") with value """ ++ or_none x ++ L """"). split; [now left|]. split; [rewrite H, label_or; change (L "<Item object (id: ") with (L "<" ++ L "Item" ++ L " object (" ++ L "id" ++ L ": "); rewrite <- ?app_assoc; reflexivity|]. eexists. left. reflexivity.
  - exists (L "id"), (L ") with " ++ dec_nat (length (md_metas m)) ++ L " Metas"). split; [now left|]. split; [rewrite H, label_or; change (L "<Metadata object (id: ") with (L "<" ++ L "Metadata" ++ L " object (" ++ L "id" ++ L ": "); rewrite <- ?app_assoc; reflexivity|]. eexists. left. reflexivity.
  - exists (L "id"), (L ")"). split; [now left|]. split; [rewrite H, label_or; change (L "<Meta object (id: ") with (L "<" ++ L "Meta" ++ L " object (" ++ L "id" ++ L ": "); rewrite <- ?app_assoc; reflexivity|]. eexists. left. reflexivity.
  - exists (L "name"), (L ")"). split; [now right|]. split; [rewrite H, label_or; change (L "<MetaChild object (name: ") with (L "<" ++ L "MetaChild" ++ L " object (" ++ L "name" ++ L ": "); rewrite <- ?app_assoc; reflexivity|]. eexists. left. reflexivity.
Qed.
End Repr.

(* what is shown tells addresses apart, *)
Theorem shows_address s k k' l l' a b : shows s k l a -> shows s k' l' b -> a = b.
Proof.
  intros (w & m & _ & E & _) (w' & m' & _ & E' & _). rewrite E in E'. clear E. fold (at_address a) in E'. fold (at_address b) in E'.
  rewrite (app_assoc _ m (at_address a)), (app_assoc _ m' (at_address b)), !(app_assoc _ _ (at_address _)) in E'. now apply address_split in E'.
Qed.
Lemma class_letters x : ~ In (Ch " ") (class_of x) /\ class_of x <> [].
Proof. destruct x; (split; [|discriminate]); cbn; intros H; repeat destruct H as [H|H]; try discriminate; easy. Qed.
(* classes, *)
Theorem shows_class s x y l l' a b : shows s (class_of x) l a -> shows s (class_of y) l' b -> class_of x = class_of y.
Proof.
  intros (w & m & _ & E & _) (w' & m' & _ & E' & _). rewrite E in E'. clear E. change (L "<") with [Ch "<"] in E'. cbn [app] in E'.
  assert (E : forall c d : char, forall p q, c :: p = d :: q -> p = q) by (intros; congruence). apply E in E'. clear E.
  change (L " object (") with (Ch " " :: L "object (") in E'. cbn [app] in E'.
  apply (split_at (eq (Ch " "))) in E' as (E & _); try easy; intros c Hc <-; [exact (proj1 (class_letters x) Hc)|exact (proj1 (class_letters y) Hc)].
Qed.
(* and ids, if they are proper ones *)
Theorem shows_label s k l l' a b : shows s k l a -> shows s k l' b -> clean_label l -> clean_label l' -> l = l'.
Proof.
  intros (w & m & Hw & E & (r & Hm)) (w' & m' & Hw' & E' & (r' & Hm')) C C'. rewrite E in E'. clear E. apply app_inv_head, app_inv_head, app_inv_head in E'.
  assert (w = w') as <-. { destruct Hw as [-> | ->], Hw' as [-> | ->]; try easy; discriminate. }
  apply app_inv_head, app_inv_head in E'.
  assert (K : forall o, clean_label o -> forall c, In c (match o with Some (c :: r) => c :: r | _ => L "--" end) -> ~ (c = Ch ")" \/ c = Ch ";")).
  { intros [[|d o]|] H c Hc; [now destruct H| |].
    - destruct H as (_ & _ & H1 & H2). intros [-> | ->]; [now apply H1|now apply H2].
    - cbn in Hc. intros [-> | ->]; destruct Hc as [Hc|[Hc|[]]]; discriminate. }
  assert (exists x t, m = x :: t /\ (x = Ch ")" \/ x = Ch ";")) as (x & t & -> & Hx) by (destruct Hm as [-> | ->]; eauto).
  assert (exists x t, m' = x :: t /\ (x = Ch ")" \/ x = Ch ";")) as (x' & t' & -> & Hx') by (destruct Hm' as [-> | ->]; eauto).
  cbn [app] in E'. apply (split_at (fun c => c = Ch ")" \/ c = Ch ";")) in E' as (E & _); [|now apply K|now apply K|easy|easy].
  destruct l as [[|c l]|]; [now destruct (proj1 C)| |]; destruct l' as [[|c' l']|]; try (now destruct (proj1 C')).
  - congruence.
  - now destruct (proj1 (proj2 C)).
  - now destruct (proj1 (proj2 C')).
  - easy.
Qed.
(* how many members there are is shown last, before the address *)
Theorem repr_count {U : Unicode} fuel a x n : count_of x = Some n ->
  exists u, repr fuel a x = Ok (u ++ L ") with " ++ dec_nat n ++ L " " ++ members_of x ++ L " at " ++ dec_N a ++ L ">").
Proof.
  destruct x as [c|g|t|g t i|m|m|[]]; cbn [count_of]; intros E; try discriminate; injection E as <-; cbn [repr]; unfold at_address.
  - exists (L "<XigtCorpus object (id: " ++ id_or (a_id (c_attrs c))). rewrite <- !app_assoc. reflexivity.
  - exists (L "<Igt object (id: " ++ id_or (a_id (g_attrs g))). rewrite <- !app_assoc. reflexivity.
  - exists (L "<Tier object (id: " ++ id_or (a_id (t_attrs t)) ++ L "; type: " ++ or_none (a_type (t_attrs t))). rewrite <- !app_assoc. reflexivity.
  - exists (L "<Metadata object (id: " ++ id_or (a_id (md_attrs m))). rewrite <- !app_assoc. reflexivity.
Qed.
(* so objects that are shown the same have the same address, class, and proper id *)
Theorem repr_apart {U : Unicode} fuel fuel' a b x y s : repr fuel a x = Ok s -> repr fuel' b y = Ok s ->
  a = b /\ class_of x = class_of y /\ (clean_label (label_of x) -> clean_label (label_of y) -> label_of x = label_of y).
Proof.
  intros Hx Hy. apply repr_shows in Hx, Hy. split; [apply (shows_address _ _ _ _ _ _ _ Hx Hy)|]. pose proof (shows_class _ _ _ _ _ _ _ Hx Hy) as Hc. split; [easy|].
  rewrite <- Hc in Hy. apply (shows_label _ _ _ _ _ _ Hx Hy).
Qed.
(* tiers are shown with their type *)
Theorem repr_tier {U : Unicode} fuel a t : exists u v, repr fuel a (TTier t) = Ok (u ++ L "; type: " ++ (match a_type (t_attrs t) with Some s => s | None => L "None" end) ++ v)
  /\ u = L "<Tier object (id: " ++ (match a_id (t_attrs t) with Some (c :: r) => c :: r | _ => L "--" end)
  /\ v = L ") with " ++ dec_nat (length (t_items t)) ++ L " Items at " ++ dec_N a ++ L ">".
Proof.
  eexists _, _. split; [|split; reflexivity]. cbn [Repr.repr]. rewrite label_or. unfold at_address, or_none. rewrite <- !app_assoc. reflexivity.
Qed.
