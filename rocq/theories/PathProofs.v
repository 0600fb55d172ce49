(* What paths mean: the evaluator agrees with a compositional denotation on
   every path of the grammar of SpecPath.v (C29, C30). *)
From Verif Require Import PyStr PyStrFacts Regex RegexFacts Model Index Path SpecPath PathTokenProofs PathFuel.

Section Sem.
Context {U : Unicode}.
Variable ix : igt -> index.
Variable vfuel : nat.
Notation Expr := (Expr ix vfuel).
Notation Alts := (Alts ix vfuel).
Notation Step := (Step ix vfuel).
Notation Find := (Find ix vfuel).
Notation FA := (FA ix vfuel).
Notation head_eval := (head_eval ix vfuel).
Notation function := (function ix vfuel).

(* ---------- denotation: None = an exception ---------- *)

Definition sres (s : stream) : option (list pval) := match s with (l, None) => Some l | _ => None end.
Fixpoint oflat {A B} (f : A -> option (list B)) (l : list A) : option (list B) :=
  match l with
  | [] => Some []
  | x :: l' => match f x, oflat f l' with Some a, Some b => Some (a ++ b) | _, _ => None end
  end.
Fixpoint ofilter (f : pval -> option bool) (l : list pval) : option (list pval) :=
  match l with
  | [] => Some []
  | x :: l' => match f x, ofilter f l' with Some b, Some m => Some (if b then x :: m else m) | _, _ => None end
  end.
Definition obnd {A B} (o : option A) (f : A -> option B) : option B := match o with Some x => f x | None => None end.
Definition ores {A} (r : res A) : option A := match r with Ok x => Some x | Err _ => None end.

Definition test_holds (test : option (bool * str)) (l : list pval) : option bool :=
  match test with
  | Some (false, lit) => Some (existsb (is_str lit) l)
  | Some (true, lit) => Some (forallb (fun x => negb (is_str lit x)) l)
  | None => None
  end.
Definition call_args (a : option str) : list str := match a with Some s => [quoted s] | None => [] end.

Fixpoint den_head (h : head) (v : pval) : option (list pval) :=
  match h with
  | HChild n => sres (find_child v n)
  | HDesc n => sres (find_descendant_or_self v n)
  | HAttr n => sres (find_attr v n)
  | HUp => sres (parent v)
  | HSelf => Some [v]
  | HCall f a => sres (function v f (call_args a))
  | HGroup p ps =>
    obnd (den_path p v) (fun a => obnd
      ((fix go (ps : list path) : option (list pval) :=
          match ps with
          | [] => Some []
          | q :: ps' => obnd (den_path q v) (fun a => obnd (go ps') (fun b => Some (a ++ b)))
          end) ps) (fun b => Some (a ++ b)))
  end
with den_path (p : path) (v : pval) : option (list pval) :=
  match p with
  | Path a ss =>
    obnd (if a then ores (get_corpus v) else Some v) (fun c =>
      (fix go (ss : list (head * list pred)) (l : list pval) : option (list pval) :=
         match ss with
         | [] => Some l
         | (h, qs) :: ss' =>
           obnd (oflat (den_head h) l) (fun m =>
           obnd ((fix filt (qs : list pred) (m : list pval) : option (list pval) :=
                    match qs with
                    | [] => Some m
                    | q :: qs' => obnd (ofilter (den_pred q) m) (filt qs')
                    end) qs m) (go ss'))
         end) ss [c])
  end
with den_pred (q : pred) (v : pval) : option bool :=
  match q with Pred sub test => obnd (den_path sub v) (test_holds test) end.

Fixpoint den_preds (qs : list pred) (m : list pval) : option (list pval) :=
  match qs with [] => Some m | q :: qs' => obnd (ofilter (den_pred q) m) (den_preds qs') end.
Fixpoint den_steps (ss : list (head * list pred)) (l : list pval) : option (list pval) :=
  match ss with
  | [] => Some l
  | (h, qs) :: ss' => obnd (oflat (den_head h) l) (fun m => obnd (den_preds qs m) (den_steps ss'))
  end.
Lemma den_path_eq a ss v : den_path (Path a ss) v =
  obnd (if a then ores (get_corpus v) else Some v) (fun c => den_steps ss [c]).
Proof.
  cbn. destruct (if a then _ else _) as [c|]; [|easy]. cbn.
  generalize [c] as l. induction ss as [|[h qs] ss IH]; intros l; [easy|]. cbn.
  destruct (oflat (den_head h) l) as [m|]; [|easy]. cbn.
  assert (E : forall m, (fix filt (qs : list pred) (m : list pval) : option (list pval) :=
                    match qs with
                    | [] => Some m
                    | q :: qs' => obnd (ofilter (den_pred q) m) (filt qs')
                    end) qs m = den_preds qs m).
  { clear. induction qs as [|q qs IH]; intros m; [easy|]. cbn. destruct (ofilter (den_pred q) m); [apply IH|easy]. }
  rewrite E. destruct (den_preds qs m); [apply IH|easy].
Qed.
Lemma den_group_eq p ps v : den_head (HGroup p ps) v = oflat (fun q => den_path q v) (p :: ps).
Proof.
  cbn. destruct (den_path p v) as [a|]; [|easy]. cbn.
  assert (E : forall ps, (fix go (ps : list path) : option (list pval) :=
          match ps with
          | [] => Some []
          | q :: ps' => obnd (den_path q v) (fun a => obnd (go ps') (fun b => Some (a ++ b)))
          end) ps = oflat (fun q => den_path q v) ps).
  { clear. induction ps as [|q ps IH]; [easy|]. cbn. destruct (den_path q v); [|easy]. cbn. rewrite IH.
    now destruct (oflat _ ps). }
  now rewrite E.
Qed.

(* ---------- streams ---------- *)

Lemma sres_some s l : sres s = Some l <-> s = (l, None).
Proof. destruct s as [m [e|]]; cbn; split; try easy; now intros [= ->]. Qed.
Lemma sres_none s : sres s = None <-> snd s <> None.
Proof. destruct s as [m [e|]]; cbn; split; try easy; intros H; now destruct H. Qed.
Lemma sres_sbind f l : sres (sbind f (l, None)) = oflat (fun v => sres (f v)) l.
Proof.
  unfold sbind; cbn. induction l as [|v l IH]; [easy|]. cbn.
  destruct (f v) as [ys [e|]]; cbn; [easy|]. rewrite <- IH.
  destruct (sbind_ f l None) as [zs [e|]]; easy.
Qed.
Lemma sbind_err f s : snd s <> None -> snd (sbind f s) <> None.
Proof.
  unfold sbind. destruct s as [l [e|]]; cbn; [|easy]. intros _. induction l as [|v l IH]; [easy|]. cbn.
  destruct (f v) as [ys [e'|]]; cbn; [easy|]. destruct (sbind_ f l (Some e)); easy.
Qed.
Lemma sres_sfilter p l : sres (sfilter p (l, None)) = ofilter (fun v => ores (p v)) l.
Proof.
  unfold sfilter; cbn. induction l as [|v l IH]; [easy|]. cbn.
  destruct (p v) as [b|e]; cbn; [|easy]. rewrite <- IH.
  destruct (sfilter_ p l None) as [zs [e|]]; easy.
Qed.
Lemma sfilter_err p s : snd s <> None -> snd (sfilter p s) <> None.
Proof.
  unfold sfilter. destruct s as [l [e|]]; cbn; [|easy]. intros _. induction l as [|v l IH]; [easy|]. cbn.
  destruct (p v) as [b|e']; cbn; [|easy]. destruct (sfilter_ p l (Some e)); easy.
Qed.
Lemma ofilter_ext f g l : (forall v, f v = g v) -> ofilter f l = ofilter g l.
Proof. intros H. induction l as [|v l IH]; [easy|]. cbn. now rewrite H, IH. Qed.
Lemma oflat_ext {A B} (f g : A -> option (list B)) l : (forall v, In v l -> f v = g v) -> oflat f l = oflat g l.
Proof. intros H. induction l as [|v l IH]; [easy|]. cbn. rewrite H by now left. rewrite IH; [easy|]. intros; apply H; now right. Qed.

(* ---------- predicates ---------- *)

Definition test_of (q : pred) : ptest :=
  match q with
  | Pred sub None => TExists (show sub)
  | Pred sub (Some (true, lit)) => TNe (show sub) lit
  | Pred sub (Some (false, lit)) => TEq (show sub) lit
  end.

Definition stop_tok (t : str) : Prop := In t [L "]"; L "="; L "!="].
Lemma stop_tok_b t : existsb (str_eqb t) [L "]"; L "="; L "!="] = true <-> stop_tok t.
Proof.
  unfold stop_tok. rewrite existsb_exists. split.
  - intros (x & Hx & E). now apply str_eqb_eq in E as ->.
  - intros H. exists t. split; [easy|apply str_eqb_refl].
Qed.

(* the tokens of a path without predicates *)
Lemma valid_not_special fn n c : valid_name fn n -> special c -> ~ In c n.
Proof.
  intros [-> | [[_ [-> | [-> | [-> | ->]]]] | (_ & H & _)]] Hs Hc.
  all: try (vm_compute in Hs, Hc; repeat (destruct Hc as [<-|Hc]; [now intuition discriminate|]); easy).
  now apply (H c).
Qed.
Lemma valid_no_stop fn n : valid_name fn n -> ~ stop_tok n.
Proof.
  intros H [<- | [<- | [<- | []]]].
  - apply (valid_not_special _ _ (Ch "]") H); vm_compute; tauto.
  - apply (valid_not_special _ _ (Ch "=") H); vm_compute; tauto.
  - apply (valid_not_special _ _ (Ch "!") H); vm_compute; tauto.
Qed.
Lemma valid_nonempty fn n : valid_name fn n -> n <> [].
Proof. intros H. apply valid_first in H. apply H. Qed.

Definition ns_head h := forall g first, wf_head g true first h -> Forall (fun t => ~ stop_tok t) (head_toks h).
Definition ns_path p := forall g, wf_path g true p -> Forall (fun t => ~ stop_tok t) (path_toks p).
Lemma no_stops : forall p, ns_path p.
Proof.
  assert (Hl : forall t, In t [L "//"; L "@"; L ".."; L "."; L "("; L ")"; L "|"; L "/"] -> ~ stop_tok t).
  { intros t Ht Hs. vm_compute in Ht, Hs. repeat (destruct Ht as [<-|Ht]; [intuition discriminate|]). easy. }
  assert (Hlit : forall t, In t [L "//"; L "@"; L ".."; L "."; L "("; L ")"; L "|"; L "/"] -> ~ stop_tok t) by exact Hl.
  assert (Hatom : forall h, is_group h = false -> ns_head h).
  { intros [n|n|n| | |f a|p ps] Hg g first H; try easy; cbn [head_toks].
    - repeat constructor. now apply (valid_no_stop false).
    - repeat constructor; [apply Hlit; cbn; tauto|now apply (valid_no_stop true)].
    - repeat constructor; [apply Hlit; cbn; tauto|now apply (valid_no_stop true)].
    - repeat constructor; apply Hlit; cbn; tauto.
    - repeat constructor; apply Hlit; cbn; tauto.
    - destruct H as [Hk _].
      assert (Hf : ~ stop_tok f) by (apply (valid_no_stop true); right; left; easy).
      destruct a as [a|]; repeat constructor; try easy; try (apply Hlit; cbn; tauto).
      intros [E | [E | [E | []]]]; unfold quoted in E; easy. }
  assert (Hgroup : forall p ps, ns_path p -> Forall ns_path ps -> ns_head (HGroup p ps)).
  { intros p ps Hp Hps g first H. apply wf_group_eq in H as (_ & H1 & H2). cbn [head_toks].
    constructor; [apply Hlit; cbn; tauto|]. apply Forall_app. split; [now apply (Hp true)|].
    apply Forall_app. split; [|repeat constructor; apply Hlit; cbn; tauto].
    clear - Hps H2 Hlit. induction ps as [|q ps IH]; cbn [flat_map]; [constructor|].
    inversion Hps; inversion H2; subst. constructor; [apply Hlit; cbn; tauto|].
    apply Forall_app. split; [|auto]. match goal with H : ns_path q |- _ => now apply (H true) end. }
  intros p. refine (ih_path ns_head ns_path (fun _ => True) Hatom Hgroup _ _ p); [|easy].
  intros a ss Hss g H. rewrite path_toks_eq. apply wf_path_eq in H as (_ & _ & H).
  revert H. generalize true at 2 3 as first.
  induction ss as [|[h qs] ss IH]; intros first H; cbn [steps_toks]; [constructor|].
  inversion Hss as [|? ? [Hh _] Hss']; subst. destruct H as (H1 & H2 & _ & H4).
  rewrite H2 by easy. cbn [flat_map app]. apply Forall_app. split.
  - destruct (negb _ && _); repeat constructor. apply Hlit; cbn; tauto.
  - apply Forall_app. split; [now apply (Hh g first)|]. now apply IH.
Qed.

Lemma take_sub_stop l t r : Forall (fun t => ~ stop_tok t) l -> stop_tok t -> take_sub (l ++ t :: r) = Some (l, t :: r).
Proof.
  intros H Ht. induction H as [|x l Hx H IH].
  - cbn [app take_sub]. now rewrite (proj2 (stop_tok_b t) Ht).
  - cbn [app take_sub]. rewrite IH. destruct (existsb _ _) eqn:E; [|easy]. now apply stop_tok_b in E.
Qed.
Lemma strip_q_quoted s : plain s -> strip_q (quoted s) = s.
Proof.
  intros [H _]. assert (Hl : forall s, ~ In 34%N s -> lstrip_q s = s).
  { intros [|c t] Hc; [easy|]. cbn. destruct (N.eqb_spec c 34) as [->|]; [|easy]. destruct Hc; now left. }
  unfold strip_q, quoted.
  assert (E : lstrip_q (L """" ++ s ++ L """") = lstrip_q (s ++ L """")) by reflexivity. rewrite E.
  destruct s as [|c s]; [reflexivity|].
  assert (E2 : lstrip_q ((c :: s) ++ L """") = (c :: s) ++ L """").
  { cbn. destruct (N.eqb_spec c 34) as [->|]; [|easy]. destruct H; now left. }
  rewrite E2, rev_app_distr. change (rev (L """") ++ rev (c :: s)) with (34%N :: rev (c :: s)).
  change (lstrip_q (34%N :: rev (c :: s))) with (lstrip_q (rev (c :: s))).
  rewrite Hl; [apply rev_involutive|]. now rewrite <- in_rev.
Qed.
Lemma make_predicate_toks q rest : wf_pred q ->
  exists l, pred_toks q = L "[" :: l /\ make_predicate (l ++ rest) = Ok (test_of q, rest).
Proof.
  destruct q as [sub test]. intros [H1 H2]. eexists. split; [reflexivity|].
  unfold make_predicate. pose proof (no_stops sub false H1) as Hs. rewrite <- !app_assoc.
  destruct test as [[neg lit]|].
  - cbn [app]. rewrite take_sub_stop; [|easy|destruct neg; vm_compute; tauto].
    destruct neg; (change (str_eqb _ (L "]")) with false || idtac); cbn [str_eqb].
    + change (str_eqb (L "!=") (L "]")) with false. change (str_eqb (L "!=") (L "=")) with false. cbn iota.
      now rewrite strip_q_quoted.
    + change (str_eqb (L "=") (L "]")) with false. change (str_eqb (L "=") (L "=")) with true. cbn iota.
      now rewrite strip_q_quoted.
  - cbn [app]. now rewrite take_sub_stop by (easy || (vm_compute; tauto)).
Qed.

(* ---------- tokens of the grammar are not empty ---------- *)

Lemma chained_ok l : chained l -> toks_ok l.
Proof.
  induction l as [|t l IH]; [intros _; constructor|]. intros (H & _ & H'). constructor; [|now apply IH].
  now apply next_tok_app in H.
Qed.
Lemma path_ok g np p : wf_path g np p -> toks_ok (path_toks p).
Proof.
  intros H. apply chained_ok. rewrite <- (app_nil_r (path_toks p)).
  apply (proj1 (proj2 chain_all) p g np []); [easy|]. split; [easy|now left].
Qed.
Lemma head_ok g np first h : wf_head g np first h -> toks_ok (head_toks h).
Proof.
  intros H. apply chained_ok. rewrite <- (app_nil_r (head_toks h)).
  apply (proj1 chain_all h g np first []); [easy|]. split; [easy|now left].
Qed.
Lemma pred_ok q : wf_pred q -> toks_ok (pred_toks q).
Proof.
  intros H. apply chained_ok. rewrite <- (app_nil_r (pred_toks q)).
  apply (proj2 (proj2 chain_all) q []); easy.
Qed.
Lemma preds_ok qs : Forall wf_pred qs -> toks_ok (flat_map pred_toks qs).
Proof. induction 1; cbn; [constructor|]. apply Forall_app. split; [now apply pred_ok|easy]. Qed.

(* the steps as they are read after a slash *)
Definition bare (ss : list (head * list pred)) : list str :=
  match ss with
  | [] => []
  | (h, qs) :: ss' => head_toks h ++ flat_map pred_toks qs ++ steps_toks true false ss'
  end.
Lemma steps_toks_a a b ss : steps_toks a false ss = steps_toks b false ss.
Proof.
  induction ss as [|[h qs] ss IH]; [easy|]. cbn. rewrite !orb_true_r. now rewrite IH.
Qed.
Lemma bare_ok g np first ss : wf_steps g np first ss -> toks_ok (bare ss).
Proof.
  assert (G : forall ss first, wf_steps g np first ss -> toks_ok (steps_toks true false ss)).
  { clear. induction ss as [|[h qs] ss IH]; intros first H; cbn; [constructor|].
    destruct H as (H1 & _ & H3 & H4). apply Forall_app. split.
    - destruct (negb (is_desc h) && true); repeat constructor. easy.
    - apply Forall_app. split; [now apply (head_ok g np first)|]. apply Forall_app.
      split; [now apply preds_ok|]. now apply (IH false). }
  destruct ss as [|[h qs] ss]; cbn; [constructor|]. intros (H1 & _ & H3 & H4).
  apply Forall_app. split; [now apply (head_ok g np first)|]. apply Forall_app.
  split; [now apply preds_ok|]. now apply (G _ false).
Qed.

(* what may follow *)
Definition stops (l : list str) : Prop :=
  toks_ok l /\ match l with [] => True | t :: _ => is_slash t = false /\ str_eqb t (L "[") = false end.

Lemma bare_next (stp : stream -> list str -> stream * list str) s ss tl : stops tl ->
  (forall h qs ss', ss = (h, qs) :: ss' -> is_desc h = false -> exists t l, head_toks h = t :: l) ->
  continue stp s (steps_toks true false ss ++ tl) =
  match ss with [] => (s, tl) | _ => stp s (bare ss ++ tl) end.
Proof.
  intros [Ht1 Ht2] Hh. destruct ss as [|[h qs] ss].
  - cbn. unfold continue. destruct tl as [|t tl]; [easy|]. destruct Ht2 as [-> _]. easy.
  - cbn [steps_toks]. rewrite orb_true_r. unfold bare.
    destruct (is_desc h) eqn:Ed; cbn [negb andb slash_if app].
    + destruct h; easy.
    + reflexivity.
Qed.

(* predicates: reading and filtering *)
Lemma predicates_read s qs : forall n rest, Forall wf_pred qs -> length (flat_map pred_toks qs ++ rest) <= n ->
  (match rest with [] => True | t :: _ => str_eqb t (L "[") = false end) ->
  predicates n FA s (flat_map pred_toks qs ++ rest) =
  (fold_left (fun s q => sfilter (run_test FA (test_of q)) s) qs s, rest).
Proof.
  revert s; induction qs as [|q qs IH]; intros s n rest Hq Hn Hr.
  - cbn in *. destruct n as [|n]; [easy|]. destruct rest as [|t rest]; [easy|]. cbn. now rewrite Hr.
  - inversion Hq as [|? ? H1 H2]; subst. cbn [flat_map] in *. rewrite <- app_assoc in *.
    destruct (make_predicate_toks q (flat_map pred_toks qs ++ rest) H1) as (l & E & Em).
    rewrite E in *. cbn [app] in *. destruct n as [|n]; [cbn in Hn; lia|].
    cbn [predicates]. rewrite str_eqb_refl, Em. cbn [fold_left]. apply IH; try easy.
    cbn in Hn. rewrite app_length in Hn. lia.
Qed.
Lemma filters_err qs : forall s, snd s <> None ->
  snd (fold_left (fun s q => sfilter (run_test FA (test_of q)) s) qs s) <> None.
Proof. induction qs as [|q qs IH]; intros s H; [easy|]. cbn. apply IH. now apply sfilter_err. Qed.
Lemma filters_nil qs : fold_left (fun s q => sfilter (run_test FA (test_of q)) s) qs ([], None) = ([], None).
Proof. induction qs as [|q qs IH]; [easy|]. cbn. exact IH. Qed.

Definition sound_pred (q : pred) : Prop := wf_pred q -> forall v, ores (run_test FA (test_of q) v) = den_pred q v.
Lemma filters_den qs : Forall sound_pred qs -> Forall wf_pred qs -> forall l,
  sres (fold_left (fun s q => sfilter (run_test FA (test_of q)) s) qs (l, None)) = den_preds qs l.
Proof.
  induction qs as [|q qs IH]; intros H1 H2 l; [easy|].
  inversion H1 as [|? ? S1 H1']; inversion H2 as [|? ? W1 H2']; subst. cbn [fold_left den_preds].
  pose proof (sres_sfilter (run_test FA (test_of q)) l) as E.
  rewrite (ofilter_ext _ (den_pred q)) in E by (intros; now apply S1).
  rewrite <- E.
  destruct (sfilter (run_test FA (test_of q)) (l, None)) as [m [e|]]; cbn [sres obnd].
  - apply (proj2 (sres_none _)). now apply filters_err.
  - now apply IH.
Qed.

(* ---------- an exception in the context stays ---------- *)

Lemma predicates_err n : forall s r, snd s <> None -> snd (fst (predicates n FA s r)) <> None.
Proof.
  induction n as [|n IH]; intros s r H; cbn; [easy|]. destruct r as [|t r]; [easy|].
  destruct (str_eqb t (L "[")); [|easy]. destruct (make_predicate r) as [[q r']|e]; [|easy].
  apply IH. now apply sfilter_err.
Qed.
Lemma disjunction_err alts s r x : snd s <> None -> disjunction alts s r <> Ok x.
Proof.
  intros H. unfold disjunction. destruct (snd s) as [e|]; [|easy].
  destruct (fst s) as [|v l]; cbn; [easy|]. destruct (alts v r); cbn; [|easy].
  destruct (disj_rest alts l r); easy.
Qed.
Lemma head_err alts s t r s' r' : snd s <> None -> head_eval alts s t r = Ok (s', r') -> snd s' <> None.
Proof.
  intros H. unfold head_eval, PathFuel.head_eval.
  destruct (str_eqb t (L "(")).
  { destruct (disjunction alts s r) eqn:E; cbn; [|easy]. exfalso. eapply disjunction_err; eauto. }
  destruct (str_eqb t (L "//")); [destruct r; [easy|]; intros [= <- _]; now apply sbind_err|].
  destruct (str_eqb t (L "@")); [destruct r; [easy|]; intros [= <- _]; now apply sbind_err|].
  destruct (str_eqb t (L "..")); [intros [= <- _]; now apply sbind_err|].
  destruct (str_eqb t (L ".")); [intros [= <- _]; easy|].
  destruct (existsb (str_eqb t) functions).
  - destruct r as [|y r]; [easy|]. destruct (take_args r) as [[a k]|]; [|easy]. intros [= <- _]. now apply sbind_err.
  - intros [= <- _]. now apply sbind_err.
Qed.
Lemma step_err : forall n s l, size l <= n -> toks_ok l -> snd s <> None -> snd (fst (Step s l)) <> None.
Proof.
  induction n as [|n IH]; intros s [|t r] Hn Hok H; try (rewrite Step_nil; easy).
  - rewrite size_cons in Hn. destruct (ok_cons _ _ Hok). lia.
  - rewrite Step_body by easy. unfold step_body. destruct (ok_cons _ _ Hok) as [Ht Hr]. rewrite size_cons in Hn.
    destruct (PathFuel.head_eval ix vfuel Alts s t r) as [[s' r']|e] eqn:E; [|easy].
    pose proof (head_err _ _ _ _ _ _ H E) as H'.
    apply head_suffix in E; [|intros; eapply Alts_suffix; eauto].
    pose proof (suffix_size _ _ E) as Hsz. pose proof (suffix_ok _ _ E Hr) as Hr'.
    pose proof (predicates_err (length r') s' r' H') as Hp.
    pose proof (predicates_suffix FA (length r') s' r') as Hps.
    destruct (predicates _ _ s' r') as [s'' r'']. cbn in Hp, Hps.
    pose proof (suffix_size _ _ Hps) as Hsz2. pose proof (suffix_ok _ _ Hps Hr') as Hr''.
    unfold continue. destruct r'' as [|t' r3]; [easy|]. destruct (ok_cons _ _ Hr'') as [Ht' Hr3].
    rewrite size_cons in Hsz2. destruct (is_slash t'); [|easy].
    destruct (str_eqb t' (L "/")); apply IH; rewrite ?size_cons; try easy; lia.
Qed.

(* ---------- heads ---------- *)

Lemma valid_child_tok n : valid_name false n ->
  str_eqb n (L "(") = false /\ str_eqb n (L "//") = false /\ str_eqb n (L "@") = false
  /\ str_eqb n (L "..") = false /\ str_eqb n (L ".") = false /\ existsb (str_eqb n) functions = false
  /\ is_slash n = false /\ str_eqb n (L "[") = false.
Proof.
  intros H.
  assert (Hn : forall t c, In c t -> special c -> str_eqb n t = false).
  { intros t c Hc Hs. apply str_eqb_neq. intros ->. now apply (valid_not_special _ _ c H). }
  assert (Ha : str_eqb n (L "@") = false).
  { apply str_eqb_neq. intros ->. destruct H as [H | [[H _] | (_ & _ & _ & _ & H & _)]]; [easy|easy|]. apply H. now exists []. }
  assert (Hf : existsb (str_eqb n) functions = false).
  { destruct (existsb (str_eqb n) functions) eqn:E; [|easy]. apply existsb_exists in E as (k & Hk & E).
    apply str_eqb_eq in E as <-. apply keyword_functions in Hk.
    destruct H as [-> | [[H _] | (_ & _ & _ & H & _)]]; [|easy|].
    - destruct Hk as [Hk | [Hk | [Hk | Hk]]]; easy.
    - exfalso. apply (H n Hk). exists []. now rewrite app_nil_r. }
  unfold is_slash. rewrite (Hn (L "(") (Ch "(")), (Hn (L "//") (Ch "/")), (Hn (L "..") (Ch ".")), (Hn (L ".") (Ch ".")),
    (Hn (L "/") (Ch "/")), (Hn (L "[") (Ch "[")) by (vm_compute; tauto). tauto.
Qed.

(* the head of a step read from the steps *)
Definition read (alts : pval -> list str -> res (list pval * list str)) (s : stream) (l : list str) : res (stream * list str) :=
  match l with t :: r => head_eval alts s t r | [] => Err IndexError end.

Definition basic (h : head) (v : pval) : stream :=
  match h with
  | HChild n => find_child v n
  | HDesc n => find_descendant_or_self v n
  | HAttr n => find_attr v n
  | HUp => parent v
  | HSelf => ([v], None)
  | HCall f a => function v f (call_args a)
  | HGroup _ _ => ([], None)
  end.
Lemma sbind_self s : sbind (fun v => ([v], None)) s = s.
Proof.
  unfold sbind. destruct s as [l e]; cbn. induction l as [|v l IH]; [easy|]. cbn. now rewrite IH.
Qed.
Lemma read_basic alts s h g np first rest : is_group h = false -> wf_head g np first h ->
  read alts s (head_toks h ++ rest) = Ok (sbind (basic h) s, rest).
Proof.
  intros Hg H. destruct h as [n|n|n| | |f a|p ps]; try easy; cbn [head_toks app read basic].
  - destruct (valid_child_tok n H) as (E1 & E2 & E3 & E4 & E5 & E6 & _).
    unfold head_eval, PathFuel.head_eval. now rewrite E1, E2, E3, E4, E5, E6.
  - now rewrite sbind_self.
  - destruct H as [Hk _].
    assert (E : str_eqb f (L "(") = false /\ str_eqb f (L "//") = false /\ str_eqb f (L "@") = false
       /\ str_eqb f (L "..") = false /\ str_eqb f (L ".") = false /\ existsb (str_eqb f) functions = true).
    { destruct Hk as [-> | [-> | [-> | ->]]]; vm_compute; tauto. }
    destruct E as (E1 & E2 & E3 & E4 & E5 & E6).
    destruct a as [a|]; cbn [app read]; unfold head_eval, PathFuel.head_eval; rewrite E1, E2, E3, E4, E5, E6; cbn [take_args].
    + replace (str_eqb (quoted a) (L ")")) with false by (symmetry; apply str_eqb_neq; unfold quoted; easy).
      rewrite str_eqb_refl. reflexivity.
    + rewrite str_eqb_refl. reflexivity.
Qed.
Lemma basic_den h v : is_group h = false -> sres (basic h v) = den_head h v.
Proof. destruct h; easy. Qed.

Lemma Step_read s l : toks_ok l -> l <> [] ->
  Step s l = match read Alts s l with
             | Err e => (([], Some e), [])
             | Ok (s', r') => let '(s'', r'') := predicates (length r') FA s' r' in continue Step s'' r''
             end.
Proof. intros H Hl. destruct l as [|t r]; [easy|]. now rewrite Step_body. Qed.

Lemma read_group alts s p ps rest :
  read alts s (head_toks (HGroup p ps) ++ rest) =
  do x <- disjunction alts s (path_toks p ++ flat_map (fun q => L "|" :: path_toks q) ps ++ L ")" :: rest);
  Ok ((fst x, None), snd x).
Proof.
  cbn [head_toks app read]. unfold head_eval, PathFuel.head_eval. rewrite str_eqb_refl.
  rewrite <- !app_assoc. reflexivity.
Qed.

(* ---------- an empty context ---------- *)

Lemma first_not_bracket g np p rest : wf_path g np p ->
  match path_toks p ++ rest with [] => True | t :: _ => str_eqb t (L "[") = false end.
Proof.
  destruct p as [a ss]. intros H. apply wf_path_eq in H as (Hne & _ & H). rewrite path_toks_eq.
  destruct ss as [|[h qs] ss]; [easy|]. cbn [steps_toks]. destruct H as (H & _).
  destruct (negb (is_desc h) && (a || negb true)); [reflexivity|]. cbn [slash_if app].
  destruct h as [n|n|n| | |f [x|]|p ps]; cbn [head_toks app]; try reflexivity.
  - apply valid_child_tok. exact H.
  - destruct H as [[-> | [-> | [-> | ->]]] _]; reflexivity.
  - destruct H as [[-> | [-> | [-> | ->]]] _]; reflexivity.
Qed.
Lemma path_first g np a ss : wf_path g np (Path a ss) -> forall rest,
  exists t r, path_toks (Path a ss) ++ rest = t :: r
  /\ is_slash t = a
  /\ (a = true -> (if str_eqb t (L "/") then r else t :: r) = bare ss ++ rest)
  /\ (a = false -> path_toks (Path a ss) = bare ss).
Proof.
  intros H rest. apply wf_path_eq in H as (Hne & Hd & H). rewrite path_toks_eq.
  destruct ss as [|[h qs] ss]; [easy|]. cbn [steps_toks bare]. destruct H as (H & _).
  destruct a.
  - destruct (is_desc h) eqn:Ed.
    + destruct h; try easy. cbn. do 2 eexists. split; [reflexivity|]. cbn. split; [reflexivity|]. split; [|easy].
      intros _. now rewrite <- !app_assoc.
    + cbn [negb andb orb slash_if app]. do 2 eexists. split; [reflexivity|]. split; [reflexivity|]. split; [|easy].
      intros _. now rewrite str_eqb_refl.
  - destruct (Hd eq_refl) as [Ed _]. rewrite Ed. cbn [negb andb orb slash_if app].
    rewrite (steps_toks_a false true).
    destruct h as [n|n|n| | |f [x|]|p ps]; cbn [head_toks app]; try easy; do 2 eexists; (split; [reflexivity|]);
      (split; [|split; [easy|reflexivity]]); try reflexivity.
    + apply valid_child_tok. exact H.
    + destruct H as [[-> | [-> | [-> | ->]]] _]; reflexivity.
    + destruct H as [[-> | [-> | [-> | ->]]] _]; reflexivity.
Qed.

Definition empty_steps (ss : list (head * list pred)) : Prop := forall g np first tl,
  ss <> [] -> wf_steps g np first ss -> stops tl -> fst (Step ([], None) (bare ss ++ tl)) = ([], None).
Definition empty_path (p : path) : Prop := empty_steps (steps_of p).
Definition empty_head (h : head) : Prop := match h with HGroup p _ => empty_path p | _ => True end.

Lemma stops_closing ps rest : toks_ok rest -> Forall (fun q => toks_ok (path_toks q)) ps ->
  stops (flat_map (fun q => L "|" :: path_toks q) ps ++ L ")" :: rest).
Proof.
  intros Hr Hp. split.
  - apply Forall_app. split; [|now constructor].
    induction Hp as [|q ps Hq Hp IH]; cbn; [constructor|]. constructor; [easy|]. apply Forall_app. now split.
  - destruct ps as [|q ps]; cbn; split; reflexivity.
Qed.

Lemma group_ok np ps : Forall (wf_path true np) ps -> Forall (fun q => toks_ok (path_toks q)) ps.
Proof. intros H. eapply Forall_impl; [|exact H]. intros q Hq. eapply path_ok; eauto. Qed.

Lemma after_head_ok g np first h qs ss tl : wf_steps g np first ((h, qs) :: ss) -> stops tl ->
  toks_ok (flat_map pred_toks qs ++ steps_toks true false ss ++ tl)
  /\ match steps_toks true false ss ++ tl with [] => True | t :: _ => str_eqb t (L "[") = false end.
Proof.
  intros (H1 & H2 & H3 & H4) [Ht1 Ht2]. split.
  - apply Forall_app. split; [now apply preds_ok|]. apply Forall_app. split; [|easy].
    pose proof (bare_ok g np first ((h, qs) :: ss)) as Hb. cbn in Hb.
    assert (Hx : toks_ok (head_toks h ++ flat_map pred_toks qs ++ steps_toks true false ss)) by (apply Hb; tauto).
    apply Forall_app in Hx as [_ Hx]. apply Forall_app in Hx. apply Hx.
  - destruct ss as [|[h' qs'] ss]; cbn [steps_toks app].
    + destruct tl; [easy|apply Ht2].
    + rewrite orb_true_r, andb_true_r. destruct (is_desc h') eqn:Ed; [|reflexivity].
      destruct h'; easy.
Qed.

Lemma head_toks_ne g np first h : wf_head g np first h -> exists t l, head_toks h = t :: l.
Proof.
  intros H. destruct h as [n|n|n| | |f [x|]|p ps]; cbn; eauto.
Qed.

Lemma empties : forall p, empty_path p.
Proof.
  intros p.
  refine (ih_path empty_head empty_path (fun _ => True) _ _ _ (fun _ _ _ => I) p).
  - intros h Hg. now destruct h.
  - intros q ps Hq _. exact Hq.
  - clear p. intros a ss Hss. unfold empty_path. cbn [steps_of]. clear a.
    induction ss as [|[h qs] ss IH]; intros g np first tl Hne H Ht; [easy|].
    inversion Hss as [|? ? [Hh _] Hss']; subst. cbn [fst] in Hh.
    destruct (after_head_ok _ _ _ _ _ _ _ H Ht) as [Hok Hnb]. destruct H as (H1 & H2 & H3 & H4).
    destruct (head_toks_ne _ _ _ _ H1) as (t0 & l0 & Eh).
    cbn [bare]. rewrite <- !app_assoc.
    assert (Hokh : toks_ok (head_toks h ++ flat_map pred_toks qs ++ steps_toks true false ss ++ tl)).
    { apply Forall_app. split; [now apply (head_ok g np first)|easy]. }
    rewrite Step_read; [|easy|now rewrite Eh].
    destruct (is_group h) eqn:Hg.
    + destruct h as [n|n|n| | |f x|p ps]; try easy. cbn [empty_head] in Hh.
      rewrite read_group. cbn [disjunction fst snd bind].
      apply wf_group_eq in H1 as (_ & W1 & W2).
      set (rest := flat_map pred_toks qs ++ steps_toks true false ss ++ tl) in *.
      set (tl' := flat_map (fun q => L "|" :: path_toks q) ps ++ L ")" :: rest).
      assert (Hst : stops tl'). { apply stops_closing; [easy|now apply (group_ok np)]. }
      pose proof (first_not_bracket true np p tl' W1) as Hb.
      pose proof (predicates_read ([], None) [] (length (path_toks p ++ tl')) (path_toks p ++ tl') ltac:(constructor) ltac:(easy) Hb) as Hpr.
      cbn [flat_map app fold_left] in Hpr. fold tl'. rewrite Hpr. clear Hpr. destruct p as [a ss0].
      destruct (path_first _ _ _ _ W1 tl') as (t & r & E & Hsl & Ha & _). rewrite E. unfold continue. rewrite Hsl.
      destruct a; [|easy]. rewrite Ha by easy. apply wf_path_eq in W1 as (N0 & _ & W1).
      now apply (Hh true np true).
    + rewrite (read_basic _ _ _ g np first) by easy. unfold sbind. cbn [fst snd sbind_].
      rewrite predicates_read by (try easy; reflexivity). rewrite filters_nil.
      rewrite bare_next; [|easy|].
      2:{ intros h' qs' ss' -> _. destruct H4 as (H4 & _). eapply head_toks_ne; eauto. }
      destruct ss as [|x ss]; [easy|]. now apply (IH Hss' g np false).
Qed.

(* ---------- the evaluator and the denotation ---------- *)

Lemma den_steps_nil ss : den_steps ss [] = Some [].
Proof.
  induction ss as [|[h qs] ss IH]; [easy|]. cbn.
  assert (E : den_preds qs [] = Some []) by (induction qs as [|q qs IHq]; [easy|exact IHq]).
  now rewrite E.
Qed.

(* a result of the evaluator against the denotation; the steps left matter in a group *)
Definition agrees (g : bool) (d : option (list pval)) (x : stream * list str) (tl : list str) : Prop :=
  match d with
  | Some m => fst x = (m, None) /\ (g = true -> snd x = tl)
  | None => snd (fst x) <> None
  end.

Definition sound_path (p : path) : Prop := forall g np v tl, wf_path g np p -> stops tl ->
  agrees g (den_path p v) (Expr v (path_toks p ++ tl)) tl.
Definition sound_head (h : head) : Prop := match h with HGroup p ps => sound_path p /\ Forall sound_path ps | _ => True end.

(* all alternatives of a group for one object *)
Lemma alts_den np v rest ps : Forall sound_path ps -> Forall (wf_path true np) ps -> toks_ok rest -> forall p,
  sound_path p -> wf_path true np p ->
  match oflat (fun q => den_path q v) (p :: ps) with
  | Some m => Alts v (path_toks p ++ flat_map (fun q => L "|" :: path_toks q) ps ++ L ")" :: rest) = Ok (m, rest)
  | None => exists e, Alts v (path_toks p ++ flat_map (fun q => L "|" :: path_toks q) ps ++ L ")" :: rest) = Err e
  end.
Proof.
  intros Hs Hw Hr. induction ps as [|q ps IH]; intros p Hp Wp.
  - cbn [flat_map app].
    pose proof (stops_closing [] rest Hr (Forall_nil _)) as Hst. cbn [flat_map app] in Hst.
    assert (Hok : toks_ok (path_toks p ++ L ")" :: rest)).
    { apply Forall_app. split; [eapply path_ok; eauto|apply Hst]. }
    rewrite Alts_body by easy. unfold alts_body.
    pose proof (Hp true np v _ Wp Hst) as Ha. cbn [oflat].
    destruct (den_path p v) as [m|]; cbn [agrees] in Ha.
    + destruct Ha as [E1 E2]. specialize (E2 eq_refl).
      destruct (Expr v (path_toks p ++ L ")" :: rest)) as [s r]. cbn in E1, E2. subst s r.
      change (str_eqb (L ")") (L "|")) with false. rewrite str_eqb_refl. now rewrite app_nil_r.
    + destruct (Expr v (path_toks p ++ L ")" :: rest)) as [[s [e|]] r]; cbn in Ha; [eauto|easy].
  - inversion Hs as [|? ? S1 Hs']; inversion Hw as [|? ? W1 Hw']; subst.
    specialize (IH Hs' Hw' q S1 W1).
    pose proof (stops_closing (q :: ps) rest Hr (group_ok _ _ Hw)) as Hst.
    set (tl := flat_map (fun q => L "|" :: path_toks q) (q :: ps) ++ L ")" :: rest) in *.
    assert (Etl : tl = L "|" :: (path_toks q ++ flat_map (fun q => L "|" :: path_toks q) ps ++ L ")" :: rest)).
    { unfold tl. cbn [flat_map app]. now rewrite <- app_assoc. }
    clearbody tl.
    assert (Hok : toks_ok (path_toks p ++ tl)).
    { apply Forall_app. split; [eapply path_ok; eauto|apply Hst]. }
    rewrite Alts_body by easy. unfold alts_body.
    pose proof (Hp true np v tl Wp Hst) as Ha.
    change (oflat (fun q => den_path q v) (p :: q :: ps)) with
      (match den_path p v, oflat (fun q => den_path q v) (q :: ps) with Some a, Some b => Some (a ++ b) | _, _ => None end).
    destruct (den_path p v) as [m|]; cbn [agrees] in Ha.
    + destruct Ha as [E1 E2]. specialize (E2 eq_refl).
      destruct (Expr v (path_toks p ++ tl)) as [s r]. cbn in E1, E2. subst s r.
      rewrite Etl, str_eqb_refl.
      destruct (oflat (fun q => den_path q v) (q :: ps)) as [b|].
      * rewrite IH. reflexivity.
      * destruct IH as [e ->]. cbn. eauto.
    + destruct (Expr v (path_toks p ++ tl)) as [[s [e|]] r]; cbn in Ha; [eauto|easy].
Qed.

Lemma disj_den np rest p ps l : sound_path p -> Forall sound_path ps -> wf_path true np p -> Forall (wf_path true np) ps ->
  toks_ok rest -> l <> [] ->
  match oflat (den_head (HGroup p ps)) l with
  | Some m => disjunction Alts (l, None) (path_toks p ++ flat_map (fun q => L "|" :: path_toks q) ps ++ L ")" :: rest) = Ok (m, rest)
  | None => exists e, disjunction Alts (l, None) (path_toks p ++ flat_map (fun q => L "|" :: path_toks q) ps ++ L ")" :: rest) = Err e
  end.
Proof.
  intros S1 S2 W1 W2 Hr Hl.
  set (k := path_toks p ++ flat_map (fun q => L "|" :: path_toks q) ps ++ L ")" :: rest).
  assert (Ha : forall v, match den_head (HGroup p ps) v with
                    | Some m => Alts v k = Ok (m, rest) | None => exists e, Alts v k = Err e end).
  { intros v. rewrite den_group_eq. now apply (alts_den np). }
  assert (Hrest : forall l, match oflat (den_head (HGroup p ps)) l with
                    | Some m => disj_rest Alts l k = Ok m | None => exists e, disj_rest Alts l k = Err e end).
  { clear - Ha. induction l as [|v l IH]; [easy|]. cbn [oflat disj_rest]. specialize (Ha v).
    destruct (den_head (HGroup p ps) v) as [a|].
    - rewrite Ha. cbn [bind]. destruct (oflat _ l) as [b|].
      + now rewrite IH. + destruct IH as [e ->]. cbn. eauto.
    - destruct Ha as [e ->]. cbn. eauto. }
  destruct l as [|v l]; [easy|]. specialize (Ha v). specialize (Hrest l). cbn [oflat]. unfold disjunction. cbn [fst snd].
  destruct (den_head (HGroup p ps) v) as [a|].
  - rewrite Ha. cbn [bind]. destruct (oflat (den_head (HGroup p ps)) l) as [b|].
    + now rewrite Hrest. + destruct Hrest as [e ->]. cbn. eauto.
  - destruct Ha as [e ->]. cbn. eauto.
Qed.

Lemma steps_den ss : Forall (fun x => sound_head (fst x) /\ Forall sound_pred (snd x)) ss ->
  forall g np first l tl, ss <> [] -> wf_steps g np first ss -> stops tl -> (first = true -> l <> []) ->
  agrees g (den_steps ss l) (Step (l, None) (bare ss ++ tl)) tl.
Proof.
  induction ss as [|[h qs] ss IH]; intros Hss g np first l tl Hne H Ht Hl; [easy|].
  inversion Hss as [|? ? [Hh Hq] Hss']; subst. cbn [fst snd] in *.
  assert (Hfull := H).
  destruct (after_head_ok _ _ _ _ _ _ _ H Ht) as [Hok Hnb]. destruct H as (H1 & H2 & H3 & H4).
  destruct (head_toks_ne _ _ _ _ H1) as (t0 & l0 & Eh).
  destruct (is_group h) eqn:Hg.
  - (* a group *)
    destruct h as [n|n|n| | |f x|p ps]; try easy. destruct Hh as [Sp Sps].
    apply wf_group_eq in H1 as (Hgf & W1 & W2).
    destruct l as [|v0 l].
    { (* an empty context: only outside of groups *)
      assert (Hg0 : g = false). { destruct g; [|easy]. specialize (Hgf eq_refl). subst first. now destruct (Hl eq_refl). }
      subst g. rewrite den_steps_nil. split; [|easy].
      pose proof (empties (Path true ((HGroup p ps, qs) :: ss)) false np first tl) as He. now apply He. }
    cbn [bare]. rewrite <- !app_assoc.
    assert (Hokh : toks_ok (head_toks (HGroup p ps) ++ flat_map pred_toks qs ++ steps_toks true false ss ++ tl)).
    { apply Forall_app. split; [|easy]. apply (head_ok g np first). now apply wf_group_eq. }
    rewrite Step_read; [|easy|now rewrite Eh].
    rewrite read_group.
    pose proof (disj_den np (flat_map pred_toks qs ++ steps_toks true false ss ++ tl) p ps (v0 :: l) Sp Sps W1 W2 Hok ltac:(easy)) as Hd.
    cbn [den_steps]. destruct (oflat (den_head (HGroup p ps)) (v0 :: l)) as [m|].
    2:{ destruct Hd as [e ->]. cbn. easy. }
    rewrite Hd. cbn [bind fst snd obnd].
    rewrite predicates_read by easy.
    pose proof (filters_den qs Hq H3 m) as Hf.
    destruct (den_preds qs m) as [k|]; cbn [obnd].
    + apply sres_some in Hf. rewrite Hf. rewrite bare_next; [|easy|].
      2:{ intros h' qs' ss' -> _. destruct H4 as (H4 & _). eapply head_toks_ne; eauto. }
      destruct ss as [|x ss]; [now split|]. apply (IH Hss' g np false); try easy.
    + apply sres_none in Hf. set (s'' := fold_left _ _ _) in *.
      rewrite bare_next; [|easy|].
      2:{ intros h' qs' ss' -> _. destruct H4 as (H4 & _). eapply head_toks_ne; eauto. }
      destruct ss as [|x ss]; [exact Hf|]. cbn [agrees].
      eapply step_err; [reflexivity| |exact Hf].
      apply Forall_app. split; [now apply (bare_ok g np false)|apply Ht].
  - (* another head *)
    cbn [bare]. rewrite <- !app_assoc.
    assert (Hokh : toks_ok (head_toks h ++ flat_map pred_toks qs ++ steps_toks true false ss ++ tl)).
    { apply Forall_app. split; [now apply (head_ok g np first)|easy]. }
    rewrite Step_read; [|easy|now rewrite Eh].
    rewrite (read_basic _ _ _ g np first) by easy.
    rewrite predicates_read by easy.
    assert (Hnext : forall s, continue Step s (steps_toks true false ss ++ tl) =
       match ss with [] => (s, tl) | _ => Step s (bare ss ++ tl) end).
    { intros s. apply bare_next; [easy|]. intros h' qs' ss' -> _. destruct H4 as (H4 & _). eapply head_toks_ne; eauto. }
    rewrite Hnext. cbn [den_steps].
    assert (Herr : forall s, snd s <> None -> snd (fst (match ss with [] => (s, tl) | _ => Step s (bare ss ++ tl) end)) <> None).
    { intros s Hs. destruct ss as [|x ss]; [exact Hs|]. eapply step_err; [reflexivity| |exact Hs].
      apply Forall_app. split; [now apply (bare_ok g np false)|apply Ht]. }
    pose proof (sres_sbind (basic h) l) as Hb.
    rewrite (oflat_ext _ (den_head h)) in Hb by (intros; now apply basic_den).
    destruct (oflat (den_head h) l) as [m|]; cbn [obnd].
    + apply sres_some in Hb. rewrite Hb.
      pose proof (filters_den qs Hq H3 m) as Hf.
      destruct (den_preds qs m) as [k|]; cbn [obnd].
      * apply sres_some in Hf. rewrite Hf. destruct ss as [|x ss]; [now split|].
        apply (IH Hss' g np false); easy.
      * apply sres_none in Hf. cbn [agrees]. apply Herr. exact Hf.
    + apply sres_none in Hb. cbn [agrees]. apply Herr. now apply filters_err.
Qed.

(* a written path does not end in a slash *)
Definition ends_ok (l : list str) : Prop := exists pre u c, l = pre ++ [u ++ [c]] /\ c <> Ch "/".
Lemma ends_ok_app k l : ends_ok l -> ends_ok (k ++ l).
Proof. intros (pre & u & c & -> & H). exists (k ++ pre), u, c. now rewrite app_assoc. Qed.
Lemma ends_one u c : c <> Ch "/" -> ends_ok [u ++ [c]].
Proof. intros H. now exists [], u, c. Qed.
Lemma ends_valid fn n : valid_name fn n -> ends_ok [n].
Proof.
  intros Hn. destruct (exists_last (valid_nonempty _ _ Hn)) as (u & c & ->). apply ends_one.
  intros ->. apply (valid_not_special _ _ (Ch "/") Hn); [vm_compute; tauto|]. apply in_app_iff. right. now left.
Qed.
Lemma ends_head g np first h : wf_head g np first h -> ends_ok (head_toks h).
Proof.
  assert (Hp : ends_ok [L ")"]) by now apply (ends_one [] (Ch ")")).
  intros Hh. destruct h as [n|n|n| | |f [x|]|p ps]; cbn [head_toks].
  - now apply (ends_valid false).
  - apply (ends_ok_app [L "//"]). now apply (ends_valid true).
  - apply (ends_ok_app [L "@"]). now apply (ends_valid true).
  - now apply (ends_one [Ch "."] (Ch ".")).
  - now apply (ends_one [] (Ch ".")).
  - now apply (ends_ok_app [f; L "("; quoted x]).
  - now apply (ends_ok_app [f; L "("]).
  - rewrite app_assoc, app_comm_cons. now apply ends_ok_app.
Qed.
Lemma ends_preds qs : qs <> [] -> ends_ok (flat_map pred_toks qs).
Proof.
  intros H. destruct (exists_last H) as (qs' & q & ->). rewrite flat_map_app. apply ends_ok_app.
  cbn [flat_map]. rewrite app_nil_r. destruct q as [sub test]. cbn [pred_toks].
  rewrite app_assoc, app_comm_cons. apply ends_ok_app. now apply (ends_one [] (Ch "]")).
Qed.
Lemma ends_steps g np a ss : forall first, ss <> [] -> wf_steps g np first ss -> ends_ok (steps_toks a first ss).
Proof.
  induction ss as [|[h qs] ss IH]; intros first Hne H; [easy|].
  cbn [steps_toks]. destruct H as (H1 & _ & _ & H4). apply ends_ok_app. destruct ss as [|x ss].
  - cbn [steps_toks]. rewrite app_nil_r. destruct qs as [|q qs].
    + cbn [flat_map]. rewrite app_nil_r. eapply ends_head; eauto.
    + apply ends_ok_app, ends_preds. easy.
  - apply ends_ok_app, ends_ok_app, IH; easy.
Qed.
Lemma endswith_iff p s : endswith p s = true <-> exists u, s = u ++ p.
Proof.
  unfold endswith. rewrite startswith_iff. split.
  - intros [r E]. exists (rev r). rewrite <- (rev_involutive s), E, rev_app_distr. now rewrite rev_involutive.
  - intros [u ->]. exists (rev u). now rewrite rev_app_distr.
Qed.
Lemma show_end g np p : wf_path g np p -> endswith (L "/") (show p) = false.
Proof.
  intros H. destruct (endswith (L "/") (show p)) eqn:E; [|easy]. apply endswith_iff in E as [s E]. exfalso.
  destruct p as [a ss]. apply wf_path_eq in H as (Hne & _ & H).
  destruct (ends_steps _ _ a _ _ Hne H) as (pre & u & c & Et & Hc).
  unfold show in E. rewrite path_toks_eq, Et, concat_app in E. cbn [concat] in E.
  rewrite app_nil_r, app_assoc in E. change (L "/") with [Ch "/"] in E. apply app_inj_tail in E. tauto.
Qed.

(* a path against its denotation *)
Lemma find_agree g np p path v : wf_path g np p -> sound_path p -> tokenize path = path_toks p ->
  endswith (L "/") path = false -> ores (FA v path) = den_path p v.
Proof.
  intros H Hs E1 E2. unfold FA. rewrite Find_body. unfold find_body. rewrite E2, E1.
  assert (Hst : stops []) by (split; [constructor|easy]).
  pose proof (Hs g np v [] H Hst) as Ha. rewrite app_nil_r in Ha.
  assert (Hne : exists t r, path_toks p = t :: r).
  { destruct p as [a ss]. destruct (path_first _ _ _ _ H []) as (t & r & E & _). rewrite app_nil_r in E. eauto. }
  destruct Hne as (t & r & E). rewrite E in *. destruct (Expr v (t :: r)) as [[m e] k]. cbn [fst].
  destruct (den_path p v) as [m'|]; cbn [agrees fst snd] in Ha.
  - destruct Ha as [[= -> ->] _]. reflexivity.
  - destruct e as [e|]; [reflexivity|easy].
Qed.

Lemma expr_den np g p v tl : wf_path g np p -> stops tl ->
  Forall (fun x => sound_head (fst x) /\ Forall sound_pred (snd x)) (steps_of p) ->
  agrees g (den_path p v) (Expr v (path_toks p ++ tl)) tl.
Proof.
  destruct p as [a ss]. cbn [steps_of]. intros H Ht Hs.
  assert (Hok : toks_ok (path_toks (Path a ss) ++ tl)).
  { apply Forall_app. split; [eapply path_ok; eauto|apply Ht]. }
  rewrite Expr_body by easy. unfold expr_body.
  destruct (path_first _ _ _ _ H tl) as (t & r & E & Hsl & Ha1 & Ha2).
  assert (H' := H). apply wf_path_eq in H' as (Hne & Hrel & Hw). rewrite den_path_eq.
  destruct a.
  - rewrite E. destruct (str_eqb t (L "(")) eqn:Ep.
    { apply str_eqb_eq in Ep as ->. easy. }
    rewrite Hsl. destruct (get_corpus v) as [c|e]; cbn [ores obnd]; [|easy].
    rewrite Ha1 by easy. now apply (steps_den ss Hs g np true).
  - cbn [obnd]. rewrite Ha2 in * by easy. destruct ss as [|[h qs] ss]; [easy|].
    destruct (Hrel eq_refl) as [Hd Hgr]. destruct (is_group h) eqn:Hg.
    + destruct (Hgr eq_refl) as [-> ->]. destruct h as [n|n|n| | |f x|p ps]; try easy.
      inversion Hs as [|? ? [Hsp _] _]; subst. destruct Hsp as [Sp Sps]. destruct Hw as (Hw & _). apply wf_group_eq in Hw as (_ & W1 & W2).
      cbn [bare flat_map steps_toks] in *. rewrite !app_nil_r in *.
      pose proof (disj_den np tl p ps [v] Sp Sps W1 W2 ltac:(apply Ht) ltac:(easy)) as Hx.
      cbn [head_toks app] in E |- *. rewrite str_eqb_refl, <- !app_assoc. cbn [app].
      cbn [den_steps]. destruct (oflat (den_head (HGroup p ps)) [v]) as [m|].
      * rewrite Hx. now split.
      * destruct Hx as [e ->]. easy.
    + rewrite E. destruct (str_eqb t (L "(")) eqn:Ep.
      { exfalso. apply str_eqb_eq in Ep as ->. destruct Hw as (Hw & _). cbn [bare] in E. rewrite <- !app_assoc in E.
        destruct h as [n|n|n| | |f [x|]|p ps]; cbn [head_toks app] in E; try easy; injection E as E _; try easy.
        - apply valid_child_tok in Hw as (Hw & _). subst n. now rewrite str_eqb_refl in Hw.
        - subst f. destruct Hw as [[Hw | [Hw | [Hw | Hw]]] _]; easy.
        - subst f. destruct Hw as [[Hw | [Hw | [Hw | Hw]]] _]; easy. }
      rewrite Hsl, <- E. now apply (steps_den _ Hs g np true).
Qed.

Lemma all_sound : (forall p, sound_path p) /\ (forall q, sound_pred q).
Proof.
  assert (Ha : forall h, is_group h = false -> sound_head h) by (intros []; easy).
  assert (Hg : forall p ps, sound_path p -> Forall sound_path ps -> sound_head (HGroup p ps)) by (intros; now split).
  assert (Hp : forall a ss, Forall (fun x => sound_head (fst x) /\ Forall sound_pred (snd x)) ss -> sound_path (Path a ss)).
  { intros a ss Hs g np v tl H Ht. now apply (expr_den np). }
  assert (Hq : forall sub test, sound_path sub -> sound_pred (Pred sub test)).
  { intros sub test Hs [W1 W2] v.
    pose proof (find_agree _ _ sub (show sub) v W1 Hs (show_tokens _ _ _ W1) (show_end _ _ _ W1)) as E.
    cbn [den_pred]. rewrite <- E. destruct test as [[[] lit]|]; cbn [test_of run_test];
      destruct (FA v (show sub)); reflexivity. }
  split; intros x.
  - now apply (ih_path sound_head sound_path sound_pred).
  - now apply (ih_pred sound_head sound_path sound_pred).
Qed.

Theorem findall_den p path v : wf p -> tokenize path = path_toks p -> endswith (L "/") path = false ->
  ores (findall ix vfuel v path) = den_path p v.
Proof. intros H E1 E2. rewrite findall_eq. eapply find_agree; eauto. apply all_sound. Qed.
Theorem findall_show p v : wf p -> ores (findall ix vfuel v (show p)) = den_path p v.
Proof. intros H. apply findall_den; [easy|eapply show_tokens; eauto|eapply show_end; eauto]. Qed.
Lemma ores_ok {A} (r : res A) x : r = Ok x <-> ores r = Some x.
Proof. destruct r; cbn; split; congruence. Qed.
Theorem show_ok p v l : wf p -> (findall ix vfuel v (show p) = Ok l <-> den_path p v = Some l).
Proof. intros H. rewrite <- (findall_show p v H). apply ores_ok. Qed.

End Sem.
