(* The evaluator of Path.v without fuel: its bound is always enough, so that
   evaluation obeys the recursive equations of xigt/xigtpath.py. *)
From Verif Require Import PyStr PyStrFacts Regex RegexFacts Model Index Path SpecPath PathTokenProofs.

Section Fuel.
Context {U : Unicode}.
Variable ix : igt -> index.
Variable vfuel : nat.
Notation expr := (expr ix vfuel).
Notation alternatives := (alternatives ix vfuel).
Notation step := (step ix vfuel).
Notation iterfind := (iterfind ix vfuel).
Notation function := (function ix vfuel).

Definition size (l : list str) : nat := length (concat l).
Definition toks_ok (l : list str) : Prop := Forall (fun t => t <> []) l.
Definition collect (s : stream) : res (list pval) := match s with (l, None) => Ok l | (_, Some e) => Err e end.

(* one step without what follows it *)
Definition head_eval (alts : pval -> list str -> res (list pval * list str)) (s : stream) (t : str) (r : list str)
    : res (stream * list str) :=
  let next (g : str -> stream) : res (stream * list str) :=
    match r with n :: r' => Ok (g n, r') | [] => Err IndexError end in
  if str_eqb t (L "(") then
    do x <- disjunction alts s r; Ok ((fst x, None), snd x)
  else if str_eqb t (L "//") then next (fun n => sbind (fun v => find_descendant_or_self v n) s)
  else if str_eqb t (L "@") then next (fun a => sbind (fun v => find_attr v a) s)
  else if str_eqb t (L "..") then Ok (sbind parent s, r)
  else if str_eqb t (L ".") then Ok (s, r)
  else if existsb (str_eqb t) functions then
    match r with
    | [] => Err IndexError
    | _ :: r' => match take_args r' with
                 | None => Err IndexError
                 | Some (args, r'') => Ok (sbind (fun v => function v t args) s, r'')
                 end
    end
  else Ok (sbind (fun v => find_child v t) s, r).

Definition continue (stp : stream -> list str -> stream * list str) (s : stream) (r : list str) : stream * list str :=
  match r with
  | t' :: r3 => if is_slash t' then stp s (if str_eqb t' (L "/") then r3 else r) else (s, r)
  | [] => (s, r)
  end.
Definition step_body alts fa stp (s : stream) (t : str) (r : list str) : stream * list str :=
  match head_eval alts s t r with
  | Err e => (([], Some e), [])
  | Ok (s', r') => let '(s'', r'') := predicates (length r') fa s' r' in continue stp s'' r''
  end.
Definition expr_body alts (stp : stream -> list str -> stream * list str) (v : pval) (steps : list str) : stream * list str :=
  match steps with
  | [] => (([], Some IndexError), [])
  | t :: r =>
    if str_eqb t (L "(") then
      match disjunction alts ([v], None) r with
      | Ok (l, r') => ((l, None), r')
      | Err e => (([], Some e), [])
      end
    else if is_slash t then
      match get_corpus v with
      | Err e => (([], Some e), [])
      | Ok c => stp ([c], None) (if str_eqb t (L "/") then r else steps)
      end
    else stp ([v], None) steps
  end.
Definition alts_body (ex : pval -> list str -> stream * list str) alts (v : pval) (steps : list str) : res (list pval * list str) :=
  match ex v steps with
  | ((_, Some e), _) => Err e
  | ((l, None), t :: r) =>
    if str_eqb t (L "|") then do x <- alts v r; Ok (l ++ fst x, snd x)
    else if str_eqb t (L ")") then Ok (l, r)
    else Err XigtPathError
  | ((_, None), []) => Err IndexError
  end.
Definition find_body (ex : pval -> list str -> stream * list str) (v : pval) (path : str) : stream :=
  if endswith (L "/") path then ([], Some XigtPathError)
  else match tokenize path with [] => ([], None) | steps => fst (ex v steps) end.

Lemma step_S f s t r : step (S f) s (t :: r) =
  step_body (alternatives f) (fun v p => collect (iterfind f v p)) (step f) s t r.
Proof. reflexivity. Qed.
Lemma step_nil f s : step (S f) s [] = (s, []).
Proof. reflexivity. Qed.
Lemma expr_S f v l : expr (S f) v l = expr_body (alternatives f) (step f) v l.
Proof. reflexivity. Qed.
Lemma alts_S f v l : alternatives (S f) v l = alts_body (expr f) (alternatives f) v l.
Proof. reflexivity. Qed.
Lemma find_S f v p : iterfind (S f) v p = find_body (expr f) v p.
Proof. reflexivity. Qed.

(* ---------- what is left of the steps ---------- *)

Definition suffix (a b : list str) : Prop := exists pre, b = pre ++ a.
Lemma suffix_refl a : suffix a a. Proof. now exists []. Qed.
Lemma suffix_nil b : suffix [] b. Proof. exists b. now rewrite app_nil_r. Qed.
Lemma suffix_cons a t b : suffix a b -> suffix a (t :: b).
Proof. intros [p ->]. now exists (t :: p). Qed.
Lemma suffix_trans a b c : suffix a b -> suffix b c -> suffix a c.
Proof. intros [p ->] [q ->]. exists (q ++ p). now rewrite app_assoc. Qed.
Lemma suffix_size a b : suffix a b -> size a <= size b.
Proof. intros [p ->]. unfold size. rewrite concat_app, app_length. lia. Qed.
Lemma suffix_ok a b : suffix a b -> toks_ok b -> toks_ok a.
Proof. intros [p ->] H. apply Forall_app in H. apply H. Qed.

Lemma take_args_suffix r args r' : take_args r = Some (args, r') -> suffix r' r.
Proof.
  revert args r'; induction r as [|t r IH]; intros args r'; cbn; [easy|].
  destruct (str_eqb t (L ")")).
  - intros [= <- <-]. apply suffix_cons, suffix_refl.
  - destruct (take_args r) as [[a b]|]; [|easy]. cbn. intros [= <- <-]. eapply suffix_cons, IH; eauto.
Qed.
Lemma take_sub_app r sub r' : take_sub r = Some (sub, r') -> r = sub ++ r'.
Proof.
  revert sub r'; induction r as [|t r IH]; intros sub r'; cbn [take_sub]; [easy|].
  destruct (existsb _ _).
  - intros [= <- <-]. easy.
  - destruct (take_sub r) as [[a b]|]; [|easy]. cbn. intros [= <- <-]. cbn. now rewrite (IH a b).
Qed.
Definition sub_of (t : ptest) : str := match t with TExists s | TEq s _ | TNe s _ => s end.
Lemma make_predicate_suffix r t r' : make_predicate r = Ok (t, r') -> suffix r' r /\ length (sub_of t) <= size r.
Proof.
  unfold make_predicate. destruct (take_sub r) as [[sub rest]|] eqn:E; [|easy].
  apply take_sub_app in E as ->.
  assert (Hl : length (concat sub) <= size (sub ++ rest)).
  { unfold size. rewrite concat_app, app_length. lia. }
  destruct rest as [|c rest]; [easy|].
  assert (Hs : forall k, suffix k rest -> suffix k (sub ++ c :: rest)).
  { intros k Hk. eapply suffix_trans; [apply suffix_cons, Hk|]. now exists sub. }
  destruct (str_eqb c (L "]")).
  - intros [= <- <-]. split; [apply Hs, suffix_refl|exact Hl].
  - destruct rest as [|v [|b rest]]; [easy|easy|]. intros [= <- <-]. split.
    + apply Hs. do 2 apply suffix_cons. apply suffix_refl.
    + destruct (str_eqb c (L "=")); exact Hl.
Qed.
Lemma predicates_suffix fa n : forall s r, suffix (snd (predicates n fa s r)) r.
Proof.
  induction n as [|n IH]; intros s r; cbn; [apply suffix_refl|].
  destruct r as [|t r]; [apply suffix_refl|].
  destruct (str_eqb t (L "[")); [|apply suffix_refl].
  destruct (make_predicate r) as [[q r']|e] eqn:E; [|apply suffix_nil].
  apply make_predicate_suffix in E as [E _].
  eapply suffix_trans; [apply IH|]. now apply suffix_cons.
Qed.
Lemma head_suffix alts s t r s' r' :
  (forall v l k, alts v r = Ok (l, k) -> suffix k r) ->
  head_eval alts s t r = Ok (s', r') -> suffix r' r.
Proof.
  intros Ha. unfold head_eval.
  destruct (str_eqb t (L "(")).
  { destruct (disjunction alts s r) as [[l k]|e] eqn:E; cbn; [|easy]. intros [= <- <-].
    unfold disjunction in E. destruct (fst s) as [|v vs].
    - destruct (snd s); cbn in E; [easy|]. injection E as <- <-. apply suffix_refl.
    - destruct (alts v r) as [[l' k']|] eqn:E2; cbn in E; [|easy].
      destruct (match snd s with Some e => _ | None => _ end); cbn in E; [|easy].
      injection E as <- <-. eapply Ha; eauto. }
  assert (Hnext : forall g, match r with n :: r'0 => Ok (g n, r'0) | [] => Err IndexError end = Ok (s', r') -> suffix r' r).
  { intros g. destruct r as [|n r0]; [easy|]. intros [= _ <-]. apply suffix_cons, suffix_refl. }
  destruct (str_eqb t (L "//")); [apply Hnext|].
  destruct (str_eqb t (L "@")); [apply Hnext|].
  destruct (str_eqb t (L "..")); [intros [= _ <-]; apply suffix_refl|].
  destruct (str_eqb t (L ".")); [intros [= _ <-]; apply suffix_refl|].
  destruct (existsb (str_eqb t) functions).
  - destruct r as [|x r]; [easy|]. destruct (take_args r) as [[a k]|] eqn:E; [|easy].
    intros [= _ <-]. apply suffix_cons. eapply take_args_suffix; eauto.
  - intros [= _ <-]; apply suffix_refl.
Qed.
Lemma continue_suffix stp s r : (forall s r, suffix (snd (stp s r)) r) -> suffix (snd (continue stp s r)) r.
Proof.
  intros H. unfold continue. destruct r as [|t r]; [apply suffix_refl|].
  destruct (is_slash t); [|apply suffix_refl].
  destruct (str_eqb t (L "/")); [apply suffix_cons, H|apply H].
Qed.

Lemma leftover f :
  (forall v l, suffix (snd (expr f v l)) l)
  /\ (forall v l x r, alternatives f v l = Ok (x, r) -> suffix r l)
  /\ (forall s l, suffix (snd (step f s l)) l).
Proof.
  induction f as [|f (IHe & IHa & IHs)].
  - repeat split; intros; try apply suffix_nil. easy.
  - split; [|split].
    + intros v [|t r]; rewrite expr_S; [apply suffix_refl|]. unfold expr_body.
      destruct (str_eqb t (L "(")).
      { destruct (disjunction (alternatives f) ([v], None) r) as [[l k]|e] eqn:E; [|apply suffix_nil].
        cbn in E. destruct (alternatives f v r) as [[l' k']|] eqn:E2; cbn in E; [|easy].
        injection E as <- <-. cbn. eapply suffix_cons, IHa; eauto. }
      destruct (is_slash t); [|apply IHs].
      destruct (get_corpus v); [|apply suffix_nil].
      destruct (str_eqb t (L "/")); [apply suffix_cons, IHs|apply IHs].
    + intros v l x r. rewrite alts_S. unfold alts_body.
      pose proof (IHe v l) as H. destruct (expr f v l) as [[m [e|]] [|t k]]; cbn in H; try easy.
      destruct (str_eqb t (L "|")).
      * destruct (alternatives f v k) as [[y k']|] eqn:E; cbn; [|easy]. intros [= <- <-].
        eapply suffix_trans; [eapply IHa; eauto|]. eapply suffix_trans; [|exact H]. apply suffix_cons, suffix_refl.
      * destruct (str_eqb t (L ")")); [|easy]. intros [= <- <-].
        eapply suffix_trans; [|exact H]. apply suffix_cons, suffix_refl.
    + intros s [|t r]; [rewrite step_nil; apply suffix_refl|]. rewrite step_S. unfold step_body.
      destruct (head_eval (alternatives f) s t r) as [[s' r']|e] eqn:E; [|apply suffix_nil].
      apply head_suffix in E; [|intros; eapply IHa; eauto].
      pose proof (predicates_suffix (fun v p => collect (iterfind f v p)) (length r') s' r') as Hp.
      destruct (predicates _ _ s' r') as [s'' r''].
      eapply suffix_trans; [apply continue_suffix, IHs|].
      eapply suffix_trans; [exact Hp|]. now apply suffix_cons.
Qed.

(* ---------- fuel ---------- *)

Lemma disjunction_ext alts alts' s r : (forall v, alts v r = alts' v r) -> disjunction alts s r = disjunction alts' s r.
Proof.
  intros H. assert (E : forall l, disj_rest alts l r = disj_rest alts' l r).
  { induction l as [|v l IH]; [easy|]. cbn. now rewrite H, IH. }
  unfold disjunction. destruct (fst s) as [|v l]; [easy|]. now rewrite H, E.
Qed.
Lemma head_ext alts alts' s t r : (forall v, alts v r = alts' v r) -> head_eval alts s t r = head_eval alts' s t r.
Proof. intros H. unfold head_eval. now rewrite (disjunction_ext alts alts'). Qed.
Lemma sfilter_ext p p' s : (forall v, p v = p' v) -> sfilter p s = sfilter p' s.
Proof.
  intros H. unfold sfilter. generalize (snd s). induction (fst s) as [|v l IH]; intros e; [easy|].
  cbn. now rewrite H, IH.
Qed.
Lemma predicates_ext fa fa' n : forall s r, (forall v p, length p <= size r -> fa v p = fa' v p) ->
  predicates n fa s r = predicates n fa' s r.
Proof.
  induction n as [|n IH]; intros s r H; cbn; [easy|]. destruct r as [|t r]; [easy|].
  destruct (str_eqb t (L "[")); [|easy].
  destruct (make_predicate r) as [[q r']|e] eqn:E; [|easy].
  apply make_predicate_suffix in E as [E1 E2].
  assert (Hs : size r <= size (t :: r)) by (apply suffix_size, suffix_cons, suffix_refl).
  rewrite (sfilter_ext _ (run_test fa' q)).
  - apply IH. intros v p Hp. apply H. apply suffix_size in E1. lia.
  - intros v. destruct q; cbn in *; rewrite H by lia; reflexivity.
Qed.

Lemma strip_length s : length (strip s) <= length s.
Proof.
  assert (H : forall s, length (lstrip s) <= length s).
  { induction s0 as [|c s0 IH]; cbn; [easy|]. destruct (is_space c); cbn; lia. }
  unfold strip, rstrip. rewrite rev_length. pose proof (H (rev (lstrip s))). rewrite rev_length in *.
  pose proof (H s). lia.
Qed.
Lemma tokenize_ok path : toks_ok (tokenize path) /\ size (tokenize path) <= length path.
Proof.
  split.
  - apply Forall_forall. intros t Ht. apply filter_In in Ht as [_ Ht]. now destruct t.
  - destruct (scan_total path) as [l H]. rewrite (tokenize_scan _ _ H).
    assert (H1 : length (concat l) <= length path).
    { induction H as [|s u r l E H IH|c s l E H IH]; cbn; [easy| |lia].
      apply next_tok_app in E as [-> _]. rewrite !app_length. lia. }
    eapply Nat.le_trans; [|exact H1]. clear. unfold size.
    induction l as [|t l IH]; cbn; [easy|]. pose proof (strip_length t).
    destruct (strip t) as [|c u]; cbn [nonblank concat]; rewrite ?app_length; lia.
Qed.

Lemma size_cons t r : size (t :: r) = length t + size r.
Proof. unfold size. cbn. now rewrite app_length. Qed.
Lemma ok_cons t r : toks_ok (t :: r) -> 1 <= length t /\ toks_ok r.
Proof. intros H. inversion H; subst. split; [destruct t; [easy|cbn; lia]|easy]. Qed.

Lemma fuel_enough f :
  (forall v l, toks_ok l -> 4 * size l + 2 <= f -> expr (S f) v l = expr f v l)
  /\ (forall v l, toks_ok l -> 4 * size l + 3 <= f -> alternatives (S f) v l = alternatives f v l)
  /\ (forall s l, toks_ok l -> 4 * size l + 1 <= f -> step (S f) s l = step f s l)
  /\ (forall v p, 4 * length p + 4 <= f -> iterfind (S f) v p = iterfind f v p).
Proof.
  induction f as [|f (IHe & IHa & IHs & IHf)].
  - repeat split; intros; lia.
  - split; [|split; [|split]].
    + intros v [|t r] Hok Hf; [easy|]. rewrite !(expr_S _ v). unfold expr_body.
      destruct (ok_cons _ _ Hok) as [Ht Hr]. rewrite size_cons in Hf.
      rewrite (disjunction_ext (alternatives (S f)) (alternatives f)) by (intros; apply IHa; [easy|lia]).
      destruct (str_eqb t (L "(")); [easy|].
      destruct (is_slash t).
      * destruct (get_corpus v); [|easy]. destruct (str_eqb t (L "/")); apply IHs; try easy; rewrite ?size_cons; lia.
      * apply IHs; [easy|rewrite size_cons; lia].
    + intros v l Hok Hf. rewrite !(alts_S _ v). unfold alts_body. rewrite IHe by (easy || lia).
      pose proof (proj1 (leftover f) v l) as Hl.
      destruct (expr f v l) as [[m [e|]] [|t k]]; try easy. cbn in Hl.
      destruct (str_eqb t (L "|")); [|easy].
      pose proof (suffix_size _ _ Hl) as Hs. pose proof (suffix_ok _ _ Hl Hok) as Hk.
      destruct (ok_cons _ _ Hk) as [Ht Hk']. rewrite size_cons in Hs.
      rewrite IHa; [easy|easy|lia].
    + intros s [|t r] Hok Hf; [easy|]. rewrite !(step_S _ s). unfold step_body.
      destruct (ok_cons _ _ Hok) as [Ht Hr]. rewrite size_cons in Hf.
      rewrite (head_ext (alternatives (S f)) (alternatives f)) by (intros; apply IHa; [easy|lia]).
      destruct (head_eval (alternatives f) s t r) as [[s' r']|e] eqn:E; [|easy].
      apply head_suffix in E; [|intros; eapply (proj1 (proj2 (leftover f))); eauto].
      pose proof (suffix_size _ _ E) as Hsz. pose proof (suffix_ok _ _ E Hr) as Hr'.
      rewrite (predicates_ext _ (fun v p => collect (iterfind f v p))).
      2:{ intros v p Hp. rewrite IHf by lia. easy. }
      pose proof (predicates_suffix (fun v p => collect (iterfind f v p)) (length r') s' r') as Hp.
      destruct (predicates _ _ s' r') as [s'' r'']. cbn in Hp.
      pose proof (suffix_size _ _ Hp) as Hsz2. pose proof (suffix_ok _ _ Hp Hr') as Hr''.
      unfold continue. destruct r'' as [|t' r3]; [easy|]. destruct (ok_cons _ _ Hr'') as [Ht' Hr3].
      rewrite size_cons in Hsz2.
      destruct (is_slash t'); [|easy]. destruct (str_eqb t' (L "/")); apply IHs; try easy; rewrite ?size_cons; lia.
    + intros v p Hf. rewrite !(find_S _ v). unfold find_body.
      destruct (endswith (L "/") p); [easy|]. pose proof (tokenize_ok p) as [H1 H2].
      destruct (tokenize p) as [|t r]; [easy|]. rewrite IHe; [easy|easy|lia].
Qed.

Lemma fuel_more f g : f <= g ->
  (forall v l, toks_ok l -> 4 * size l + 2 <= f -> expr g v l = expr f v l)
  /\ (forall v l, toks_ok l -> 4 * size l + 3 <= f -> alternatives g v l = alternatives f v l)
  /\ (forall s l, toks_ok l -> 4 * size l + 1 <= f -> step g s l = step f s l)
  /\ (forall v p, 4 * length p + 4 <= f -> iterfind g v p = iterfind f v p).
Proof.
  induction 1 as [|g Hle (I1 & I2 & I3 & I4)]; [easy|].
  destruct (fuel_enough g) as (J1 & J2 & J3 & J4). repeat split; intros.
  - rewrite J1 by (easy || lia). now apply I1.
  - rewrite J2 by (easy || lia). now apply I2.
  - rewrite J3 by (easy || lia). now apply I3.
  - rewrite J4 by (easy || lia). now apply I4.
Qed.

(* the evaluator with enough fuel *)
Definition Expr (v : pval) (l : list str) := expr (4 * size l + 2) v l.
Definition Alts (v : pval) (l : list str) := alternatives (4 * size l + 3) v l.
Definition Step (s : stream) (l : list str) := step (4 * size l + 1) s l.
Definition Find (v : pval) (p : str) : stream := iterfind (4 * length p + 4) v p.

Theorem findall_eq v p : findall ix vfuel v p = collect (Find v p).
Proof.
  unfold findall, Find, fuel_of. fold (collect (iterfind (4 * length p + 5) v p)). f_equal.
  apply (fuel_more (4 * length p + 4) (4 * length p + 5)); lia.
Qed.
Theorem find_eq v p : find ix vfuel v p =
  match Find v p with (x :: _, _) => Ok (Some x) | ([], None) => Ok None | ([], Some e) => Err e end.
Proof.
  unfold find, Find, fuel_of.
  now rewrite (proj2 (proj2 (proj2 (fuel_more (4 * length p + 4) (4 * length p + 5) ltac:(lia)))) v p).
Qed.

Definition FA (v : pval) (p : str) : res (list pval) := collect (Find v p).

Lemma Find_body v p : Find v p = find_body Expr v p.
Proof.
  unfold Find. rewrite Nat.add_succ_r, find_S. unfold find_body.
  destruct (endswith (L "/") p); [easy|]. pose proof (tokenize_ok p) as [H1 H2].
  destruct (tokenize p) as [|t r] eqn:E; [easy|]. rewrite <- E in *. unfold Expr. f_equal. apply fuel_more; [lia|easy|lia].
Qed.
Lemma Expr_body v l : toks_ok l -> Expr v l = expr_body Alts Step v l.
Proof.
  intros Hok. unfold Expr. rewrite Nat.add_succ_r, expr_S. destruct l as [|t r]; [easy|].
  destruct (ok_cons _ _ Hok) as [Ht Hr]. unfold expr_body.
  rewrite (disjunction_ext _ Alts). 2:{ intros w. unfold Alts. apply fuel_more; rewrite ?size_cons; (easy || lia). }
  destruct (str_eqb t (L "(")); [easy|]. unfold Step.
  destruct (is_slash t); [destruct (get_corpus v); [|easy]; destruct (str_eqb t (L "/"))|];
    apply fuel_more; rewrite ?size_cons; (easy || lia).
Qed.
Lemma Alts_body v l : toks_ok l -> Alts v l = alts_body Expr Alts v l.
Proof.
  intros Hok. unfold Alts at 1. rewrite Nat.add_succ_r, alts_S. unfold alts_body. unfold Expr.
  pose proof (proj1 (leftover (4 * size l + 2)) v l) as Hl.
  destruct (expr (4 * size l + 2) v l) as [[m [e|]] [|t k]]; try easy. cbn in Hl.
  destruct (str_eqb t (L "|")); [|easy].
  pose proof (suffix_size _ _ Hl) as Hs. pose proof (suffix_ok _ _ Hl Hok) as Hk.
  destruct (ok_cons _ _ Hk) as [Ht Hk']. rewrite size_cons in Hs.
  unfold Alts. now rewrite (proj1 (proj2 (fuel_more (4 * size k + 3) (4 * size l + 2) ltac:(lia))) v k Hk' ltac:(lia)).
Qed.
Lemma Step_nil s : Step s [] = (s, []).
Proof. reflexivity. Qed.
Lemma Alts_suffix v l x r : Alts v l = Ok (x, r) -> suffix r l.
Proof. apply leftover. Qed.
Lemma Expr_suffix v l : suffix (snd (Expr v l)) l.
Proof. apply leftover. Qed.
Lemma Step_suffix s l : suffix (snd (Step s l)) l.
Proof. apply leftover. Qed.
Lemma Step_body s t r : toks_ok (t :: r) -> Step s (t :: r) = step_body Alts FA Step s t r.
Proof.
  intros Hok. destruct (ok_cons _ _ Hok) as [Ht Hr]. unfold Step at 1. rewrite Nat.add_succ_r, step_S. unfold step_body.
  rewrite Nat.add_0_r.
  rewrite (head_ext _ Alts). 2:{ intros w. unfold Alts. apply fuel_more; rewrite ?size_cons; (easy || lia). }
  destruct (head_eval Alts s t r) as [[s' r']|e] eqn:E; [|easy].
  apply head_suffix in E; [|intros; eapply Alts_suffix; eauto].
  pose proof (suffix_size _ _ E) as Hsz. pose proof (suffix_ok _ _ E Hr) as Hr'.
  rewrite (predicates_ext _ FA).
  2:{ intros v p Hp. unfold FA, Find. f_equal. apply fuel_more; rewrite ?size_cons; lia. }
  pose proof (predicates_suffix FA (length r') s' r') as Hp.
  destruct (predicates _ _ s' r') as [s'' r'']. cbn in Hp.
  pose proof (suffix_size _ _ Hp) as Hsz2. pose proof (suffix_ok _ _ Hp Hr') as Hr''.
  unfold continue. destruct r'' as [|t' r3]; [easy|]. destruct (ok_cons _ _ Hr'') as [Ht' Hr3].
  rewrite size_cons in Hsz2. unfold Step.
  destruct (is_slash t'); [|easy]. destruct (str_eqb t' (L "/")); apply fuel_more; rewrite ?size_cons; (easy || lia).
Qed.

End Fuel.
