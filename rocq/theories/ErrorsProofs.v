(* Proofs for PropErrors.v: which exceptions are raised. *)
From Verif Require Import PyStr PyStrFacts SpecRef Ref Model Attr Value Index XmlStd Xml Json Path SpecPath SpecErrors.
From Verif Require Container PathFuel PathLaws PathProofs PathTokenProofs.

Section PathErrors.
Context {U : Unicode}.
Variable ix : igt -> index.
Variable vfuel : nat.
Notation F := (findall ix vfuel).

(* ---------- paths ---------- *)

Lemma fuel5 p : exists f, fuel_of p = S (S (S (S (S f)))).
Proof. unfold fuel_of. exists (4 * length p). now rewrite Nat.add_comm. Qed.
Lemma sbind_one f v : sbind f ([v], None) = f v.
Proof. unfold sbind. cbn. destruct (f v) as [l [e|]]; now rewrite ?app_nil_r. Qed.
Definition ended (s : stream) : res (list pval) := match s with (l, None) => Ok l | (_, Some e) => Err e end.

Lemma one_head h v (s : stream) : wf (Path false [(h, [])]) ->
  (match head_toks h with t :: _ => str_eqb t (L "(") = false /\ is_slash t = false | [] => False end) ->
  (forall f t r, head_toks h = t :: r -> fst (step ix vfuel (S f) ([v], None) (t :: r)) = s) -> F v (show (Path false [(h, [])])) = ended s.
Proof.
  intros W Ht H. unfold findall. destruct (fuel5 (show (Path false [(h, [])]))) as [f ->]. rewrite PathFuel.find_S. unfold PathFuel.find_body.
  rewrite (PathProofs.show_end _ _ _ W), (PathTokenProofs.show_tokens _ _ _ W), PathTokenProofs.path_toks_eq.
  cbn [PathTokenProofs.steps_toks flat_map]. cbn [negb orb]. rewrite andb_false_r. cbn [slash_if app]. rewrite app_nil_r.
  destruct (head_toks h) as [|t r]; [easy|]. destruct Ht as [H1 H2]. rewrite PathFuel.expr_S. unfold PathFuel.expr_body.
  rewrite H1, H2, (H _ t r eq_refl). unfold ended. destruct s as [l [e|]]; reflexivity.
Qed.
Lemma up_wf : wf (Path false [(HUp, [])]).
Proof. cbn. repeat split; try easy; intros; congruence. Qed.
Lemma call_wf f : keyword f -> wf (Path false [(HCall f None, [])]).
Proof. intros H. cbn. repeat split; try easy; intros; congruence. Qed.

Lemma up_eq v : F v (L "..") = ended (parent v).
Proof.
  change (L "..") with (show (Path false [(HUp, [])])). apply one_head; [apply up_wf|easy|].
  intros f t r [= <- <-]. rewrite PathFuel.step_S. now rewrite <- (sbind_one parent v).
Qed.
Lemma call_eq f v : keyword f -> F v (f ++ L "()") = ended (function ix vfuel v f []).
Proof.
  intros H. replace (f ++ L "()") with (show (Path false [(HCall f None, [])])) by (unfold show; cbn; now rewrite ?app_nil_r).
  apply one_head; [now apply call_wf|destruct H as [->|[->|[->| ->]]]; easy|].
  intros n t r [= <- <-]. rewrite PathFuel.step_S, <- (sbind_one (fun v => function ix vfuel v f []) v).
  destruct H as [->|[->|[->| ->]]]; reflexivity.
Qed.

Theorem parent_exact :
  (forall o p up, F (VNode {| n_obj := o; n_up := p :: up |}) (L "..") = Ok [VNode {| n_obj := p; n_up := up |}])
  /\ (forall c, F (VNode {| n_obj := PCorpus c; n_up := [] |}) (L "..") = Err AttributeError)
  /\ (forall m, F (VNode {| n_obj := PMetadata m; n_up := [] |}) (L "..") = Err AttributeError)
  /\ (forall o, (forall c, o <> PCorpus c) -> (forall m, o <> PMetadata m) ->
        F (VNode {| n_obj := o; n_up := [] |}) (L "..") = Ok [VNone])
  /\ (forall v, (forall n, v <> VNode n) -> F v (L "..") = Err AttributeError).
Proof.
  repeat split; intros; rewrite up_eq; try reflexivity.
  - destruct o; try reflexivity; [now destruct (H c)|now destruct (H0 m)].
  - destruct v; try reflexivity. now destruct (H n).
Qed.
Theorem text_exact :
  (forall i up, F (VNode {| n_obj := PItem i; n_up := up |}) (L "text()")
     = Ok [match it_text i with Some s => VStr s | None => VNone end])
  /\ (forall m up, F (VNode {| n_obj := PMeta m; n_up := up |}) (L "text()")
     = Ok [match me_text m with Some s => VStr s | None => VNone end])
  /\ (forall n a t k up, F (VNode {| n_obj := PChild (MChild n a t k); n_up := up |}) (L "text()")
     = Ok [match t with Some s => VStr s | None => VNone end])
  /\ (forall m up, F (VNode {| n_obj := PMetadata m; n_up := up |}) (L "text()")
     = Ok [VList (map (fun x => {| n_obj := PMeta x; n_up := PMetadata m :: up |}) (md_metas m))])
  /\ (forall v, ~ has_text v -> F v (L "text()") = Err AttributeError).
Proof.
  assert (K : keyword (L "text")) by now left.
  change (L "text()") with (L "text" ++ L "()").
  repeat split; intros; rewrite call_eq by easy; unfold function; cbn [str_eqb]; try reflexivity.
  - cbn. unfold child_of. cbn. now rewrite map_map.
  - destruct v as [n| | |]; try reflexivity. destruct n as [[] up]; try reflexivity; now destruct H.
Qed.
Theorem value_exact :
  (forall i up x, value vfuel (match up with PTier _ :: PIgt g :: _ => Some g | _ => None end)
                        (match up with PTier t :: _ => Some t | _ => None end) i value_refattrs = x ->
     F (VNode {| n_obj := PItem i; n_up := up |}) (L "value()")
     = match x with Ok (Some s) => Ok [VStr s] | Ok None => Ok [VNone] | Err e => Err e end)
  /\ (forall v, (forall i up, v <> VNode {| n_obj := PItem i; n_up := up |}) -> F v (L "value()") = Err AttributeError).
Proof.
  assert (K : keyword (L "value")) by (right; now left).
  change (L "value()") with (L "value" ++ L "()").
  split; intros.
  - rewrite call_eq by easy. subst x.
    change (function ix vfuel (VNode {| n_obj := PItem i; n_up := up |}) (L "value") [])
      with (of_res (do x <- value_of_val vfuel (VNode {| n_obj := PItem i; n_up := up |}); Ok [x])).
    unfold value_of_val. cbn [n_obj n_up]. destruct (value _ _ _ _ _) as [[s|]|]; reflexivity.
  - rewrite call_eq by easy. destruct v as [n| | |]; try reflexivity. destruct n as [[] up]; try reflexivity. now destruct (H i up).
Qed.
Theorem refs_exact f : f = L "referent" \/ f = L "referrer" ->
  (forall v, ~ within_igt v -> F v (f ++ L "()") = Err AttributeError)
  /\ (forall n, within_igt (VNode n) -> a_id (attrs_of (n_obj n)) = None -> F (VNode n) (f ++ L "()") = Err TypeError).
Proof.
  intros Hf. assert (K : keyword f) by (destruct Hf as [->| ->]; unfold keyword; auto).
  assert (E : forall v, exists d, function ix vfuel v f [] = find_refs ix d v None).
  { intros v. destruct Hf as [->| ->]; eexists; reflexivity. }
  split.
  - intros v H. rewrite call_eq by easy. destruct (E v) as [d ->]. unfold find_refs.
    destruct v as [n| | |]; try reflexivity. cbn in H. unfold igt_of.
    destruct n as [[] [|[] [|[] up]]]; cbn in *; try reflexivity; now destruct H.
  - intros n H Hi. rewrite call_eq by easy. destruct (E (VNode n)) as [d ->]. unfold find_refs. rewrite Hi. cbn in H.
    unfold igt_of. destruct n as [[] [|[] [|[] up]]]; cbn in *; try reflexivity; now destruct H.
Qed.
Lemma climb_err o up : Forall (fun o => match o with PCorpus _ => False | _ => True end) (o :: up) -> climb o up = Err AttributeError.
Proof. revert o. induction up as [|o' up IH]; intros o H; inversion H; subst; destruct o; cbn; auto; easy. Qed.
Theorem absolute_exact ss : wf (Path true ss) ->
  (forall n, Forall (fun o => match o with PCorpus _ => False | _ => True end) (n_obj n :: n_up n) ->
     F (VNode n) (show (Path true ss)) = Err AttributeError)
  /\ (forall v, (forall n, v <> VNode n) -> F v (show (Path true ss)) = Err AttributeError).
Proof.
  intros W. assert (E : forall v, get_corpus v = Err AttributeError -> F v (show (Path true ss)) = Err AttributeError).
  { intros v Hv. unfold findall. destruct (fuel5 (show (Path true ss))) as [f ->]. rewrite PathFuel.find_S. unfold PathFuel.find_body.
    rewrite (PathProofs.show_end _ _ _ W), (PathTokenProofs.show_tokens _ _ _ W), PathTokenProofs.path_toks_eq.
    destruct ss as [|[h ps] ss]; [cbn in W; easy|]. cbn [PathTokenProofs.steps_toks]. cbn [orb]. rewrite andb_true_r.
    destruct h; cbn [is_desc negb slash_if app head_toks]; rewrite PathFuel.expr_S; unfold PathFuel.expr_body; rewrite Hv; reflexivity. }
  split.
  - intros n H. apply E. now apply climb_err.
  - intros v H. apply E. destruct v; try reflexivity. now destruct (H n).
Qed.
(* a predicate that is not closed *)
Theorem unclosed_exact p r v : endswith (L "/") p = false -> tokenize p = L "." :: L "[" :: r ->
  (forall t, In t r -> t <> L "]" /\ t <> L "=" /\ t <> L "!=") -> F v p = Err IndexError.
Proof.
  intros He Et Hr. assert (Hs : take_sub r = None).
  { clear Et. induction r as [|t r IH]; [reflexivity|]. cbn [take_sub existsb].
    destruct (Hr t (or_introl eq_refl)) as (A & B & C).
    rewrite (proj2 (str_eqb_neq t (L "]"))), (proj2 (str_eqb_neq t (L "="))), (proj2 (str_eqb_neq t (L "!="))) by easy. cbn.
    rewrite IH; [easy|]. intros x Hx. apply Hr. now right. }
  unfold findall. destruct (fuel5 p) as [f ->]. rewrite PathFuel.find_S. unfold PathFuel.find_body. rewrite He, Et.
  rewrite PathFuel.expr_S. change (PathFuel.expr_body (alternatives ix vfuel (S (S (S f)))) (step ix vfuel (S (S (S f)))) v (L "." :: L "[" :: r))
    with (step ix vfuel (S (S (S f))) ([v], None) (L "." :: L "[" :: r)).
  rewrite PathFuel.step_S. unfold PathFuel.step_body, PathFuel.head_eval.
  change (str_eqb (L ".") (L "(")) with false. change (str_eqb (L ".") (L "//")) with false.
  change (str_eqb (L ".") (L "@")) with false. change (str_eqb (L ".") (L "..")) with false. change (str_eqb (L ".") (L ".")) with true.
  cbn iota. cbn [length predicates]. change (str_eqb (L "[") (L "[")) with true. unfold make_predicate. rewrite Hs. reflexivity.
Qed.
End PathErrors.
