(* Laws of the operations of xigt/ref.py on well-formed expressions. *)
From Verif Require Import PyStr PyStrFacts Regex RegexFacts Ref SpecRef RefMatch RefProofs.

Section P.
Context {U : Unicode}.

(* ---------- ids ---------- *)

Definition noletter (s : str) := Forall (fun c => is_letter c = false) s.

Lemma num_noletter a : num_shape a -> noletter a.
Proof.
  intros (sg & t & -> & Hsg & Ht & Hf). apply Forall_app; split.
  - destruct Hsg as [->| ->]; [constructor|]. repeat constructor.
  - eapply Forall_impl; [|exact Hf]. intros c [->|Hc]; [reflexivity|].
    destruct (is_letter c) eqn:E; [|easy]. apply is_letter_digit in E. congruence.
Qed.

Lemma delims_noletter d : Forall delim_char d -> noletter d.
Proof. intros H. eapply Forall_impl; [|exact H]. intros; now apply dc_letter. Qed.

Lemma range_noletter tight first l : wf_spans tight first l -> noletter (show_range l).
Proof.
  revert first; induction l as [|s l IH]; intros first; cbn; [constructor|].
  intros [(Hd & Ha & Hb) Hl]. apply Forall_app; split; [|eapply IH; eauto].
  unfold show_span. apply Forall_app; split; [|apply Forall_app; split; [|apply Forall_app; split]].
  - destruct first; [rewrite Hd; constructor|]. now apply delims_noletter.
  - now apply num_noletter.
  - repeat constructor.
  - now apply num_noletter.
Qed.

Lemma tail_noletter tight l : wf_spans tight true l -> noletter (show_tail l).
Proof.
  intros H. destruct l as [|s l]; [constructor|]. unfold show_tail.
  apply Forall_app; split; [repeat constructor|]. apply Forall_app; split; [|repeat constructor].
  eapply range_noletter; eauto.
Qed.

Lemma id_tokens_prefix g s l : noletter g -> id_tokens s l -> id_tokens (g ++ s) l.
Proof.
  intros Hg H. inversion H; subst.
  - constructor. now apply Forall_app.
  - rewrite app_assoc. constructor; auto. now apply Forall_app.
Qed.

Lemma show_tokens tight first e : wf_sels tight first e -> id_tokens (show e) (expr_ids e).
Proof.
  revert first; induction e as [|s e IH]; intros first Hwf.
  - constructor. constructor.
  - cbn in Hwf. destruct Hwf as [(Hd & Hi & Hl) He]. cbn [show flat_map expr_ids map].
    fold (show e). rewrite show_sel_eq, <- !app_assoc. constructor.
    + destruct first; [rewrite Hd; constructor|]. now apply delims_noletter.
    + easy.
    + apply tail_not_id. eapply show_follow; eauto.
    + apply id_tokens_prefix; [eapply tail_noletter; eauto|]. eapply IH; eauto.
Qed.

Theorem ids_show e : wf_loose e -> ids (show e) = expr_ids e.
Proof.
  intros H. eapply id_tokens_unique; [apply ids_tokens|]. eapply show_tokens; exact H.
Qed.

(* an id on its own *)
Lemma ids_single i : id_shape i -> ids i = [i].
Proof.
  intros Hi. eapply id_tokens_unique; [apply ids_tokens|].
  replace i with ([] ++ i ++ []) at 1 by apply app_nil_r.
  constructor; auto; constructor; constructor.
Qed.

Lemma ids_shape_iff i : ids i = [i] <-> id_shape i.
Proof.
  split; [|apply ids_single]. intros H. assert (Ht := ids_tokens i). rewrite H in Ht.
  apply id_tokens_shape in Ht. now inversion Ht.
Qed.

(* ---------- selections ---------- *)

Lemma id_shape_ne i : id_shape i -> str_eqb i [] = false.
Proof. intros (c & t & -> & _). reflexivity. Qed.

Lemma show_range_ne s l : str_eqb (show_range (s :: l)) [] = false.
Proof.
  apply str_eqb_neq. cbn. unfold show_span. intros H. apply app_eq_nil in H as [H _].
  apply app_eq_nil in H as [_ H]. apply app_eq_nil in H as [_ H]. discriminate.
Qed.

Lemma selection_tokens_show tight first keep s : wf_sel tight first s ->
  selection_tokens keep (sl_delim s, sl_id s, show_range (sl_spans s)) =
  (if keep then match sl_delim s with [] => [] | d => [d] end else []) ++ [show_sel s].
Proof.
  intros (_ & Hi & _). unfold selection_tokens, show_sel.
  rewrite (id_shape_ne _ Hi).
  destruct (sl_spans s) as [|sp l].
  - cbn. rewrite app_nil_r. destruct keep, (sl_delim s); reflexivity.
  - rewrite show_range_ne. destruct keep, (sl_delim s); reflexivity.
Qed.

Lemma flat_map_ext_in {A B C} (f : A -> B) (g : B -> list C) (h : A -> list C) l :
  Forall (fun a => g (f a) = h a) l -> flat_map g (map f l) = flat_map h l.
Proof. induction 1 as [|a l E H IH]; cbn; [easy|]. now rewrite E, IH. Qed.

Lemma wf_sels_forall tight first e : wf_sels tight first e ->
  Forall (fun s => exists f, wf_sel tight f s) e.
Proof.
  revert first; induction e as [|s e IH]; intros first; [constructor|].
  intros [Hs He]. constructor; [eauto|]. eapply IH; eauto.
Qed.

Theorem selections_show e keep : wf e -> selections (show e) keep = expr_selections keep e.
Proof.
  intros Hwf. unfold selections, expr_selections.
  destruct e as [|s e]; [destruct keep; reflexivity|].
  rewrite findall3_robust by easy. apply flat_map_ext_in.
  eapply Forall_impl; [|eapply wf_sels_forall; exact Hwf].
  intros a (f & Ha). eapply selection_tokens_show; exact Ha.
Qed.

(* ---------- expand ---------- *)

Lemma last_str_tight tight s : tight = true -> wf_span tight false s -> last_str (sp_delim s) = sp_delim s.
Proof.
  intros -> ((Hn & _ & Hl) & _). specialize (Hl eq_refl).
  destruct (sp_delim s) as [|c [|? ?]]; easy.
Qed.

Lemma last_str_spans first l : wf_spans true first l ->
  map (fun s => (last_str (sp_delim s), sp_start s, sp_end s)) l =
  map (fun s => (sp_delim s, sp_start s, sp_end s)) l.
Proof.
  revert first; induction l as [|s l IH]; intros first; [easy|]. intros [Hs Hl]. cbn. f_equal.
  - destruct first; [destruct Hs as (-> & _); reflexivity|].
    now rewrite (last_str_tight true).
  - eapply IH; eauto.
Qed.

Lemma show_single d i a b :
  show [{| sl_delim := d; sl_id := i; sl_spans := [{| sp_delim := []; sp_start := a; sp_end := b |}] |}]
  = fmt_span d i a b.
Proof.
  unfold show, show_sel, show_range, show_span, fmt_span. cbn [flat_map sl_delim sl_id sl_spans sp_delim sp_start sp_end app].
  rewrite !app_nil_r, <- !app_assoc. reflexivity.
Qed.

Lemma show_app e e' : show (e ++ e') = show e ++ show e'.
Proof. apply flat_map_app. Qed.

Lemma show_cons s e : show (s :: e) = show [s] ++ show e.
Proof. cbn. now rewrite app_nil_r. Qed.

Lemma concat_map_single {A} (f : A -> str) (g : A -> sel) l :
  (forall a, f a = show [g a]) -> List.concat (map f l) = show (map g l).
Proof.
  intros H. induction l as [|a l IH]; [easy|]. cbn [map List.concat].
  rewrite show_cons, H, IH. reflexivity.
Qed.

Lemma expand_tokens_show s : (exists f, wf_sel true f s) ->
  List.concat (expand_tokens (sl_delim s, sl_id s, show_range (sl_spans s))) = show (expand_sel s).
Proof.
  intros (f & _ & _ & Hl). unfold expand_tokens, expand_sel.
  destruct (sl_spans s) as [|sp l] eqn:E.
  - cbn. unfold show_sel. rewrite E. now rewrite !app_nil_r.
  - assert (Hne := show_range_ne sp l).
    destruct (show_range (sp :: l)) as [|c0 t0] eqn:Er; [discriminate|]. rewrite <- Er. clear c0 t0 Er Hne.
    rewrite (findall3_spans true) by easy. rewrite (last_str_spans true) by easy.
    rewrite map_map. cbn [map List.concat]. rewrite show_cons, show_single.
    destruct Hl as [(Hd & _) Hl]. rewrite Hd.
    rewrite app_assoc. f_equal.
    apply concat_map_single. intros a. now rewrite show_single.
Qed.

Theorem expand_show e : wf e -> expand (show e) = show (expand_expr e).
Proof.
  intros Hwf. unfold expand, expand_expr.
  destruct e as [|s0 e0]; [reflexivity|]. remember (s0 :: e0) as e.
  rewrite findall3_robust by (subst; easy). apply wf_sels_forall in Hwf. clear Heqe.
  induction Hwf as [|s e Hs He IH]; [reflexivity|].
  cbn [map flat_map]. rewrite concat_app, show_app, IH, expand_tokens_show by easy. reflexivity.
Qed.

Lemma wf_expand_map i l : id_shape i -> wf_spans true false l ->
  wf_sels true false
    (map (fun sp' => {| sl_delim := sp_delim sp'; sl_id := i;
             sl_spans := [{| sp_delim := []; sp_start := sp_start sp'; sp_end := sp_end sp' |}] |}) l).
Proof.
  intros Hi. induction l as [|s l IH]; [easy|]. intros [((Hn & Hf & _) & Ha & Hb) Hl]. cbn.
  split; [|auto]. unfold wf_sel. cbn. split; [auto|]. split; [auto|]. split; [|auto].
  unfold wf_span. cbn. auto.
Qed.

Lemma wf_sels_app tight first e e' : wf_sels tight first e -> wf_sels tight false e' ->
  (e = [] -> first = false) -> wf_sels tight first (e ++ e').
Proof.
  revert first; induction e as [|s e IH]; intros first H H' Hf.
  - cbn. now rewrite Hf.
  - destruct H as [Hs He]. cbn. split; [auto|]. apply IH; auto.
Qed.

Lemma wf_expand_sel first s : wf_sel true first s -> wf_sels true first (expand_sel s).
Proof.
  intros (Hd & Hi & Hl). unfold expand_sel. destruct (sl_spans s) as [|sp l] eqn:E.
  - cbn. split; [|auto]. unfold wf_sel. now rewrite E.
  - destruct Hl as [(_ & Ha & Hb) Hl]. cbn [wf_sels]. split.
    + unfold wf_sel. cbn. repeat split; auto.
    + now apply wf_expand_map.
Qed.

Lemma expand_sel_ne s : expand_sel s <> [].
Proof. unfold expand_sel. now destruct (sl_spans s). Qed.

Theorem wf_expand e : wf e -> wf (expand_expr e).
Proof.
  unfold wf. generalize true at 2 4 as first. induction e as [|s e IH]; intros first; [easy|].
  intros [Hs He]. unfold expand_expr. cbn [flat_map]. fold (expand_expr e).
  apply wf_sels_app; [now apply wf_expand_sel|now apply IH|]. intros E. now apply expand_sel_ne in E.
Qed.

Lemma expand_sel_single s : Forall (fun s' => expand_sel s' = [s']) (expand_sel s) \/ ~ wf_spans true true (sl_spans s).
Proof.
  left. unfold expand_sel at 2. destruct (sl_spans s) as [|sp l] eqn:E.
  - constructor; [|constructor]. unfold expand_sel. now rewrite E.
  - constructor; [reflexivity|]. apply Forall_map. apply Forall_forall. reflexivity.
Qed.

Lemma expand_expr_singles e : Forall (fun s' => expand_sel s' = [s']) (expand_expr e).
Proof.
  unfold expand_expr. induction e as [|s e IH]; cbn; [constructor|]. apply Forall_app. split; [|auto].
  unfold expand_sel at 2. destruct (sl_spans s) as [|sp l] eqn:E.
  - constructor; [|constructor]. unfold expand_sel. now rewrite E.
  - constructor; [reflexivity|]. apply Forall_map. apply Forall_forall. reflexivity.
Qed.

Lemma expand_expr_idem e : expand_expr (expand_expr e) = expand_expr e.
Proof.
  assert (H := expand_expr_singles e). induction H as [|s l Hs Hl IH]; [easy|].
  change (expand_expr (s :: l)) with (expand_sel s ++ expand_expr l). now rewrite Hs, IH.
Qed.

Theorem expand_idempotent e : wf e -> expand (expand (show e)) = expand (show e).
Proof.
  intros H. rewrite (expand_show e) by easy. rewrite expand_show by now apply wf_expand.
  now rewrite expand_expr_idem.
Qed.

Theorem spans_show e keep : wf e -> spans (show e) keep = expr_selections keep (expand_expr e).
Proof.
  intros H. unfold spans. rewrite expand_show by easy. apply selections_show. now apply wf_expand.
Qed.

(* after expansion no selection has more than one span *)
Lemma expand_expr_one e : Forall (fun s => length (sl_spans s) <= 1) (expand_expr e).
Proof.
  unfold expand_expr. induction e as [|s e IH]; cbn; [constructor|]. apply Forall_app. split; [|auto].
  unfold expand_sel. destruct (sl_spans s) as [|sp l] eqn:E.
  - constructor; [|constructor]. rewrite E. cbn. lia.
  - constructor; [cbn; lia|]. apply Forall_map. apply Forall_forall. intros; cbn; lia.
Qed.

(* ---------- compress ---------- *)

(* compress as it proceeds: [open = Some i] while inside i[... *)
Fixpoint comp (open : option str) (e : expr) : str :=
  match e with
  | [] => match open with Some _ => L "]" | None => [] end
  | s :: e' =>
    match sl_spans s with
    | [] => (match open with Some _ => L "]" | None => [] end) ++ sl_delim s ++ sl_id s ++ comp None e'
    | l => if opt_eqb str_eqb (Some (sl_id s)) open
           then sl_delim s ++ show_range l ++ comp open e'
           else (match open with Some _ => L "]" | None => [] end)
                ++ sl_delim s ++ sl_id s ++ L "[" ++ show_range l ++ comp (Some (sl_id s)) e'
    end
  end.

Definition fin (st : list str * list str * option str) : str :=
  let '(tokens, selection, _) := st in
  List.concat (match selection with [] => tokens | _ => tokens ++ selection ++ [L "]"] end).

Lemma compress_fold e : forall tokens selection last,
  (selection = [] <-> last = None) ->
  fin (fold_left compress_step (map (fun s => (sl_delim s, sl_id s, show_range (sl_spans s))) e)
        (tokens, selection, last))
  = List.concat tokens ++ List.concat selection ++ comp last e.
Proof.
  induction e as [|s e IH]; intros tokens selection last0 Hsl; cbn [map fold_left comp].
  - unfold fin. destruct selection as [|x xs], last0 as [i|].
    + exfalso. destruct Hsl as [H _]. now specialize (H eq_refl).
    + cbn. now rewrite app_nil_r.
    + rewrite !concat_app. cbn. now rewrite !app_nil_r.
    + exfalso. destruct Hsl as [_ H]. now specialize (H eq_refl).
  - unfold compress_step at 2. destruct (sl_spans s) as [|sp l] eqn:E.
    + cbn [show_range flat_map str_eqb negb andb]. rewrite IH by easy.
      destruct selection as [|x xs], last0 as [i|]; rewrite ?concat_app; cbn [List.concat]; rewrite ?app_nil_r, <- ?app_assoc; try reflexivity.
      * exfalso. destruct Hsl as [H _]. now specialize (H eq_refl).
      * exfalso. destruct Hsl as [_ H]. now specialize (H eq_refl).
    + rewrite show_range_ne. cbn [negb andb].
      destruct (opt_eqb str_eqb (Some (sl_id s)) last0) eqn:El.
      * rewrite IH.
        -- rewrite concat_app. cbn [List.concat]. rewrite ?app_nil_r, <- ?app_assoc. reflexivity.
        -- destruct last0; [|easy]. split; [|easy]. now destruct selection.
      * rewrite IH by easy.
        destruct selection as [|x xs], last0 as [i|]; rewrite ?concat_app; cbn [List.concat]; rewrite ?app_nil_r, <- ?app_assoc; try reflexivity.
        -- exfalso. destruct Hsl as [H _]. now specialize (H eq_refl).
        -- exfalso. destruct Hsl as [_ H]. now specialize (H eq_refl).
Qed.

Lemma compress_comp e : wf e -> compress (show e) = comp None e.
Proof.
  intros Hwf. unfold compress. destruct e as [|s0 e0]; [reflexivity|].
  rewrite findall3_robust by easy. apply (compress_fold (s0 :: e0) [] [] None). easy.
Qed.

(* compress_expr keeps the head's delimiter and id, and whether it has spans *)
Lemma compress_head s e : exists l r,
  compress_expr (s :: e) = {| sl_delim := sl_delim s; sl_id := sl_id s; sl_spans := l |} :: r
  /\ (sl_spans s = [] -> l = []) /\ (sl_spans s <> [] -> l <> []).
Proof.
  assert (Hs : s = {| sl_delim := sl_delim s; sl_id := sl_id s; sl_spans := sl_spans s |}) by now destruct s.
  cbn. destruct (compress_expr e) as [|s' r].
  - exists (sl_spans s), []. rewrite <- Hs. auto.
  - destruct (sl_spans s) as [|sp l] eqn:E.
    + exists [], (s' :: r). rewrite <- Hs. auto.
    + destruct (sl_spans s') as [|sp' l'].
      * exists (sp :: l), (s' :: r). rewrite <- Hs. auto.
      * destruct (str_eqb (sl_id s) (sl_id s')).
        -- eexists _, _. split; [reflexivity|]. split; easy.
        -- exists (sp :: l), (s' :: r). rewrite <- Hs. auto.
Qed.

Definition first_delim_nil (s : sel) : Prop :=
  match sl_spans s with [] => True | sp :: _ => sp_delim sp = [] end.

Lemma compress_first e : Forall first_delim_nil e -> Forall first_delim_nil (compress_expr e).
Proof.
  induction 1 as [|s e Hs He IH]; [constructor|]. cbn.
  destruct (compress_expr e) as [|s' r]; [repeat constructor; auto|].
  inversion IH; subst.
  destruct (sl_spans s) as [|sp l] eqn:E; [constructor; auto|].
  destruct (sl_spans s') as [|sp' l']; [constructor; auto|].
  destruct (str_eqb (sl_id s) (sl_id s')); [|constructor; auto].
  constructor; [|auto]. unfold first_delim_nil in *. cbn. now rewrite E in Hs.
Qed.

Lemma show_range_app l l' : show_range (l ++ l') = show_range l ++ show_range l'.
Proof. apply flat_map_app. Qed.

Lemma comp_show e : Forall first_delim_nil e ->
  comp None e = show (compress_expr e) /\
  forall i, comp (Some i) e =
    match compress_expr e with
    | s :: r => match sl_spans s with
                | _ :: _ => if str_eqb i (sl_id s)
                            then sl_delim s ++ show_range (sl_spans s) ++ L "]" ++ show r
                            else L "]" ++ show (compress_expr e)
                | [] => L "]" ++ show (compress_expr e)
                end
    | [] => L "]"
    end.
Proof.
  induction 1 as [|s e Hs He [IH0 IH1]].
  - split; reflexivity.
  - destruct (compress_head s e) as (l & r & Ec & Hl0 & Hl1).
    (* text of the head selection, once opened *)
    assert (Hopen : sl_spans s <> [] ->
       show_range (sl_spans s) ++ comp (Some (sl_id s)) e = show_range l ++ L "]" ++ show r).
    { intros Hne. rewrite IH1. cbn in Ec.
      assert (Hce := compress_first e He).
      destruct (compress_expr e) as [|s' r'].
      - injection Ec as Es <-. rewrite Es. cbn. now rewrite ?app_nil_r.
      - destruct (sl_spans s) as [|sp0 l0] eqn:Esp; [easy|].
        destruct (sl_spans s') as [|sp' l'] eqn:Esp'.
        + injection Ec as Es <-. assert (l = sp0 :: l0) as -> by (now rewrite Es in Esp). reflexivity.
        + destruct (str_eqb (sl_id s) (sl_id s')).
          * injection Ec as <- <-. change (sp0 :: l0 ++ ?x) with ((sp0 :: l0) ++ x).
            rewrite show_range_app, <- app_assoc. f_equal.
            inversion Hce as [|? ? Hs' _]; subst. unfold first_delim_nil in Hs'. rewrite Esp' in Hs'.
            cbn. unfold show_span. cbn. rewrite Hs', app_nil_r, <- !app_assoc. reflexivity.
          * injection Ec as Es <-. assert (l = sp0 :: l0) as -> by (now rewrite Es in Esp). reflexivity. }
    assert (Hclosed : sl_spans s = [] -> r = compress_expr e).
    { intros E. cbn in Ec. rewrite E in Ec. destruct (compress_expr e); now injection Ec. }
    split.
    + rewrite Ec. cbn [comp]. rewrite show_cons. unfold show at 1, show_sel. cbn [flat_map sl_spans sl_delim sl_id].
      rewrite app_nil_r.
      destruct (sl_spans s) as [|sp0 l0] eqn:Esp.
      * rewrite (Hl0 eq_refl), (Hclosed eq_refl), IH0. cbn. now rewrite app_nil_r, <- app_assoc.
      * cbn [opt_eqb app]. rewrite Hopen by easy.
        destruct l as [|sp1 l1]; [exfalso; now apply Hl1|]. rewrite <- !app_assoc. reflexivity.
    + intros i. rewrite Ec. cbn [comp]. cbn [sl_spans sl_id sl_delim].
      rewrite show_cons. unfold show at 2, show_sel.
      destruct (sl_spans s) as [|sp0 l0] eqn:Esp.
      * rewrite (Hl0 eq_refl), (Hclosed eq_refl), IH0. cbn. now rewrite !app_nil_r, <- !app_assoc.
      * destruct l as [|sp1 l1]; [exfalso; now apply Hl1|].
        cbn [opt_eqb]. rewrite (str_eqb_sym (sl_id s) i).
        destruct (str_eqb_spec i (sl_id s)) as [->|Hne].
        -- rewrite Hopen by easy. reflexivity.
        -- rewrite Hopen by easy.
           unfold show at 2. cbn [flat_map]. unfold show_sel. cbn [sl_delim sl_spans sl_id]. rewrite ?app_nil_r, <- ?app_assoc. reflexivity.
Qed.

Lemma wf_first_nil tight first e : wf_sels tight first e -> Forall first_delim_nil e.
Proof.
  intros H. eapply Forall_impl; [|eapply wf_sels_forall; exact H].
  intros s (f & _ & _ & Hl). unfold first_delim_nil. destruct (sl_spans s); [easy|].
  destruct Hl as [(Hd & _) _]. exact Hd.
Qed.

Theorem compress_show e : wf e -> compress (show e) = show (compress_expr e).
Proof.
  intros H. rewrite compress_comp by easy. apply comp_show. eapply wf_first_nil; exact H.
Qed.

(* ---------- laws between expand and compress ---------- *)

Lemma compress_cons s e :
  compress_expr (s :: e) =
  match compress_expr e with
  | s' :: r =>
    match sl_spans s, sl_spans s' with
    | _ :: _, _ :: _ =>
      if str_eqb (sl_id s) (sl_id s')
      then {| sl_delim := sl_delim s; sl_id := sl_id s;
              sl_spans := sl_spans s ++ with_delim (sl_delim s') (sl_spans s') |} :: r
      else s :: s' :: r
    | _, _ => s :: s' :: r
    end
  | [] => [s]
  end.
Proof. reflexivity. Qed.

Lemma compress_compressed e : compressed (compress_expr e).
Proof.
  induction e as [|s e IH]; [exact I|]. rewrite compress_cons.
  destruct (compress_expr e) as [|s' r]; [exact I|].
  destruct (sl_spans s) as [|sp l] eqn:Es.
  - split; [|exact IH]. intros (H & _). now rewrite Es in H.
  - destruct (sl_spans s') as [|sp' l'] eqn:Es'.
    + split; [|exact IH]. intros (_ & H & _). now rewrite Es' in H.
    + destruct (str_eqb_spec (sl_id s) (sl_id s')) as [E|E].
      * destruct r as [|s'' r]; [exact I|]. destruct IH as [H IH]. split; [|exact IH].
        cbn. intros (_ & H1 & H2). apply H. rewrite Es'. repeat split; [easy|auto|congruence].
      * split; [|exact IH]. tauto.
Qed.

Lemma compressed_fix e : compressed e -> compress_expr e = e.
Proof.
  induction e as [|s e IH]; [easy|]. intros H. rewrite compress_cons.
  destruct e as [|s' e]; [reflexivity|]. destruct H as [H He]. rewrite (IH He).
  destruct (sl_spans s) eqn:Es; [easy|]. destruct (sl_spans s') eqn:Es'; [easy|].
  destruct (str_eqb_spec (sl_id s) (sl_id s')) as [E|E]; [|easy].
  exfalso. apply H. rewrite ?Es, ?Es'; repeat split; easy.
Qed.

Lemma compress_expr_idem e : compress_expr (compress_expr e) = compress_expr e.
Proof. apply compressed_fix, compress_compressed. Qed.

(* prefixing a run of single-span selections on one id *)
Definition one (i : str) (sp : span) : sel :=
  {| sl_delim := sp_delim sp; sl_id := i;
     sl_spans := [{| sp_delim := []; sp_start := sp_start sp; sp_end := sp_end sp |}] |}.

Lemma span_eta sp d : sp_delim sp = d -> sp = {| sp_delim := d; sp_start := sp_start sp; sp_end := sp_end sp |}.
Proof. destruct sp. cbn. now intros ->. Qed.

(* expanding then compressing the tail spans yields one selection holding them *)
Lemma compress_run i l : forall sp e,
  compress_expr (one i sp :: map (one i) l ++ e) =
  compress_expr ({| sl_delim := sp_delim sp; sl_id := i;
                    sl_spans := {| sp_delim := []; sp_start := sp_start sp; sp_end := sp_end sp |} :: l |} :: e).
Proof.
  induction l as [|sp' l IH]; intros sp e; [reflexivity|].
  cbn [map app]. rewrite compress_cons, IH, !compress_cons.
  cbn [sl_spans sl_id sl_delim].
  destruct (compress_expr e) as [|s r].
  - cbn. rewrite str_eqb_refl, app_nil_r. f_equal. f_equal. f_equal. f_equal. now destruct sp'.
  - destruct (sl_spans s) as [|sp2 l2] eqn:E2.
    + cbn. rewrite str_eqb_refl, app_nil_r. f_equal. f_equal. f_equal. f_equal. now destruct sp'.
    + destruct (str_eqb_spec i (sl_id s)) as [->|Hne].
      * cbn. rewrite str_eqb_refl. f_equal. f_equal. f_equal. rewrite app_nil_r. f_equal. now destruct sp'.
      * cbn. rewrite str_eqb_refl, app_nil_r. f_equal. f_equal. f_equal. f_equal. now destruct sp'.
Qed.

Lemma compress_expand_sel s e : first_delim_nil s ->
  compress_expr (expand_sel s ++ e) = compress_expr (s :: e).
Proof.
  intros Hf. unfold expand_sel. destruct (sl_spans s) as [|sp l] eqn:E; [reflexivity|].
  unfold first_delim_nil in Hf. rewrite E in Hf.
  change (compress_expr (one (sl_id s) {| sp_delim := sl_delim s; sp_start := sp_start sp; sp_end := sp_end sp |}
           :: map (one (sl_id s)) l ++ e) = compress_expr (s :: e)).
  rewrite compress_run. cbn [sp_delim sp_start sp_end].
  rewrite <- (span_eta sp []) by easy. rewrite <- E. destruct s; reflexivity.
Qed.

Lemma compress_cong s e e' : compress_expr e = compress_expr e' -> compress_expr (s :: e) = compress_expr (s :: e').
Proof. intros H. now rewrite !compress_cons, H. Qed.

Lemma compress_expand_expr e : Forall first_delim_nil e -> compress_expr (expand_expr e) = compress_expr e.
Proof.
  induction 1 as [|s e Hs He IH]; [easy|].
  change (expand_expr (s :: e)) with (expand_sel s ++ expand_expr e).
  rewrite compress_expand_sel by easy. now apply compress_cong.
Qed.

Lemma expand_merge s s' : sl_spans s <> [] -> sl_spans s' <> [] -> sl_id s = sl_id s' -> first_delim_nil s' ->
  expand_sel {| sl_delim := sl_delim s; sl_id := sl_id s;
                sl_spans := sl_spans s ++ with_delim (sl_delim s') (sl_spans s') |}
  = expand_sel s ++ expand_sel s'.
Proof.
  intros H H' E Hf. unfold expand_sel, first_delim_nil in *. cbn [sl_delim sl_id sl_spans].
  destruct (sl_spans s) as [|sp l]; [easy|]. destruct (sl_spans s') as [|sp' l']; [easy|].
  cbn. f_equal. rewrite map_app. f_equal. cbn. now rewrite Hf, app_nil_r, E.
Qed.

Lemma expand_compress_expr e : Forall first_delim_nil e -> expand_expr (compress_expr e) = expand_expr e.
Proof.
  induction 1 as [|s e Hs He IH]; [easy|]. rewrite compress_cons.
  change (expand_expr (s :: e)) with (expand_sel s ++ expand_expr e). rewrite <- IH.
  assert (Hc := compress_first e He).
  destruct (compress_expr e) as [|s' r]; [reflexivity|].
  destruct (sl_spans s) as [|sp l] eqn:Es; [reflexivity|].
  destruct (sl_spans s') as [|sp' l'] eqn:Es'; [reflexivity|].
  destruct (str_eqb_spec (sl_id s) (sl_id s')) as [E|E]; [|reflexivity].
  unfold expand_expr. cbn [flat_map]. rewrite app_assoc. f_equal.
  rewrite <- Es, <- Es'. apply expand_merge; rewrite ?Es, ?Es'; try easy. now inversion Hc.
Qed.

(* well-formedness of compressed expressions, one-character delimiters *)
Lemma wf_spans_app tight first l l' : wf_spans tight first l -> wf_spans tight false l' ->
  l <> [] -> wf_spans tight first (l ++ l').
Proof.
  revert first; induction l as [|s l IH]; intros first H H' Hne; [easy|].
  destruct H as [Hs Hl]. cbn. split; [auto|]. destruct l; [exact H'|]. now apply IH.
Qed.

Lemma wf_compress tight first e : wf_sels tight first e ->
  (tight = true -> Forall (fun s => length (sl_delim s) <= 1) e) ->
  wf_sels tight first (compress_expr e) /\
  (tight = true -> Forall (fun s => length (sl_delim s) <= 1) (compress_expr e)).
Proof.
  revert first; induction e as [|s e IH]; intros first Hwf H1; [easy|].
  destruct Hwf as [Hs He].
  assert (H1' : tight = true -> Forall (fun s => length (sl_delim s) <= 1) e).
  { intros Ht. specialize (H1 Ht). now inversion H1. }
  assert (H1s : tight = true -> length (sl_delim s) <= 1).
  { intros Ht. specialize (H1 Ht). now inversion H1. }
  destruct (IH false He H1') as [IHw IH1]. rewrite compress_cons.
  destruct (compress_expr e) as [|s' r]; [split; [split; auto|auto]|].
  assert (Hsame : wf_sels tight first (s :: s' :: r) /\
            (tight = true -> Forall (fun s => length (sl_delim s) <= 1) (s :: s' :: r))).
  { split; [split; auto|]. intros Ht. constructor; auto. }
  destruct (sl_spans s) as [|sp l] eqn:Es; [exact Hsame|].
  destruct (sl_spans s') as [|sp' l'] eqn:Es'; [exact Hsame|].
  destruct (str_eqb_spec (sl_id s) (sl_id s')) as [E|E]; [|exact Hsame].
  destruct IHw as [((Hn & Hf) & Hi' & Hl') Hr]. destruct Hs as (Hd & Hi & Hl).
  rewrite Es' in Hl'. rewrite Es in Hl.
  split.
  - split; [|exact Hr]. unfold wf_sel. cbn [sl_delim sl_id sl_spans]. split; [easy|]. split; [easy|].
    apply wf_spans_app; [easy| |easy]. cbn.
    destruct Hl' as [(Hd' & Ha & Hb) Hl']. split; [|easy].
    unfold wf_span. cbn. rewrite Hd', app_nil_r. split; [|auto]. split; [easy|]. split; [easy|].
    intros Ht. specialize (IH1 Ht). inversion IH1 as [|? ? Hlen]; subst.
    destruct (sl_delim s'); [easy|]. cbn in *. lia.
  - intros Ht. specialize (IH1 Ht). inversion IH1; subst. constructor; [now apply H1s|auto].
Qed.

Theorem compress_expand e : wf e -> compress (expand (show e)) = compress (show e).
Proof.
  intros H. rewrite expand_show by easy. rewrite !compress_show; [|easy|now apply wf_expand].
  rewrite compress_expand_expr; [easy|]. eapply wf_first_nil; exact H.
Qed.

Theorem expand_compress e : wf1 e -> expand (compress (show e)) = expand (show e).
Proof.
  intros [H H1]. rewrite compress_show by easy.
  rewrite !expand_show; [|easy|]. 2:{ now apply (wf_compress true true e). }
  rewrite expand_compress_expr; [easy|]. eapply wf_first_nil; exact H.
Qed.

Theorem compress_idempotent e : wf1 e -> compress (compress (show e)) = compress (show e).
Proof.
  intros [H H1]. rewrite (compress_show e) by easy. rewrite compress_show.
  - now rewrite compress_expr_idem.
  - now apply (wf_compress true true e).
Qed.

(* ---------- resolve ---------- *)

Lemma joiner_last d : joiner (last_str d) = joiner d.
Proof. unfold joiner, last_str. now destruct d. Qed.

Lemma delim_text_joiner d : (length d <= 1)%nat -> delim_text d = joiner d.
Proof.
  intros Hd. unfold delim_text, joiner. destruct d as [|c [|? ?]]; [reflexivity| |cbn in Hd; lia].
  cbn [last].
  destruct (N.eqb_spec c (Ch ",")) as [->|Hne]; [reflexivity|].
  destruct (str_eqb_spec [c] (L ",")) as [E|_].
  - exfalso. apply Hne. now injection E.
  - now destruct (str_eqb [c] (L "+")).
Qed.

Lemma delim_text_last d : delim_text (last_str d) = joiner d.
Proof.
  rewrite delim_text_joiner; [apply joiner_last|]. unfold last_str. destruct d; cbn; lia.
Qed.

Lemma num_ne a : num_shape a -> a <> [].
Proof. intros (sg & t & -> & _ & H & _). intros E. apply app_eq_nil in E as []. auto. Qed.

Lemma slice_arg_bound a : num_shape a -> slice_arg a = (do z <- bound a; Ok (Some z)).
Proof.
  intros H%num_ne. unfold slice_arg, bound. destruct a; [easy|]. now destruct (py_int _).
Qed.

Lemma bind_assoc {A B C} (m : res A) (f : A -> res B) (g : B -> res C) :
  bind (bind m f) g = bind m (fun a => bind (f a) g).
Proof. now destruct m. Qed.

Lemma mapM_map {A B C} (f : A -> B) (g : B -> res C) l : mapM g (map f l) = mapM (fun a => g (f a)) l.
Proof. induction l as [|a l IH]; cbn; [easy|]. now rewrite IH. Qed.

Lemma mapM_app {A B} (f : A -> res B) l l' :
  mapM f (l ++ l') = do x <- mapM f l; do y <- mapM f l'; Ok (x ++ y).
Proof.
  induction l as [|a l IH]; cbn.
  - destruct (mapM f l'); reflexivity.
  - destruct (f a); cbn; [|easy]. rewrite IH. destruct (mapM f l); cbn; [|easy].
    destruct (mapM f l'); reflexivity.
Qed.

Lemma mapM_concat {A} (f : A -> res (list str)) (g : A -> res str) l :
  Forall (fun a => (do x <- f a; Ok (List.concat x)) = g a) l ->
  (do x <- mapM f l; Ok (List.concat (List.concat x))) = (do y <- mapM g l; Ok (List.concat y)).
Proof.
  induction 1 as [|a l E H IH]; cbn; [easy|]. rewrite <- E.
  destruct (f a) as [x|]; cbn; [|easy].
  destruct (mapM f l) as [xs|], (mapM g l) as [ys|]; cbn in *; try congruence.
  rewrite concat_app. congruence.
Qed.

Lemma filter_positions (a b : Z) (v : str) : forall k n, n = length v ->
  map snd (filter (fun pc => (a <=? Z.of_nat (fst pc))%Z && (Z.of_nat (fst pc) <? b)%Z) (combine (seq k n) v))
  = firstn (Z.to_nat (b - Z.max a (Z.of_nat k))) (skipn (Z.to_nat (a - Z.of_nat k)) v).
Proof.
  induction v as [|c v IH]; intros k n ->; cbn [length seq combine filter map].
  - now rewrite skipn_nil, firstn_nil.
  - cbn [fst]. specialize (IH (S k) _ eq_refl).
    destruct (Z.leb_spec a (Z.of_nat k)); cbn [andb].
    + replace (Z.to_nat (a - Z.of_nat k)) with 0 by lia. cbn [skipn].
      replace (Z.to_nat (a - Z.of_nat (S k))) with 0 in IH by lia. cbn [skipn] in IH.
      destruct (Z.ltb_spec (Z.of_nat k) b).
      * cbn [map snd]. rewrite IH.
        replace (Z.to_nat (b - Z.max a (Z.of_nat k))) with (S (Z.to_nat (b - Z.max a (Z.of_nat (S k))))) by lia.
        reflexivity.
      * rewrite IH. replace (Z.to_nat (b - Z.max a (Z.of_nat k))) with 0 by lia.
        replace (Z.to_nat (b - Z.max a (Z.of_nat (S k)))) with 0 by lia. reflexivity.
    + rewrite IH. replace (Z.to_nat (a - Z.of_nat k)) with (S (Z.to_nat (a - Z.of_nat (S k)))) by lia. cbn [skipn].
      do 2 f_equal. lia.
Qed.

Lemma py_slice_chars a b (v : str) : py_slice (Some a) (Some b) v = chars_between a b v.
Proof.
  unfold chars_between. rewrite filter_positions by easy. unfold py_slice, slice_bound, from_start.
  rewrite Z.sub_0_r.
  assert (Hf : forall i j (l : str), i = j \/ (length l <= i /\ length l <= j) -> firstn i l = firstn j l).
  { intros i j l [->|[H1 H2]]; [easy|]. now rewrite !firstn_all2. }
  assert (Hs : forall i j (l : str), i = j \/ (length l <= i /\ length l <= j) -> skipn i l = skipn j l).
  { intros i j l [->|[H1 H2]]; [easy|]. now rewrite !skipn_all2. }
  rewrite (Hs _ (Z.to_nat (if (a <? 0)%Z then Z.of_nat (length v) + a else a))).
  - apply Hf. rewrite skipn_length. destruct (Z.ltb_spec a 0), (Z.ltb_spec b 0); lia.
  - destruct (Z.ltb_spec a 0); lia.
Qed.

Lemma resolve_span_show tight first v s : wf_span tight first s ->
  (do x <- resolve_span v (last_str (sp_delim s), sp_start s, sp_end s); Ok (List.concat x))
  = span_text v s.
Proof.
  intros (Hd & Ha & Hb). unfold resolve_span, span_text. rewrite !slice_arg_bound by easy.
  destruct (bound (sp_start s)) as [a|]; cbn; [|easy].
  destruct (bound (sp_end s)) as [b|]; cbn; [|easy].
  rewrite delim_text_last, app_nil_r. do 2 f_equal. apply py_slice_chars.
Qed.

Lemma wf_spans_forall tight first l : wf_spans tight first l -> Forall (fun s => exists f, wf_span tight f s) l.
Proof.
  revert first; induction l as [|s l IH]; intros first; [constructor|].
  intros [Hs Hl]. constructor; [eauto|]. eapply IH; eauto.
Qed.

Lemma resolve_selection_show tight get s : (exists f, wf_sel tight f s) ->
  (do x <- resolve_selection get (last_str (sl_delim s), sl_id s, show_range (sl_spans s));
   Ok (List.concat x)) = sel_text get s.
Proof.
  intros (f & _ & Hi & Hl). unfold resolve_selection, sel_text.
  destruct (get (sl_id s)) as [[v|e]|]; cbn [bind]; try easy.
  set (val := match v with Some t => t | None => [] end).
  destruct (sl_spans s) as [|sp l] eqn:Es.
  - cbn. rewrite delim_text_last, app_nil_r. reflexivity.
  - assert (Hne := show_range_ne sp l).
    destruct (show_range (sp :: l)) as [|c0 t0] eqn:Er; [discriminate|]. rewrite <- Er. clear c0 t0 Er Hne.
    rewrite (findall3_spans tight) by easy. rewrite mapM_map.
    rewrite bind_assoc. cbn [bind].
    assert (H := mapM_concat (fun a => resolve_span val (last_str (sp_delim a), sp_start a, sp_end a)) (span_text val) (sp :: l)).
    rewrite <- H.
    + destruct (mapM _ (sp :: l)) as [x|]; cbn; [|easy]. now rewrite delim_text_last.
    + eapply Forall_impl; [|eapply wf_spans_forall; exact Hl]. intros a (g & Ha).
      eapply resolve_span_show; exact Ha.
Qed.

(* strip does nothing to a rendered expression *)
Lemma strip_id (s : str) : (match s with c :: _ => is_space c = false | [] => True end) ->
  (s <> [] -> is_space (last s 0%N) = false) -> strip s = s.
Proof.
  intros H1 H2. unfold strip.
  assert (lstrip s = s) as -> by (destruct s; cbn; [easy|]; now rewrite H1).
  unfold rstrip. destruct (@nil_or_snoc _ s) as [->|(s' & c & ->)] || idtac.
  destruct s as [|c0 s0] using rev_ind; [reflexivity|].
  rewrite last_last in H2. rewrite rev_app_distr. cbn. rewrite H2 by (destruct s0; easy).
  cbn. now rewrite rev_involutive.
Qed.

Lemma word_not_space c : idchar c = true -> is_space c = false.
Proof.
  unfold idchar. rewrite !orb_true_iff, !N.eqb_eq. intros [[->| ->]|H]; [reflexivity|reflexivity|].
  now apply is_word_space.
Qed.

Lemma last_app_ne {A} (s t : list A) d : t <> [] -> last (s ++ t) d = last t d.
Proof.
  intros H. destruct (@exists_last _ _ H) as (t' & x & ->). now rewrite app_assoc, !last_last.
Qed.

Lemma show_sel_last tight s : (exists f, wf_sel tight f s) -> is_space (last (show_sel s) 0%N) = false /\ show_sel s <> [].
Proof.
  intros (f & _ & Hi & _). unfold show_sel. destruct (sl_spans s) as [|sp l].
  - rewrite app_nil_r. apply id_shape_b in Hi as (c & t & -> & Hc & Ht). split; [|easy].
    destruct t as [|c' t] using rev_ind.
    + cbn. apply word_not_space, is_letter_idchar, Hc.
    + rewrite app_comm_cons, last_last. apply Forall_app in Ht as [_ Ht]. inversion Ht; subst.
      now apply word_not_space.
  - rewrite !app_assoc, last_app_ne by easy. split; [reflexivity|]. intros H.
    apply app_eq_nil in H as [_ H]. easy.
Qed.

Lemma show_last tight e : Forall (fun s => exists f, wf_sel tight f s) e -> show e <> [] ->
  is_space (last (show e) 0%N) = false.
Proof.
  intros H Hne. destruct e as [|s e] using rev_ind; [easy|]. clear IHe.
  rewrite show_app. cbn. rewrite app_nil_r, app_assoc.
  apply Forall_app in H as [_ H]. inversion H as [|? ? Hs]; subst.
  destruct (show_sel_last tight s Hs). now rewrite last_app_ne.
Qed.

Lemma strip_show tight e : wf_sels tight true e -> strip (show e) = show e.
Proof.
  intros H. apply strip_id.
  - destruct e as [|s e]; [easy|]. destruct H as [(Hd & Hi & _) _]. cbn. rewrite Hd, show_sel_eq.
    apply id_shape_b in Hi as (c & t & -> & Hc & Ht). cbn.
    apply word_not_space, is_letter_idchar, Hc.
  - apply (show_last tight). eapply wf_sels_forall; exact H.
Qed.

Theorem resolve_show tight get e : wf_sels tight true e -> resolve get (show e) = expr_text get e.
Proof.
  intros H. unfold resolve, expr_text. rewrite (strip_show tight) by easy.
  rewrite (findall3_sels tight) by easy. rewrite mapM_map.
  apply mapM_concat. eapply Forall_impl; [|eapply wf_sels_forall; exact H].
  intros s Hs. eapply resolve_selection_show; exact Hs.
Qed.

(* ---------- expand and compress preserve meaning ---------- *)

Lemma expr_text_app get e e' :
  expr_text get (e ++ e') = do x <- expr_text get e; do y <- expr_text get e'; Ok (x ++ y).
Proof.
  unfold expr_text. rewrite mapM_app. destruct (mapM _ e); cbn; [|easy].
  destruct (mapM _ e'); cbn; [|easy]. now rewrite concat_app.
Qed.

Lemma expr_text_one get s : expr_text get [s] = sel_text get s.
Proof.
  unfold expr_text. cbn. destruct (sel_text get s); cbn; [|easy]. now rewrite app_nil_r.
Qed.

Lemma expr_text_ones get i v l : get i = Some (Ok v) ->
  expr_text get (map (one i) l) =
  do ts <- mapM (span_text (match v with Some t => t | None => [] end)) l; Ok (List.concat ts).
Proof.
  intros Hg. unfold expr_text. rewrite mapM_map.
  set (val := match v with Some t => t | None => [] end).
  assert (E : forall sp, sel_text get (one i sp) = span_text val sp).
  { intros sp. unfold sel_text, one. cbn. rewrite Hg. cbn. fold val. unfold span_text. cbn [sp_start sp_end sp_delim].
    destruct (bound (sp_start sp)); cbn; [|easy]. destruct (bound (sp_end sp)); cbn; [|easy].
    now rewrite app_nil_r. }
  f_equal. induction l as [|sp l IH]; cbn; [easy|]. rewrite E. destruct (span_text val sp); cbn; [|easy].
  now rewrite IH.
Qed.

Lemma expand_sel_text get s : first_delim_nil s -> expr_text get (expand_sel s) = sel_text get s.
Proof.
  intros Hf. unfold expand_sel. destruct (sl_spans s) as [|sp l] eqn:Es; [apply expr_text_one|].
  unfold first_delim_nil in Hf. rewrite Es in Hf.
  change (expr_text get (map (one (sl_id s))
     ({| sp_delim := sl_delim s; sp_start := sp_start sp; sp_end := sp_end sp |} :: l)) = sel_text get s).
  unfold sel_text. rewrite Es. destruct (get (sl_id s)) as [[v|e]|] eqn:Eg.
  - rewrite (expr_text_ones get _ v) by easy. cbn [bind].
    set (val := match v with Some t => t | None => [] end). cbn [mapM]. unfold span_text at 1 3. cbn [sp_delim sp_start sp_end].
    rewrite Hf. destruct (bound (sp_start sp)); cbn; [|easy]. destruct (bound (sp_end sp)); cbn; [|easy].
    destruct (mapM _ l); cbn; [|easy]. now rewrite <- app_assoc.
  - unfold expr_text. cbn. unfold sel_text at 1. cbn. now rewrite Eg.
  - unfold expr_text. cbn. unfold sel_text at 1. cbn. now rewrite Eg.
Qed.

Lemma expand_expr_text get e : Forall first_delim_nil e -> expr_text get (expand_expr e) = expr_text get e.
Proof.
  induction 1 as [|s e Hs He IH]; [easy|].
  change (expand_expr (s :: e)) with (expand_sel s ++ expand_expr e).
  change (s :: e) with ([s] ++ e). rewrite !expr_text_app, IH, expand_sel_text, expr_text_one by easy.
  reflexivity.
Qed.

Lemma compress_expr_text get e : Forall first_delim_nil e -> expr_text get (compress_expr e) = expr_text get e.
Proof.
  intros H. rewrite <- (expand_expr_text get e) by easy.
  rewrite <- (expand_compress_expr e) by easy.
  symmetry. apply expand_expr_text. now apply compress_first.
Qed.

Theorem resolve_expand get e : wf e -> resolve get (expand (show e)) = resolve get (show e).
Proof.
  intros H. rewrite expand_show by easy. rewrite !(resolve_show true); [|easy|now apply wf_expand].
  apply expand_expr_text. eapply wf_first_nil; exact H.
Qed.

Lemma wf_weaken tight first e : wf_sels tight first e -> wf_sels false first e.
Proof.
  revert first; induction e as [|s e IH]; intros first; [easy|]. intros [(Hd & Hi & Hl) He].
  split; [|auto]. split; [easy|]. split; [easy|]. clear -Hl.
  revert Hl. generalize true as f. induction (sl_spans s) as [|sp l IHl]; intros f; [easy|].
  intros [(Hd & Ha & Hb) Hl]. split; [|auto]. split; [|auto].
  destruct f; [easy|]. destruct Hd as (H1 & H2 & _). easy.
Qed.

Theorem resolve_compress get e : wf e -> resolve get (compress (show e)) = resolve get (show e).
Proof.
  intros H. rewrite compress_show by easy. rewrite (resolve_show true get e) by easy.
  rewrite (resolve_show false).
  - apply compress_expr_text. eapply wf_first_nil; exact H.
  - apply wf_weaken in H. now apply (wf_compress false true e).
Qed.

End P.
