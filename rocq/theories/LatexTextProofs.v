(* What the LaTeX exporter prints. *)
From Coq Require Import Lia.
From Verif Require Import PyStr PyStrFacts Ref Model Value Latex SpecLatex LatexTableProofs LatexAlignProofs LatexStackProofs.

Lemma mapM_ok {B C} (f : B -> res C) (h : B -> C) l : (forall x, In x l -> f x = Ok (h x)) -> mapM f l = Ok (map h l).
Proof.
  induction l as [|x l IH]; intros H; cbn; [reflexivity|]. rewrite H by (left; reflexivity). cbn.
  rewrite IH by (intros; apply H; right; assumption). reflexivity.
Qed.

Section Text.
Context {U : Unicode} (lower : str -> str) (isub tsub : str -> str -> str) (fuel : nat).
Notation item_sub := (fun ty s => Ok (isub ty s)).
Notation tier_sub := (fun ty s => Ok (tsub ty s)).

Lemma cell_ok g content ty items : (forall x, In x items -> content_or fuel g x = Ok (content x)) ->
  cell_text item_sub fuel g ty items = Ok (cell content isub ty items).
Proof.
  intros H. unfold cell_text, cell.
  rewrite (mapM_ok _ (fun x => isub ty (escape (content x)))); [reflexivity|].
  intros x Hx. rewrite (H x Hx). reflexivity.
Qed.

Theorem export_lines tier_types g content first tiers :
  filter (chosen lower tier_types) (g_tiers g) = first :: tiers -> tiers <> [] ->
  (forall t, In t (g_tiers g) -> chosen lower tier_types t = true -> tier_id t <> None) ->
  t_items first <> [] -> identified titem_id (titems first) ->
  ordered_stack titem_id titem_expr (titems first) (map titems tiers) ->
  (forall t i, In t (g_tiers g) -> In i (t_items t) -> content_or fuel g (t, i) = Ok (content (t, i))) ->
  exists n lines,
    export_igt lower item_sub tier_sub fuel tier_types g
    = Ok (join newline ([L "\begin{exe}\small"; L "\ex\g" ++ repeat (Ch "l") (S (length tiers))]
           ++ lines ++ flat_map (trans_lines content tsub) (g_tiers g) ++ [L "\end{exe}"]))
    /\ Forall2 (line_for content isub tsub n) (first :: tiers) lines.
Proof.
  intros EF NT HI NF HId HO HC.
  assert (Sub : forall t, In t (first :: tiers) -> In t (g_tiers g) /\ chosen lower tier_types t = true)
    by (intros t Ht; apply filter_In; rewrite EF; exact Ht).
  destruct (group_table titem_id titem_expr (titems first) (map titems tiers)) as (cols & EG & TR & TD & (c0 & cols' & EC & L0)); auto.
  { unfold titems. destruct (t_items first); [congruence|discriminate]. }
  rewrite map_length in *.
  set (line := fun t k => tsub (type_of t) (join (L " ") (map (cell content isub (type_of t)) (map (row k) cols)) ++ L "\\")).
  exists (length cols), (map (fun tk => line (fst tk) (snd tk)) (combine (first :: tiers) (seq 0 (S (length tiers))))).
  split.
  - unfold export_igt. rewrite EF. cbn [length]. destruct tiers as [|t2 tiers]; [congruence|]. cbn [length Nat.ltb Nat.leb].
    rewrite (proj2 (forallb_forall _ _)).
    2:{ intros t Ht. destruct (Sub t Ht) as [S1 S2]. destruct (tier_id t) eqn:E; [reflexivity|]. exfalso. apply (HI t S1 S2 E). }
    assert (EG' : group_tiers (first :: t2 :: tiers) = Ok cols) by exact EG.
    rewrite EG'. cbn [bind]. rewrite EC at 1. rewrite L0.
    assert (ER : mapM (row_text item_sub tier_sub fuel g (first :: t2 :: tiers) cols) (seq 0 (S (length (t2 :: tiers))))
      = Ok (map (fun tk => line (fst tk) (snd tk)) (combine (first :: t2 :: tiers) (seq 0 (S (length (t2 :: tiers))))))).
    { rewrite (mapM_ok _ (fun k => line (nth k (first :: t2 :: tiers) first) k)).
      - f_equal. set (ts := first :: t2 :: tiers). change (S (length (t2 :: tiers))) with (length ts).
        assert (G : forall ts l b, b ++ l = ts -> map (fun k => line (nth k ts first) k) (seq (length b) (length l))
            = map (fun tk => line (fst tk) (snd tk)) (combine l (seq (length b) (length l)))).
        { clear. intros ts l. induction l as [|t l IH]; intros b Eb; cbn [length seq combine map]; [reflexivity|]. f_equal.
          - cbn [fst snd]. f_equal. rewrite <- Eb, app_nth2, Nat.sub_diag by lia. reflexivity.
          - replace (S (length b)) with (length (b ++ [t])) by (rewrite app_length; cbn; lia).
            apply IH. rewrite <- app_assoc. exact Eb. }
        apply (G ts ts []). reflexivity.
      - intros k Hk. apply in_seq in Hk. cbn [length] in Hk.
        destruct (nth_error (first :: t2 :: tiers) k) as [t|] eqn:Et; [|apply nth_error_None in Et; cbn [length] in Et; lia].
        unfold row_text. rewrite Et. rewrite (nth_error_nth _ _ _ Et).
        destruct (Sub t (nth_error_In _ _ Et)) as [S1 _]. fold (type_of t).
        assert (TRk : whole_row k cols = titems t).
        { apply TR. change (titems first :: map titems (t2 :: tiers)) with (map titems (first :: t2 :: tiers)).
          rewrite nth_error_map, Et. reflexivity. }
        rewrite (mapM_ok _ (fun c => cell content isub (type_of t) (row k c))).
        + cbn [bind]. unfold line. rewrite map_map. reflexivity.
        + intros c Hc. destruct (TD c Hc) as [LB _]. cbn [length] in LB.
          rewrite (nth_error_nth' c [] (n := k)) by lia.
          apply cell_ok. intros x Hx. assert (Hx' : In x (titems t)) by (rewrite <- TRk; apply in_flat_map; exists c; split; [exact Hc|exact Hx]).
          apply in_map_iff in Hx' as (i & <- & Hi). apply HC; assumption. }
    rewrite ER. cbn [bind].
    rewrite (mapM_ok _ (trans_lines content tsub)).
    + cbn [bind]. rewrite <- flat_map_concat_map. reflexivity.
    + intros t Ht. unfold trans_text, trans_lines, type_of. destruct (a_type (t_attrs t)) as [ty|] eqn:Ety; cbn [opt_eqb].
      * destruct (t_items t) as [|i its] eqn:Eits; [reflexivity|]. destruct (str_eqb ty (L "translations")); [|reflexivity].
        rewrite (HC t i Ht) by (rewrite Eits; left; reflexivity). reflexivity.
      * destruct (t_items t); reflexivity.
  - set (ts := first :: tiers) in *. change (S (length tiers)) with (length ts).
    assert (G : forall l b, b ++ l = ts -> Forall2 (line_for content isub tsub (length cols)) l
        (map (fun tk => line (fst tk) (snd tk)) (combine l (seq (length b) (length l))))).
    { induction l as [|t l IH]; intros b Eb; cbn [length seq combine map]; [constructor|]. constructor.
      - exists (map (row (length b)) cols). split; [apply map_length|]. split; [|reflexivity].
        rewrite <- flat_map_concat_map. apply TR. change (titems first :: map titems tiers) with (map titems ts).
        rewrite nth_error_map, <- Eb, nth_error_app2, Nat.sub_diag by lia. reflexivity.
      - replace (S (length b)) with (length (b ++ [t])) by (rewrite app_length; cbn; lia).
        apply IH. rewrite <- app_assoc. exact Eb. }
    apply (G ts []). reflexivity.
Qed.
End Text.
