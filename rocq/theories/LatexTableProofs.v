(* The column table of the LaTeX exporter: proofs for C39. *)
From Coq Require Import Lia.
From Verif Require Import PyStr PyStrFacts Ref Model Value Latex SpecLatex.

(* ---------- list operations ---------- *)

Lemma update_app {B} (f : B -> res B) l1 : forall x y l2, f x = Ok y -> update (length l1) f (l1 ++ x :: l2) = Ok (l1 ++ y :: l2).
Proof.
  induction l1 as [|z l1 IH]; intros x y l2 E; cbn; [rewrite E; reflexivity|]. rewrite (IH _ _ _ E). reflexivity.
Qed.
Lemma insert_app {B} (l1 l2 : list B) x n : n = length l1 -> insert (l1 ++ l2) n x = l1 ++ x :: l2.
Proof.
  intros ->. unfold insert. rewrite firstn_app, firstn_all, Nat.sub_diag, skipn_app, skipn_all, Nat.sub_diag. cbn.
  rewrite app_nil_r. reflexivity.
Qed.
Lemma app_split {B} (l : list B) : forall n, n <= length l -> exists l1 l2, l = l1 ++ l2 /\ length l1 = n.
Proof. intros n H. exists (firstn n l), (skipn n l). split; [symmetry; apply firstn_skipn|apply firstn_length_le; exact H]. Qed.
Lemma app_prefix {B} (a : list B) : forall b c d, a ++ b = c ++ d -> length a <= length c -> exists e, c = a ++ e /\ b = e ++ d.
Proof.
  induction a as [|x a IH]; intros b c d E H; cbn in *; [exists c; auto|].
  destruct c as [|y c]; cbn in *; [lia|]. inversion E; subst. destruct (IH b c d) as (e & -> & ->); [assumption|lia|].
  exists e. auto.
Qed.
Lemma list_max_cons x l : list_max (x :: l) = Nat.max x (list_max l).
Proof. reflexivity. Qed.
Lemma list_max_in l x : In x l -> x <= list_max l.
Proof.
  intros H. assert (F : Forall (fun k => k <= list_max l) l) by (apply list_max_le; lia).
  rewrite Forall_forall in F. apply F. exact H.
Qed.

Section Table.
Context {U : Unicode} {A : Type} (idof : A -> option str) (expr : A -> option str).
Notation col := (list (list A)).

(* ---------- rows ---------- *)

Definition touched (c : col) : col := c ++ [[]].
Lemma row_touched k c : row k (touched c) = row k c.
Proof.
  unfold row, touched. destruct (Nat.lt_ge_cases k (length c)) as [H|H].
  - apply app_nth1. exact H.
  - rewrite app_nth2 by exact H. rewrite (nth_overflow c) by exact H. destruct (k - length c) as [|[|n]]; reflexivity.
Qed.
Definition extended (d : nat) (xs : list A) (c : col) : col := firstn d c ++ (row d c ++ xs) :: skipn (S d) c.
Lemma update_extended d xs : forall c, d < length c -> update d (fun row => Ok (row ++ xs)) c = Ok (extended d xs c).
Proof.
  induction d as [|d IH]; intros [|r c] H; cbn in H; try lia; [reflexivity|].
  cbn [update]. rewrite IH by lia. reflexivity.
Qed.
Lemma length_extended d xs c : d < length c -> length (extended d xs c) = length c.
Proof.
  intros H. unfold extended. rewrite app_length. cbn [length]. rewrite firstn_length, skipn_length. lia.
Qed.
Lemma row_extended k d xs c : d < length c -> row k (extended d xs c) = if k =? d then row d c ++ xs else row k c.
Proof.
  revert k c. induction d as [|d IH]; intros k [|r c] H; cbn in H; try lia.
  - destruct k as [|k]; reflexivity.
  - destruct k as [|k]; [reflexivity|]. apply (IH k c). lia.
Qed.
Lemma length_zip (cs : list col) : length (zip_chain cs) = list_max (map (@length (list A)) cs).
Proof. unfold zip_chain. rewrite map_length, seq_length. reflexivity. Qed.
Lemma row_zip k (cs : list col) : row k (zip_chain cs) = whole_row k cs.
Proof.
  unfold row at 1. destruct (Nat.lt_ge_cases k (length (zip_chain cs))) as [H|H].
  - unfold zip_chain in *. rewrite map_length, seq_length in H.
    rewrite nth_indep with (d' := List.concat (map (fun c => nth 0 c []) cs)) by (rewrite map_length, seq_length; exact H).
    rewrite (map_nth (fun k => List.concat (map (fun c => nth k c []) cs)) _ 0), seq_nth by exact H. cbn.
    unfold whole_row, row. rewrite flat_map_concat_map. reflexivity.
  - rewrite nth_overflow by exact H. rewrite length_zip in H. symmetry. unfold whole_row.
    induction cs as [|c cs IH]; [reflexivity|]. cbn [map] in H. rewrite list_max_cons in H.
    cbn. rewrite IH by lia. rewrite app_nil_r. unfold row. apply nth_overflow. lia.
Qed.
Lemma whole_row_app k a b : whole_row (A := A) k (a ++ b) = whole_row k a ++ whole_row k b.
Proof. unfold whole_row. apply flat_map_app. Qed.
Lemma whole_row_cons k c a : whole_row (A := A) k (c :: a) = row k c ++ whole_row k a.
Proof. reflexivity. Qed.
Lemma whole_row_touched k a : whole_row k (map touched a) = whole_row k a.
Proof. induction a as [|c a IH]; cbn; [reflexivity|]. rewrite row_touched. f_equal. exact IH. Qed.

(* n rows, and at most w empty ones more *)
Definition good (w n : nat) (c : col) : Prop := n <= length c <= n + w /\ forall k, n <= k -> row k c = [].

Lemma good_touched w n c : good w n c -> good w (S n) (touched c).
Proof.
  intros [H1 H2]. split; [unfold touched; rewrite app_length; cbn; lia|].
  intros k H. rewrite row_touched. apply H2. lia.
Qed.
Lemma Forall_touched w n l : Forall (good w n) l -> Forall (good w (S n)) (map touched l).
Proof. induction 1; cbn; constructor; [apply good_touched|]; assumption. Qed.
Lemma good_row w n l k : Forall (good w n) l -> n <= k -> whole_row k l = [].
Proof. induction 1 as [|c l H _ IH]; intros K; [reflexivity|]. cbn. rewrite (proj2 H k K). apply IH. exact K. Qed.
Lemma good_extended w d xs c : good w (S d) c -> good w (S d) (extended d xs c).
Proof.
  intros [H1 H2]. split; [rewrite length_extended by lia; exact H1|].
  intros k H. rewrite row_extended by lia. destruct (Nat.eqb_spec k d); [lia|]. apply H2. exact H.
Qed.
Lemma list_max_bound w n l : Forall (good w n) l -> list_max (map (@length (list A)) l) <= n + w.
Proof.
  intros H. apply list_max_le. apply Forall_map. revert H. apply Forall_impl. intros c [H _]. lia.
Qed.
Lemma good_zip w d c m : good w (S d) c -> Forall (good w d) m -> good w (S d) (zip_chain (c :: m)).
Proof.
  intros H HM. split.
  - rewrite length_zip. cbn [map]. rewrite list_max_cons. pose proof (list_max_bound _ _ _ HM). destruct H as [H _]. lia.
  - intros k K. rewrite row_zip, whole_row_cons, (proj2 H k K), (good_row _ _ _ _ HM) by lia. reflexivity.
Qed.

(* a column for delayed items *)
Definition delayed_col (d : nat) (xs : list A) : col := repeat [] d ++ [xs].
Lemma row_delayed k d xs : row k (delayed_col d xs) = if k =? d then xs else [].
Proof.
  revert k. induction d as [|d IH]; intros k; cbn; [destruct k as [|[|k]]; reflexivity|].
  destruct k as [|k]; [reflexivity|]. apply IH.
Qed.
Lemma length_delayed d xs : length (delayed_col d xs) = S d.
Proof. unfold delayed_col. rewrite app_length, repeat_length. cbn. lia. Qed.
Lemma good_delayed w d xs : good w (S d) (delayed_col d xs).
Proof.
  split; [rewrite length_delayed; lia|]. intros k H. rewrite row_delayed. destruct (Nat.eqb_spec k d); [lia|reflexivity].
Qed.

(* ---------- the steps of the algorithm ---------- *)

Lemma add_rows_app (l : list col) : forall p r, add_rows (length p) (length l) (p ++ l ++ r) = Ok (p ++ map touched l ++ r).
Proof.
  induction l as [|c l IH]; intros p r; cbn; [reflexivity|].
  unfold add_row. rewrite (update_app _ p c (touched c)) by reflexivity. cbn.
  replace (S (length p)) with (length (p ++ [touched c])) by (rewrite app_length; cbn; lia).
  replace (p ++ touched c :: l ++ r) with ((p ++ [touched c]) ++ l ++ r) by (rewrite <- app_assoc; reflexivity).
  rewrite IH. rewrite <- app_assoc. reflexivity.
Qed.
Lemma merge_app (x m y : list col) s e : s = length x -> e = length x + length m -> merge_columns (x ++ m ++ y) s e = x ++ [zip_chain m] ++ y.
Proof.
  intros -> ->. unfold merge_columns. rewrite firstn_app, firstn_all, Nat.sub_diag. cbn [firstn]. rewrite app_nil_r.
  rewrite (skipn_app (length x)), skipn_all, Nat.sub_diag. cbn [skipn app].
  replace (length x + length m - length x) with (length m) by lia.
  rewrite firstn_app, firstn_all, Nat.sub_diag. cbn [firstn]. rewrite app_nil_r.
  replace (length x + length m) with (length (x ++ m)) by apply app_length.
  rewrite (app_assoc x m y), skipn_app, skipn_all, Nat.sub_diag. reflexivity.
Qed.

(* ---------- the map from ids to columns ---------- *)

Fixpoint pairs (i : nat) (tr : list col) (d : nat) : list (option str * nat) :=
  match tr with [] => [] | c :: tr' => map (fun x => (idof x, i)) (row d c) ++ pairs (S i) tr' d end.
Lemma build_pairs d tr : Forall (fun c => d < length c) tr -> forall i, build_from idof i tr d = Ok (pairs i tr d).
Proof.
  induction 1 as [|c tr H _ IH]; intros i; cbn; [reflexivity|].
  rewrite (nth_error_nth' c [] H), IH. reflexivity.
Qed.
Lemma pairs_fst d tr : forall i, map fst (pairs i tr d) = map idof (whole_row d tr).
Proof.
  induction tr as [|c tr IH]; intros i; cbn; [reflexivity|]. rewrite !map_app, IH, map_map. reflexivity.
Qed.

(* the column of the p-th item in row d *)
Fixpoint col_at (tr : list col) (d p : nat) : nat :=
  match tr with
  | [] => 0
  | c :: tr' => if p <? length (row d c) then 0 else S (col_at tr' d (p - length (row d c)))
  end.
Lemma col_at_mono tr d : forall p q, p <= q -> col_at tr d p <= col_at tr d q.
Proof.
  induction tr as [|c tr IH]; intros p q H; cbn [col_at]; [lia|].
  destruct (Nat.ltb_spec p (length (row d c))), (Nat.ltb_spec q (length (row d c))); try lia.
  apply le_n_S. apply IH. lia.
Qed.
Lemma col_at_split tr d : forall p a, nth_error (whole_row d tr) p = Some a ->
  exists x c y, tr = x ++ c :: y /\ length x = col_at tr d p /\ In a (row d c).
Proof.
  induction tr as [|c tr IH]; intros p a H; [destruct p; discriminate|]. cbn [whole_row flat_map] in H. cbn [col_at].
  destruct (Nat.ltb_spec p (length (row d c))) as [L|L].
  - rewrite nth_error_app1 in H by exact L. exists [], c, tr. repeat split. eapply nth_error_In. exact H.
  - rewrite nth_error_app2 in H by exact L. destruct (IH _ _ H) as (x & c' & y & -> & E & I).
    exists (c :: x), c', y. cbn. rewrite E. auto.
Qed.
Lemma nodup_app_l {B} (a b : list B) : NoDup (a ++ b) -> NoDup a.
Proof. induction a as [|x a IH]; cbn; intros H; [constructor|]. inversion H; subst. constructor; [rewrite in_app_iff in *; tauto|auto]. Qed.
Lemma nodup_app_r {B} (a b : list B) : NoDup (a ++ b) -> NoDup b.
Proof. induction a as [|x a IH]; cbn; intros H; [exact H|]. inversion H; subst. auto. Qed.
Lemma nodup_app_disj {B} (a b : list B) x : NoDup (a ++ b) -> In x a -> In x b -> False.
Proof.
  induction a as [|z a IH]; cbn; intros H Ha Hb; [contradiction|]. inversion H; subst. destruct Ha as [->|Ha]; [|auto].
  apply H2. rewrite in_app_iff. auto.
Qed.
Lemma col_at_unique tr d : forall x c y p a, NoDup (whole_row d tr) -> nth_error (whole_row d tr) p = Some a ->
  tr = x ++ c :: y -> In a (row d c) -> col_at tr d p = length x.
Proof.
  intros x c y p a N H -> I. revert p N H. induction x as [|c0 x IH]; intros p N H; cbn [app whole_row flat_map col_at length] in *.
  - destruct (Nat.ltb_spec p (length (row d c))) as [L|L]; [reflexivity|]. exfalso.
    rewrite nth_error_app2 in H by exact L. apply (nodup_app_disj _ _ a N I). eapply nth_error_In. exact H.
  - destruct (Nat.ltb_spec p (length (row d c0))) as [L|L].
    + exfalso. rewrite nth_error_app1 in H by exact L. apply (nodup_app_disj _ _ a N); [eapply nth_error_In; exact H|].
      rewrite flat_map_app, in_app_iff. right. cbn. rewrite in_app_iff. left. exact I.
    + rewrite nth_error_app2 in H by exact L. f_equal. apply IH; [apply (nodup_app_r _ _ N)|exact H].
Qed.

Lemma idof_nodup l : NoDup (map idof l) -> NoDup l.
Proof. apply NoDup_map_inv. Qed.

Lemma pairs_in tr d x : forall i c y a k, tr = x ++ c :: y -> In a (row d c) -> idof a = Some k ->
  In (Some k, i + length x) (pairs i tr d).
Proof.
  revert tr. induction x as [|c0 x IH]; intros tr i c y a k -> I E; cbn.
  - rewrite Nat.add_0_r, in_app_iff. left. apply in_map_iff. exists a. rewrite E. auto.
  - rewrite in_app_iff. right. rewrite Nat.add_succ_r, <- Nat.add_succ_l. eapply IH; eauto.
Qed.
Lemma idx_get_in (m : idxmap) k j : NoDup (map fst m) -> In (Some k, j) m -> idx_get m k = Ok j.
Proof.
  intros N I. unfold idx_get.
  destruct (find (fun p => opt_eqb str_eqb (fst p) (Some k)) (rev m)) as [[k' j']|] eqn:F.
  - apply find_some in F as [F1 F2]. cbn in F2. apply in_rev in F1.
    destruct k' as [k'|]; [|discriminate]. cbn in F2. destruct (str_eqb_spec k' k) as [->|]; [|discriminate].
    f_equal. cbn. clear - N I F1. induction m as [|[a b] m IH]; [contradiction|]. cbn in N. inversion N as [|? ? N1 N2]; subst.
    destruct I as [I|I], F1 as [F|F].
    + congruence.
    + exfalso. inversion I; subst. apply N1. apply (in_map fst) in F. exact F.
    + exfalso. inversion F; subst. apply N1. apply (in_map fst) in I. exact I.
    + auto.
  - exfalso. assert (X := find_none _ _ F (Some k, j)). cbn in X. rewrite <- in_rev in X. specialize (X I).
    destruct (str_eqb_spec k k); congruence.
Qed.
Lemma idx_get_col tr d p a k : NoDup (map idof (whole_row d tr)) -> nth_error (whole_row d tr) p = Some a -> idof a = Some k ->
  idx_get (pairs 0 tr d) k = Ok (col_at tr d p).
Proof.
  intros N H E. destruct (col_at_split _ _ _ _ H) as (x & c & y & E1 & E2 & I).
  apply idx_get_in; [rewrite pairs_fst; exact N|]. rewrite <- E2. apply (pairs_in tr d x 0 c y a k); assumption.
Qed.

(* ---------- display ---------- *)

Lemma display_ok tr : (forall c, In c tr -> c <> []) -> (forall c k a, In c tr -> In a (row k c) -> idof a <> None) ->
  display idof tr = Ok tt.
Proof.
  intros H1 H2. unfold display. assert (E : exists l, mapM (display_col idof) tr = Ok l); [|destruct E as [l ->]; reflexivity].
  induction tr as [|c tr IH]; cbn; [eauto|].
  destruct IH as [l ->]; [intros; apply H1; right; assumption|intros; eapply H2; [right|]; eassumption|].
  unfold display_col. rewrite (proj2 (forallb_forall _ _)).
  - destruct c; [exfalso; apply (H1 []); [left|]; reflexivity|]. cbn. eauto.
  - intros r Hr. apply forallb_forall. intros a Ha. destruct (In_nth c r [] Hr) as (k & Hk & Ek).
    destruct (idof a) eqn:Ea; [reflexivity|]. exfalso. apply (H2 c k a); [left; reflexivity| |exact Ea].
    unfold row. rewrite Ek. exact Ha.
Qed.

(* every column of a is part of one of b *)
Definition below (a b : list col) : Prop :=
  forall c, In c a -> exists c', In c' b /\ forall k x, In x (row k c) -> In x (row k c').
Lemma below_refl a : below a a.
Proof. intros c H. exists c. auto. Qed.
Lemma below_trans a b c : below a b -> below b c -> below a c.
Proof.
  intros H1 H2 x Hx. destruct (H1 x Hx) as (y & Hy & E1). destruct (H2 y Hy) as (z & Hz & E2). exists z. auto.
Qed.
Lemma below_touched a : below a (map touched a).
Proof. intros c H. exists (touched c). split; [apply in_map; exact H|]. intros k x. rewrite row_touched. auto. Qed.
Lemma below_app a b a' b' : below a a' -> below b b' -> below (a ++ b) (a' ++ b').
Proof.
  intros H1 H2 c H. apply in_app_iff in H as [H|H].
  - destruct (H1 c H) as (z & Hz & E). exists z. rewrite in_app_iff. auto.
  - destruct (H2 c H) as (z & Hz & E). exists z. rewrite in_app_iff. auto.
Qed.
Lemma below_zip (m : list col) : below m [zip_chain m].
Proof.
  intros c H. exists (zip_chain m). split; [left; reflexivity|]. intros k x Hx. rewrite row_zip. unfold whole_row.
  apply in_flat_map. eauto.
Qed.
Lemma below_extended d xs c : d < length c -> below [c] [extended d xs c].
Proof.
  intros H c' [<-|[]]. exists (extended d xs c). split; [left; reflexivity|]. intros k x Hx.
  rewrite row_extended by exact H. destruct (Nat.eqb_spec k d) as [->|]; [|exact Hx]. rewrite in_app_iff. auto.
Qed.
Lemma below_more a b d : below a b -> below a (d ++ b).
Proof. intros H c Hc. destruct (H c Hc) as (z & Hz & E). exists z. rewrite in_app_iff. auto. Qed.
End Table.
