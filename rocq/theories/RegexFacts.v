(* Facts about the regular expression engine of Regex.v: a declarative
   matching relation, soundness and completeness of the engine for it, and
   equations for deterministic pieces used when analysing concrete patterns. *)
From Verif Require Import PyStr PyStrFacts Regex.

Definition adv1 (s : mst) (t : str) : mst :=
  {| m_pos := S (m_pos s); m_rest := t; m_caps := m_caps s |}.

(* r takes state s to state s' *)
Inductive matches : re -> mst -> mst -> Prop :=
| ME s : matches REps s s
| MC (p : N -> bool) s c t : m_rest s = c :: t -> p c = true -> matches (RChr p) s (adv1 s t)
| MB s : m_pos s = 0 -> matches RBol s s
| MEol s : at_eol (m_rest s) = true -> matches REol s s
| MS a b s s' s'' : matches a s s' -> matches b s' s'' -> matches (RSeq a b) s s''
| MA1 a b s s' : matches a s s' -> matches (RAlt a b) s s'
| MA2 a b s s' : matches b s s' -> matches (RAlt a b) s s'
| MSt0 g a s : matches (RStar g a) s s
| MSt1 g a s s' s'' : matches a s s' -> List.length (m_rest s') < List.length (m_rest s) ->
    matches (RStar g a) s' s'' -> matches (RStar g a) s s''
| MG n a s s' : matches a s s' ->
    matches (RGroup n a) s
      {| m_pos := m_pos s'; m_rest := m_rest s';
         m_caps := (n, firstn (m_pos s' - m_pos s) (m_rest s)) :: m_caps s' |}.

Section Star.
Context {A : Type} (g : bool) (body : mst -> (mst -> option A) -> option A) (k : mst -> option A).
Fixpoint sloop (n : nat) (s : mst) {struct n} : option A :=
  match n with
  | 0 => k s
  | S n' =>
    let again := fun _ : unit => body s (fun s' =>
        if Nat.ltb (List.length (m_rest s')) (List.length (m_rest s))
        then sloop n' s' else None) in
    if g then match again tt with Some x => Some x | None => k s end
    else match k s with Some x => Some x | None => again tt end
  end.
End Star.

Lemma rmatch_star {A} g a s (k : mst -> option A) :
  rmatch (RStar g a) s k = sloop g (fun s k => rmatch a s k) k (List.length (m_rest s)) s.
Proof. reflexivity. Qed.

Theorem rmatch_sound {A} r : forall s (k : mst -> option A) x,
  rmatch r s k = Some x -> exists s', matches r s s' /\ k s' = Some x.
Proof.
  induction r as [|p| | |a IHa b IHb|a IHa b IHb|g a IHa|n a IHa]; intros s k x.
  - cbn. intros H. exists s; split; [constructor|auto].
  - cbn. destruct (m_rest s) as [|c t] eqn:E; [easy|]. destruct (p c) eqn:Ep; [|easy].
    intros H. eexists; split; [eapply MC; eauto|exact H].
  - cbn. destruct (Nat.eqb_spec (m_pos s) 0); [|easy]. intros H; exists s; split; [constructor|]; auto.
  - cbn. destruct (at_eol (m_rest s)) eqn:E; [|easy]. intros H; exists s; split; [constructor|]; auto.
  - cbn. intros H. apply IHa in H as (s1 & H1 & H). apply IHb in H as (s2 & H2 & H).
    exists s2; split; [econstructor; eauto|auto].
  - cbn. destruct (rmatch a s k) eqn:E.
    + intros [= ->]. apply IHa in E as (s1 & H1 & H). exists s1; split; [now apply MA1|auto].
    + intros H. apply IHb in H as (s1 & H1 & H). exists s1; split; [now apply MA2|auto].
  - rewrite rmatch_star. generalize (List.length (m_rest s)) as n. intros n; revert s x.
    induction n as [|n IHn]; intros s x; cbn.
    + intros H; exists s; split; [apply MSt0|auto].
    + assert (Hag : forall x, rmatch a s (fun s' => if length (m_rest s') <? length (m_rest s)
                  then sloop g (fun s k => rmatch a s k) k n s' else None) = Some x ->
              exists s', matches (RStar g a) s s' /\ k s' = Some x).
      { intros y H. apply IHa in H as (s1 & H1 & H).
        destruct (Nat.ltb_spec (length (m_rest s1)) (length (m_rest s))); [|easy].
        apply IHn in H as (s2 & H2 & H). exists s2; split; [eapply MSt1; eauto|auto]. }
      destruct g; cbn in *.
      * destruct (rmatch a s _) eqn:E; [intros [= ->]; eauto|].
        intros H; exists s; split; [apply MSt0|auto].
      * destruct (k s) eqn:E; [intros [= ->]; exists s; split; [apply MSt0|auto]|]. eauto.
  - cbn. intros H. apply IHa in H as (s1 & H1 & H). eexists; split; [eapply MG; eauto|exact H].
Qed.

Theorem rmatch_complete {A} r : forall s s' (k : mst -> option A),
  matches r s s' -> k s' <> None -> rmatch r s k <> None.
Proof.
  induction r as [|p| | |a IHa b IHb|a IHa b IHb|g a IHa|n a IHa]; intros s s' k H Hk.
  - inversion H; subst; auto.
  - inversion H as [|? ? ? ? Er Ep| | | | | | | |]; subst; cbn. rewrite Er, Ep; auto.
  - inversion H as [| |? E0|? E0| | | | | |]; subst; cbn. rewrite E0; auto.
  - inversion H as [| |? E0|? E0| | | | | |]; subst; cbn. rewrite E0; auto.
  - inversion H; subst; cbn. eapply IHa; eauto.
  - inversion H; subst; cbn.
    + destruct (rmatch a s k) eqn:E; [easy|]. exfalso. eapply IHa; eauto.
    + destruct (rmatch a s k) eqn:E; [easy|]. eauto.
  - rewrite rmatch_star.
    assert (Hn : length (m_rest s) <= length (m_rest s)) by lia. revert H Hn.
    generalize (length (m_rest s)) at 2 3 as n. intros n; revert s.
    assert (H0 : forall n, k s' <> None -> sloop g (fun s k => rmatch a s k) k n s' <> None).
    { intros [|m] H0; cbn; [auto|].
      destruct g; [destruct (rmatch a s' _); [easy|auto]|destruct (k s'); easy]. }
    induction n as [|n IHn]; intros s H Hn.
    + inversion H; subst; [auto|lia].
    + inversion H as [| | | | | | |? ? ?|? ? ? s1 ? H1 Hlt H2|]; subst; [auto|].
      cbn.
      assert (Hag : rmatch a s (fun s' => if length (m_rest s') <? length (m_rest s)
                  then sloop g (fun s k => rmatch a s k) k n s' else None) <> None).
      { eapply IHa; [exact H1|]. rewrite (proj2 (Nat.ltb_lt _ _) Hlt). apply IHn; [auto|lia]. }
      destruct g; [destruct (rmatch a s _); [easy|easy]|destruct (k s); [easy|auto]].
  - inversion H; subst; cbn. eapply IHa; eauto.
Qed.

(* ---------- states reached ---------- *)

(* every match consumes a prefix of the rest and advances the position by its length *)
Lemma matches_consume r s s' : matches r s s' ->
  exists u, m_rest s = u ++ m_rest s' /\ m_pos s' = m_pos s + length u.
Proof.
  induction 1; cbn in *.
  - exists []; split; [easy|cbn; lia].
  - exists [c]; split; [easy|cbn; lia].
  - exists []; split; [easy|cbn; lia].
  - exists []; split; [easy|cbn; lia].
  - destruct IHmatches1 as (u & E & P), IHmatches2 as (v & E' & P').
    exists (u ++ v). rewrite E, E', P', P, app_assoc, app_length. split; [easy|lia].
  - auto.
  - auto.
  - exists []; split; [easy|cbn; lia].
  - destruct IHmatches1 as (u & E & P), IHmatches2 as (v & E' & P').
    exists (u ++ v). rewrite E, E', P', P, app_assoc, app_length. split; [easy|lia].
  - auto.
Qed.

(* the groups a pattern can set *)
Fixpoint groups (r : re) : list nat :=
  match r with
  | RSeq a b | RAlt a b => groups a ++ groups b
  | RStar _ a => groups a
  | RGroup n a => n :: groups a
  | _ => []
  end.

Lemma matches_nogroups r s s' : matches r s s' -> groups r = [] -> m_caps s' = m_caps s.
Proof.
  induction 1; cbn; intros Hg; auto.
  - apply app_eq_nil in Hg as []. rewrite IHmatches2, IHmatches1; auto.
  - apply app_eq_nil in Hg as []. auto.
  - apply app_eq_nil in Hg as []. auto.
  - cbn in *. rewrite IHmatches2, IHmatches1; auto.
  - easy.
Qed.

(* a group around a group-free pattern captures exactly the consumed text *)
Lemma matches_group n a s s' : matches (RGroup n a) s s' -> groups a = [] ->
  exists u, m_rest s = u ++ m_rest s' /\ m_pos s' = m_pos s + length u
         /\ m_caps s' = (n, u) :: m_caps s.
Proof.
  intros H Hg. inversion H as [| | | | | | | | |? ? ? s1 H1]; subst; cbn.
  destruct (matches_consume _ _ _ H1) as (u & E & P).
  exists u. split; [easy|]. split; [easy|].
  rewrite (matches_nogroups _ _ _ H1 Hg), E, P.
  replace (m_pos s + length u - m_pos s) with (length u) by lia.
  now rewrite firstn_app_len.
Qed.

(* ---------- deterministic pieces ---------- *)

Definition st (pos : nat) (rest : str) (caps : list (nat * str)) : mst :=
  {| m_pos := pos; m_rest := rest; m_caps := caps |}.

(* a greedy class repetition tries the longest run first, then shorter ones *)
Fixpoint star_g {A} (p : N -> bool) (pos : nat) (rest : str) caps (k : mst -> option A) : option A :=
  match rest with
  | c :: t => if p c then match star_g p (S pos) t caps k with
                          | Some x => Some x | None => k (st pos rest caps) end
              else k (st pos rest caps)
  | [] => k (st pos rest caps)
  end.

Lemma rmatch_star_chr {A} p pos rest caps (k : mst -> option A) :
  rmatch (RStar true (RChr p)) (st pos rest caps) k = star_g p pos rest caps k.
Proof.
  rewrite rmatch_star.
  assert (Hn : length rest <= length (m_rest (st pos rest caps))) by (cbn; lia).
  revert Hn. generalize (length (m_rest (st pos rest caps))) as n.
  intros n; revert pos rest.
  induction n as [|n IHn]; intros pos rest Hn; cbn.
  - destruct rest; [reflexivity|cbn in Hn; lia].
  - destruct rest as [|c t]; cbn; [reflexivity|].
    destruct (p c); [|reflexivity]. cbn in Hn.
    rewrite Nat.leb_refl.
    change {| m_pos := S pos; m_rest := t; m_caps := caps |} with (st (S pos) t caps).
    rewrite IHn by lia. reflexivity.
Qed.

Lemma star_g_some {A} p pos rest caps (k : mst -> option A) x :
  k (st (pos + length (takew p rest)) (dropw p rest) caps) = Some x ->
  star_g p pos rest caps k = Some x.
Proof.
  revert pos; induction rest as [|c t IH]; intros pos; cbn.
  - now rewrite Nat.add_0_r.
  - destruct (p c); cbn.
    + intros H. rewrite (IH (S pos)); [easy|]. rewrite <- H. f_equal. f_equal. lia.
    + now rewrite Nat.add_0_r.
Qed.

(* when the continuation fails inside the run, only the whole run matters *)
Lemma star_g_det {A} p pos rest caps (k : mst -> option A) :
  (forall pos c t, p c = true -> k (st pos (c :: t) caps) = None) ->
  star_g p pos rest caps k = k (st (pos + length (takew p rest)) (dropw p rest) caps).
Proof.
  intros Hk. revert pos; induction rest as [|c t IH]; intros pos; cbn.
  - now rewrite Nat.add_0_r.
  - destruct (p c) eqn:E; cbn.
    + rewrite IH. replace (S pos + length (takew p t)) with (pos + S (length (takew p t))) by lia.
      destruct (k _); [easy|]. now rewrite Hk.
    + now rewrite Nat.add_0_r.
Qed.

(* lazy class repetition *)
Fixpoint star_l {A} (p : N -> bool) (pos : nat) (rest : str) caps (k : mst -> option A) : option A :=
  match k (st pos rest caps) with
  | Some x => Some x
  | None => match rest with
            | c :: t => if p c then star_l p (S pos) t caps k else None
            | [] => None
            end
  end.

Lemma rmatch_star_lazy {A} p pos rest caps (k : mst -> option A) :
  rmatch (RStar false (RChr p)) (st pos rest caps) k = star_l p pos rest caps k.
Proof.
  rewrite rmatch_star.
  assert (Hn : length rest <= length (m_rest (st pos rest caps))) by (cbn; lia).
  revert Hn. generalize (length (m_rest (st pos rest caps))) as n.
  intros n; revert pos rest.
  induction n as [|n IHn]; intros pos rest Hn; cbn.
  - destruct rest; [cbn; unfold st; now destruct (k _)|cbn in Hn; lia].
  - destruct rest as [|c t]; cbn; [reflexivity|]. destruct (k (st pos (c :: t) caps)); [reflexivity|].
    destruct (p c); [|reflexivity]. cbn in Hn.
    rewrite Nat.leb_refl.
    change {| m_pos := S pos; m_rest := t; m_caps := caps |} with (st (S pos) t caps).
    now rewrite IHn by lia.
Qed.

Lemma rmatch_group {A} n a pos rest caps (k : mst -> option A) :
  rmatch (RGroup n a) (st pos rest caps) k =
  rmatch a (st pos rest caps) (fun s' => k (st (m_pos s') (m_rest s') ((n, firstn (m_pos s' - pos) rest) :: m_caps s'))).
Proof. reflexivity. Qed.

(* the continuation may be replaced by one that agrees on all reachable states *)
Lemma rmatch_ext {A} r : forall s (k k' : mst -> option A),
  (forall s', matches r s s' -> k s' = k' s') -> rmatch r s k = rmatch r s k'.
Proof.
  induction r as [|p| | |a IHa b IHb|a IHa b IHb|g a IHa|n a IHa]; intros s k k' H; cbn.
  - apply H; constructor.
  - destruct (m_rest s) as [|c t] eqn:E; [easy|]. destruct (p c) eqn:Ep; [|easy].
    apply H. eapply (MC p s c t); eauto.
  - destruct (Nat.eqb_spec (m_pos s) 0); [|easy]. apply H; constructor; auto.
  - destruct (at_eol (m_rest s)) eqn:E; [|easy]. apply H; constructor; auto.
  - apply IHa; intros s' Hs'. apply IHb; intros s'' Hs''. apply H; econstructor; eauto.
  - rewrite (IHa s k k') by (intros; apply H; now apply MA1).
    rewrite (IHb s k k') by (intros; apply H; now apply MA2). reflexivity.
  - change (rmatch (RStar g a) s k = rmatch (RStar g a) s k'). rewrite !rmatch_star.
    generalize (length (m_rest s)) at 1 2 as n. intros n; revert s H.
    induction n as [|n IHn]; intros s H; cbn -[Nat.ltb].
    + apply H; constructor.
    + assert (E : rmatch a s (fun s' => if length (m_rest s') <? length (m_rest s)
                  then sloop g (fun s k => rmatch a s k) k n s' else None) =
                 rmatch a s (fun s' => if length (m_rest s') <? length (m_rest s)
                  then sloop g (fun s k => rmatch a s k) k' n s' else None)).
      { apply IHa. intros s' Hs'. destruct (Nat.ltb_spec (length (m_rest s')) (length (m_rest s))); [|easy].
        apply IHn. intros s'' Hs''. apply H. eapply MSt1; eauto. }
      rewrite E, (H s) by constructor. reflexivity.
  - apply IHa; intros s' Hs'. apply H. now constructor.
Qed.

(* ---------- search and finditer ---------- *)

Lemma search_from_rest adv r pos s m : search_from adv r pos s = Some m ->
  exists g u, s = g ++ u ++ r_rest m /\ r_start m = pos + length g
            /\ r_end m = r_start m + length u
            /\ (adv = true -> g = [] -> u <> []).
Proof.
  revert adv pos; induction s as [|c s IH]; intros adv pos; cbn.
  - unfold match_at. destruct (rmatch r _ _) as [m'|] eqn:E; [|easy]. intros [= ->].
    apply rmatch_sound in E as (s' & Hs' & E).
    destruct (matches_consume _ _ _ Hs') as (u & Hu & Hp). cbn in *.
    destruct (adv && _) eqn:Ea; [easy|]. injection E as <-. cbn.
    exists [], u. cbn. split; [easy|]. split; [lia|]. split; [lia|].
    intros -> _ ->. cbn in *. apply Nat.eqb_neq in Ea. lia.
  - unfold match_at. destruct (rmatch r _ _) as [m'|] eqn:E.
    + intros [= ->].
      apply rmatch_sound in E as (s' & Hs' & E).
      destruct (matches_consume _ _ _ Hs') as (u & Hu & Hp). cbn in *.
      destruct (adv && _) eqn:Ea; [easy|]. injection E as <-. cbn.
      exists [], u. cbn. split; [easy|]. split; [lia|]. split; [lia|].
      intros -> _ ->. cbn in *. apply Nat.eqb_neq in Ea. lia.
    + intros H. apply IH in H as (g & u & -> & H1 & H2 & _).
      exists (c :: g), u. cbn. repeat split; auto; [lia|easy].
Qed.

(* fuel is irrelevant once it exceeds what is left to scan *)
Lemma finditer_fuel r : forall (f f' : nat) (adv : bool) (pos : nat) (s : str),
  2 * length s + (if adv then 0 else 1) < f -> 2 * length s + (if adv then 0 else 1) < f' ->
  finditer_ f adv r pos s = finditer_ f' adv r pos s.
Proof.
  induction f as [|f IH]; intros f' adv pos s Hf Hf'; [lia|].
  destruct f' as [|f']; [lia|]. cbn.
  destruct (search_from adv r pos s) as [m|] eqn:E; [|easy].
  apply search_from_rest in E as (g & u & Es & H1 & H2 & H3).
  assert (Hl : length s = length g + length u + length (r_rest m)) by (rewrite Es, !app_length; lia).
  f_equal. apply IH.
  - destruct u as [|c u].
    + replace (r_end m =? r_start m) with true by (symmetry; apply Nat.eqb_eq; cbn in *; lia).
      destruct adv; cbn in *; [destruct g; [now destruct H3|cbn in *; lia]|lia].
    + replace (r_end m =? r_start m) with false by (symmetry; apply Nat.eqb_neq; cbn in *; lia).
      cbn in *. destruct adv; lia.
  - destruct u as [|c u].
    + replace (r_end m =? r_start m) with true by (symmetry; apply Nat.eqb_eq; cbn in *; lia).
      destruct adv; cbn in *; [destruct g; [now destruct H3|cbn in *; lia]|lia].
    + replace (r_end m =? r_start m) with false by (symmetry; apply Nat.eqb_neq; cbn in *; lia).
      cbn in *. destruct adv; lia.
Qed.

(* finditer as a recursion without fuel *)
Definition finditer_at (adv : bool) r pos (s : str) : list rmatched :=
  finditer_ (S (S (2 * length s))) adv r pos s.

Lemma finditer_0 r s : finditer r s = finditer_at false r 0 s.
Proof. reflexivity. Qed.

Lemma finditer_none adv r pos s : search_from adv r pos s = None -> finditer_at adv r pos s = [].
Proof. unfold finditer_at; cbn. now intros ->. Qed.

Lemma finditer_some adv r pos s m : search_from adv r pos s = Some m ->
  finditer_at adv r pos s = m :: finditer_at (Nat.eqb (r_end m) (r_start m)) r (r_end m) (r_rest m).
Proof.
  intros E.
  change (finditer_at adv r pos s) with
    (match search_from adv r pos s with
     | None => []
     | Some m => m :: finditer_ (S (2 * length s)) (Nat.eqb (r_end m) (r_start m)) r (r_end m) (r_rest m)
     end).
  rewrite E. f_equal.
  apply search_from_rest in E as (g & u & Es & H1 & H2 & H3).
  assert (Hl : length s = length g + length u + length (r_rest m)) by (rewrite Es, !app_length; lia).
  destruct u as [|c u].
  - replace (r_end m =? r_start m) with true by (symmetry; apply Nat.eqb_eq; cbn in *; lia).
    unfold finditer_at. apply finditer_fuel; cbn in *; lia.
  - replace (r_end m =? r_start m) with false by (symmetry; apply Nat.eqb_neq; cbn in *; lia).
    unfold finditer_at. apply finditer_fuel; cbn in *; lia.
Qed.

(* one-step equations on explicit states *)
Lemma rm_eps {A} s (k : mst -> option A) : rmatch REps s k = k s.
Proof. reflexivity. Qed.
Lemma rm_chr {A} p pos s caps (k : mst -> option A) :
  rmatch (RChr p) (st pos s caps) k =
  match s with c :: t => if p c then k (st (S pos) t caps) else None | [] => None end.
Proof. reflexivity. Qed.
Lemma rm_lit {A} c pos s caps (k : mst -> option A) :
  rmatch (RLit c) (st pos s caps) k =
  match s with d :: t => if N.eqb d (Ch c) then k (st (S pos) t caps) else None | [] => None end.
Proof. unfold RLit. rewrite rm_chr. destruct s; [easy|]. now rewrite N.eqb_sym. Qed.
Lemma rm_bol {A} pos s caps (k : mst -> option A) :
  rmatch RBol (st pos s caps) k = if Nat.eqb pos 0 then k (st pos s caps) else None.
Proof. reflexivity. Qed.
Lemma rm_eol {A} pos s caps (k : mst -> option A) :
  rmatch REol (st pos s caps) k = if at_eol s then k (st pos s caps) else None.
Proof. reflexivity. Qed.
Lemma rm_seq {A} a b s (k : mst -> option A) :
  rmatch (RSeq a b) s k = rmatch a s (fun s' => rmatch b s' k).
Proof. reflexivity. Qed.
Lemma rm_alt {A} a b s (k : mst -> option A) :
  rmatch (RAlt a b) s k = match rmatch a s k with Some x => Some x | None => rmatch b s k end.
Proof. reflexivity. Qed.
Lemma rm_opt {A} a s (k : mst -> option A) :
  rmatch (ROpt a) s k = match rmatch a s k with Some x => Some x | None => k s end.
Proof. reflexivity. Qed.
Lemma rm_group {A} n a pos rest caps (k : mst -> option A) :
  rmatch (RGroup n a) (st pos rest caps) k =
  rmatch a (st pos rest caps) (fun s' => k (st (m_pos s') (m_rest s') ((n, firstn (m_pos s' - pos) rest) :: m_caps s'))).
Proof. reflexivity. Qed.

(* ---------- unfolding a repetition once ---------- *)

Lemma sloop_fuel {A} g a (k : mst -> option A) : forall n n' s,
  length (m_rest s) <= n -> length (m_rest s) <= n' ->
  sloop g (fun s k => rmatch a s k) k n s = sloop g (fun s k => rmatch a s k) k n' s.
Proof.
  assert (H0 : forall n s, m_rest s = [] ->
            sloop g (fun s k => rmatch a s k) k n s = k s).
  { intros n s Hs. destruct n; cbn -[Nat.ltb]; [easy|].
    rewrite (rmatch_ext a s _ (fun _ => None)).
    2:{ intros s' _. rewrite Hs. cbn. now destruct (Nat.ltb_spec (length (m_rest s')) 0). }
    assert (Hn : rmatch a s (fun _ => @None A) = None).
    { destruct (rmatch a s (fun _ => None)) eqn:E; [|easy].
      apply rmatch_sound in E as (? & _ & E). easy. }
    rewrite Hn. destruct g; [easy|]. now destruct (k s). }
  induction n as [|n IHn]; intros n' s Hn Hn'.
  - destruct (m_rest s) eqn:E; [|cbn in Hn; lia]. now rewrite !H0.
  - destruct n' as [|n'].
    + destruct (m_rest s) eqn:E; [|cbn in Hn'; lia]. now rewrite !H0.
    + cbn -[Nat.ltb].
      rewrite (rmatch_ext a s _ (fun s' => if length (m_rest s') <? length (m_rest s)
                  then sloop g (fun s k => rmatch a s k) k n' s' else None)); [easy|].
      intros s' _. destruct (Nat.ltb_spec (length (m_rest s')) (length (m_rest s))); [|easy].
      apply IHn; lia.
Qed.

Lemma rm_star_greedy {A} a s (k : mst -> option A) :
  rmatch (RStar true a) s k =
  match rmatch a s (fun s' => if length (m_rest s') <? length (m_rest s)
                              then rmatch (RStar true a) s' k else None) with
  | Some x => Some x
  | None => k s
  end.
Proof.
  rewrite rmatch_star.
  rewrite (sloop_fuel _ _ _ _ (S (length (m_rest s)))) by lia.
  cbn -[Nat.ltb]. cbn -[Nat.ltb rmatch].
  erewrite rmatch_ext; [reflexivity|]. cbv beta. intros s' _.
  destruct (Nat.ltb_spec (length (m_rest s')) (length (m_rest s))); [|easy].
  change (sloop true (fun s k => rmatch a s k) k (length (m_rest s)) s' =
          sloop true (fun s k => rmatch a s k) k (length (m_rest s')) s').
  apply sloop_fuel; lia.
Qed.

Lemma search_skip r pos c s : match_at false r pos (c :: s) = None ->
  search_from false r pos (c :: s) = search_from false r (S pos) s.
Proof. intros H. cbn. now rewrite H. Qed.

Lemma search_here r adv pos s m : match_at adv r pos s = Some m -> search_from adv r pos s = Some m.
Proof. intros H. destruct s; cbn; now rewrite H. Qed.

Lemma search_nil r pos : match_at false r pos [] = None -> search_from false r pos [] = None.
Proof. intros H. cbn. now rewrite H. Qed.
