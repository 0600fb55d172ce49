(* White space between the tokens of a path. *)
From Verif Require Import PyStr PyStrFacts Regex RegexFacts Path SpecPath PathTokenProofs PathFuel PathProofs.

Section Space.
Context {U : Unicode}.

(* ---------- token lists ---------- *)

Definition punct (t : str) : Prop := In t (map L ["/"; "//"; "."; ".."; "["; "]"; "("; ")"; "|"; "="; "!="]%string).
Definition no_slash (r : str) : Prop := forall r', r <> Ch "/" :: r'.
Definition tok_ok (t : str) (l : list str) : Prop :=
  punct t /\ (t = L "/" -> exists u l', l = u :: l' /\ u <> [] /\ no_slash u) /\ (t = L "." -> boundary (concat l))
  \/ t = L "@" /\ l <> []
  \/ (exists fn, valid_name fn t) /\ boundary (concat l)
  \/ (exists a, t = quoted a /\ plain a) /\ boundary (concat l).
Fixpoint fits (l : list str) : Prop := match l with [] => True | t :: l' => tok_ok t l' /\ fits l' end.
Definition fcloses (l : list str) : Prop := fits l /\ boundary (concat l).

Lemma fits_punct t l : punct t -> t <> L "/" -> t <> L "." -> fits l -> fits (t :: l).
Proof. intros H H1 H2 Hl. split; [|easy]. left. split; [easy|]. split; intros ->; easy. Qed.
Lemma fits_valid fn n l : valid_name fn n -> fcloses l -> fits (n :: l).
Proof. intros H [Hl Hb]. split; [|easy]. right; right; left. split; [now exists fn|easy]. Qed.
Ltac punct_tac := apply fits_punct; [vm_compute; tauto|discriminate|discriminate|].

Definition f_head h := forall g np first l, wf_head g np first h -> fcloses l -> fits (head_toks h ++ l).
Definition f_path p := forall g np l, wf_path g np p -> fcloses l -> fits (path_toks p ++ l).
Definition f_pred q := forall l, wf_pred q -> fits l -> fits (pred_toks q ++ l).

Lemma fits_all : (forall h, f_head h) /\ (forall p, f_path p) /\ (forall q, f_pred q).
Proof.
  assert (Hatom : forall h, is_group h = false -> f_head h).
  { intros [n|n|n| | |f a|p ps] Hg g np first l H Hl; try easy; cbn [head_toks app].
    - now apply (fits_valid false).
    - punct_tac. now apply (fits_valid true).
    - split; [right; left; easy|]. now apply (fits_valid true).
    - punct_tac. apply Hl.
    - destruct Hl as [Hl Hb]. split; [|easy]. left. split; [vm_compute; tauto|]. split; [discriminate|easy].
    - destruct H as [Hk Ha]. destruct Hl as [Hl Hb].
      assert (Hp : fcloses (L ")" :: l)).
      { split; [punct_tac; easy|]. eapply boundary_cons; [reflexivity|vm_compute; tauto]. }
      assert (Hv : valid_name true f) by (right; left; easy).
      destruct a as [a|]; cbn [app]; apply (fits_valid true); try easy.
      + split; [|eapply boundary_cons; [reflexivity|vm_compute; tauto]]. punct_tac. split; [|apply Hp].
        right; right; right. split; [now exists a|apply Hp].
      + split; [|eapply boundary_cons; [reflexivity|vm_compute; tauto]]. punct_tac. apply Hp. }
  assert (Hgroup : forall p ps, f_path p -> Forall f_path ps -> f_head (HGroup p ps)).
  { intros p ps Hp Hps g np first l H [Hl Hb]. apply wf_group_eq in H as (_ & H1 & H2). cbn [head_toks].
    cbn [app]. punct_tac.
    rewrite <- app_assoc. apply (Hp true np); [easy|]. rewrite <- app_assoc.
    assert (Hc : fcloses ([L ")"] ++ l)).
    { split; [cbn [app]; now punct_tac|eapply boundary_cons; [reflexivity|vm_compute; tauto]]. }
    revert Hc. generalize ([L ")"] ++ l) as k. clear - Hps H2.
    induction ps as [|q ps IH]; intros k Hk; cbn [flat_map app]; [easy|].
    inversion Hps as [|? ? Hq Hps']; inversion H2 as [|? ? Hw H2']; subst.
    split; [|eapply boundary_cons; [reflexivity|vm_compute; tauto]].
    punct_tac. rewrite <- app_assoc. apply (Hq true np); [easy|]. now apply IH. }
  assert (Hpath : forall a ss, Forall (fun x => f_head (fst x) /\ Forall f_pred (snd x)) ss -> f_path (Path a ss)).
  { intros a ss Hss g np l H Hl. rewrite path_toks_eq. apply wf_path_eq in H as (Hne & _ & H).
    assert (Hpreds : forall ps k, Forall f_pred ps -> Forall wf_pred ps -> fcloses k -> fcloses (flat_map pred_toks ps ++ k)).
    { clear. induction ps as [|q ps IH]; intros k F1 F2 Hk; cbn [flat_map app]; [easy|].
      inversion F1 as [|? ? Hq F1']; inversion F2 as [|? ? Hw F2']; subst.
      rewrite <- app_assoc. split; [now apply Hq, IH|].
      destruct q. cbn [pred_toks app]. eapply boundary_cons; [reflexivity|vm_compute; tauto]. }
    assert (G : forall first ss, Forall (fun x => f_head (fst x) /\ Forall f_pred (snd x)) ss ->
              wf_steps g np first ss -> fits (steps_toks a first ss ++ l)
              /\ (first = false -> boundary (concat (steps_toks a first ss ++ l)))).
    { clear - Hl Hpreds. intros first ss; revert first. induction ss as [|[h ps] ss IH]; intros first F H; cbn [steps_toks app].
      - split; [apply Hl|intros _; apply Hl].
      - inversion F as [|? ? [Fh Fp] F']; subst. destruct H as (H1 & H2 & H3 & H4). cbn [fst snd] in *.
        destruct (IH false F' H4) as [I1 I2].
        assert (Hc : fcloses (flat_map pred_toks ps ++ steps_toks a false ss ++ l)).
        { apply Hpreds; auto. now split; auto. }
        assert (Hh : fits (head_toks h ++ flat_map pred_toks ps ++ steps_toks a false ss ++ l)).
        { eapply Fh; eauto. }
        rewrite <- !app_assoc. destruct (is_desc h) eqn:Ed.
        + cbn [negb andb slash_if app]. split; [easy|]. intros _. destruct h; try easy.
          cbn [head_toks app]. eapply boundary_cons; [reflexivity|vm_compute; tauto].
        + cbn [negb andb]. destruct (a || negb first) eqn:Es; cbn [slash_if app].
          * split; [|intros _; eapply boundary_cons; [reflexivity|vm_compute; tauto]].
            split; [|easy]. left. split; [vm_compute; tauto|]. split; [intros _|discriminate].
            destruct (head_first _ _ _ _ H1 Ed) as (t & k & E & Ht1 & Ht2). rewrite E. cbn [app].
            eexists _, _. split; [reflexivity|easy].
          * split; [easy|]. intros ->. now rewrite orb_true_r in Es. }
    now apply (G true). }
  assert (Hpred : forall sub test, f_path sub -> f_pred (Pred sub test)).
  { intros sub test Hs l [H1 H2] Hl. cbn [pred_toks app]. punct_tac.
    rewrite <- app_assoc. apply (Hs false true); [easy|]. rewrite <- app_assoc. cbn [app].
    assert (Hb : fcloses (L "]" :: l)).
    { split; [now punct_tac|eapply boundary_cons; [reflexivity|vm_compute; tauto]]. }
    destruct test as [[neg lit]|]; cbn [app]; [|easy].
    assert (Hq : fits (quoted lit :: L "]" :: l)).
    { split; [|apply Hb]. right; right; right. split; [now exists lit|apply Hb]. }
    destruct neg.
    - split; [|eapply boundary_cons; [reflexivity|vm_compute; tauto]]. now punct_tac.
    - split; [|eapply boundary_cons; [reflexivity|vm_compute; tauto]]. now punct_tac. }
  split; [|split]; intros x.
  - now apply (ih_head _ _ _ Hatom Hgroup Hpath Hpred).
  - now apply (ih_path _ _ _ Hatom Hgroup Hpath Hpred).
  - now apply (ih_pred _ _ _ Hatom Hgroup Hpath Hpred).
Qed.
Lemma path_fits g np p : wf_path g np p -> fits (path_toks p).
Proof.
  intros H. rewrite <- (app_nil_r (path_toks p)). apply (proj1 (proj2 fits_all) p g np []); [easy|]. split; [easy|now left].
Qed.

(* ---------- scanning ---------- *)

Definition ok (s : str) (ts : list str) : Prop := exists l, scan s l /\ filter nonblank (map strip l) = ts.

Lemma space_plain c : is_space c = true -> name_char c = true /\ ~ In c (L """@*") /\ forall k r, keyword k -> ~ starts (c :: r) k.
Proof.
  intros H. split; [|split].
  - destruct (name_char c) eqn:E; [easy|]. apply special_chars in E. vm_compute in E.
    repeat (destruct E as [<-|E]; [discriminate H|]). easy.
  - intros E. vm_compute in E. repeat (destruct E as [<-|E]; [discriminate H|]). easy.
  - intros k r [-> | [-> | [-> | ->]]] [r' E]; injection E as -> _; discriminate H.
Qed.
Lemma blank_names g : blank g -> forall c, In c g -> ~ special c.
Proof.
  intros H c Hc Hs. apply special_chars in Hs. unfold blank in H. rewrite Forall_forall in H. apply H, space_plain in Hc as [E _]. congruence.
Qed.
(* a run of name characters that begins with white space is one token *)
Lemma gap_tok g u r : blank g -> g <> [] -> (forall c, In c u -> ~ special c) -> boundary r \/ (exists c r', r = c :: r' /\ special c) ->
  next_tok (g ++ u ++ r) = Some (g ++ u, r).
Proof.
  intros Hg Hne Hu Hr. destruct g as [|c g]; [easy|]. inversion Hg as [|? ? Hc Hg']; subst.
  destruct (space_plain c Hc) as (P1 & P2 & P3).
  assert (Hall : Forall (fun c => name_char c = true) ((c :: g) ++ u)).
  { apply Forall_forall. intros x Hx. destruct (name_char x) eqn:E; [easy|]. apply special_chars in E.
    apply in_app_or in Hx as [Hx|Hx]; [now apply (blank_names _ Hg) in Hx|now apply Hu in Hx]. }
  assert (Hn : name_run (((c :: g) ++ u) ++ r) = Some ((c :: g) ++ u, r)).
  { unfold name_run.
    assert (F2 : match r with [] => True | c :: _ => name_char c = false end).
    { destruct Hr as [[->|(x & r' & -> & Hx)]|(x & r' & -> & Hx)]; [easy| |]; apply special_chars; [|easy].
      unfold special. vm_compute in Hx |- *. tauto. }
    rewrite takew_app_all, dropw_app_all by easy. reflexivity. }
  rewrite app_assoc. cbn [app] in *. cbn [next_tok].
  assert (Hf : starts_fn (c :: (g ++ u) ++ r) = None) by (apply starts_fn_none; intros k Hk; now apply P3).
  rewrite Hf.
  assert (Hq : forall x, name_char x = false -> (c =? x)%N = false) by (intros x Hx; apply N.eqb_neq; congruence).
  replace (c =? 34)%N with false by (symmetry; apply N.eqb_neq; intros ->; apply P2; vm_compute; tauto).
  rewrite (Hq 47%N), (Hq 46%N), (Hq 33%N), (Hq 61%N) by reflexivity.
  replace (existsb (N.eqb c) (L "@[]()|")) with false.
  2:{ symmetry. destruct (existsb _ _) eqn:E; [|easy]. apply existsb_exists in E as (x & Hx & E).
      apply N.eqb_eq in E as <-. exfalso. vm_compute in Hx.
      destruct Hx as [<-|Hx]; [apply P2; vm_compute; tauto|].
      assert (special c) by (vm_compute; tauto). apply special_chars in H. congruence. }
  replace (c =? 42)%N with false by (symmetry; apply N.eqb_neq; intros ->; apply P2; vm_compute; tauto).
  exact Hn.
Qed.

Lemma lstrip_blank g s : blank g -> lstrip (g ++ s) = lstrip s.
Proof. intros H. induction H as [|c g Hc Hg IH]; [easy|]. cbn. now rewrite Hc. Qed.
Lemma lstrip_app g s : lstrip s <> [] -> lstrip (s ++ g) = lstrip s ++ g.
Proof. induction s as [|c s IH]; [easy|]. cbn. destruct (is_space c); [easy|]. reflexivity. Qed.
Lemma strip_gaps g t g' : blank g -> blank g' -> t <> [] -> strip t = t -> strip (g ++ t ++ g') = t.
Proof.
  intros Hg Hg' Hne Ht. unfold strip, rstrip in *. rewrite lstrip_blank by easy.
  assert (Hl : lstrip t <> []). { intros E. rewrite E in Ht. cbn in Ht. congruence. }
  rewrite lstrip_app by easy. rewrite rev_app_distr, lstrip_blank by (apply Forall_rev; easy). exact Ht.
Qed.
Lemma strip_blank g : blank g -> strip g = [].
Proof. intros H. unfold strip. rewrite <- (app_nil_r g), lstrip_blank by easy. reflexivity. Qed.

Lemma ok_cons s u t r ts : next_tok s = Some (u, r) -> strip u = t -> t <> [] -> ok r ts -> ok s (t :: ts).
Proof.
  intros H <- Hne (l & Hs & E). exists (u :: l). split; [econstructor; eauto|]. cbn. rewrite E. now destruct (strip u).
Qed.
Lemma ok_blank s u r ts : next_tok s = Some (u, r) -> blank u -> ok r ts -> ok s ts.
Proof.
  intros H Hu (l & Hs & E). exists (u :: l). split; [econstructor; eauto|]. cbn. now rewrite (strip_blank _ Hu).
Qed.

(* white space may be dropped in front *)
Lemma spaced_lead ts s : spaced ts s -> exists g s', s = g ++ s' /\ blank g /\ spaced ts s' /\
  (match ts with [] => s' = [] | t :: _ => exists r, s' = t ++ r end).
Proof.
  intros H. destruct H as [g Hg|g t ts s Hg Hm Hs].
  - exists g, []. rewrite app_nil_r. repeat split; auto. constructor. constructor.
  - exists g, (t ++ s). split; [easy|]. split; [easy|]. split; [|now exists s].
    apply (sp_tok [] t ts s); auto. constructor.
Qed.
(* what follows a word: white space and then nothing or a special character *)
Lemma spaced_boundary ts s : spaced ts s -> boundary (concat ts) -> (match ts with t :: _ => t <> [] | [] => True end) ->
  exists g s', s = g ++ s' /\ blank g /\ spaced ts s' /\ boundary s'.
Proof.
  intros H Hb Hne. destruct (spaced_lead _ _ H) as (g & s' & E & Hg & Hs & Hh). exists g, s'. repeat split; auto.
  destruct ts as [|t ts]; [subst s'; now left|]. destruct Hh as [r ->]. right. destruct t as [|c t]; [easy|].
  destruct Hb as [Hb|(x & r' & Hx & Hi)]; [easy|]. cbn in Hx. injection Hx as -> _. exists x, (t ++ r). easy.
Qed.

Lemma tok_ne t l : tok_ok t l -> t <> [].
Proof.
  intros [[H _]|[[-> _]|[[[fn H] _]|[(a & -> & _) _]]]].
  - vm_compute in H. intros ->. repeat (destruct H as [H|H]; [discriminate|]). easy.
  - easy.
  - apply (valid_first fn _ H).
  - easy.
Qed.
Lemma punct_first t : punct t -> exists c r, t = c :: r /\ special c.
Proof.
  intros H. vm_compute in H. repeat (destruct H as [<-|H]; [eexists _, _; split; [reflexivity|vm_compute; tauto]|]). easy.
Qed.
Lemma punct_next t r : punct t -> (t = L "/" -> no_slash r) -> (t = L "." -> forall r', r <> Ch "." :: r') -> next_tok (t ++ r) = Some (t, r).
Proof.
  intros H H1 H2. vm_compute in H. change (Ch "/") with 47%N in H1. unfold no_slash in H1. change (Ch "/") with 47%N in H1. change (Ch ".") with 46%N in H2.
  destruct H as [<-|H].
  { specialize (H1 eq_refl). destruct r as [|c r]; [easy|]. cbn. destruct (N.eqb_spec c 47) as [->|]; [now destruct (H1 r)|easy]. }
  destruct H as [<-|H]; [reflexivity|]. destruct H as [<-|H].
  { specialize (H2 eq_refl). destruct r as [|c r]; [easy|]. cbn. destruct (N.eqb_spec c 46) as [->|]; [now destruct (H2 r)|easy]. }
  repeat (destruct H as [<-|H]; [reflexivity|]). easy.
Qed.
Lemma punct_strip t : punct t -> strip t = t.
Proof. intros H. vm_compute in H. repeat (destruct H as [<-|H]; [reflexivity|]). easy. Qed.
(* the first character of a spaced text: white space, or that of the first token *)
Lemma spaced_first ts s c r : spaced ts s -> s = c :: r -> fits ts ->
  is_space c = true \/ exists t ts', ts = t :: ts' /\ exists t', t = c :: t'.
Proof.
  intros H E Hf. destruct H as [g Hg|g t ts s Hg Hm Hs].
  - subst g. inversion Hg; subst. now left.
  - destruct g as [|x g].
    + right. exists t, ts. split; [easy|]. destruct Hf as [Ht _]. apply tok_ne in Ht. destruct t as [|y t]; [easy|].
      cbn in E. injection E as -> _. now exists t.
    + injection E as -> _. inversion Hg; subst. now left.
Qed.

Lemma spaced_ok ts : fits ts -> forall s, spaced ts s -> ok s ts.
Proof.
  induction ts as [|t ts IH]; intros Hf s Hs.
  - inversion Hs as [g Hg|]; subst. destruct s as [|c s]; [exists []; split; [constructor|easy]|].
    apply (ok_blank _ (c :: s) []); [|easy|exists []; split; [constructor|easy]].
    pose proof (gap_tok (c :: s) [] [] Hg) as G. rewrite !app_nil_r in G. apply G; [easy|easy|left; now left].
  - destruct Hf as [Ht Hf]. specialize (IH Hf). inversion Hs as [|g t' ts' s1 Hg Hm Hs1]; subst.
    pose proof (tok_ne _ _ Ht) as Hne.
    assert (Hne' : match ts with t :: _ => t <> [] | [] => True end).
    { destruct ts as [|t2 ts]; [easy|]. destruct Hf as [Hf _]. now apply tok_ne in Hf. }
    (* a gap before a special character is a blank token *)
    assert (Hgap : forall c r, t = c :: r -> special c -> ok (t ++ s1) (t :: ts) -> ok (g ++ t ++ s1) (t :: ts)).
    { intros c r E Hc H. destruct g as [|x g]; [easy|].
      apply (ok_blank _ (x :: g) (t ++ s1)); [|easy|easy].
      pose proof (gap_tok (x :: g) [] (t ++ s1) Hg) as G. cbn [app] in G. rewrite app_nil_r in G. apply G; [easy|easy|].
      right. subst t. cbn. eauto. }
    (* a word with gaps *)
    assert (Hword : strip t = t -> boundary (concat ts) -> (g <> [] -> forall c, In c t -> ~ special c) ->
              ((forall r, next_tok (t ++ r) = Some (t, r)) \/ (forall g' r, blank g' -> boundary r -> next_tok (t ++ g' ++ r) = Some (t ++ g', r))) ->
              ok (g ++ t ++ s1) (t :: ts)).
    { intros Hst Hb Hsp Hno. destruct (spaced_boundary _ _ Hs1 Hb Hne') as (g' & s2 & -> & Hg' & Hs2 & Hb2).
      destruct g as [|x g].
      - cbn [app]. destruct Hno as [Hno|Hno].
        + apply (ok_cons _ t t (g' ++ s2)); auto.
        + apply (ok_cons _ (t ++ g') t s2); auto. apply (strip_gaps []); auto.
      - apply (ok_cons _ ((x :: g) ++ t ++ g') t s2); auto; [|now apply strip_gaps].
        replace ((x :: g) ++ t ++ g' ++ s2) with ((x :: g) ++ (t ++ g') ++ s2) by (now rewrite <- !app_assoc).
        apply gap_tok; [easy|easy| |now left]. intros c Hc. apply in_app_or in Hc as [Hc|Hc]; [now apply Hsp|now apply (blank_names g')]. }
    destruct Ht as [(Hp & Hsl & Hdot)|[[-> Hl]|[[[fn Hv] Hb]|[(a & -> & Ha) Hb]]]].
    + destruct (punct_first t Hp) as (c & r & E & Hc). apply (Hgap c r E Hc).
      apply (ok_cons _ t t s1); auto; [|now apply punct_strip]. apply punct_next; [easy| |].
      * intros Et r' Es. destruct (Hsl Et) as (u & l' & -> & Hu1 & Hu2).
        destruct (spaced_first _ _ _ _ Hs1 Es Hf) as [H|(u' & l2 & [= <- <-] & t' & E')]; [discriminate H|].
        now apply (Hu2 t').
      * intros Et r' Es. specialize (Hdot Et).
        destruct (spaced_first _ _ _ _ Hs1 Es Hf) as [H|(u' & l2 & -> & t' & ->)]; [discriminate H|].
        destruct Hdot as [Hd|(x & r2 & Hd & Hx)]; [easy|]. cbn in Hd. injection Hd as <- _. vm_compute in Hx. intuition discriminate.
    + destruct Hm as [->|[Hm _]]; [|easy]. cbn [app]. apply (ok_cons _ (L "@") (L "@") s1); auto.
    + apply Hword; [now apply (valid_strip fn)|easy| |].
      * intros _ c Hc. destruct Hv as [-> | [[_ Hk] | (_ & H2 & _)]]; [| |now apply H2].
        -- vm_compute in Hc. destruct Hc as [<-|[]]. vm_compute. intuition discriminate.
        -- destruct Hk as [-> | [-> | [-> | ->]]]; vm_compute in Hc; repeat (destruct Hc as [<-|Hc]; [vm_compute; intuition discriminate|]); easy.
      * destruct Hv as [-> | [[_ Hk] | (H1 & H2 & H0 & H3 & H4 & H5 & H6)]].
        -- left. reflexivity.
        -- left. intros r. now apply next_keyword.
        -- right. intros g' r Hg' Hr. rewrite app_assoc.
           assert (Hst : forall k, ~ starts (t ++ g') k \/ starts t k \/ exists c, In c k /\ is_space c = true).
           { intros k. destruct (le_lt_dec (length k) (length t)) as [Hle|Hlt].
             - destruct (startswith k (t ++ g')) eqn:E; [|left; rewrite <- startswith_iff; congruence].
               right; left. apply startswith_iff in E as [r' E].
               exists (skipn (length k) t). assert (E2 := f_equal (firstn (length k)) E).
               rewrite firstn_app_len, firstn_app in E2. replace (length k - length t) with 0 in E2 by lia. cbn [firstn] in E2.
               rewrite app_nil_r in E2. rewrite <- E2 at 1. symmetry. apply firstn_skipn.
             - destruct (startswith k (t ++ g')) eqn:E; [|left; rewrite <- startswith_iff; congruence].
               right; right. apply startswith_iff in E as [r' E].
               destruct (nth_error k (length t)) as [c|] eqn:En; [|apply nth_error_None in En; lia].
               exists c. split; [eapply nth_error_In; eauto|].
               assert (E2 := f_equal (fun l => nth_error l (length t)) E). cbv beta in E2.
               rewrite nth_error_app2, Nat.sub_diag in E2 by lia. rewrite nth_error_app1, En in E2 by easy.
               apply nth_error_In in E2. unfold blank in Hg'. rewrite Forall_forall in Hg'. now apply Hg'. }
           apply next_plain_name; auto.
           ++ destruct t; easy.
           ++ intros c Hc. apply in_app_or in Hc as [Hc|Hc]; [now apply H2|now apply (blank_names g')].
           ++ intros k Hk H. destruct (Hst k) as [H'|[H'|(c & Hc & Hsp)]]; [easy|now apply (H3 k)|].
              destruct Hk as [-> | [-> | [-> | ->]]]; vm_compute in Hc; repeat (destruct Hc as [<-|Hc]; [discriminate Hsp|]); easy.
           ++ intros H. destruct (Hst (L "@")) as [H'|[H'|(c & [<-|[]] & Hsp)]]; try easy.
           ++ intros H. destruct (Hst (L "*")) as [H'|[H'|(c & [<-|[]] & Hsp)]]; try easy.
           ++ intros H. destruct (Hst (L """")) as [H'|[H'|(c & [<-|[]] & Hsp)]]; try easy.
    + apply Hword; [apply strip_quoted|easy| |].
      * intros Hgn. destruct Hm as [->|[_ Hm]]; [easy|]. apply Hm. now exists (a ++ L """").
      * left. intros r. now apply next_quoted.
Qed.

Theorem spaced_tokens g np p s : wf_path g np p -> spaced (path_toks p) s -> tokenize s = path_toks p.
Proof.
  intros H Hs. destruct (spaced_ok _ (path_fits _ _ _ H) _ Hs) as (l & Hl & E). now rewrite (tokenize_scan _ _ Hl).
Qed.

Lemma blank_end u : ~ blank (u ++ [47%N]).
Proof. intros H. apply Forall_app in H as [_ H]. now inversion H. Qed.
Lemma spaced_nil ts s : spaced ts s -> s = [] -> concat ts = [].
Proof.
  induction 1 as [g Hg|g t ts s Hg Hm Hs IH]; intros E; [easy|].
  apply app_eq_nil in E as [_ E]. apply app_eq_nil in E as [-> E]. cbn. auto.
Qed.
Lemma spaced_end ts s u : spaced ts s -> s = u ++ L "/" -> exists u', concat ts = u' ++ L "/".
Proof.
  intros H. revert u. change (L "/") with [47%N]. induction H as [g Hg|g t ts s Hg Hm Hs IH]; intros u E.
  - exfalso. subst g. apply (blank_end _ Hg).
  - cbn [concat]. destruct s as [|c s'] using rev_ind.
    + rewrite app_nil_r in E. destruct ts as [|t2 ts].
      * cbn. rewrite app_nil_r. destruct t as [|x t] using rev_ind.
        -- rewrite app_nil_r in E. exfalso. subst g. apply (blank_end _ Hg).
        -- rewrite app_assoc in E. apply app_inj_tail in E as [_ ->]. now exists t.
      * pose proof (spaced_nil _ _ Hs eq_refl) as Ec.
        rewrite Ec, app_nil_r. destruct t as [|x t] using rev_ind.
        -- rewrite app_nil_r in E. exfalso. subst g. apply (blank_end _ Hg).
        -- rewrite app_assoc in E. apply app_inj_tail in E as [_ ->]. now exists t.
    + clear IHs'. rewrite !app_assoc in E. apply app_inj_tail in E as [_ ->].
      destruct (IH s') as [u' ->]; [easy|]. exists (t ++ u'). now rewrite app_assoc.
Qed.

Theorem spaced_findall ix vfuel p s v : wf p -> spaced (path_toks p) s -> findall ix vfuel v s = findall ix vfuel v (show p).
Proof.
  intros H Hs. pose proof (spaced_tokens _ _ _ _ H Hs) as T. pose proof (show_tokens _ _ _ H) as T'.
  pose proof (show_end _ _ _ H) as E'.
  assert (E : endswith (L "/") s = false).
  { destruct (endswith (L "/") s) eqn:E; [|easy]. apply endswith_iff in E as [u E].
    destruct (spaced_end _ _ _ Hs E) as [u' E2]. change (concat (path_toks p)) with (show p) in E2.
    assert (endswith (L "/") (show p) = true) by (apply endswith_iff; now exists u'). congruence. }
  rewrite !findall_eq, !Find_body. unfold find_body. now rewrite E, E', T, T'.
Qed.
End Space.
