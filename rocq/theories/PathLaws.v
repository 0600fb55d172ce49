(* Laws of findall in terms of texts of paths (C27, C29, C30). *)
From Verif Require Import PyStr PyStrFacts Regex RegexFacts Model Attr SpecAttr AttrProofs Index Path SpecPath
  PathTokenProofs PathFuel PathProofs.

Section Laws.
Context {U : Unicode}.
Variable ix : igt -> index.
Variable vfuel : nat.
Notation F := (findall ix vfuel).
Notation den_path := (den_path ix vfuel).
Notation den_steps := (den_steps ix vfuel).
Notation den_head := (den_head ix vfuel).
Notation den_preds := (den_preds ix vfuel).
Notation den_pred := (den_pred ix vfuel).

Lemma den_pred_eq sub test v : den_pred (Pred sub test) v = obnd (den_path sub v) (test_holds test).
Proof. reflexivity. Qed.

(* ---------- find and findall ---------- *)

Theorem find_findall v p :
  match find ix vfuel v p with
  | Ok None => F v p = Ok []
  | Ok (Some x) => (exists l, F v p = Ok (x :: l)) \/ exists e, F v p = Err e
  | Err e => F v p = Err e
  end.
Proof.
  rewrite find_eq, findall_eq. destruct (Find ix vfuel v p) as [[|x l] [e|]]; cbn; eauto.
Qed.
Theorem findall_find v p l : F v p = Ok l -> find ix vfuel v p = Ok (hd_error l).
Proof.
  rewrite find_eq, findall_eq. destruct (Find ix vfuel v p) as [[|x m] [e|]]; cbn; try easy; now intros [= <-].
Qed.

(* ---------- the denotation of lists ---------- *)

Lemma oflat_app {A B} (f : A -> option (list B)) a b : oflat f (a ++ b) =
  obnd (oflat f a) (fun x => obnd (oflat f b) (fun y => Some (x ++ y))).
Proof.
  induction a as [|x a IH]; cbn.
  - now destruct (oflat f b).
  - destruct (f x); [|easy]. rewrite IH. destruct (oflat f a); [|easy]. cbn.
    destruct (oflat f b); [|easy]. cbn. now rewrite app_assoc.
Qed.
Lemma ofilter_app f a b : ofilter f (a ++ b) =
  obnd (ofilter f a) (fun x => obnd (ofilter f b) (fun y => Some (x ++ y))).
Proof.
  induction a as [|x a IH]; cbn.
  - now destruct (ofilter f b).
  - destruct (f x) as [c|]; [|easy]. rewrite IH. destruct (ofilter f a); [|easy]. cbn.
    destruct (ofilter f b); [|easy]. cbn. now destruct c.
Qed.
Definition additive (f : list pval -> option (list pval)) : Prop :=
  f [] = Some [] /\ forall a b, f (a ++ b) = obnd (f a) (fun x => obnd (f b) (fun y => Some (x ++ y))).
Lemma additive_comp f g : additive f -> additive g -> additive (fun l => obnd (f l) g).
Proof.
  intros [F0 Fa] [G0 Ga]. split; [now rewrite F0|]. intros a b. rewrite Fa.
  destruct (f a) as [x|]; [|easy]. cbn. destruct (f b) as [y|]; cbn.
  - now rewrite Ga.
  - now destruct (g x).
Qed.
Lemma preds_additive qs : additive (den_preds qs).
Proof.
  induction qs as [|q qs IH]; cbn; [now split|].
  apply (additive_comp (ofilter (den_pred q)) (den_preds qs)); [|easy].
  split; [easy|apply ofilter_app].
Qed.
Lemma steps_additive ss : additive (den_steps ss).
Proof.
  induction ss as [|[h qs] ss IH]; cbn; [now split|].
  apply (additive_comp (oflat (den_head h)) (fun m => obnd (den_preds qs m) (den_steps ss))).
  - split; [easy|apply oflat_app].
  - apply additive_comp; [apply preds_additive|easy].
Qed.
Lemma additive_flat f l : additive f -> f l = oflat (fun v => f [v]) l.
Proof.
  intros [F0 Fa]. induction l as [|v l IH]; [easy|]. cbn. change (v :: l) with ([v] ++ l). rewrite Fa, IH.
  destruct (f [v]); [|easy]. now destruct (oflat _ l).
Qed.
Lemma den_steps_app s1 s2 l : den_steps (s1 ++ s2) l = obnd (den_steps s1 l) (den_steps s2).
Proof.
  revert l; induction s1 as [|[h qs] s1 IH]; intros l; [easy|]. cbn.
  destruct (oflat (den_head h) l) as [m|]; [|easy]. cbn. destruct (den_preds qs m); [apply IH|easy].
Qed.
Lemma oflat_some {A B} (f : A -> option (list B)) l m : oflat f l = Some m <->
  exists ls, Forall2 (fun x lx => f x = Some lx) l ls /\ m = concat ls.
Proof.
  revert m; induction l as [|x l IH]; intros m; cbn.
  - split.
    + intros [= <-]. exists []. split; [constructor|easy].
    + intros (ls & H & ->). now inversion H.
  - split.
    + destruct (f x) as [a|] eqn:E; [|easy]. destruct (oflat f l) as [b|] eqn:E2; [|easy]. intros [= <-].
      destruct (proj1 (IH b) eq_refl) as (ls & H & ->). exists (a :: ls). split; [now constructor|easy].
    + intros (ls & H & ->). inversion H as [|? lx ? ls' H1 H2]; subst. rewrite H1.
      rewrite (proj2 (IH (concat ls'))) by eauto. easy.
Qed.
Lemma Forall2_iff {A B} (P Q : A -> B -> Prop) l m : (forall x y, P x y <-> Q x y) -> Forall2 P l m <-> Forall2 Q l m.
Proof. intros H. split; induction 1; constructor; auto; now apply H. Qed.

(* ---------- more steps ---------- *)

Lemma head_later np h : wf_head false np true h -> wf_head false np false h.
Proof. destruct h; try easy. rewrite !wf_group_eq. intros (_ & H). now split. Qed.
Lemma wf_steps_app np ss1 ss2 : wf_steps false np true ss1 -> wf_steps false np true ss2 ->
  wf_steps false np true (ss1 ++ ss2).
Proof.
  intros H1 H2. assert (H2' : wf_steps false np false ss2).
  { destruct ss2 as [|[h qs] ss2]; [easy|]. destruct H2 as (A & B). split; [now apply head_later|easy]. }
  assert (G : forall first, wf_steps false np first ss1 -> ss1 <> [] \/ first = false -> wf_steps false np first (ss1 ++ ss2)).
  { clear H1. induction ss1 as [|[h qs] ss1 IH]; intros first H Hf.
    - destruct Hf; [easy|]. now subst.
    - destruct H as (A & B & C & D). repeat (split; [easy|]). apply IH; [easy|now right]. }
  destruct ss1 as [|x ss1]; [easy|]. apply G; [easy|now left].
Qed.
Lemma not_lone a ss : lone_group (Path a ss) = false -> wf (Path a ss) -> a = false ->
  match ss with (h, _) :: _ => is_group h = false | [] => True end.
Proof.
  intros Hl H ->. apply wf_path_eq in H as (_ & H & _). destruct ss as [|[h qs] ss]; [easy|].
  destruct (H eq_refl) as [_ H']. destruct h; try easy. destruct (H' eq_refl) as [-> ->]. easy.
Qed.
Lemma wf_extend p ss : wf p -> lone_group p = false -> wf_steps false false true ss -> wf (extend p ss).
Proof.
  destruct p as [a ss0]. intros H Hl Hs. pose proof (not_lone _ _ Hl H) as Hn. apply wf_path_eq in H as (H1 & H2 & H3).
  apply wf_path_eq. split; [now destruct ss0|]. split; [|now apply wf_steps_app].
  intros ->. specialize (H2 eq_refl). specialize (Hn eq_refl). destruct ss0 as [|[h qs] ss0]; [easy|]. cbn.
  split; [apply H2|]. now rewrite Hn.
Qed.
Lemma den_extend p ss v : den_path (extend p ss) v = obnd (den_path p v) (den_steps ss).
Proof.
  destruct p as [a ss0]. cbn [extend]. rewrite !den_path_eq. destruct (if a then _ else _); [|easy]. cbn.
  apply den_steps_app.
Qed.
Lemma steps_toks_app a s1 s2 : forall first, s1 <> [] \/ first = false ->
  steps_toks a first (s1 ++ s2) = steps_toks a first s1 ++ steps_toks a false s2.
Proof.
  induction s1 as [|[h qs] s1 IH]; intros first H.
  - destruct H; [easy|]. now subst.
  - cbn. rewrite IH by now right. now rewrite <- !app_assoc.
Qed.
Lemma show_extend p ss : steps_of p <> [] -> show (extend p ss) = show p ++ concat (steps_toks true false ss).
Proof.
  destruct p as [a ss0]. cbn [steps_of]. intros H. unfold show, extend. rewrite !path_toks_eq.
  rewrite steps_toks_app by now left. rewrite concat_app. now rewrite (steps_toks_a a true).
Qed.
Lemma wf_steps_of p : wf p -> steps_of p <> [].
Proof. destruct p. intros H. apply wf_path_eq in H. apply H. Qed.

(* findall over further steps *)
Lemma extend_ok p ss v l : wf p -> lone_group p = false -> wf_steps false false true ss ->
  (F v (show (extend p ss)) = Ok l <->
   exists m ls, F v (show p) = Ok m /\ Forall2 (fun x lx => den_steps ss [x] = Some lx) m ls /\ l = concat ls).
Proof.
  intros H Hl Hs. rewrite show_ok by now apply wf_extend. rewrite den_extend. split.
  - destruct (den_path p v) as [m|] eqn:E; [|easy]. cbn. rewrite (additive_flat _ m (steps_additive ss)), oflat_some.
    intros (ls & H1 & H2). exists m, ls. rewrite show_ok by easy. now split.
  - intros (m & ls & H1 & H2 & H3). apply show_ok in H1; [|easy]. rewrite H1. cbn.
    rewrite (additive_flat _ m (steps_additive ss)), oflat_some. eauto.
Qed.

Theorem slash_law p q v l : wf p -> wf q -> relative q -> lone_group p = false ->
  (F v (show p ++ L "/" ++ show q) = Ok l <->
   exists m ls, F v (show p) = Ok m /\ Forall2 (fun x lx => F x (show q) = Ok lx) m ls /\ l = concat ls).
Proof.
  intros Hp Hq Hr Hl. destruct q as [a ss]. cbn in Hr. subst a.
  assert (Hq' := Hq). apply wf_path_eq in Hq' as (H1 & H2 & H3).
  assert (E : show p ++ L "/" ++ show (Path false ss) = show (extend p ss)).
  { rewrite show_extend by now apply wf_steps_of. f_equal. unfold show. rewrite path_toks_eq.
    destruct ss as [|[h qs] ss]; [easy|]. destruct (H2 eq_refl) as [Hd _]. cbn [steps_toks]. rewrite Hd.
    cbn [negb andb orb slash_if app concat]. now rewrite (steps_toks_a false true). }
  rewrite E, extend_ok by easy.
  assert (Hd : forall x lx, F x (show (Path false ss)) = Ok lx <-> den_steps ss [x] = Some lx).
  { intros x lx. rewrite show_ok by easy. now rewrite den_path_eq. }
  split; intros (m & ls & A & B & C); exists m, ls; (split; [easy|]; split; [|easy]); revert B; apply Forall2_iff; intros; rewrite Hd; easy.
Qed.

(* self, then a descendant *)
Definition self_desc (n : str) : path := Path false [(HSelf, []); (HDesc n, [])].
Lemma show_self_desc n : show (self_desc n) = L ".//" ++ n.
Proof. cbn. now rewrite app_nil_r. Qed.
Lemma wf_self_desc n : valid_name true n -> wf (self_desc n).
Proof. intros H. apply wf_path_eq. cbn. repeat split; try easy. Qed.
Lemma den_self_desc n v : den_path (self_desc n) v = sres (find_descendant_or_self v n).
Proof.
  unfold self_desc. rewrite den_path_eq. cbn. destruct (sres _); [|easy]. cbn. now rewrite app_nil_r.
Qed.
Theorem descend_law p n v l : wf p -> lone_group p = false -> valid_name true n ->
  (F v (show p ++ L "//" ++ n) = Ok l <->
   exists m ls, F v (show p) = Ok m /\ Forall2 (fun x lx => F x (L ".//" ++ n) = Ok lx) m ls /\ l = concat ls).
Proof.
  intros Hp Hl Hn.
  assert (Hs : wf_steps false false true [(HDesc n, [])]) by (cbn; repeat split; easy).
  assert (E : show p ++ L "//" ++ n = show (extend p [(HDesc n, [])])).
  { rewrite show_extend by now apply wf_steps_of. cbn. now rewrite app_nil_r. }
  rewrite E, extend_ok by easy.
  assert (Hd : forall x lx, F x (L ".//" ++ n) = Ok lx <-> den_steps [(HDesc n, [])] [x] = Some lx).
  { intros x lx. rewrite <- show_self_desc, show_ok by now apply wf_self_desc. rewrite den_self_desc. cbn.
    destruct (sres _); [|easy]. cbn. now rewrite app_nil_r. }
  split; intros (m & ls & A & B & C); exists m, ls; (split; [easy|]; split; [|easy]); revert B; apply Forall2_iff; intros; rewrite Hd; easy.
Qed.

(* ---------- the grammar is monotone ---------- *)

Definition le_b (a b : bool) : Prop := a = true -> b = true.
Lemma wf_mono p : forall g np g' np', le_b g' g -> le_b np' np -> wf_path g np p -> wf_path g' np' p.
Proof.
  refine (ih_path
    (fun h => forall g np g' np' first, le_b g' g -> le_b np' np -> wf_head g np first h -> wf_head g' np' first h)
    (fun p => forall g np g' np', le_b g' g -> le_b np' np -> wf_path g np p -> wf_path g' np' p)
    (fun _ => True) _ _ _ (fun _ _ _ => I) p).
  - intros h Hg. destruct h; try easy.
  - intros q ps Hq Hps g np g' np' first Hg Hn. rewrite !wf_group_eq. intros (A & B & C).
    split; [auto|]. split; [eapply Hq; [..|exact B]; [easy|easy]|].
    rewrite Forall_forall in *. intros x Hx. eapply Hps; [exact Hx| | |apply (C x Hx)]; easy.
  - intros a ss Hss g np g' np' Hg Hn. rewrite !wf_path_eq. intros (A & B & C). split; [easy|]. split; [easy|].
    clear A B. revert C. generalize true as first. induction Hss as [|[h qs] ss [Hh _] Hss IH]; intros first; cbn; [easy|].
    intros (A & B & C & D). split; [eapply Hh; eauto|]. split; [auto|]. split; [easy|]. now apply IH.
Qed.
Lemma wf_any g np p : wf_path g np p -> wf p.
Proof. apply wf_mono; easy. Qed.

(* ---------- predicates ---------- *)

Definition add_pred (p : path) (q : pred) : path :=
  match p with Path a ss => Path a (match rev ss with (h, qs) :: r => rev r ++ [(h, qs ++ [q])] | [] => [] end) end.
Lemma den_preds_app qs qs' m : den_preds (qs ++ qs') m = obnd (den_preds qs m) (den_preds qs').
Proof. revert m; induction qs as [|q qs IH]; intros m; [easy|]. cbn. destruct (ofilter _ m); [apply IH|easy]. Qed.
Lemma add_pred_spec p q : wf p -> lone_group p = false -> wf_pred q ->
  wf (add_pred p q) /\ show (add_pred p q) = show p ++ concat (pred_toks q)
  /\ forall v, den_path (add_pred p q) v = obnd (den_path p v) (ofilter (den_pred q)).
Proof.
  destruct p as [a ss]. intros H Hl Hq. pose proof (not_lone _ _ Hl H) as Hn. apply wf_path_eq in H as (H1 & H2 & H3).
  destruct (exists_last H1) as (r & [h qs] & ->). unfold add_pred. rewrite rev_app_distr. cbn [rev app]. rewrite rev_involutive.
  split; [|split].
  - apply wf_path_eq. split; [now destruct r|]. split.
    + intros ->. specialize (H2 eq_refl). specialize (Hn eq_refl). destruct r as [|[h' qs'] r]; cbn in *.
      * rewrite Hn. now split.
      * rewrite Hn. now split.
    + assert (G : forall r first, wf_steps false false first (r ++ [(h, qs)]) -> wf_steps false false first (r ++ [(h, qs ++ [q])])).
      { clear - Hq. induction r as [|[h' qs'] r IH]; intros first; cbn.
        - intros (A & B & C & D). repeat split; try easy. apply Forall_app. split; [easy|]. now repeat constructor.
        - intros (A & B & C & D). repeat split; try easy. now apply IH. }
      now apply G.
  - unfold show. rewrite !path_toks_eq.
    assert (G : forall r first, steps_toks a first (r ++ [(h, qs ++ [q])]) = steps_toks a first (r ++ [(h, qs)]) ++ pred_toks q).
    { clear. induction r as [|[h' qs'] r IH]; intros first; cbn.
      - rewrite !app_nil_r, flat_map_app, <- !app_assoc. cbn. now rewrite app_nil_r.
      - rewrite IH. now rewrite <- !app_assoc. }
    now rewrite G, concat_app.
  - intros v. rewrite !den_path_eq. destruct (if a then ores (get_corpus v) else Some v) as [c|]; [|easy]. cbn [obnd].
    rewrite !den_steps_app. destruct (den_steps r [c]) as [m|]; [|easy]. cbn [obnd PathProofs.den_steps].
    destruct (oflat _ m) as [k|]; [|easy]. cbn [obnd]. rewrite den_preds_app.
    destruct (den_preds qs k) as [k'|]; [|easy]. cbn [obnd]. cbn. now destruct (ofilter _ k').
Qed.
Lemma ofilter_some f l m : ofilter f l = Some m <->
  exists bs, Forall2 (fun x b => f x = Some b) l bs /\ m = kept l bs.
Proof.
  revert m; induction l as [|x l IH]; intros m; cbn.
  - split.
    + intros [= <-]. exists []. split; [constructor|easy].
    + intros (ls & H & ->). now inversion H.
  - split.
    + destruct (f x) as [b|] eqn:E; [|easy]. destruct (ofilter f l) as [k|] eqn:E2; [|easy]. intros [= <-].
      destruct (proj1 (IH k) eq_refl) as (bs & H & ->). exists (b :: bs). split; [now constructor|].
      unfold kept. cbn. now destruct b.
    + intros (ls & H & ->). inversion H as [|? b ? bs H1 H2]; subst. rewrite H1.
      rewrite (proj2 (IH (kept l bs))) by eauto. unfold kept. cbn. now destruct b.
Qed.
Definition cmp (neg : bool) : str := if neg then L "!=" else L "=".
Lemma is_str_in lit l : existsb (is_str lit) l = true <-> In (VStr lit) l.
Proof.
  rewrite existsb_exists. split.
  - intros (x & Hx & E). destruct x; try easy. cbn in E. now apply str_eqb_eq in E as ->.
  - intros H. exists (VStr lit). split; [easy|]. cbn. apply str_eqb_refl.
Qed.
Lemma not_str_in lit l : forallb (fun x => negb (is_str lit x)) l = true <-> ~ In (VStr lit) l.
Proof.
  rewrite <- is_str_in. induction l as [|x l IH]; cbn; [split; easy|].
  destruct (is_str lit x); cbn; [split; easy|]. exact IH.
Qed.
Theorem predicate_law p sub (neg : bool) lit v l : wf p -> lone_group p = false -> wf_path false true sub -> plain lit ->
  (F v (show p ++ L "[" ++ show sub ++ (if neg then L "!=" else L "=") ++ quoted lit ++ L "]") = Ok l <->
   exists m bs, F v (show p) = Ok m
     /\ Forall2 (fun x b => exists r, F x (show sub) = Ok r
                  /\ (b = true <-> if neg then ~ In (VStr lit) r else In (VStr lit) r)) m bs
     /\ l = kept m bs).
Proof.
  intros Hp Hl Hs Hlit.
  set (q := Pred sub (Some (neg, lit))). assert (Hq : wf_pred q) by now split.
  destruct (add_pred_spec p q Hp Hl Hq) as (W & E & D).
  replace (show p ++ L "[" ++ show sub ++ (if neg then L "!=" else L "=") ++ quoted lit ++ L "]") with (show (add_pred p q)).
  2:{ rewrite E. f_equal. unfold q. cbn [pred_toks concat]. rewrite !concat_app. cbn [concat]. change (concat (path_toks sub)) with (show sub).
      rewrite !app_nil_r, <- !app_assoc. now destruct neg. }
  rewrite show_ok by easy. rewrite D.
  pose proof (wf_any _ _ _ Hs) as Hsub.
  assert (Hd : forall x b, den_pred q x = Some b <->
     exists r, F x (show sub) = Ok r /\ (b = true <-> if neg then ~ In (VStr lit) r else In (VStr lit) r)).
  { intros x b. unfold q. rewrite den_pred_eq. split.
    - destruct (den_path sub x) as [r|] eqn:Er; [|easy]. cbn [obnd test_holds]. intros Hb.
      exists r. rewrite show_ok by easy. split; [easy|]. destruct neg; injection Hb as <-.
      + apply not_str_in. + apply is_str_in.
    - intros (r & Hr & Hb). apply show_ok in Hr; [|easy]. rewrite Hr. cbn [obnd test_holds].
      destruct neg; f_equal; apply eq_true_iff_eq; rewrite Hb; [apply not_str_in|apply is_str_in]. }
  split.
  - destruct (den_path p v) as [m|] eqn:Em; [|easy]. cbn [obnd]. rewrite ofilter_some. intros (bs & H1 & H2).
    exists m, bs. rewrite show_ok by easy. split; [easy|]. split; [|easy]. revert H1. apply Forall2_iff. intros; now rewrite Hd.
  - intros (m & bs & H1 & H2 & H3). apply show_ok in H1; [|easy]. rewrite H1. cbn [obnd]. rewrite ofilter_some.
    exists bs. split; [|easy]. revert H2. apply Forall2_iff. intros; now rewrite Hd.
Qed.

(* [sub]: a TypeError for every object it is asked about *)
Theorem existence_law p sub v l : wf p -> lone_group p = false -> wf_path false true sub ->
  (F v (show p ++ L "[" ++ show sub ++ L "]") = Ok l <-> F v (show p) = Ok [] /\ l = []).
Proof.
  intros Hp Hl Hs.
  set (q := Pred sub None). assert (Hq : wf_pred q) by now split.
  destruct (add_pred_spec p q Hp Hl Hq) as (W & E & D).
  replace (show p ++ L "[" ++ show sub ++ L "]") with (show (add_pred p q)).
  2:{ rewrite E. f_equal. unfold q. cbn [pred_toks concat app]. rewrite !concat_app. cbn [concat]. change (concat (path_toks sub)) with (show sub).
      now rewrite !app_nil_r. }
  rewrite !show_ok by easy. rewrite D.
  assert (Hd : forall x, den_pred q x = None).
  { intros x. unfold q. rewrite den_pred_eq. now destruct (den_path sub x). }
  destruct (den_path p v) as [[|x m]|]; cbn [obnd].
  - split; [now intros [= <-]|now intros [_ ->]].
  - cbn [ofilter]. rewrite Hd. split; [easy|now intros []].
  - split; [easy|now intros []].
Qed.

(* ---------- groups ---------- *)

Lemma show_group p ps : show (Path false [(HGroup p ps, [])]) = L "(" ++ join (L "|") (map show (p :: ps)) ++ L ")".
Proof.
  unfold show at 1. rewrite path_toks_eq. cbn [steps_toks is_desc negb andb orb slash_if app flat_map head_toks].
  rewrite !app_nil_r. cbn [concat]. rewrite !concat_app. cbn [concat]. rewrite app_nil_r. f_equal.
  rewrite app_assoc. f_equal. change (concat (path_toks p)) with (show p). revert p. induction ps as [|q ps IH]; intros p.
  - cbn. now rewrite app_nil_r.
  - cbn [flat_map concat]. rewrite concat_app. cbn [concat]. change (concat (path_toks q)) with (show q).
    rewrite <- app_assoc, (IH q). cbn [map]. reflexivity.
Qed.
Theorem group_law p ps v l : Forall (wf_path true false) (p :: ps) ->
  (F v (L "(" ++ join (L "|") (map show (p :: ps)) ++ L ")") = Ok l <->
   exists ls, Forall2 (fun q lq => F v (show q) = Ok lq) (p :: ps) ls /\ l = concat ls).
Proof.
  intros H. rewrite <- show_group. inversion H as [|? ? H1 H2]; subst.
  assert (W : wf (Path false [(HGroup p ps, [])])).
  { apply wf_path_eq. split; [easy|]. split; [easy|]. cbn [wf_steps]. rewrite wf_group_eq. now repeat split. }
  rewrite show_ok by easy. rewrite den_path_eq. cbn [obnd PathProofs.den_steps].
  change (oflat (den_head (HGroup p ps)) [v]) with
    (match den_head (HGroup p ps) v with Some a => Some (a ++ []) | None => None end).
  rewrite den_group_eq.
  assert (E : forall l, oflat (fun q => den_path q v) (p :: ps) = Some l <->
    exists ls, Forall2 (fun q lq => F v (show q) = Ok lq) (p :: ps) ls /\ l = concat ls).
  { intros l'. rewrite oflat_some. split; intros (ls & A & B); exists ls; (split; [|easy]); clear B; revert ls A;
      generalize (p :: ps) as k, H; clear - U; induction k as [|q k IH]; intros Hk ls A; inversion A; inversion Hk; subst;
      constructor; auto; (apply show_ok; [eapply wf_any; eauto|easy]). }
  rewrite <- E. destruct (oflat _ (p :: ps)) as [m|]; [|easy]. cbn. now rewrite app_nil_r.
Qed.

(* ---------- absolute paths ---------- *)

Lemma climb_up o up c u : (exists below, o :: up = below ++ PCorpus c :: u
    /\ Forall (fun o => match o with PCorpus _ => False | _ => True end) below) ->
  climb o up = Ok (VNode {| n_obj := PCorpus c; n_up := u |}).
Proof.
  intros (below & E & H). revert o up E. induction H as [|x below Hx H IH]; intros o up E; cbn in E.
  - injection E as -> ->. now destruct u.
  - injection E as -> E. destruct up as [|o' up']; [now destruct below|].
    destruct x; try easy; cbn; apply IH; exact E.
Qed.
Lemma climb_none o up : Forall (fun o => match o with PCorpus _ => False | _ => True end) (o :: up) ->
  exists e, climb o up = Err e.
Proof.
  revert o. induction up as [|o' up IH]; intros o H; inversion H; subst; destruct o; cbn; eauto; easy.
Qed.
Theorem absolute_law ss n below c u v l :
  wf (Path true ss) -> n_obj n :: n_up n = below ++ PCorpus c :: u ->
  Forall (fun o => match o with PCorpus _ => False | _ => True end) below ->
  v = {| n_obj := PCorpus c; n_up := u |} ->
  (F (VNode n) (show (Path true ss)) = Ok l <-> F (VNode v) (L "." ++ show (Path true ss)) = Ok l).
Proof.
  intros H E Hb ->. set (p' := Path false ((HSelf, []) :: ss)).
  assert (W : wf p').
  { apply wf_path_eq in H as (A & B & C). apply wf_path_eq. split; [easy|]. split; [easy|].
    apply (wf_steps_app false [(HSelf, [])] ss); [|easy]. cbn. now repeat split. }
  replace (L "." ++ show (Path true ss)) with (show p').
  2:{ unfold show, p'. rewrite !path_toks_eq. cbn [steps_toks is_desc negb andb orb slash_if app flat_map head_toks concat].
      f_equal. f_equal. destruct ss as [|[h qs] ss]; [easy|]. cbn [steps_toks]. rewrite !orb_true_l, orb_true_r.
      now rewrite (steps_toks_a false true). }
  rewrite !show_ok by easy. unfold p'. rewrite !den_path_eq. cbn [obnd]. cbn [get_corpus].
  rewrite (climb_up _ _ c u) by eauto. cbn [ores obnd PathProofs.den_steps oflat app]. reflexivity.
Qed.
Theorem absolute_nowhere ss n : wf (Path true ss) ->
  Forall (fun o => match o with PCorpus _ => False | _ => True end) (n_obj n :: n_up n) ->
  forall l, F (VNode n) (show (Path true ss)) <> Ok l.
Proof.
  intros H Hn l. rewrite show_ok by easy. rewrite den_path_eq. cbn [get_corpus].
  destruct (climb_none _ _ Hn) as [e ->]. easy.
Qed.

(* ---------- single steps ---------- *)

Lemma one_step h v l : wf_head false false true h -> is_desc h = false -> is_group h = false ->
  (F v (concat (head_toks h)) = Ok l <-> den_head h v = Some l).
Proof.
  intros H Hd Hg. assert (W : wf (Path false [(h, [])])).
  { apply wf_path_eq. split; [easy|]. split; [now rewrite Hd, Hg|]. cbn. now repeat split. }
  replace (concat (head_toks h)) with (show (Path false [(h, [])])).
  2:{ unfold show. rewrite path_toks_eq. cbn [steps_toks]. rewrite Hd. cbn [negb andb orb slash_if app flat_map].
      now rewrite app_nil_r. }
  rewrite show_ok by easy. rewrite den_path_eq. cbn [obnd PathProofs.den_steps oflat].
  destruct (den_head h v) as [m|]; [|easy]. cbn. now rewrite app_nil_r.
Qed.
Theorem self_law v : F v (L ".") = Ok [v].
Proof. now apply (one_step HSelf). Qed.
Theorem parent_law o up o' : F (VNode {| n_obj := o; n_up := o' :: up |}) (L "..") = Ok [VNode {| n_obj := o'; n_up := up |}].
Proof. apply (one_step HUp); try easy. Qed.

Lemma split1_no c s : ~ In c s -> split1 c s = None.
Proof.
  induction s as [|x s IH]; intros H; [easy|]. cbn. destruct (N.eqb_spec x c) as [->|]; [destruct H; now left|].
  rewrite IH; [easy|]. intros Hx. apply H. now right.
Qed.
Lemma split_ns_plain name : no_colon name -> split_ns name = (None, name).
Proof. intros H. unfold split_ns. now rewrite split1_no. Qed.
Lemma split1_at c a b : ~ In c a -> split1 c (a ++ c :: b) = Some (a, b).
Proof.
  induction a as [|x a IH]; intros H; cbn.
  - now rewrite N.eqb_refl.
  - destruct (N.eqb_spec x c) as [->|]; [destruct H; now left|]. rewrite IH; [easy|]. intros Hx. apply H. now right.
Qed.
Lemma split_ns_prefix p name : no_colon p -> split_ns (p ++ Ch ":" :: name) = (Some p, name).
Proof. intros H. unfold split_ns, COLON. now rewrite split1_at. Qed.

Lemma picked_filter {A} (f : A -> bool) (P : A -> Prop) l : (forall x, In x l -> f x = true <-> P x) -> picked P l (filter f l).
Proof.
  induction l as [|x l IH]; intros H; cbn; [constructor|]. destruct (f x) eqn:E.
  - constructor; [|apply IH; intros; apply H; now right]. apply H; [now left|easy].
  - constructor; [|apply IH; intros; apply H; now right]. intros Hp. apply H in Hp; [congruence|now left].
Qed.
Lemma picked_app {A} (P : A -> Prop) a b x y : picked P a x -> picked P b y -> picked P (a ++ b) (x ++ y).
Proof. induction 1; cbn; [easy| |]; intros; constructor; auto. Qed.
Lemma picked_all {A} (P : A -> Prop) l : (forall x, In x l -> P x) -> picked P l l.
Proof. induction l; intros H; constructor; [apply H; now left|apply IHl; intros; apply H; now right]. Qed.
Lemma picked_none {A} (P : A -> Prop) l : (forall x, In x l -> ~ P x) -> picked P l [].
Proof. induction l; intros H; constructor; [apply H; now left|apply IHl; intros; apply H; now right]. Qed.
Lemma picked_fun {A} (P : A -> Prop) l : forall x y, picked P l x -> picked P l y -> x = y.
Proof.
  induction l as [|a l IH]; intros x y Hx Hy; inversion Hx; inversion Hy; subst; try easy; f_equal; auto.
Qed.

(* what find_child selects, as a list of children *)
Lemma kids_eq o : kid_objs o = metadata_list o ++ member_list o.
Proof. destruct o; try reflexivity. now destruct c. Qed.
Lemma meta_shape o x : In x (metadata_list o) -> exists m, x = PMetadata m.
Proof. destruct o; cbn; rewrite ?in_map_iff; try easy; intros (m & <- & _); eauto. Qed.
Lemma member_shape o x : In x (member_list o) ->
  match member_name o with
  | Some nm => element_name x = nm /\ (forall m, x <> PMetadata m)
  | None => exists n a t k, x = PChild (MChild n a t k)
  end.
Proof.
  destruct o; cbn; rewrite ?in_map_iff; try easy; try (now intros (y & <- & _)).
  - intros ([n a t k] & <- & _). eauto.
  - destruct c. cbn. rewrite in_map_iff. intros ([n' a' t' k'] & <- & _). eauto.
Qed.

Definition ns_ok (n : pnode) (ns : option str) (o : obj) : bool :=
  match ns with
  | None => true
  | Some p => opt_eqb str_eqb (a_ns (attrs_of o)) (Some (resolve (dget (nsmap_of (chain_of n))) p))
  end.
Definition nm_ok (nm : option str) (o : obj) : bool :=
  match nm with
  | None => true
  | Some s => opt_eqb str_eqb (child_getattr o (L "name")) (Some s)
  end.
Lemma select_eq n ns nm :
  select_members n (ns_kwargs ns ++ match nm with Some s => [(L "name", Some s)] | None => [] end) =
  map (fun o => VNode (child_of n o)) (filter (fun o => ns_ok n ns o && nm_ok nm o) (member_list (n_obj n))).
Proof.
  unfold select_members.
  assert (Hs : forall m kw l, select child_getattr m l kw = Ok (filter (fun o => ns_ok n ns o && nm_ok nm o) l) ->
    match select child_getattr m l kw with Ok l => map (fun o => VNode (child_of n o)) l | Err _ => [] end
    = map (fun o => VNode (child_of n o)) (filter (fun o => ns_ok n ns o && nm_ok nm o) l)) by (intros m kw l ->; easy).
  apply Hs. clear Hs. unfold select.
  assert (E1 : str_eqb (L "name") NAMESPACE = false) by reflexivity.
  assert (E2 : str_eqb NAMESPACE (L "name") = false) by reflexivity.
  assert (G : forall kw l, (forall o, forallb (fun kv => opt_eqb str_eqb (child_getattr o (fst kv)) (snd kv)) kw = ns_ok n ns o && nm_ok nm o) ->
    Ok (filter (fun x => forallb (fun kv => opt_eqb str_eqb (child_getattr x (fst kv)) (snd kv)) kw) l)
    = Ok (filter (fun o => ns_ok n ns o && nm_ok nm o) l)).
  { intros kw l H. f_equal. now apply filter_ext. }
  unfold ns_ok, resolve in *. destruct ns as [p|], nm as [s|]; cbn [ns_kwargs app]; unfold dget at 1; cbn [dget_];
    rewrite ?str_eqb_refl, ?E1; try (destruct (dget (nsmap_of (chain_of n)) p) eqn:Ed); apply G; intros o;
    unfold dset; cbn [dset_]; rewrite ?str_eqb_refl, ?E1; cbn [forallb fst snd nm_ok]; now rewrite ?andb_true_r.
Qed.
Lemma select_ns n ns : select_members n (ns_kwargs ns) =
  map (fun o => VNode (child_of n o)) (filter (ns_ok n ns) (member_list (n_obj n))).
Proof.
  pose proof (select_eq n ns None) as E. rewrite app_nil_r in E. rewrite E. f_equal. apply filter_ext. intros o.
  cbn. apply andb_true_r.
Qed.

Lemma opt_str_eqb a b : opt_eqb str_eqb a b = true <-> a = b.
Proof.
  destruct a, b; cbn; try easy. rewrite str_eqb_eq. split; congruence.
Qed.
Definition kid_ok (n : pnode) (ns : option str) (nm : str) : obj -> Prop :=
  match ns with None => named nm | Some p => prefixed (dget (nsmap_of (chain_of n))) p nm end.
Lemma kid_ok_member n ns nm x : (forall m, x <> PMetadata m) ->
  kid_ok n ns nm x <-> named nm x /\ ns_ok n ns x = true.
Proof.
  intros H. destruct ns as [p|]; cbn; [|easy]. rewrite opt_str_eqb. destruct x; try easy. now destruct (H m).
Qed.
Lemma kid_ok_meta n ns nm m :
  kid_ok n ns nm (PMetadata m) <->
  nm = L "*" \/ (nm = L "metadata" /\ match ns with None => True | Some p => a_ns (md_attrs m) = Some p end).
Proof. destruct ns as [p|]; cbn; [easy|]. unfold named. cbn. intuition. Qed.

Lemma child_picked n name ns nm : split_ns name = (ns, nm) ->
  exists l, picked (kid_ok n ns nm) (kid_objs (n_obj n)) l
  /\ find_child (VNode n) name = (map (fun o => VNode (child_of n o)) l, None).
Proof.
  intros Es. unfold find_child. rewrite Es. rewrite kids_eq.
  assert (Hmap : forall l, map VNode (map (child_of n) l) = map (fun o => VNode (child_of n o)) l) by (intros; apply map_map).
  assert (Hmeta : forall x, In x (metadata_list (n_obj n)) -> exists m, x = PMetadata m) by apply meta_shape.
  assert (Hmem : forall x, In x (member_list (n_obj n)) -> forall m, x <> PMetadata m).
  { intros x Hx. apply member_shape in Hx. destruct (member_name (n_obj n)); [apply Hx|]. destruct Hx as (? & ? & ? & ? & ->). easy. }
  destruct (str_eqb nm (L "*")) eqn:Estar.
  { apply str_eqb_eq in Estar as ->.
    exists (metadata_list (n_obj n) ++ filter (ns_ok n ns) (member_list (n_obj n))). split.
    - apply picked_app.
      + apply picked_all. intros x Hx. destruct (Hmeta x Hx) as [m ->]. apply kid_ok_meta. now left.
      + apply picked_filter. intros x Hx. rewrite kid_ok_member by now apply Hmem. unfold named. intuition.
    - rewrite map_app, select_ns, Hmap. destruct (n_obj n); try reflexivity. }
  apply str_eqb_neq in Estar.
  destruct (opt_eqb str_eqb (member_name (n_obj n)) (Some nm)) eqn:Em.
  { apply opt_str_eqb in Em.
    exists ([] ++ filter (ns_ok n ns) (member_list (n_obj n))). split.
    - apply picked_app.
      + apply picked_none. intros x Hx. destruct (Hmeta x Hx) as [m ->]. rewrite kid_ok_meta. intros [?|[-> _]]; [easy|].
        destruct (n_obj n); cbn in Em; try easy; now destruct c.
      + apply picked_filter. intros x Hx. rewrite kid_ok_member by now apply Hmem. pose proof (member_shape _ _ Hx) as Hs.
        rewrite Em in Hs. unfold named. intuition.
    - cbn [app]. rewrite select_ns. destruct (n_obj n); try easy; rewrite Em, (proj2 (opt_str_eqb _ _) eq_refl); reflexivity. }
  assert (Hmc : (match n_obj n with PMeta _ | PChild _ => True | _ => False end) ->
    picked (kid_ok n ns nm) (metadata_list (n_obj n) ++ member_list (n_obj n))
      (filter (fun o => ns_ok n ns o && nm_ok (Some nm) o) (member_list (n_obj n)))).
  { intros Hm. assert (E : metadata_list (n_obj n) = []) by now destruct (n_obj n). rewrite E. cbn [app].
    apply picked_filter. intros x Hx. rewrite kid_ok_member by now apply Hmem. pose proof (member_shape _ _ Hx) as Hs.
    destruct (n_obj n); try easy; cbn [member_name] in Hs; destruct Hs as (cn & ca & ct & ck & ->);
      cbn [nm_ok]; rewrite andb_true_iff, opt_str_eqb;
      (change (child_getattr (PChild (MChild cn ca ct ck)) (L "name")) with (Some cn));
      unfold named; cbn [element_name]; (split; [intros [A B]; injection B as B; tauto|intros [[?|?] ?]; [easy|split; congruence]]). }
  assert (Hno : forall nm', member_name (n_obj n) = Some nm' -> forall x, In x (member_list (n_obj n)) -> ~ kid_ok n ns nm x).
  { intros nm' E x Hx. rewrite kid_ok_member by now apply Hmem. pose proof (member_shape _ _ Hx) as Hs. rewrite E in Hs.
    unfold named. intros [[?|?] _]; [easy|]. destruct Hs as [Hs _]. rewrite E in Em.
    assert (opt_eqb str_eqb (Some nm') (Some nm) = true) by (apply opt_str_eqb; congruence). congruence. }
  destruct (str_eqb nm (L "metadata")) eqn:Emd.
  - apply str_eqb_eq in Emd as ->. cbn [andb].
    set (f := fun o => match ns with Some p => opt_eqb str_eqb (a_ns (attrs_of o)) (Some p) | None => true end).
    assert (Hp : picked (kid_ok n ns (L "metadata")) (metadata_list (n_obj n)) (filter f (metadata_list (n_obj n)))).
    { apply picked_filter. intros x Hx. destruct (Hmeta x Hx) as [m ->]. rewrite kid_ok_meta. unfold f. cbn.
      destruct ns; [rewrite opt_str_eqb|]; intuition; discriminate. }
    assert (Hf : map VNode (match ns with
                       | Some p => filter (fun c => opt_eqb str_eqb (a_ns (attrs_of (n_obj c))) (Some p)) (map (child_of n) (metadata_list (n_obj n)))
                       | None => map (child_of n) (metadata_list (n_obj n))
                       end) = map (fun o => VNode (child_of n o)) (filter f (metadata_list (n_obj n)))).
    { rewrite <- Hmap. unfold f. destruct ns as [p|]; f_equal.
      - generalize (metadata_list (n_obj n)). induction l as [|o l IH]; [easy|]. cbn [map filter].
        change (n_obj (child_of n o)) with o. destruct (opt_eqb str_eqb (a_ns (attrs_of o)) (Some p)); cbn [map]; now rewrite IH.
      - generalize (metadata_list (n_obj n)). induction l as [|o l IH]; [easy|]. cbn [map filter]. now rewrite IH. }
    destruct (n_obj n) as [i|t|g|c|m|m|c] eqn:Eo.
    + exists []. split; [constructor|easy].
    + exists (filter f (metadata_list (PTier t)) ++ []). split; [|now rewrite app_nil_r, <- Hf].
      apply picked_app; [easy|]. apply picked_none. eapply Hno; reflexivity.
    + exists (filter f (metadata_list (PIgt g)) ++ []). split; [|now rewrite app_nil_r, <- Hf].
      apply picked_app; [easy|]. apply picked_none. eapply Hno; reflexivity.
    + exists (filter f (metadata_list (PCorpus c)) ++ []). split; [|now rewrite app_nil_r, <- Hf].
      apply picked_app; [easy|]. apply picked_none. eapply Hno; reflexivity.
    + exists []. split; [|easy]. apply picked_none. eapply Hno; reflexivity.
    + eexists. split; [apply Hmc, I|]. pose proof (select_eq n ns (Some (L "metadata"))) as Hse. rewrite Eo in Hse. rewrite <- Hse. reflexivity.
    + eexists. split; [apply Hmc, I|]. pose proof (select_eq n ns (Some (L "metadata"))) as Hse. rewrite Eo in Hse. rewrite <- Hse. reflexivity.
  - cbn [andb].
    assert (Hnm : forall x, In x (metadata_list (n_obj n)) -> ~ kid_ok n ns nm x).
    { intros x Hx. destruct (Hmeta x Hx) as [m ->]. rewrite kid_ok_meta. intros [?|[-> _]]; easy. }
    destruct (n_obj n) as [i|t|g|c|m|m|c] eqn:Eo.
    + exists []. split; [constructor|easy].
    + exists ([] ++ []). split; [|now rewrite Em]. apply picked_app; [now apply picked_none|]. apply picked_none. eapply Hno; reflexivity.
    + exists ([] ++ []). split; [|now rewrite Em]. apply picked_app; [now apply picked_none|]. apply picked_none. eapply Hno; reflexivity.
    + exists ([] ++ []). split; [|now rewrite Em]. apply picked_app; [now apply picked_none|]. apply picked_none. eapply Hno; reflexivity.
    + exists ([] ++ []). split; [|now rewrite Em]. apply picked_app; [now apply picked_none|]. apply picked_none. eapply Hno; reflexivity.
    + eexists. split; [apply Hmc, I|]. pose proof (select_eq n ns (Some nm)) as Hse. rewrite Eo in Hse. rewrite <- Hse. reflexivity.
    + eexists. split; [apply Hmc, I|]. pose proof (select_eq n ns (Some nm)) as Hse. rewrite Eo in Hse. rewrite <- Hse. reflexivity.
Qed.

(* names *)
Theorem child_law n name l : valid_name false name -> no_colon name ->
  picked (named name) (kid_objs (n_obj n)) l ->
  F (VNode n) name = Ok (map (fun o => VNode {| n_obj := o; n_up := n_obj n :: n_up n |}) l).
Proof.
  intros Hv Hc Hp. rewrite <- (app_nil_r name) at 1. apply (one_step (HChild name)); try easy.
  cbn [PathProofs.den_head]. apply sres_some.
  destruct (child_picked n name None name (split_ns_plain _ Hc)) as (l' & Hp' & ->).
  now rewrite (picked_fun _ _ _ _ Hp Hp').
Qed.
Lemma prefixes_get chain m : prefixes chain m -> forall k, dget (nsmap_of chain) k = m k.
Proof. intros H k. symmetry. now apply prefixes_fun. Qed.
Lemma picked_iff {A} (P Q : A -> Prop) l x : (forall y, P y <-> Q y) -> picked P l x -> picked Q l x.
Proof. intros H. induction 1; constructor; auto; rewrite <- ?H; easy. Qed.
Theorem child_prefix_law n p name m l : valid_name false (p ++ L ":" ++ name) -> no_colon p ->
  prefixes (map attrs_of (n_obj n :: n_up n)) m ->
  picked (prefixed m p name) (kid_objs (n_obj n)) l ->
  F (VNode n) (p ++ L ":" ++ name) = Ok (map (fun o => VNode {| n_obj := o; n_up := n_obj n :: n_up n |}) l).
Proof.
  intros Hv Hc Hm Hp. rewrite <- (app_nil_r (p ++ L ":" ++ name)) at 1. apply (one_step (HChild _)); try easy.
  cbn [PathProofs.den_head]. apply sres_some.
  destruct (child_picked n (p ++ L ":" ++ name) (Some p) name (split_ns_prefix _ _ Hc)) as (l' & Hp' & ->).
  cbn [kid_ok] in Hp'.
  apply (picked_iff _ (prefixed m p name)) in Hp'.
  - now rewrite (picked_fun _ _ _ _ Hp Hp').
  - intros y. unfold prefixed, resolve. rewrite (prefixes_get _ m Hm). now destruct y.
Qed.

(* attributes *)
Ltac valid_tac :=
  right; right; split; [discriminate|]; split;
  [intros c Hc Hs; vm_compute in Hc, Hs; repeat (destruct Hc as [<-|Hc]; [intuition discriminate|]); easy|];
  split; [vm_compute; reflexivity|]; split;
  [intros k [-> | [-> | [-> | ->]]] (r & E); vm_compute in E; discriminate|];
  repeat split; intros (r & E); vm_compute in E; discriminate.
Theorem id_law n : F (VNode n) (L "@id") = Ok (match a_id (attrs_of (n_obj n)) with Some s => [VStr s] | None => [] end).
Proof. apply (one_step (HAttr (L "id"))); [valid_tac|easy..]. Qed.
Theorem type_law n : F (VNode n) (L "@type") = Ok (match a_type (attrs_of (n_obj n)) with Some s => [VStr s] | None => [] end).
Proof. apply (one_step (HAttr (L "type"))); [valid_tac|easy..]. Qed.
Lemma attr_steps a v l : valid_name true a -> sres (find_attr v a) = Some l -> F v (L "@" ++ a) = Ok l.
Proof.
  intros H E. replace (L "@" ++ a) with (concat (head_toks (HAttr a))) by (cbn; now rewrite app_nil_r).
  now apply (one_step (HAttr a)).
Qed.
Lemma not_pseudo a : ~ In a [L "id"; L "type"; L "name"] -> is_pseudo a = false.
Proof.
  intros H. unfold is_pseudo. destruct (existsb _ _) eqn:E; [|easy]. apply existsb_exists in E as (x & Hx & E).
  apply str_eqb_eq in E as <-. destruct H. cbn in *. tauto.
Qed.
Theorem attribute_law n a m full : valid_name true a -> ~ In a [L "id"; L "type"; L "name"; L "*"] ->
  no_colon a -> prefixes (map attrs_of (n_obj n :: n_up n)) m -> names m a None full ->
  F (VNode n) (L "@" ++ a) = Ok [match dget (a_dict (attrs_of (n_obj n))) full with Some s => VStr s | None => VNone end].
Proof.
  intros Hv Hn Hc Hm Hf. apply attr_steps; [easy|]. unfold find_attr.
  rewrite not_pseudo by (intros H; apply Hn; cbn in *; tauto). rewrite split_ns_plain by easy.
  replace (str_eqb a (L "*")) with false by (symmetry; apply str_eqb_neq; intros ->; apply Hn; cbn; tauto).
  cbn [map] in Hm. change (chain_of n) with (attrs_of (n_obj n) :: map attrs_of (n_up n)).
  destruct (dget (a_dict (attrs_of (n_obj n))) full) as [s|] eqn:E.
  - now rewrite (get_attribute_own _ _ _ _ _ _ _ _ _ Hm Hf E).
  - now rewrite (get_attribute_not_own _ _ _ _ _ _ _ Hm Hf E).
Qed.
Theorem attribute_prefix_law n p a m full : valid_name true (p ++ L ":" ++ a) -> a <> L "*" ->
  no_colon p -> prefixes (map attrs_of (n_obj n :: n_up n)) m -> names m a (Some p) full ->
  F (VNode n) (L "@" ++ p ++ L ":" ++ a) = Ok [match dget (a_dict (attrs_of (n_obj n))) full with Some s => VStr s | None => VNone end].
Proof.
  intros Hv Hn Hc Hm Hf. apply attr_steps; [easy|]. unfold find_attr.
  rewrite not_pseudo.
  2:{ intros H. assert (Hi : In (Ch ":") (p ++ L ":" ++ a)) by (apply in_app_iff; right; now left).
      cbn [In] in H. destruct H as [H | [H | [H | []]]]; rewrite <- H in Hi; vm_compute in Hi; intuition discriminate. }
  change (p ++ L ":" ++ a) with (p ++ Ch ":" :: a). rewrite split_ns_prefix by easy.
  replace (str_eqb a (L "*")) with false by (symmetry; now apply str_eqb_neq).
  cbn [map] in Hm. change (chain_of n) with (attrs_of (n_obj n) :: map attrs_of (n_up n)).
  destruct (dget (a_dict (attrs_of (n_obj n))) full) as [s|] eqn:E.
  - now rewrite (get_attribute_own _ _ _ _ _ _ _ _ _ Hm Hf E).
  - now rewrite (get_attribute_not_own _ _ _ _ _ _ _ Hm Hf E).
Qed.

(* text() *)
Theorem text_law n t :
  match n_obj n with
  | PItem i => it_text i = t
  | PMeta m => me_text m = t
  | PChild (MChild _ _ t' _) => t' = t
  | _ => False
  end ->
  F (VNode n) (L "text()") = Ok [match t with Some s => VStr s | None => VNone end].
Proof.
  intros H. apply (one_step (HCall (L "text") None)); [split; [now left|easy]|easy|easy|].
  change (den_head (HCall (L "text") None) (VNode n)) with (sres (of_res (do x <- text_of_val (VNode n); Ok [x]))).
  unfold text_of_val. destruct (n_obj n) as [i|t'|g|c|m|m|[cn ca ct ck]]; try easy; now subst t.
Qed.
End Laws.
