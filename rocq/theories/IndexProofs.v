From Verif Require Import PyStr PyStrFacts Ref SpecRef RefProofs RefLaws RefLossless Model Value SpecValue ValueProofs Index SpecIndex.

Section IP.
Context {U : Unicode}.

(* ---------- nodes ---------- *)

Lemma all_nodes_eq g : tier_nodes g ++ item_nodes g = all_nodes g.
Proof. unfold all_nodes, tier_nodes, item_nodes. now rewrite flat_map_concat_map. Qed.
Lemma in_item_nodes g n : In n (item_nodes g) <-> is_item_of g n.
Proof.
  unfold item_nodes, is_item_of. rewrite in_flat_map. split.
  - intros (t & Ht & H). apply in_map_iff in H as (i & <- & Hi). exists t, i. auto.
  - intros (t & i & -> & Ht & Hi). exists t. split; [easy|]. now apply in_map.
Qed.
Lemma in_tier_nodes g n : In n (tier_nodes g) <-> is_tier_of g n.
Proof.
  unfold tier_nodes, is_tier_of. rewrite in_map_iff. split; intros (t & H & Ht); exists t; auto.
Qed.
Lemma in_all_nodes g n : In n (all_nodes g) <-> is_tier_of g n \/ is_item_of g n.
Proof. rewrite <- all_nodes_eq, in_app_iff, in_tier_nodes, in_item_nodes. tauto. Qed.

Lemma ids_nil : ids [] = [].
Proof. reflexivity. Qed.
Lemma node_refs_lists n ra i : In i (node_refs n ra) <-> lists n ra i.
Proof.
  unfold node_refs, lists. destruct (dget _ ra) as [e|].
  - split; [intros H; now exists e|]. intros (e' & [= <-] & H). exact H.
  - rewrite ids_nil. split; [easy|]. intros (e' & [=] & _).
Qed.

(* ---------- item lookup ---------- *)

Lemma okey_spec (a b : option str) : reflect (a = b) (okey_eqb a b).
Proof. apply opt_eqb_spec, str_eqb_spec. Qed.

Definition last_with (l : list node) (k : option str) : option node :=
  find (fun n => okey_eqb (node_id n) k) (rev l).

Lemma last_with_app l n k : last_with (l ++ [n]) k = if okey_eqb (node_id n) k then Some n else last_with l k.
Proof. unfold last_with. rewrite rev_app_distr. reflexivity. Qed.

Lemma refresh_get l : forall old k,
  dget_ okey_eqb (fold_left (fun d n => dset_ okey_eqb d (node_id n) n) l old) k
  = match last_with l k with Some n => Some n | None => dget_ okey_eqb old k end.
Proof.
  induction l as [|n l IH] using rev_ind; intros old k; [easy|].
  rewrite fold_left_app. cbn [fold_left]. rewrite (dget_dset okey_eqb okey_spec), IH, last_with_app.
  destruct (okey_spec k (node_id n)) as [->|H].
  - now destruct (okey_spec (node_id n) (node_id n)).
  - destruct (okey_spec (node_id n) k); [congruence|easy].
Qed.

Lemma last_with_some l k n : last_with l k = Some n ->
  exists l1 l2, l = l1 ++ n :: l2 /\ node_id n = k /\ forall m, In m l2 -> node_id m <> k.
Proof.
  induction l as [|m l IH] using rev_ind; [easy|]. rewrite last_with_app.
  destruct (okey_spec (node_id m) k) as [E|E].
  - intros [= <-]. exists l, []. split; [easy|]. split; [easy|]. intros ? [].
  - intros H. apply IH in H as (l1 & l2 & -> & E1 & E2). exists l1, (l2 ++ [m]).
    rewrite <- app_assoc. split; [easy|]. split; [easy|]. intros m' Hm. apply in_app_iff in Hm as [Hm|[<-|[]]]; auto.
Qed.
Lemma last_with_none l k : last_with l k = None <-> forall m, In m l -> node_id m <> k.
Proof.
  unfold last_with. split.
  - intros H m Hm E. apply in_rev in Hm. apply (find_none _ _ H) in Hm. now destruct (okey_spec (node_id m) k).
  - intros H. destruct (find _ (rev l)) as [n|] eqn:E; [|easy]. apply find_some in E as [H1 H2].
    apply in_rev in H1. destruct (okey_spec (node_id n) k) as [E|]; [|easy]. exfalso. exact (H n H1 E).
Qed.

Lemma get_item_refresh x g k :
  get_item (refresh_indices x g) k
  = match last_with (item_nodes g) (Some k) with Some n => Some n | None => get_item x k end.
Proof. unfold get_item, refresh_indices, refresh_items. cbn [x_items]. apply refresh_get. Qed.

Theorem get_item_constructed g k :
  (forall n, get_item (construct_index g) k = Some n ->
     is_item_of g n /\ node_id n = Some k
     /\ exists l1 l2, item_nodes g = l1 ++ n :: l2 /\ forall m, In m l2 -> node_id m <> Some k)
  /\ (get_item (construct_index g) k = None <-> forall n, is_item_of g n -> node_id n <> Some k).
Proof.
  unfold construct_index. rewrite get_item_refresh. split.
  - intros n. destruct (last_with _ (Some k)) as [m|] eqn:E; [|easy]. intros [= <-].
    apply last_with_some in E as (l1 & l2 & E1 & E2 & E3). split; [|split; [easy|now exists l1, l2]].
    apply in_item_nodes. rewrite E1. apply in_elt.
  - destruct (last_with _ (Some k)) as [m|] eqn:E.
    + apply last_with_some in E as (l1 & l2 & E1 & E2 & E3). split; [easy|]. intros H. exfalso.
      apply (H m); [|easy]. apply in_item_nodes. rewrite E1. apply in_elt.
    + split; [|easy]. intros _ n Hn. apply (proj1 (last_with_none _ _) E). now apply in_item_nodes.
Qed.

Theorem get_item_history h g k :
  ((exists n, is_item_of g n /\ node_id n = Some k) ->
     exists n, get_item (index_after (h ++ [g])) k = Some n /\ is_item_of g n /\ node_id n = Some k)
  /\ ((forall n, is_item_of g n -> node_id n <> Some k) ->
     get_item (index_after (h ++ [g])) k = get_item (index_after h) k).
Proof.
  unfold index_after. rewrite fold_left_app. cbn [fold_left]. rewrite get_item_refresh. split.
  - intros (n & Hn & E). destruct (last_with _ (Some k)) as [m|] eqn:El.
    + exists m. split; [easy|]. apply last_with_some in El as (l1 & l2 & E1 & E2 & _). split; [|easy].
      apply in_item_nodes. rewrite E1. apply in_elt.
    + exfalso. apply (proj1 (last_with_none _ _) El n); [now apply in_item_nodes|easy].
  - intros H. destruct (last_with _ (Some k)) as [m|] eqn:El; [|easy].
    apply last_with_some in El as (l1 & l2 & E1 & E2 & _). exfalso. apply (H m); [|easy].
    apply in_item_nodes. rewrite E1. apply in_elt.
Qed.

(* exact as long as no id ever disappears *)
Theorem get_item_growing h g k :
  (forall g' n, In g' h -> is_item_of g' n -> node_id n = Some k -> exists m, is_item_of g m /\ node_id m = Some k) ->
  (forall n, get_item (index_after (h ++ [g])) k = Some n -> is_item_of g n /\ node_id n = Some k)
  /\ (get_item (index_after (h ++ [g])) k = None <-> forall n, is_item_of g n -> node_id n <> Some k).
Proof.
  intros H. destruct (get_item_history h g k) as [H1 H2].
  assert (D : (exists n, is_item_of g n /\ node_id n = Some k) \/ (forall n, is_item_of g n -> node_id n <> Some k)).
  { destruct (last_with (item_nodes g) (Some k)) as [m|] eqn:E.
    - left. apply last_with_some in E as (l1 & l2 & E1 & E2 & _). exists m. split; [|easy].
      apply in_item_nodes. rewrite E1. apply in_elt.
    - right. intros n Hn. apply (proj1 (last_with_none _ _) E). now apply in_item_nodes. }
  destruct D as [D|D].
  - destruct (H1 D) as (n & E & Hn & Ei). rewrite E. split; [intros ? [= <-]; auto|]. split; [easy|].
    intros Hn'. exfalso. exact (Hn' n Hn Ei).
  - rewrite (H2 D).
    assert (E : get_item (index_after h) k = None).
    { clear H1 H2. induction h as [|g' h IH] using rev_ind; [easy|].
      rewrite (proj2 (get_item_history h g' k)); [apply IH|].
      - intros g'' n Hg. apply H. apply in_app_iff. now left.
      - intros n Hn E. destruct (H g' n) as (m & Hm & Em); auto; [apply in_app_iff; right; now left|].
        exact (D m Hm Em). }
    rewrite E. split; [easy|]. tauto.
Qed.

(* ---------- any object by id ---------- *)

Lemma container_get_unique_tier g t i : ids_distinct (all_nodes g) -> In t (g_tiers g) -> tier_id t = Some i ->
  the_member tier_id (g_tiers g) i t.
Proof.
  intros Hd Ht E. split; [easy|]. split; [easy|]. intros t' Ht' E'.
  apply In_nth_error in Ht as [p Hp]. apply In_nth_error in Ht' as [q Hq].
  assert (Hp' : nth_error (all_nodes g) p = Some (NTier t)).
  { unfold all_nodes. rewrite nth_error_app1, nth_error_map, Hp; [easy|].
    rewrite map_length. apply nth_error_Some. congruence. }
  assert (Hq' : nth_error (all_nodes g) q = Some (NTier t')).
  { unfold all_nodes. rewrite nth_error_app1, nth_error_map, Hq; [easy|].
    rewrite map_length. apply nth_error_Some. congruence. }
  assert (p = q) by (eapply (Hd p q); eauto). subst. congruence.
Qed.

Lemma distinct_nodes l n m i : ids_distinct l -> In n l -> In m l -> node_id n = Some i -> node_id m = Some i -> n = m.
Proof.
  intros Hd Hn Hm En Em. apply In_nth_error in Hn as [p Hp]. apply In_nth_error in Hm as [q Hq].
  assert (p = q) by (eapply (Hd p q); eauto). subst. congruence.
Qed.

Theorem get_any_exact g x n i : ids_distinct (all_nodes g) -> ids_accepted g ->
  In n (all_nodes g) -> node_id n = Some i -> get_any g (refresh_indices x g) i = Some n.
Proof.
  intros Hd Ha Hn Hi. assert (Hint : py_int i = None) by (apply accepted_not_int; eapply Ha; eauto).
  unfold get_any. apply in_all_nodes in Hn as [(t & -> & Ht)|Hn].
  - now rewrite (get_member tier_id _ i t (container_get_unique_tier g t i Hd Ht Hi)).
  - rewrite get_no_member; [|intros t Ht E|easy].
    + rewrite get_item_refresh. destruct (last_with (item_nodes g) (Some i)) as [m|] eqn:E.
      * f_equal. apply last_with_some in E as (l1 & l2 & E1 & E2 & _).
        apply (distinct_nodes (all_nodes g) m n i); auto; apply in_all_nodes; right; [|easy].
        apply in_item_nodes. rewrite E1. apply in_elt.
      * exfalso. apply (proj1 (last_with_none _ _) E n); [now apply in_item_nodes|easy].
    + assert (NTier t = n) as <-.
      { apply (distinct_nodes (all_nodes g) (NTier t) n i); auto; apply in_all_nodes; [left; now exists t|now right]. }
      destruct Hn as (? & ? & [=] & _).
Qed.

Theorem get_any_absent g i : py_int i = None -> (forall n, In n (all_nodes g) -> node_id n <> Some i) ->
  get_any g (construct_index g) i = None.
Proof.
  intros Hi H. unfold get_any. rewrite get_no_member; [|intros t Ht; apply (H (NTier t)), in_all_nodes; left; now exists t|easy].
  apply get_item_constructed. intros n Hn. apply H, in_all_nodes. now right.
Qed.

(* ---------- referents, directly ---------- *)

Lemma entry_dset m ra l ra' : entry (dset m ra l) ra' = if str_eqb ra' ra then l else entry m ra'.
Proof. unfold entry, dset, dget. rewrite (dget_dset str_eqb str_eqb_spec). now destruct (str_eqb ra' ra). Qed.

Lemma referents_entry n ras : forall d ra,
  entry (fold_left (fun d ra => dset d ra (node_refs n ra)) ras d) ra
  = if existsb (str_eqb ra) ras then node_refs n ra else entry d ra.
Proof.
  induction ras as [|r ras IH]; intros d ra; [easy|]. cbn [fold_left existsb]. rewrite IH, entry_dset.
  destruct (existsb (str_eqb ra) ras); [now rewrite orb_true_r|]. rewrite orb_false_r.
  destruct (str_eqb_spec ra r); [now subst|easy].
Qed.

Lemma existsb_in k l : existsb (str_eqb k) l = true <-> In k l.
Proof.
  rewrite existsb_exists. split.
  - intros (x & Hx & E). apply str_eqb_eq in E. now subst.
  - intros H. exists k. split; [easy|apply str_eqb_refl].
Qed.

Lemma referents_ok g x k ras n : get_any g x k = Some n ->
  exists m, referents g x k ras = Ok m
    /\ forall ra, In ra (match ras with Some l => l | None => allowed_refattrs end) -> entry m ra = node_refs n ra.
Proof.
  intros H. unfold referents. rewrite H. eexists; split; [reflexivity|]. intros ra Hra.
  rewrite referents_entry. apply existsb_in in Hra. now rewrite Hra.
Qed.

(* ---------- referrers, directly ---------- *)

Definition adds (k : str) (ras : list str) (ra : str) (other : node) : list str :=
  match node_id other with
  | None => []
  | Some oid => flat_map (fun r => if str_eqb ra r && existsb (str_eqb k) (node_refs other r) then [oid] else []) ras
  end.

Lemma add_referrer_entry k refattrs result other ra :
  entry (add_referrer k refattrs result other) ra
  = entry result ra ++ adds k (match refattrs with Some l => l | None => allowed_refattrs end) ra other.
Proof.
  unfold add_referrer, adds. destruct (node_id other) as [oid|]; [|now rewrite app_nil_r].
  generalize (match refattrs with Some l => l | None => allowed_refattrs end). intros ras.
  revert result; induction ras as [|r ras IH]; intros result; cbn [fold_left flat_map]; [now rewrite app_nil_r|].
  rewrite IH, app_assoc. f_equal.
  destruct (existsb (str_eqb k) (node_refs other r)); rewrite ?entry_dset; destruct (str_eqb_spec ra r) as [->|Hne]; cbn [andb];
    rewrite ?entry_dset, ?str_eqb_refl, ?app_nil_r; try easy.
Qed.
Lemma referrers_fold k refattrs others : forall result ra,
  entry (fold_left (add_referrer k refattrs) others result) ra
  = entry result ra ++ flat_map (adds k (match refattrs with Some l => l | None => allowed_refattrs end) ra) others.
Proof.
  induction others as [|o others IH]; intros result ra; cbn [fold_left flat_map]; [now rewrite app_nil_r|].
  rewrite IH, add_referrer_entry, <- app_assoc. reflexivity.
Qed.
Lemma start_entry l : forall d ra, (forall r, entry d r = []) ->
  entry (fold_left (fun d ra => dset d ra []) l d) ra = [].
Proof.
  induction l as [|r l IH]; intros d ra H; cbn; [apply H|]. apply IH. intros r'. rewrite entry_dset. destruct (str_eqb r' r); auto.
Qed.

Lemma in_adds k ras ra o j : In j (adds k ras ra o) <-> node_id o = Some j /\ In ra ras /\ lists o ra k.
Proof.
  unfold adds. destruct (node_id o) as [oid|]; [|split; [easy|intros ([=] & _)]]. rewrite in_flat_map. split.
  - intros (r & Hr & H). destruct (str_eqb_spec ra r) as [->|]; [|easy]. cbn [andb] in H.
    destruct (existsb _ _) eqn:E; [|easy]. destruct H as [<-|[]]. apply existsb_in in E. split; [easy|]. split; [easy|].
    now apply node_refs_lists.
  - intros ([= ->] & Hr & Hl). exists ra. split; [easy|]. rewrite str_eqb_refl. apply node_refs_lists, existsb_in in Hl.
    rewrite Hl. now left.
Qed.
(* one attribute listed once: one entry per referring object *)
Lemma adds_once k ras ra o : NoDup ras -> In ra ras ->
  adds k ras ra o = match node_id o with
                    | Some j => if existsb (str_eqb k) (node_refs o ra) then [j] else []
                    | None => []
                    end.
Proof.
  intros Hn Hin. unfold adds. destruct (node_id o) as [j|]; [|easy].
  induction Hn as [|r ras Hr Hn IH]; [easy|]. cbn [flat_map]. destruct (str_eqb_spec ra r) as [->|Hne].
  - cbn [andb]. assert (E : flat_map (fun r0 => if str_eqb r r0 && existsb (str_eqb k) (node_refs o r0) then [j] else []) ras = []).
    { clear IH Hn Hin. induction ras as [|s ras IH]; [easy|]. cbn. destruct (str_eqb_spec r s) as [->|]; [exfalso; apply Hr; now left|].
      cbn. apply IH. intros H; apply Hr; now right. }
    rewrite E. now rewrite app_nil_r.
  - destruct Hin as [->|Hin]; [easy|]. cbn [andb app]. now apply IH.
Qed.

Definition ras_of (refattrs : option (list str)) : list str :=
  match refattrs with Some l => l | None => allowed_refattrs end.

Lemma container_item_member {A} (idof : A -> option str) l k x : the_member idof l k x -> container_item idof l k = Ok x.
Proof. intros H. unfold container_item. now rewrite (find_id_member _ _ _ _ H). Qed.
Lemma container_item_absent {A} (idof : A -> option str) l k : no_member idof l k -> py_int k = None ->
  container_item idof l k = Err KeyError.
Proof. intros H E. unfold container_item. apply find_id_none in H. now rewrite H, E. Qed.

Lemma referrers_of g x k refattrs others :
  (others = tier_nodes g /\ (exists t, container_item tier_id (g_tiers g) k = Ok t)
   \/ others = item_nodes g /\ container_item tier_id (g_tiers g) k = Err KeyError /\ get_item x k <> None) ->
  exists m, referrers g x k refattrs = Ok m
    /\ forall ra, entry m ra = flat_map (adds k (ras_of refattrs) ra) others.
Proof.
  intros H. unfold referrers.
  assert (E : match container_item tier_id (g_tiers g) k with
              | Ok _ => Ok (tier_nodes g)
              | Err KeyError => match get_item x k with Some _ => Ok (item_nodes g) | None => Err XigtLookupError end
              | Err e => Err e
              end = Ok others).
  { destruct H as [[-> [t ->]]|(-> & -> & H)]; [easy|]. now destruct (get_item x k). }
  rewrite E. cbn [bind]. eexists; split; [reflexivity|]. intros ra. rewrite referrers_fold.
  assert (E0 : forall ra, entry match refattrs with Some l => fold_left (fun d ra => dset d ra []) l [] | None => [] end ra = []).
  { intros r. destruct refattrs; [|easy]. now apply start_entry. }
  rewrite E0. reflexivity.
Qed.

(* C15 for tiers *)
Theorem inverse_tiers g x refattrs t t' i j :
  the_member tier_id (g_tiers g) i t -> the_member tier_id (g_tiers g) j t' ->
  exists mi mj, referrers g x i refattrs = Ok mi /\ referents g x j refattrs = Ok mj
    /\ forall ra, In ra (ras_of refattrs) ->
         (In j (entry mi ra) <-> In i (entry mj ra)) /\ (In i (entry mj ra) <-> lists (NTier t') ra i).
Proof.
  intros Hi Hj.
  destruct (referrers_of g x i refattrs (tier_nodes g)) as (mi & Emi & Hmi).
  { left. split; [easy|]. exists t. now apply container_item_member. }
  destruct (referents_ok g x j refattrs (NTier t')) as (mj & Emj & Hmj).
  { unfold get_any. now rewrite (get_member _ _ _ _ Hj). }
  exists mi, mj. split; [easy|]. split; [easy|]. intros ra Hra. rewrite Hmi, Hmj by easy. rewrite node_refs_lists. split; [|easy].
  rewrite in_flat_map. split.
  - intros (o & Ho & H). apply in_adds in H as (E & _ & H). apply in_tier_nodes in Ho as (t1 & -> & Ht1).
    destruct Hj as (_ & _ & Hu). now rewrite <- (Hu t1 Ht1 E).
  - intros H. exists (NTier t'). split; [apply in_tier_nodes; exists t'; split; [easy|apply Hj]|].
    apply in_adds. split; [apply Hj|]. auto.
Qed.

(* C15 for items *)
Theorem inverse_items g x refattrs n n' i j :
  ids_distinct (all_nodes g) -> ids_accepted g ->
  is_item_of g n -> node_id n = Some i -> is_item_of g n' -> node_id n' = Some j ->
  exists mi mj, referrers g (refresh_indices x g) i refattrs = Ok mi /\ referents g (refresh_indices x g) j refattrs = Ok mj
    /\ forall ra, In ra (ras_of refattrs) ->
         (In j (entry mi ra) <-> In i (entry mj ra)) /\ (In i (entry mj ra) <-> lists n' ra i).
Proof.
  intros Hd Ha Hn Hi Hn' Hj.
  assert (An : In n (all_nodes g)) by (apply in_all_nodes; auto).
  assert (An' : In n' (all_nodes g)) by (apply in_all_nodes; auto).
  assert (Gi := get_any_exact g x n i Hd Ha An Hi). assert (Gj := get_any_exact g x n' j Hd Ha An' Hj).
  assert (Hint : py_int i = None) by (apply accepted_not_int; exact (Ha n i An Hi)).
  destruct (referrers_of g (refresh_indices x g) i refattrs (item_nodes g)) as (mi & Emi & Hmi).
  { right. split; [easy|]. split.
    - apply container_item_absent; [|easy]. intros t Ht E.
      assert (NTier t = n) as <-.
      { apply (distinct_nodes (all_nodes g) (NTier t) n i); auto. apply in_all_nodes. left; now exists t. }
      destruct Hn as (? & ? & [=] & _).
    - unfold get_any in Gi. destruct (container_get tier_id (g_tiers g) i); [|congruence].
      injection Gi as <-. destruct Hn as (? & ? & [=] & _). }
  destruct (referents_ok g (refresh_indices x g) j refattrs n' Gj) as (mj & Emj & Hmj).
  exists mi, mj. split; [easy|]. split; [easy|]. intros ra Hra. rewrite Hmi, Hmj by easy. rewrite node_refs_lists. split; [|easy].
  rewrite in_flat_map. split.
  - intros (o & Ho & H). apply in_adds in H as (E & _ & H). apply in_item_nodes in Ho.
    assert (o = n') as <-; [|easy]. apply (distinct_nodes (all_nodes g) o n' j); auto. apply in_all_nodes; auto.
  - intros H. exists n'. split; [now apply in_item_nodes|]. apply in_adds. auto.
Qed.

(* ---------- the cached tables ---------- *)

Definition look (d : dict refmap) (k ra : str) : list str := entry (match dget d k with Some m => m | None => [] end) ra.

Lemma look_inv_add ra obj d r k ra' :
  look (inv_add ra obj d r) k ra' = look d k ra' ++ (if str_eqb k r && str_eqb ra' ra then [obj] else []).
Proof.
  unfold look, inv_add. cbv zeta. set (m := match dget d r with Some m => m | None => [] end).
  change (dget (dset d r ?v) k) with (dget_ str_eqb (dset_ str_eqb d r (dset m ra (entry m ra ++ [obj]))) k).
  rewrite (dget_dset str_eqb str_eqb_spec). destruct (str_eqb_spec k r) as [->|]; [|now rewrite app_nil_r].
  cbn [andb]. rewrite entry_dset. subst m. destruct (str_eqb_spec ra' ra) as [->|]; [easy|now rewrite app_nil_r].
Qed.
Definition hits (obj k : str) (l : list str) : list str := map (fun _ => obj) (filter (fun x => str_eqb x k) l).
Lemma look_inv_adds ra obj l : forall d k ra',
  look (fold_left (inv_add ra obj) l d) k ra' = look d k ra' ++ (if str_eqb ra' ra then hits obj k l else []).
Proof.
  induction l as [|r l IH]; intros d k ra'; cbn [fold_left].
  - cbn. destruct (str_eqb ra' ra); now rewrite app_nil_r.
  - rewrite IH, look_inv_add, <- app_assoc. f_equal. unfold hits. cbn [filter]. rewrite (str_eqb_sym r k).
    destruct (str_eqb k r), (str_eqb ra' ra); reflexivity.
Qed.
Definition hits_map (k ra obj : str) (m : refmap) : list str :=
  flat_map (fun '(ra', l) => if str_eqb ra ra' then hits obj k l else []) m.
Lemma look_inv_map obj (m : refmap) : forall d k ra,
  look (fold_left (fun d '(ra, ref_ids) => fold_left (inv_add ra obj) ref_ids d) m d) k ra
  = look d k ra ++ hits_map k ra obj m.
Proof.
  induction m as [|[ra' l] m IH]; intros d k ra; cbn; [now rewrite app_nil_r|].
  rewrite IH, look_inv_adds, <- app_assoc. reflexivity.
Qed.
Lemma look_invert_from (m : dict refmap) : forall d k ra,
  look (fold_left (fun d '(obj_id, ra_map) =>
      fold_left (fun d '(ra, ref_ids) => fold_left (inv_add ra obj_id) ref_ids d) ra_map d) m d) k ra
  = look d k ra ++ flat_map (fun '(obj, rm) => hits_map k ra obj rm) m.
Proof.
  induction m as [|[obj rm] m IH]; intros d k ra; cbn [fold_left flat_map]; [now rewrite app_nil_r|].
  rewrite IH, look_inv_map, <- app_assoc. reflexivity.
Qed.
Lemma look_invert m k ra : look (invert m) k ra = flat_map (fun '(obj, rm) => hits_map k ra obj rm) m.
Proof. unfold invert. rewrite look_invert_from. reflexivity. Qed.

Lemma in_hits_map k ra obj m j : In j (hits_map k ra obj m) <-> j = obj /\ exists l, In (ra, l) m /\ In k l.
Proof.
  unfold hits_map. rewrite in_flat_map. split.
  - intros ([ra' l] & Hin & H). destruct (str_eqb_spec ra ra') as [->|]; [|easy].
    apply in_map_iff in H as (x & <- & H). apply filter_In in H as [H E]. apply str_eqb_eq in E. subst.
    split; [easy|]. now exists l.
  - intros (-> & l & Hin & H). exists (ra, l). split; [easy|]. rewrite str_eqb_refl. apply in_map_iff. exists k.
    split; [easy|]. apply filter_In. split; [easy|apply str_eqb_refl].
Qed.

Definition refs_of (n : node) : refmap := map (fun ra => (ra, node_refs n ra)) allowed_refattrs.
Lemma refs_of_nodup n : NoDup (map fst (refs_of n)).
Proof.
  unfold refs_of. rewrite map_map. cbn [fst]. rewrite map_id. unfold allowed_refattrs.
  constructor; [vm_compute; intuition discriminate|]. constructor; [vm_compute; intuition discriminate|].
  constructor; [easy|constructor].
Qed.
Lemma refs_of_in n ra l : In (ra, l) (refs_of n) <-> In ra allowed_refattrs /\ l = node_refs n ra.
Proof.
  unfold refs_of. rewrite in_map_iff. split.
  - intros (r & [= <- <-] & H). auto.
  - intros [H ->]. exists ra. auto.
Qed.

Lemma ids_map_inv l : forall d, (NoDup (map fst d) /\ forall k m, In (k, m) d -> exists n, m = refs_of n) ->
  let d' := fold_left (fun d n => match node_id n with None => d | Some i => dset d i (refs_of n) end) l d in
  NoDup (map fst d') /\ forall k m, In (k, m) d' -> exists n, m = refs_of n.
Proof.
  induction l as [|n l IH]; intros d H; cbn [fold_left]; [easy|]. apply IH. destruct (node_id n) as [i|]; [|easy].
  destruct H as [H1 H2]. split; [now apply (dset_nodup str_eqb str_eqb_spec)|].
  intros k m Hin. assert (Hd := dset_nodup str_eqb str_eqb_spec d i (refs_of n) H1).
  apply (dget_nodup str_eqb str_eqb_spec _ _ _ Hd) in Hin. rewrite (dget_dset str_eqb str_eqb_spec) in Hin.
  destruct (str_eqb k i); [injection Hin as <-; now exists n|].
  apply (dget_in str_eqb str_eqb_spec) in Hin. eauto.
Qed.
Lemma ids_map_wf g : NoDup (map fst (ids_map g)) /\ forall k m, In (k, m) (ids_map g) -> exists n, m = refs_of n.
Proof. apply (ids_map_inv (tier_nodes g ++ item_nodes g) []). split; [constructor|easy]. Qed.

(* the two caches are inverse to each other, whatever the igt *)
Theorem inverse_cached x g i j ra :
  In j (entry (cached_referrers (refresh_indices x g) i) ra)
  <-> In i (entry (cached_referents (refresh_indices x g) j) ra).
Proof.
  unfold cached_referrers, cached_referents, refresh_indices. cbn [x_referents x_referrers].
  change (entry match dget (invert (ids_map g)) i with Some m => m | None => [] end ra) with (look (invert (ids_map g)) i ra).
  rewrite look_invert, in_flat_map. destruct (ids_map_wf g) as [Hn Hr]. split.
  - intros ([obj rm] & Hin & H). apply in_hits_map in H as (-> & l & Hl & Hi).
    unfold dget. rewrite (dget_nodup str_eqb str_eqb_spec _ _ _ Hn Hin).
    destruct (Hr _ _ Hin) as [n ->]. unfold entry, dget.
    now rewrite (dget_nodup str_eqb str_eqb_spec _ _ _ (refs_of_nodup n) Hl).
  - destruct (dget (ids_map g) j) as [rm|] eqn:E; [|easy]. apply (dget_in str_eqb str_eqb_spec) in E.
    intros H. exists (j, rm). split; [easy|]. apply in_hits_map. split; [easy|].
    unfold entry in H. destruct (dget rm ra) as [l|] eqn:El; [|easy]. exists l. split; [|easy].
    now apply (dget_in str_eqb str_eqb_spec) in El.
Qed.

(* with distinct ids the table is just the list of objects *)
Definition table (l : list node) : dict refmap :=
  flat_map (fun n => match node_id n with Some i => [(i, refs_of n)] | None => [] end) l.

Lemma ids_map_table l : forall d, ids_distinct l ->
  (forall n i, In n l -> node_id n = Some i -> dget d i = None) ->
  fold_left (fun d n => match node_id n with None => d | Some i => dset d i (refs_of n) end) l d = d ++ table l.
Proof.
  induction l as [|n l IH]; intros d Hd Hnew; cbn [fold_left table flat_map]; [now rewrite app_nil_r|].
  assert (Hd' : ids_distinct l) by (intros p q a b i Hp Hq Ha Hb; assert (S p = S q) by (eapply (Hd (S p) (S q)); eauto); congruence).
  destruct (node_id n) as [i|] eqn:Ei.
  - unfold dset. rewrite (dset_new str_eqb str_eqb_spec d i (refs_of n)) by (apply (Hnew n); [now left|easy]).
    rewrite IH; [now rewrite <- app_assoc|easy|]. intros m j Hm Hj. unfold dget.
    rewrite <- (dset_new str_eqb str_eqb_spec) by (apply (Hnew n); [now left|easy]).
    rewrite (dget_dset str_eqb str_eqb_spec). destruct (str_eqb_spec j i) as [->|].
    + exfalso. apply In_nth_error in Hm as [p Hp]. assert (0 = S p); [|lia].
      eapply (Hd 0 (S p)); [reflexivity|exact Hp|exact Ei|exact Hj].
    + apply (Hnew m); [now right|easy].
  - apply IH; [easy|]. intros m j Hm Hj. apply (Hnew m); [now right|easy].
Qed.
Lemma ids_map_distinct g : ids_distinct (all_nodes g) -> ids_map g = table (all_nodes g).
Proof.
  intros H. unfold ids_map. rewrite all_nodes_eq.
  exact (ids_map_table (all_nodes g) [] H (fun _ _ _ _ => eq_refl)).
Qed.

(* C16, referents *)
Theorem cached_referents_direct g x refattrs n i ra :
  ids_distinct (all_nodes g) -> ids_accepted g -> In n (all_nodes g) -> node_id n = Some i ->
  refattr ra -> In ra (ras_of refattrs) ->
  exists m, referents g (refresh_indices x g) i refattrs = Ok m
    /\ entry (cached_referents (refresh_indices x g) i) ra = entry m ra
    /\ forall k, In k (entry m ra) <-> lists n ra k.
Proof.
  intros Hd Ha Hn Hi Hra Hin.
  destruct (referents_ok g (refresh_indices x g) i refattrs n (get_any_exact g x n i Hd Ha Hn Hi)) as (m & Em & Hm).
  exists m. split; [easy|]. rewrite (Hm ra Hin). split; [|intros k; apply node_refs_lists].
  unfold cached_referents, refresh_indices. cbn [x_referents]. destruct (ids_map_wf g) as [Hk _].
  assert (In (i, refs_of n) (ids_map g)) as H.
  { rewrite ids_map_distinct by easy. unfold table. apply in_flat_map. exists n. split; [easy|]. rewrite Hi. now left. }
  unfold dget. rewrite (dget_nodup str_eqb str_eqb_spec _ _ _ Hk H). unfold entry, dget.
  rewrite (dget_nodup str_eqb str_eqb_spec (refs_of n) ra (node_refs n ra)); [easy|apply refs_of_nodup|].
  apply refs_of_in. split; [exact Hra|easy].
Qed.

(* C16, referrers: what the cache holds *)
Lemma hits_refs k ra obj n : refattr ra -> hits_map k ra obj (refs_of n) = hits obj k (node_refs n ra).
Proof.
  intros H. unfold hits_map, refs_of, allowed_refattrs, ALIGNMENT, CONTENT, SEGMENTATION. cbn [map flat_map].
  destruct H as [<-|[<-|[<-|[]]]]; cbn [L]; unfold str_eqb; cbn; rewrite ?app_nil_r; reflexivity.
Qed.
Theorem cached_referrers_exact g x i ra : ids_distinct (all_nodes g) -> refattr ra ->
  entry (cached_referrers (refresh_indices x g) i) ra = flat_map (occurrences ra i) (all_nodes g).
Proof.
  intros Hd Hra. unfold cached_referrers, refresh_indices. cbn [x_referrers].
  change (entry match dget (invert (ids_map g)) i with Some m => m | None => [] end ra) with (look (invert (ids_map g)) i ra).
  rewrite look_invert, ids_map_distinct by easy. unfold table. clear Hd.
  induction (all_nodes g) as [|n l IH]; [easy|]. cbn [flat_map]. rewrite flat_map_app, IH. f_equal.
  unfold occurrences, node_refs. destruct (node_id n) as [j|]; [|easy]. cbn [flat_map]. rewrite app_nil_r, hits_refs by easy.
  unfold node_refs. destruct (dget _ ra); [easy|]. now rewrite ids_nil.
Qed.

Lemma occurrences_in ra i n j : In j (occurrences ra i n) <-> node_id n = Some j /\ lists n ra i.
Proof.
  unfold occurrences, lists. destruct (node_id n) as [j'|]; [|split; [easy|intros ([=] & _)]].
  destruct (dget _ ra) as [e|]; [|split; [easy|intros (_ & e & [=] & _)]]. rewrite in_map_iff. split.
  - intros (y & -> & H). apply filter_In in H as [H E]. apply str_eqb_eq in E. subst. split; [easy|]. now exists e.
  - intros ([= ->] & e' & [= <-] & H). exists i. split; [easy|]. apply filter_In. split; [easy|apply str_eqb_refl].
Qed.
Lemma occurrences_nodup ra i n e : dget (a_dict (node_attrs n)) ra = Some e -> NoDup (ids e) ->
  occurrences ra i n = match node_id n with
                       | Some j => if existsb (str_eqb i) (node_refs n ra) then [j] else []
                       | None => [] end.
Proof.
  intros E Hn. unfold occurrences, node_refs. rewrite E. destruct (node_id n) as [j|]; [|easy].
  induction Hn as [|y l Hy Hn IH]; [easy|]. cbn [filter existsb]. rewrite (str_eqb_sym i y).
  destruct (str_eqb_spec y i) as [->|]; [|exact IH]. cbn [map orb]. f_equal.
  assert (E' : filter (fun x => str_eqb x i) l = []).
  { clear -Hy. induction l as [|z l IH]; [easy|]. cbn. destruct (str_eqb_spec z i) as [->|]; [exfalso; apply Hy; now left|].
    apply IH. intros H; apply Hy; now right. }
  now rewrite E'.
Qed.

(* C16, referrers: agreement with the direct scan *)
Theorem cached_referrers_direct g x refattrs n i ra :
  ids_distinct (all_nodes g) -> ids_accepted g -> In n (all_nodes g) -> node_id n = Some i ->
  refattr ra -> In ra (ras_of refattrs) -> NoDup (ras_of refattrs) ->
  (* objects of the other kind do not mention i *)
  (forall o, In o (all_nodes g) -> lists o ra i -> (is_tier_of g o <-> is_tier_of g n)) ->
  exists m, referrers g (refresh_indices x g) i refattrs = Ok m
    /\ (forall j, In j (entry (cached_referrers (refresh_indices x g) i) ra) <-> In j (entry m ra))
    /\ ((forall o e, In o (all_nodes g) -> dget (a_dict (node_attrs o)) ra = Some e -> NoDup (ids e)) ->
        entry (cached_referrers (refresh_indices x g) i) ra = entry m ra).
Proof.
  intros Hd Ha Hn Hi Hra Hin Hnd Hkind.
  assert (Hint : py_int i = None) by (apply accepted_not_int; eapply Ha; eauto).
  assert (Hg := get_any_exact g x n i Hd Ha Hn Hi).
  assert (Hdec : (exists t, n = NTier t) \/ (exists t it, n = NItem t it)) by (destruct n; eauto).
  assert (Hsplit : exists others l1 l2, all_nodes g = l1 ++ others ++ l2
     /\ (others = tier_nodes g /\ (exists t, container_item tier_id (g_tiers g) i = Ok t)
         \/ others = item_nodes g /\ container_item tier_id (g_tiers g) i = Err KeyError /\ get_item (refresh_indices x g) i <> None)
     /\ forall o, In o (l1 ++ l2) -> ~ lists o ra i).
  { destruct Hdec as [[t ->]|(t & it & ->)].
    - exists (tier_nodes g), [], (item_nodes g). split; [now rewrite <- all_nodes_eq|]. split.
      + left. split; [easy|]. exists t. apply container_item_member. apply container_get_unique_tier; auto.
        apply in_all_nodes in Hn as [(t' & [= ->] & H)|(? & ? & [=] & _)]. exact H.
      + cbn [app]. intros o Ho Hl. assert (Ao : In o (all_nodes g)) by (apply in_all_nodes; right; now apply in_item_nodes).
        assert (is_tier_of g o) as (t' & -> & _).
        { apply (Hkind o Ao Hl). apply in_all_nodes in Hn as [Hn|(? & ? & [=] & _)]. exact Hn. }
        apply in_item_nodes in Ho as (? & ? & [=] & _).
    - exists (item_nodes g), (tier_nodes g), []. split; [now rewrite app_nil_r, <- all_nodes_eq|]. split.
      + right. split; [easy|]. split.
        * apply container_item_absent; [|easy]. intros t' Ht E.
          assert (NTier t' = NItem t it) as [=].
          { apply (distinct_nodes (all_nodes g) (NTier t') _ i); auto. apply in_all_nodes. left; now exists t'. }
        * unfold get_any in Hg. destruct (container_get tier_id (g_tiers g) i); [congruence|congruence].
      + rewrite app_nil_r. intros o Ho Hl. assert (Ao : In o (all_nodes g)) by (apply in_all_nodes; left; now apply in_tier_nodes).
        assert (is_tier_of g (NItem t it)) as (t' & [=] & _).
        apply (Hkind o Ao Hl). now apply in_tier_nodes. }
  destruct Hsplit as (others & l1 & l2 & Hall & Hoth & Hno).
  destruct (referrers_of g (refresh_indices x g) i refattrs others Hoth) as (m & Em & Hm).
  exists m. split; [easy|]. rewrite Hm, cached_referrers_exact by easy. split.
  - intros j. rewrite !in_flat_map. split.
    + intros (o & Ho & H). exists o. apply occurrences_in in H as [H1 H2]. split.
      * rewrite Hall, !in_app_iff in Ho. destruct Ho as [Ho|[Ho|Ho]]; [|easy|];
          exfalso; apply (Hno o); auto; apply in_app_iff; auto.
      * now apply in_adds.
    + intros (o & Ho & H). exists o. apply in_adds in H as (H1 & _ & H2). split.
      * rewrite Hall, !in_app_iff. auto.
      * now apply occurrences_in.
  - intros Hnodup.
    assert (Hocc : forall o, In o (all_nodes g) -> occurrences ra i o = adds i (ras_of refattrs) ra o).
    { intros o Ho. rewrite adds_once by easy. destruct (dget (a_dict (node_attrs o)) ra) as [e|] eqn:E.
      - apply (occurrences_nodup ra i o e E (Hnodup o e Ho E)).
      - unfold occurrences, node_refs. rewrite E. now destruct (node_id o). }
    assert (Hnil : forall l, (forall o, In o l -> ~ lists o ra i) -> flat_map (occurrences ra i) l = []).
    { induction l as [|o l IH]; intros H; [easy|]. cbn [flat_map]. rewrite IH by (intros; apply H; now right).
      rewrite app_nil_r. destruct (occurrences ra i o) as [|j r] eqn:E; [easy|]. exfalso.
      apply (H o); [now left|]. assert (In j (occurrences ra i o)) by (rewrite E; now left). now apply occurrences_in in H0. }
    rewrite Hall, !flat_map_app. rewrite (Hnil l1), (Hnil l2) by (intros o Ho; apply Hno, in_app_iff; auto).
    cbn [app]. rewrite app_nil_r. assert (Hsub : incl others (all_nodes g)) by (intros o Ho; rewrite Hall, !in_app_iff; auto).
    clear - Hocc Hsub. induction others as [|o l IH]; [easy|]. cbn [flat_map].
    rewrite Hocc by (apply Hsub; now left). f_equal. apply IH. intros o' Ho'. apply Hsub. now right.
Qed.

(* ---------- dereference ---------- *)

Theorem dereference_first g x n ra s e m :
  ids_distinct (all_nodes g) -> ids_accepted g ->
  dget (a_dict (node_attrs n)) ra = Some (show (s :: e)) -> wf_loose (s :: e) ->
  In m (all_nodes g) -> node_id m = Some (sl_id s) ->
  dereference g (refresh_indices x g) n ra = Ok (Some m).
Proof.
  intros Hd Ha Hn Hw Hm Hi. unfold dereference. rewrite Hn, ids_show by easy. cbn [expr_ids map].
  now rewrite (get_any_exact g x m (sl_id s)).
Qed.

Theorem dereference_missing g n ra s e :
  dget (a_dict (node_attrs n)) ra = Some (show (s :: e)) -> wf_loose (s :: e) ->
  (forall m, In m (all_nodes g) -> node_id m <> Some (sl_id s)) ->
  dereference g (construct_index g) n ra = Ok None.
Proof.
  intros Hn Hw Hm. unfold dereference. rewrite Hn, ids_show by easy. cbn [expr_ids map].
  rewrite get_any_absent; auto. destruct Hw as [(_ & Hs & _) _]. now apply id_shape_int.
Qed.

Theorem dereference_failures g x n ra :
  (dereference g x n ra = Err KeyError <-> dget (a_dict (node_attrs n)) ra = None)
  /\ (dereference g x n ra = Err IndexError <-> exists e, dget (a_dict (node_attrs n)) ra = Some e /\ ids e = []).
Proof.
  unfold dereference. destruct (dget _ ra) as [e|].
  - destruct (ids e) eqn:E; split; split; try easy; try (intros _; now exists e).
    + intros (e' & [= <-] & E'). congruence.
  - split; split; try easy. intros (e & [=] & _).
Qed.

Theorem dereference_all_spec g x n ra e :
  ids_distinct (all_nodes g) -> ids_accepted g ->
  dget (a_dict (node_attrs n)) ra = Some (show e) -> wf_loose e ->
  (forall s, In s e -> exists m, In m (all_nodes g) /\ node_id m = Some (sl_id s)) ->
  exists l, dereference_all g (refresh_indices x g) n ra = Ok (map Some l)
    /\ Forall2 (fun s m => In m (all_nodes g) /\ node_id m = Some (sl_id s)) e l.
Proof.
  intros Hd Ha Hn Hw H. unfold dereference_all. rewrite Hn, ids_show by easy. clear Hn Hw.
  induction e as [|s e IH]; [exists []; split; [easy|constructor]|].
  destruct IH as (l & E & F); [intros; apply H; now right|]. destruct (H s) as (m & Hm & Hi); [now left|].
  exists (m :: l). injection E as E. cbn [expr_ids map] in *. unfold expr_ids in E. rewrite E, (get_any_exact g x m (sl_id s)) by easy.
  split; [easy|]. now constructor.
Qed.

Theorem dereference_all_total g n ra e :
  ids_distinct (all_nodes g) -> ids_accepted g ->
  dget (a_dict (node_attrs n)) ra = Some (show e) -> wf_loose e ->
  exists l, dereference_all g (construct_index g) n ra = Ok l
    /\ Forall2 (fun s o => (exists m, o = Some m /\ In m (all_nodes g) /\ node_id m = Some (sl_id s))
                          \/ o = None /\ forall m, In m (all_nodes g) -> node_id m <> Some (sl_id s)) e l.
Proof.
  intros Hd Ha Hn Hw. unfold dereference_all. rewrite Hn, ids_show by easy. eexists; split; [reflexivity|].
  assert (Hs : Forall (fun s => py_int (sl_id s) = None) e).
  { clear - Hw. unfold wf_loose in Hw. revert Hw. generalize true.
    induction e as [|s e IH]; intros b Hw; constructor; destruct Hw as [(_ & Hi & _) Hw]; [now apply id_shape_int|eauto]. }
  clear Hn Hw. induction Hs as [|s e Hs Hw IH]; cbn [expr_ids map]; constructor; [|exact IH].
  destruct (in_dec (fun a b : option str => reflect_dec (a = b) (okey_eqb a b) (okey_spec a b)) (Some (sl_id s)) (map node_id (all_nodes g))) as [Hin|Hin].
  - apply in_map_iff in Hin as (m & Hi & Hm). left. exists m. split; [|easy]. now apply get_any_exact.
  - right. assert (Hno : forall m, In m (all_nodes g) -> node_id m <> Some (sl_id s)).
    { intros m Hm Hi. apply Hin. rewrite <- Hi. now apply in_map. }
    split; [now apply get_any_absent|exact Hno].
Qed.

End IP.
