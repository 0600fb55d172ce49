(* What is the same for corpora that are the same: values and LaTeX. *)
From Verif Require Import PyStr Ref Model SpecModel Value Latex.
From Verif Require ValueProofs.

Definition rmap {A B} (f : A -> B) (r : res A) : res B := match r with Ok a => Ok (f a) | Err e => Err e end.

Lemma bind_rmap {X Y Z W} (h : X -> Y) (h' : Z -> W) (r : res X) (k : Y -> res W) (k' : X -> res Z) :
  (forall x, k (h x) = rmap h' (k' x)) -> bind (rmap h r) k = rmap h' (bind r k').
Proof. destruct r; [intros H; apply H|reflexivity]. Qed.
Lemma bind_same {X Z W} (h' : Z -> W) (r : res X) (k : X -> res W) (k' : X -> res Z) :
  (forall x, k x = rmap h' (k' x)) -> bind r k = rmap h' (bind r k').
Proof. destruct r; [intros H; apply H|reflexivity]. Qed.

(* ---------- the table does not look at its items, but for ids and references ---------- *)

Section Natural.
Context {U : Unicode} {A B : Type} (f : A -> B) (idA exprA : A -> option str) (idB exprB : B -> option str).
Hypothesis Hid : forall x, idB (f x) = idA x.
Hypothesis Hex : forall x, exprB (f x) = exprA x.

Notation mrow := (map f).
Notation mcol := (map (map f)).
Notation mtr := (map (map (map f))).
Definition mag (a : agendum (A := A)) : agendum (A := B) := (fst a, map f (snd a)).

Lemma groupby_nat l : groupby (map (fun kx => (fst kx, f (snd kx))) l) = map mag (groupby l).
Proof.
  induction l as [|[k x] l IH]; [reflexivity|]. cbn [map groupby fst snd]. rewrite IH. destruct (groupby l) as [|[k' xs] gs]; [reflexivity|].
  cbn [map mag fst snd]. now destruct (list_str_eqb k k').
Qed.
Lemma agenda_nat items : get_agenda exprB (map f items) = rmap (map mag) (get_agenda exprA items).
Proof.
  unfold get_agenda. assert (H : mapM (agenda_entry exprB) (map f items) = rmap (map (fun kx => (fst kx, f (snd kx)))) (mapM (agenda_entry exprA) items)).
  { induction items as [|x l IH]; [reflexivity|]. cbn [map mapM]. rewrite IH. unfold agenda_entry at 1 3. rewrite Hex. destruct (exprA x); [|reflexivity]. cbn [bind].
    now destruct (mapM (agenda_entry exprA) l). }
  rewrite H. destruct (mapM _ items); [|reflexivity]. cbn [bind rmap]. now rewrite groupby_nat.
Qed.
Lemma build_from_nat tr depth : forall i, build_from idB i (mtr tr) depth = build_from idA i tr depth.
Proof.
  induction tr as [|c tr IH]; intros i; [reflexivity|]. cbn [map build_from]. rewrite nth_error_map. destruct (nth_error c depth) as [row|]; [|reflexivity]. cbn [option_map].
  rewrite IH, map_map. destruct (build_from idA (S i) tr depth); [|reflexivity]. cbn [bind]. do 2 f_equal. apply map_ext. intros x. now rewrite Hid.
Qed.
Lemma idxmap_nat tr depth : build_idxmap idB (mtr tr) depth = build_idxmap idA tr depth.
Proof. apply build_from_nat. Qed.
Lemma forallb_map {X Y} (g : X -> Y) p l : forallb p (map g l) = forallb (fun x => p (g x)) l.
Proof. induction l as [|x l IH]; [reflexivity|]. cbn. now rewrite IH. Qed.
Lemma forallb_ext {X} (p q : X -> bool) l : (forall x, p x = q x) -> forallb p l = forallb q l.
Proof. intros H. induction l as [|x l IH]; [reflexivity|]. cbn. now rewrite H, IH. Qed.
Lemma display_nat tr : display idB (mtr tr) = display idA tr.
Proof.
  unfold display. assert (H : mapM (display_col idB) (mtr tr) = mapM (display_col idA) tr).
  { induction tr as [|c tr IH]; [reflexivity|]. cbn [map mapM]. rewrite IH. f_equal. unfold display_col. rewrite forallb_map.
    rewrite (forallb_ext _ (fun row => forallb (fun x => match idA x with Some _ => true | None => false end) row)).
    - destruct (forallb _ c); [|reflexivity]. now destruct c.
    - intros row. rewrite forallb_map. apply forallb_ext. intros x. now rewrite Hid. }
  now rewrite H.
Qed.
Lemma update_nat {X Y} (h : X -> Y) (g : X -> res X) (g' : Y -> res Y) l : (forall x, g' (h x) = rmap h (g x)) ->
  forall n, update n g' (map h l) = rmap (map h) (update n g l).
Proof.
  intros H. induction l as [|x l IH]; intros [|n]; try reflexivity; cbn [map update].
  - rewrite H. now destruct (g x).
  - rewrite IH. now destruct (update n g l).
Qed.
Lemma add_rows_nat n : forall from tr, add_rows from n (mtr tr) = rmap mtr (add_rows from n tr).
Proof.
  induction n as [|n IH]; intros from tr; [reflexivity|]. cbn [add_rows]. rewrite (update_nat mcol add_row add_row).
  - apply bind_rmap. intros x. apply IH.
  - intros c. unfold add_row. cbn [rmap]. now rewrite map_app.
Qed.
Lemma insert_nat {X Y} (h : X -> Y) l pos x : insert (map h l) pos (h x) = map h (insert l pos x).
Proof. unfold insert. now rewrite map_app, firstn_map, skipn_map. Qed.
Lemma map_repeat {X Y} (h : X -> Y) x n : map h (repeat x n) = repeat (h x) n.
Proof. induction n as [|n IH]; [reflexivity|]. cbn. now rewrite IH. Qed.
Lemma add_delayed_nat delay pos depth : forall tr,
  add_delayed (mtr tr) (map mag delay) pos depth = (mtr (fst (add_delayed tr delay pos depth)), snd (add_delayed tr delay pos depth)).
Proof.
  induction delay as [|[k xs] delay IH]; intros tr; [reflexivity|]. cbn [map mag add_delayed fst snd].
  assert (E : mtr (insert tr pos (repeat [] depth ++ [xs])) = insert (mtr tr) pos (repeat [] depth ++ [map f xs])).
  { rewrite <- insert_nat. f_equal. rewrite map_app, map_repeat. reflexivity. }
  specialize (IH (insert tr pos (repeat [] depth ++ [xs]))). rewrite E in IH.
  transitivity (let '(tr', num) := (mtr (fst (add_delayed (insert tr pos (repeat [] depth ++ [xs])) delay pos depth)), snd (add_delayed (insert tr pos (repeat [] depth ++ [xs])) delay pos depth)) in (tr', S num)).
  - exact (f_equal (fun p => let '(tr', num) := p in (tr', S num)) IH).
  - assert (Hp : forall p : list (list (list A)) * nat, (mtr (fst p), S (snd p)) = (mtr (fst (let '(a, b) := p in (a, S b))), snd (let '(a, b) := p in (a, S b)))) by now intros [a b].
    exact (Hp _).
Qed.
Lemma zip_nat cs : zip_chain (mtr cs) = mcol (zip_chain cs).
Proof.
  unfold zip_chain. rewrite map_map, map_map. replace (map (fun x => length (mcol x)) cs) with (map (@length (list A)) cs) by (apply map_ext; intros c; now rewrite map_length).
  apply map_ext. intros k. rewrite concat_map, map_map, map_map. f_equal. apply map_ext. intros c. now rewrite <- (map_nth (map f) c [] k).
Qed.
Lemma merge_nat tr s e : merge_columns (mtr tr) s e = mtr (merge_columns tr s e).
Proof. unfold merge_columns. rewrite !map_app, skipn_map, firstn_map, firstn_map, skipn_map. cbn [map]. now rewrite zip_nat. Qed.
Lemma extend_nat tr idx depth xs : extend_cell (mtr tr) idx depth (map f xs) = rmap mtr (extend_cell tr idx depth xs).
Proof.
  unfold extend_cell. apply update_nat. intros c. apply update_nat. intros row. cbn [rmap]. now rewrite map_app.
Qed.
Definition mst (st : state (A := A)) : state (A := B) :=
  {| s_tr := mtr (s_tr st); s_next := s_next st; s_delay := map mag (s_delay st); s_map := s_map st |}.
Lemma step_nat depth st ag : step idB depth (mst st) (mag ag) = rmap mst (step idA depth st ag).
Proof.
  destruct ag as [is xs]. unfold step. cbn [mag fst snd mst s_tr s_next s_delay s_map]. rewrite display_nat. apply bind_same. intros _.
  destruct is as [|i0 is]; [unfold rmap, mst; cbn [s_tr s_next s_delay s_map]; do 2 f_equal; symmetry; exact (map_app mag (s_delay st) [([], xs)])|].
  apply bind_same. intros start. apply bind_same. intros end_. rewrite add_rows_nat. apply bind_rmap. intros tr1.
  rewrite add_delayed_nat. destruct (add_delayed tr1 (s_delay st) start depth) as [tr2 num]. cbn [fst snd].
  replace (match map mag (s_delay st) with [] => Ok (s_map st) | _ :: _ => build_idxmap idB (mtr tr2) (depth - 1) end)
    with (match s_delay st with [] => Ok (s_map st) | _ :: _ => build_idxmap idA tr2 (depth - 1) end) by (destruct (s_delay st); [reflexivity|]; now rewrite <- idxmap_nat).
  apply bind_same. intros m2.
  rewrite merge_nat, idxmap_nat, display_nat.
  match goal with |- bind ?r _ = rmap _ (bind ?r' _) => assert (H : r = rmap (fun x => (mtr (fst x), snd x)) r') end.
  { destruct (start + num =? end_ + num); [reflexivity|]. apply bind_same. intros m3. apply bind_same. reflexivity. }
  rewrite H. apply bind_rmap. intros [tr3 m3]. cbn [fst snd].
  rewrite extend_nat. apply bind_rmap. reflexivity.
Qed.
Lemma steps_nat depth ags : forall st, steps idB depth (mst st) (map mag ags) = rmap mst (steps idA depth st ags).
Proof.
  induction ags as [|ag ags IH]; intros st; [reflexivity|]. cbn [map steps]. rewrite step_nat. apply bind_rmap. intros x. apply IH.
Qed.
Lemma align_tier_nat tr items : align_tier idB exprB (mtr tr) (map f items) = rmap mtr (align_tier idA exprA tr items).
Proof.
  destruct tr as [|c0 tr]; [reflexivity|]. unfold align_tier. cbn [map]. rewrite map_length, agenda_nat. apply bind_rmap. intros ags.
  change (mcol c0 :: mtr tr) with (mtr (c0 :: tr)). rewrite idxmap_nat. apply bind_same. intros m.
  change {| s_tr := mtr (c0 :: tr); s_next := 0; s_delay := []; s_map := m |} with (mst {| s_tr := c0 :: tr; s_next := 0; s_delay := []; s_map := m |}).
  rewrite steps_nat. apply bind_rmap. intros st. cbn [mst s_tr s_next s_delay]. rewrite map_length, add_delayed_nat.
  destruct (add_delayed (s_tr st) (s_delay st) _ _) as [tr' n]. cbn [fst snd]. rewrite map_length. apply add_rows_nat.
Qed.
Lemma align_tiers_nat ts : forall tr, align_tiers idB exprB (mtr tr) (map (map f) ts) = rmap mtr (align_tiers idA exprA tr ts).
Proof.
  induction ts as [|t ts IH]; intros tr; [reflexivity|]. cbn [map align_tiers]. rewrite align_tier_nat. apply bind_rmap. intros x. apply IH.
Qed.
Lemma group_nat ts : group_alignments idB exprB (map (map f) ts) = rmap mtr (group_alignments idA exprA ts).
Proof.
  destruct ts as [|t0 ts]; [reflexivity|]. cbn [map group_alignments]. rewrite map_map.
  replace (map (fun x => [[f x]]) t0) with (mtr (map (fun x => [[x]]) t0)) by now rewrite map_map. apply align_tiers_nat.
Qed.
End Natural.

(* ---------- values ---------- *)

Section Same.
Context {U : Unicode}.

Definition opt_rel {A} (R : A -> A -> Prop) (x y : option A) : Prop :=
  match x, y with Some a, Some b => R a b | None, None => True | _, _ => False end.
Lemma find_id_same {A} (R : A -> A -> Prop) idof l l' k : (forall a b, R a b -> idof a = idof b) -> Forall2 R l l' -> opt_rel R (find_id idof l k) (find_id idof l' k).
Proof.
  intros Hi H. unfold find_id. induction H as [|a b l l' Hab H IH]; [exact I|]. cbn [find]. rewrite (Hi a b Hab). now destruct (opt_eqb str_eqb (idof b) (Some k)).
Qed.
Lemma nth_same {A} (R : A -> A -> Prop) l l' : Forall2 R l l' -> forall n, opt_rel R (nth_error l n) (nth_error l' n).
Proof. induction 1 as [|a b l l' Hab H IH]; intros [|n]; try exact I; [exact Hab|apply IH]. Qed.
Lemma length_same {A} (R : A -> A -> Prop) l l' : Forall2 R l l' -> length l = length l'.
Proof. induction 1 as [|a b l l' Hab H IH]; [reflexivity|]. cbn. now rewrite IH. Qed.
Lemma get_same {A} (R : A -> A -> Prop) idof l l' k : (forall a b, R a b -> idof a = idof b) -> Forall2 R l l' -> opt_rel R (container_get idof l k) (container_get idof l' k).
Proof.
  intros Hi H. unfold container_get. pose proof (find_id_same R idof l l' k Hi H) as Hf. destruct (find_id idof l k), (find_id idof l' k); try easy.
  destruct (py_int k) as [z|]; [|exact I]. rewrite (length_same R l l' H). destruct (py_index (length l') z); [now apply nth_same|exact I].
Qed.
Lemma item_id_same i i' : same_item i i' -> item_id i = item_id i'.
Proof. intros (_ & H & _). exact H. Qed.
Lemma tier_id_same t t' : same_tier t t' -> tier_id t = tier_id t'.
Proof. intros ((H & _) & _). exact H. Qed.

Lemma value_same fuel g g' : same_igt g g' -> forall t t' i i' ras, same_tier t t' -> same_item i i' ->
  value fuel (Some g) (Some t) i ras = value fuel (Some g') (Some t') i' ras.
Proof.
  intros Hg. induction fuel as [|fuel IH]; intros t t' i i' ras Ht Hi; [reflexivity|]. cbn [value]. destruct Hi as [Ex Ha]. rewrite Ex. destruct (it_text i'); [reflexivity|].
  pose proof Ha as (_ & _ & _ & Hd).
  assert (Hf : find (dmem (a_dict (it_attrs i))) ras = find (dmem (a_dict (it_attrs i'))) ras).
  { induction ras as [|ra ras IHr]; [reflexivity|]. cbn [find]. unfold dmem at 1 3. rewrite Hd, IHr. reflexivity. }
  rewrite Hf. match goal with |- match ?x with _ => _ end = match ?y with _ => _ end => change y with x; destruct x as [ra|]; [|reflexivity] end. f_equal. unfold resolve_ref. rewrite Hd. destruct (dget (a_dict (it_attrs i')) ra) as [e|]; [|reflexivity].
  destruct Ht as ((_ & _ & _ & Htd) & _). rewrite Htd. destruct (dget (a_dict (t_attrs t')) ra) as [rid|]; [|reflexivity].
  destruct Hg as (_ & _ & Hts). pose proof (get_same same_tier tier_id _ _ rid tier_id_same Hts) as Hc.
  destruct (container_get tier_id (g_tiers g) rid) as [rt|], (container_get tier_id (g_tiers g') rid) as [rt'|]; try easy. cbn [opt_rel] in Hc.
  apply ValueProofs.resolve_ext. intros k _. pose proof Hc as (_ & _ & His). pose proof (get_same same_item item_id _ _ k item_id_same His) as Hci.
  destruct (container_get item_id (t_items rt) k), (container_get item_id (t_items rt') k); try easy. cbn [option_map]. f_equal. now apply IH.
Qed.

(* ---------- LaTeX ---------- *)

Context (lower : str -> str) (item_sub tier_sub : str -> str -> res str) (fuel : nat).
Notation content_or := (content_or fuel).
Notation cell_text := (cell_text item_sub fuel).
Notation row_text := (row_text item_sub tier_sub fuel).
Notation trans_text := (trans_text tier_sub fuel).
Notation chosen := (chosen lower).
Notation export_igt := (export_igt lower item_sub tier_sub fuel).

Definition same_titem (x y : titem) : Prop := same_tier (fst x) (fst y) /\ same_item (snd x) (snd y).
Definition both : Type := { p : titem * titem | same_titem (fst p) (snd p) }.
Definition one (x : both) : titem := fst (proj1_sig x).
Definition two (x : both) : titem := snd (proj1_sig x).

Lemma zip_items t t' l l' : same_tier t t' -> Forall2 same_item l l' ->
  exists zs, map one zs = map (fun i => (t, i)) l /\ map two zs = map (fun i => (t', i)) l'.
Proof.
  intros Ht. induction 1 as [|i i' l l' Hi H (zs & E1 & E2)]; [now exists []|].
  exists (exist _ ((t, i), (t', i')) (conj Ht Hi) :: zs). cbn [map]. now rewrite E1, E2.
Qed.
Lemma zip_tiers ts ts' : Forall2 same_tier ts ts' -> exists zs, map (map one) zs = map tier_titems ts /\ map (map two) zs = map tier_titems ts'.
Proof.
  induction 1 as [|t t' ts ts' Ht H (zs & E1 & E2)]; [now exists []|]. destruct (zip_items t t' _ _ Ht (proj2 (proj2 Ht))) as (z & E3 & E4).
  exists (z :: zs). cbn [map]. now rewrite E1, E2, E3, E4.
Qed.
Lemma item_expr_same i i' : same_item i i' -> item_expr i = item_expr i'.
Proof. intros (_ & _ & _ & _ & H). unfold item_expr. now rewrite !H. Qed.
Lemma group_same ts ts' : Forall2 same_tier ts ts' -> exists r : res (list (list (list both))),
  group_tiers ts = rmap (map (map (map one))) r /\ group_tiers ts' = rmap (map (map (map two))) r.
Proof.
  intros H. destruct (zip_tiers ts ts' H) as (zs & E1 & E2). unfold group_tiers. rewrite <- E1, <- E2.
  exists (group_alignments (fun x => item_id (snd (one x))) (fun x => item_expr (snd (one x))) zs). split; apply group_nat; try easy.
  - intros [[x y] [H1 H2]]. symmetry. now apply item_id_same.
  - intros [[x y] [H1 H2]]. symmetry. now apply item_expr_same.
Qed.
Lemma mapM_same {A B C} (f : A -> res C) (g : B -> res C) (R : A -> B -> Prop) l l' : (forall a b, R a b -> f a = g b) -> Forall2 R l l' -> mapM f l = mapM g l'.
Proof. intros Hf. induction 1 as [|a b l l' Hab H IH]; [reflexivity|]. cbn [mapM]. now rewrite (Hf a b Hab), IH. Qed.
Lemma mapM_two {A B C D} (f : A -> res D) (g : B -> res D) (h : C -> A) (k : C -> B) l : (forall x, f (h x) = g (k x)) -> mapM f (map h l) = mapM g (map k l).
Proof. intros H. induction l as [|x l IH]; [reflexivity|]. cbn [map mapM]. now rewrite H, IH. Qed.
Lemma mapM_ext_ {A B} (f g : A -> res B) l : (forall x, f x = g x) -> mapM f l = mapM g l.
Proof. intros H. induction l as [|x l IH]; [reflexivity|]. cbn [mapM]. now rewrite H, IH. Qed.

Section Igt.
Variables g g' : igt.
Hypothesis Hg : same_igt g g'.
Lemma content_same x y : same_titem x y -> content_or g x = content_or g' y.
Proof. intros [Ht Hi]. unfold Latex.content_or. now rewrite (value_same fuel g g' Hg (fst x) (fst y) (snd x) (snd y) value_refattrs Ht Hi). Qed.
Lemma cell_same ty (l : list both) : cell_text g ty (map one l) = cell_text g' ty (map two l).
Proof. unfold Latex.cell_text. f_equal. apply mapM_two. intros [[x y] H]. cbn [one two proj1_sig fst snd]. now rewrite (content_same x y H). Qed.
Lemma row_same ts ts' (cols : list (list (list both))) i : Forall2 same_tier ts ts' -> row_text g ts (map (map (map one)) cols) i = row_text g' ts' (map (map (map two)) cols) i.
Proof.
  intros H. unfold Latex.row_text. pose proof (nth_same same_tier _ _ H i) as Hn. destruct (nth_error ts i) as [t|], (nth_error ts' i) as [t'|]; try easy.
  destruct Hn as ((_ & Ety & _) & _). rewrite Ety. f_equal. apply mapM_two. intros c. rewrite !nth_error_map. destruct (nth_error c i); [|reflexivity]. apply cell_same.
Qed.
Lemma trans_same t t' : same_tier t t' -> trans_text g t = trans_text g' t'.
Proof.
  intros Ht. unfold Latex.trans_text. pose proof Ht as ((_ & Ety & _) & _ & Hi). rewrite Ety. destruct (a_type (t_attrs t')) as [ty|]; [|reflexivity].
  destruct Hi as [|i i' l l' Hi _]; [reflexivity|]. destruct (str_eqb ty _); [|reflexivity]. now rewrite (content_same (t, i) (t', i') (conj Ht Hi)).
Qed.
Lemma chosen_same types ts ts' : Forall2 same_tier ts ts' -> Forall2 same_tier (filter (chosen types) ts) (filter (chosen types) ts').
Proof.
  induction 1 as [|t t' ts ts' Ht H IH]; [constructor|]. cbn [filter]. assert (E : chosen types t = chosen types t') by (destruct Ht as ((_ & Ety & _) & _); unfold Latex.chosen; now rewrite Ety). rewrite E.
  destruct (chosen types t'); [now constructor|easy].
Qed.
Theorem export_same types : export_igt types g = export_igt types g'.
Proof.
  unfold Latex.export_igt. pose proof Hg as ((Eid & _) & _ & Hts). pose proof (chosen_same types _ _ Hts) as Hc.
  set (ts := filter (chosen types) (g_tiers g)) in *. set (ts' := filter (chosen types) (g_tiers g')) in *. rewrite (length_same _ _ _ Hc).
  destruct (length ts' <? 2); [unfold igt_id; now rewrite Eid|].
  assert (Hn : forallb (fun t => match tier_id t with Some _ => true | None => false end) ts = forallb (fun t => match tier_id t with Some _ => true | None => false end) ts').
  { clear -Hc. induction Hc as [|t t' l l' Ht H IH]; [reflexivity|]. cbn [forallb]. now rewrite (tier_id_same t t' Ht), IH. }
  rewrite Hn. destruct (forallb _ ts'); [|reflexivity]. destruct (group_same ts ts' Hc) as (r & E1 & E2). rewrite E1, E2. destruct r as [cols|e]; [|reflexivity]. cbn [rmap bind].
  destruct cols as [|c0 cols]; [reflexivity|]. cbn [map]. rewrite !map_length.
  rewrite (mapM_ext_ _ (row_text g' ts' (map (map (map two)) (c0 :: cols)))) by (intros i; exact (row_same ts ts' (c0 :: cols) i Hc)). cbn [map].
  rewrite (mapM_same (trans_text g) (trans_text g') same_tier _ _ trans_same Hts). reflexivity.
Qed.
End Igt.
Theorem export_file_same types gs gs' : Forall2 same_igt gs gs' -> export_file lower item_sub tier_sub fuel types gs = export_file lower item_sub tier_sub fuel types gs'.
Proof.
  intros H. unfold export_file. replace (export_corpus lower item_sub tier_sub fuel types gs') with (export_corpus lower item_sub tier_sub fuel types gs); [reflexivity|].
  induction H as [|g g' gs gs' Hg H IH]; [reflexivity|]. cbn [export_corpus]. now rewrite (export_same g g' Hg types), IH.
Qed.
End Same.
