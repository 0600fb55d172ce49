(* Proofs about everything the codecs accept. *)
From Verif Require Import PyStr PyStrFacts Ref Model SpecRef XmlStd Xml SpecXml XmlProofs Json SpecLoad.
From Verif Require RefProofs JsonProofs.

Lemma bind_ok {A B} (r : res A) (k : A -> res B) y : bind r k = Ok y -> exists x, r = Ok x /\ k x = Ok y.
Proof. destruct r as [x|e]; cbn; [|discriminate]. now exists x. Qed.
Ltac inv_bind H := let x := fresh "x" in let E := fresh "E" in apply bind_ok in H as (x & E & H).
Lemma traverse_all {A B} (f : A -> res B) (P : B -> Prop) : forall l ys,
  (forall x y, In x l -> f x = Ok y -> P y) -> traverse f l = Ok ys -> Forall P ys.
Proof.
  induction l as [|x l IH]; cbn; intros ys HP E.
  - injection E as <-. constructor.
  - inv_bind E. inv_bind E. injection E as <-. constructor; [apply (HP x); [now left|easy]|].
    apply IH; [|easy]. intros z y Hz. apply HP. now right.
Qed.

Lemma check_ids_sound l : forall seen, check_ids seen l = Ok tt ->
  NoDup (some_ids l) /\ forall i, In i (some_ids l) -> ~ In i seen.
Proof.
  induction l as [|[i|] l IH]; cbn [check_ids some_ids flat_map app]; intros seen E.
  - now split; [constructor|].
  - destruct (existsb (str_eqb i) seen) eqn:Ex; [discriminate|]. destruct (IH _ E) as [H1 H2]. split.
    + constructor; [|easy]. intros H. apply (H2 i H). now left.
    + intros j [<-|Hj] Hin.
      * assert (existsb (str_eqb i) seen = true); [|congruence]. apply existsb_exists. exists i. split; [easy|].
        now destruct (str_eqb_spec i i).
      * apply (H2 j Hj). now right.
  - now apply IH.
Qed.

Section LoadProofs.
Context {U : Unicode}.

Definition id_fine (a : attrs) : Prop := forall i, a_id a = Some i -> accepted_id i.
Lemma container_fine {A} (at_ : A -> attrs) l l' : new_container (fun x => a_id (at_ x)) l = Ok l' ->
  Forall (fun x => id_fine (at_ x)) l -> l' = l /\ ids_fine (map at_ l).
Proof.
  unfold new_container. intros E H. inv_bind E. injection E as <-. destruct x. split; [easy|]. split.
  - intros a i Ha Ei. apply in_map_iff in Ha as (y & <- & Hy). rewrite Forall_forall in H. now apply (H y).
  - rewrite map_map. now apply (check_ids_sound _ []).
Qed.
Lemma accepted_p i : id_accepted i = true -> accepted_id i.
Proof. intros H. now apply RefProofs.id_accepted_spec in H. Qed.
Lemma decode_attrs_fine id type ig ns p a : decode_attrs id type ig ns p = Ok a -> id_fine a /\ a_id a = id.
Proof.
  unfold decode_attrs. destruct (p_nsmap p); [|discriminate]. destruct id as [i|].
  - destruct (id_accepted i) eqn:E; [|discriminate]. intros [= <-]. split; [|easy]. intros j [= <-]. now apply accepted_p.
  - intros [= <-]. now split; [intros i [=]|].
Qed.
Lemma dec_attrs_fine d id type ns a : dec_attrs d id type ns = Ok a -> id_fine a /\ a_id a = id.
Proof.
  unfold dec_attrs. intros E. inv_bind E. inv_bind E. destruct id as [i|].
  - destruct (id_accepted i) eqn:E2; [|discriminate]. injection E as <-. split; [|easy]. intros j [= <-]. now apply accepted_p.
  - injection E as <-. now split; [intros i [=]|].
Qed.
Lemma dec_common_fine d a : dec_common d = Ok a -> id_fine a.
Proof. unfold dec_common. intros E. do 3 inv_bind E. now apply dec_attrs_fine in E. Qed.

Lemma word_first n : name_accepted n = true -> exists c r, n = c :: r /\ is_word c = true /\ is_digit c = false.
Proof.
  unfold name_accepted. intros H. apply orb_prop in H as [H|H].
  - destruct n as [|c r]; [discriminate|]. apply andb_prop in H as [H _]. apply andb_prop in H as [H1 H2].
    exists c, r. split; [easy|]. split; [easy|]. now destruct (is_digit c).
  - destruct (rev n) as [|c r] eqn:E; [discriminate|]. apply andb_prop in H as [_ H].
    assert (En : n = rev r ++ [c]) by (rewrite <- (rev_involutive n), E; reflexivity).
    destruct (rev r) as [|c' r']; [discriminate|]. subst n. apply andb_prop in H as [H _]. apply andb_prop in H as [H1 H2].
    exists c', (r' ++ [c]). split; [easy|]. split; [easy|]. now destruct (is_digit c').
Qed.

(* ----- XML ----- *)

Lemma decode_child_fine p : forall m, decode_child p = Ok m -> child_names m.
Proof.
  induction p as [tag d nm text tail kids IH] using pelem_rec'. intros m E. cbn [decode_child] in E.
  inv_bind E. destruct x as [ns name]. inv_bind E. inv_bind E.
  destruct (name_accepted name) eqn:En; [|discriminate]. injection E as <-.
  constructor; [now apply word_first|now apply decode_attrs_fine in E2|].
  apply (traverse_all decode_child _ kids); [|easy]. intros q y Hq Ey. rewrite Forall_forall in IH. now apply (IH q).
Qed.
Lemma decode_meta_fine p m : decode_meta p = Ok m -> id_fine (me_attrs m) /\ Forall child_names (me_kids m).
Proof.
  unfold decode_meta. intros E. do 3 inv_bind E. injection E as <-. cbn. split; [now apply decode_attrs_fine in E2|].
  apply (traverse_all decode_child _ (p_kids p)); [|easy]. intros q y _. apply decode_child_fine.
Qed.
Lemma decode_metadata_fine p m : decode_metadata p = Ok m -> id_fine (md_attrs m) /\ metadata_fine m.
Proof.
  unfold decode_metadata. intros E. do 4 inv_bind E. injection E as <-. cbn. split; [now apply decode_attrs_fine in E2|].
  assert (F : Forall (fun m => id_fine (me_attrs m) /\ Forall child_names (me_kids m)) x0)
    by (apply (traverse_all decode_meta _ _ _ (fun p y _ => decode_meta_fine p y) E1)).
  apply container_fine in E3 as [-> H]; [|eapply Forall_impl; [|exact F]; now intros ? []].
  split; [easy|]. eapply Forall_impl; [|exact F]. now intros ? [].
Qed.
Lemma decode_metadatas_fine p ms : decode_metadatas p = Ok ms -> metadatas_fine ms.
Proof.
  unfold decode_metadatas. intros E. inv_bind E.
  assert (F := traverse_all decode_metadata _ _ _ (fun p y _ => decode_metadata_fine p y) E0).
  apply container_fine in E as [-> H]; [|eapply Forall_impl; [|exact F]; now intros ? []].
  split; [easy|]. eapply Forall_impl; [|exact F]. now intros ? [].
Qed.
Lemma decode_tier_fine p t : decode_tier p = Ok t -> id_fine (t_attrs t) /\ tier_fine t.
Proof.
  unfold decode_tier. intros E. do 5 inv_bind E. injection E as <-. cbn. split; [now apply decode_attrs_fine in E3|].
  split; cbn; [now apply decode_metadatas_fine in E1|].
  assert (F : Forall (fun i => id_fine (it_attrs i)) x1).
  { apply (traverse_all decode_item _ _ _ ) with (2 := E2). intros q y _ Ey. unfold decode_item in Ey.
    do 2 inv_bind Ey. injection Ey as <-. eapply decode_attrs_fine; eassumption. }
  apply container_fine in E4 as [-> H]; easy.
Qed.
Lemma decode_igt_fine p g : decode_igt p = Ok g -> id_fine (g_attrs g) /\ igt_fine g.
Proof.
  unfold decode_igt. intros E. do 5 inv_bind E. injection E as <-. cbn. split; [now apply decode_attrs_fine in E3|].
  split; cbn; [now apply decode_metadatas_fine in E1|].
  assert (F := traverse_all decode_tier _ _ _ (fun p y _ => decode_tier_fine p y) E2).
  apply container_fine in E4 as [-> H]; [|eapply Forall_impl; [|exact F]; now intros ? []].
  split; [easy|]. eapply Forall_impl; [|exact F]. now intros ? [].
Qed.
Lemma decode_corpus_fine p igts c : decode_xigtcorpus p igts = Ok c -> corpus_fine c.
Proof.
  unfold decode_xigtcorpus. intros E. do 5 inv_bind E. injection E as <-. split; cbn; [now apply decode_attrs_fine in E2|].
  split; [now apply decode_metadatas_fine in E1|].
  assert (F := traverse_all decode_igt _ _ _ (fun p y _ => decode_igt_fine p y) E3).
  apply container_fine in E4 as [-> H]; [|eapply Forall_impl; [|exact F]; now intros ? []].
  split; [easy|]. eapply Forall_impl; [|exact F]. now intros ? [].
Qed.
Theorem xml_load_fine ahead e c : xml_load ahead e = Ok c -> corpus_fine c.
Proof.
  unfold xml_load. intros E. inv_bind E. unfold decode, decode_with in E. cbv zeta in E.
  destruct (skip_to _ _) as [[[q|q] rest]|]; [| |discriminate].
  - destruct (iter_elements _ _ _); [|discriminate]. now apply decode_corpus_fine in E.
  - now apply decode_corpus_fine in E.
Qed.

(* ----- JSON ----- *)

Lemma get_list_all {B} (f : json -> res B) (P : B -> Prop) k d ys : (forall j y, f j = Ok y -> P y) ->
  get_list f k d = Ok ys -> Forall P ys.
Proof.
  rewrite JsonProofs.get_list_eq. intros HP. destruct (dget d k) as [[s|l|o]|]; try discriminate.
  - apply traverse_all. intros x y _. apply HP.
  - intros [= <-]. constructor.
Qed.

Fixpoint json_rec' (P : json -> Prop) (Hs : forall s, P (JStr s)) (Ha : forall l, Forall P l -> P (JArr l))
  (Ho : forall d, Forall (fun kv => P (snd kv)) d -> P (JObj d)) (j : json) : P j :=
  match j with
  | JStr s => Hs s
  | JArr l => Ha l ((fix go l : Forall P l := match l with [] => Forall_nil _ | x :: l => Forall_cons _ (json_rec' P Hs Ha Ho x) (go l) end) l)
  | JObj d => Ho d ((fix go d : Forall (fun kv => P (snd kv)) d :=
      match d with [] => Forall_nil _ | x :: d => Forall_cons x (json_rec' P Hs Ha Ho (snd x)) (go d) end) d)
  end.
Lemma dec_child_fine' j : match j with JArr l => Forall (fun j => forall nm m, dec_child nm j = Ok m -> child_names m) l | _ => True end
  /\ forall nm m, dec_child nm j = Ok m -> child_names m.
Proof.
  induction j as [s|l IH|d IH] using json_rec'; [now split| |].
  - split; [eapply Forall_impl; [|exact IH]; now intros a []|discriminate].
  - split; [easy|]. intros nm m E. cbn [dec_child] in E. do 3 inv_bind E. inv_bind E. destruct x2 as [n ns].
    do 3 inv_bind E. destruct (name_accepted n) eqn:En; [|discriminate]. injection E as <-.
    constructor; [now apply word_first|now apply dec_attrs_fine in E4|].
    rewrite JsonProofs.get_list_eq in E6. destruct (dget d (L "children")) as [[s|l|o]|] eqn:Eg; try discriminate.
    + apply dget_in in Eg; [|exact str_eqb_spec]. rewrite Forall_forall in IH. destruct (IH _ Eg) as [H _]. cbn in H.
      apply (traverse_all _ _ _ _) with (2 := E6). intros y z Hy. rewrite Forall_forall in H. now apply (H y).
    + injection E6 as <-. constructor.
Qed.
Lemma dec_child_fine nm j m : dec_child nm j = Ok m -> child_names m.
Proof. destruct (dec_child_fine' j) as [_ H]. apply H. Qed.
Lemma dec_meta_fine nm j m : dec_meta nm j = Ok m -> id_fine (me_attrs m) /\ Forall child_names (me_kids m).
Proof.
  unfold dec_meta. intros E. do 5 inv_bind E. injection E as <-. cbn. split; [now apply dec_common_fine in E2|].
  now apply (get_list_all _ _ _ _ _ (dec_child_fine _)) in E4.
Qed.
Lemma dec_metadata_fine nm j m : dec_metadata nm j = Ok m -> id_fine (md_attrs m) /\ metadata_fine m.
Proof.
  unfold dec_metadata. intros E. do 5 inv_bind E. injection E as <-. cbn. split; [now apply dec_common_fine in E2|].
  assert (F := get_list_all _ _ _ _ _ (dec_meta_fine _) E3).
  apply container_fine in E4 as [-> H]; [|eapply Forall_impl; [|exact F]; now intros ? []].
  split; [easy|]. eapply Forall_impl; [|exact F]. now intros ? [].
Qed.
Lemma dec_metadatas_fine nm d ms : dec_metadatas nm d = Ok ms -> metadatas_fine ms.
Proof.
  unfold dec_metadatas. intros E. inv_bind E. assert (F := get_list_all _ _ _ _ _ (dec_metadata_fine _) E0).
  apply container_fine in E as [-> H]; [|eapply Forall_impl; [|exact F]; now intros ? []].
  split; [easy|]. eapply Forall_impl; [|exact F]. now intros ? [].
Qed.
Lemma dec_item_fine nm j i : dec_item nm j = Ok i -> id_fine (it_attrs i).
Proof. unfold dec_item. intros E. do 4 inv_bind E. injection E as <-. now apply dec_common_fine in E2. Qed.
Lemma dec_tier_fine nm j t : dec_tier nm j = Ok t -> id_fine (t_attrs t) /\ tier_fine t.
Proof.
  unfold dec_tier. intros E. do 6 inv_bind E. injection E as <-. cbn. split; [now apply dec_common_fine in E4|].
  split; cbn; [now apply dec_metadatas_fine in E2|].
  assert (F := get_list_all _ _ _ _ _ (dec_item_fine _) E3). apply container_fine in E5 as [-> H]; easy.
Qed.
Lemma dec_igt_fine nm j g : dec_igt nm j = Ok g -> id_fine (g_attrs g) /\ igt_fine g.
Proof.
  unfold dec_igt. intros E. do 6 inv_bind E. injection E as <-. cbn. split; [now apply dec_common_fine in E4|].
  split; cbn; [now apply dec_metadatas_fine in E2|].
  assert (F := get_list_all _ _ _ _ _ (dec_tier_fine _) E3).
  apply container_fine in E5 as [-> H]; [|eapply Forall_impl; [|exact F]; now intros ? []].
  split; [easy|]. eapply Forall_impl; [|exact F]. now intros ? [].
Qed.
Theorem json_decode_fine j c : json_decode j = Ok c -> corpus_fine c.
Proof.
  unfold json_decode. intros E. do 8 inv_bind E. injection E as <-. split; cbn; [now apply dec_attrs_fine in E6|].
  split; [now apply dec_metadatas_fine in E2|].
  assert (F := get_list_all _ _ _ _ _ (dec_igt_fine _) E3).
  apply container_fine in E7 as [-> H]; [|eapply Forall_impl; [|exact F]; now intros ? []].
  split; [easy|]. eapply Forall_impl; [|exact F]. now intros ? [].
Qed.

End LoadProofs.
