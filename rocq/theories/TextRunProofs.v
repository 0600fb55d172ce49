(* Proofs about documents as texts: loading and saving. *)
From Verif Require Import PyStr PyStrFacts PySort Ref SpecRef Model SpecModel XmlStd Xml SpecXml SpecReload XmlText SpecXmlText.
From Verif Require Import LoadProofs XmlProofs ReloadProofs XmlTextProofs.
Require Import Lia.

(* ---------- text after the root does not matter ---------- *)

Inductive alike : pelem -> pelem -> Prop :=
| Alike tag d m text tail tail' kids : alike (PElem tag d m text tail kids) (PElem tag d m text tail' kids).
Lemma alike_refl p : alike p p.
Proof. destruct p. constructor. Qed.
Inductive ev_alike : event -> event -> Prop :=
| Alike_start p p' : alike p p' -> ev_alike (EvStart p) (EvStart p')
| Alike_end p p' : alike p p' -> ev_alike (EvEnd p) (EvEnd p').
Lemma evs_refl l : Forall2 ev_alike l l.
Proof. induction l as [|[p|p] l IH]; constructor; auto; constructor; apply alike_refl. Qed.
Lemma evs_root tag d m text tail tail' kids : Forall2 ev_alike (events (PElem tag d m text tail kids)) (events (PElem tag d m text tail' kids)).
Proof.
  cbn [events]. constructor; [constructor; constructor|]. apply Forall2_app; [apply evs_refl|]. constructor; [constructor; constructor|constructor].
Qed.
Lemma start_alike n e e' : ev_alike e e' -> is_start n e = is_start n e'.
Proof. intros [? ? []|? ? []]; reflexivity. Qed.
Lemma end_alike n e e' : ev_alike e e' -> is_end n e = is_end n e'.
Proof. intros [? ? []|? ? []]; reflexivity. Qed.
Lemma skip_alike stop l l' : (forall e e', ev_alike e e' -> stop e = stop e') -> Forall2 ev_alike l l' ->
  match skip_to stop l, skip_to stop l' with
  | Some (e, r), Some (e', r') => ev_alike e e' /\ Forall2 ev_alike r r'
  | None, None => True
  | _, _ => False
  end.
Proof.
  intros Hs H. induction H as [|e e' l l' He Hl IH]; [exact I|]. cbn [skip_to]. rewrite (Hs e e' He). destruct (stop e'); [easy|exact IH].
Qed.
Lemma spent_alike p p' : alike p p' -> alike (spent p) (spent p').
Proof. intros []. constructor. Qed.
Lemma at_end_alike p p' : alike p p' -> alike (at_end p) (at_end p').
Proof. intros []. constructor. Qed.
Lemma spend_alike n : forall l l', Forall2 ev_alike l l' -> Forall2 ev_alike (spend n l) (spend n l').
Proof.
  induction n as [|n IH]; intros l l' H; inversion H as [|e e' r r' He Hr]; subst; cbn [spend]; auto.
  destruct He; constructor; auto; constructor; auto. now apply spent_alike.
Qed.
Lemma iter_alike n stop l l' : (forall e e', ev_alike e e' -> stop e = stop e') -> Forall2 ev_alike l l' ->
  match iter_elements n stop l, iter_elements n stop l' with Some a, Some b => Forall2 alike a b | None, None => True | _, _ => False end.
Proof.
  intros Hs H. induction H as [|e e' l l' He Hl IH]; [exact I|]. cbn [iter_elements]. rewrite (Hs e e' He). destruct (stop e'); [constructor|].
  destruct He as [p p' Hp|p p' Hp]; [exact IH|]. assert (Et : p_tag p = p_tag p') by now destruct Hp. rewrite Et. destruct (str_eqb (p_tag p') n); [|exact IH].
  destruct (iter_elements n stop l), (iter_elements n stop l'); cbn [option_map]; try easy. now constructor.
Qed.
Lemma length_alike l l' : Forall2 ev_alike l l' -> length l = length l'.
Proof. intros H. induction H; cbn; auto. Qed.
Section Run.
Context {U : Unicode}.
Lemma igt_alike p p' : alike p p' -> decode_igt p = decode_igt p'.
Proof. intros []. reflexivity. Qed.
Lemma igts_alike l l' : Forall2 alike l l' -> traverse decode_igt l = traverse decode_igt l'.
Proof. intros H. induction H as [|p p' l l' Hp _ IH]; [easy|]. cbn [traverse]. rewrite (igt_alike p p' Hp). now rewrite IH. Qed.
Lemma corpus_alike p p' l l' : alike p p' -> Forall2 alike l l' -> decode_xigtcorpus p l = decode_xigtcorpus p' l'.
Proof.
  intros Hp Hl. unfold decode_xigtcorpus. rewrite (igts_alike l l' Hl). destruct Hp. reflexivity.
Qed.
Lemma decode_alike ahead p0 p1 : alike p0 p1 -> decode ahead p0 = decode ahead p1.
Proof.
  intros [tag d m text tail tail' kids]. unfold decode, decode_with. set (p := PElem tag d m text tail kids). set (p' := PElem tag d m text tail' kids).
  assert (He : Forall2 ev_alike (events p) (events p')) by apply evs_root. set (stop := fun e => is_start (L "igt") e || is_end (L "xigt-corpus") e).
  assert (Hs : forall e e', ev_alike e e' -> stop e = stop e') by (intros e e' Hx; unfold stop; now rewrite (start_alike _ e e'), (end_alike _ e e')).
  pose proof (skip_alike stop _ _ Hs He) as H. destruct (skip_to stop (events p)) as [[e r]|], (skip_to stop (events p')) as [[e' r']|]; try easy. destruct H as [Hx Hr].
  rewrite (length_alike _ _ He), (length_alike _ _ Hr). set (c := length (events p') - length r'). assert (Hv : alike (view c (c + ahead) 0 p) (view c (c + ahead) 0 p')) by (cbn [view p p']; constructor).
  destruct Hx as [q q' Hq|q q' Hq].
  - change (igt_in_meta p') with (igt_in_meta p). assert (El : length (events q) = length (events q')) by (destruct Hq; apply length_alike, evs_root).
    rewrite El. set (s := if igt_in_meta p then spend (length (events q') - 2) r else r). set (s' := if igt_in_meta p then spend (length (events q') - 2) r' else r').
    assert (Hss : Forall2 ev_alike s s') by (unfold s, s'; destruct (igt_in_meta p); [now apply spend_alike|easy]).
    pose proof (iter_alike (L "igt") (is_end (L "xigt-corpus")) s s' (end_alike _) Hss) as Hi.
    destruct (iter_elements _ _ s) as [a|], (iter_elements _ _ s') as [b|]; try easy. apply corpus_alike; [easy|]. clear - Hi. induction Hi; constructor; auto. now apply at_end_alike.
  - apply corpus_alike; [easy|]. cbn [view p p']. unfold find_kids. cbn [p_kids]. match goal with |- Forall2 alike ?x ?x => generalize x end. intros l. induction l; constructor; auto. apply alike_refl.
Qed.
(* ---------- writing and reading ---------- *)

Lemma resolve_norm e : forall scope p, reread scope e = Ok p -> resolve scope (norm e) = Ok p.
Proof.
  induction e as [tag d text tail kids IH] using xelem_rec'. rewrite Forall_forall in IH. intros scope p E. cbn [reread norm resolve] in *. inv_bind E. rewrite E0. cbn [bind].
  inv_bind E. rewrite E1. cbn [bind]. inv_bind E. rewrite E2. cbn [bind]. inv_bind E. apply text_like in E3 as [_ ->]. inv_bind E. inv_bind E. apply text_like in E4 as [_ ->]. injection E as <-.
  assert (Ek : traverse (resolve x) (map norm kids) = Ok x2).
  { clear - IH E3. revert x2 E3. induction kids as [|k ks IHk]; intros l E; [exact E|]. cbn [traverse map] in *. inv_bind E. rewrite (IH k (or_introl eq_refl) x _ E0). cbn [bind].
    inv_bind E. rewrite (IHk (fun k Hk => IH k (or_intror Hk)) _ E1). exact E. }
  rewrite Ek. reflexivity.
Qed.
Lemma resolve_no_tail scope e p : resolve scope e = Ok p -> exists p', resolve scope (no_tail e) = Ok p' /\ alike p p'.
Proof.
  destruct e as [tag d text tail kids]. cbn [no_tail resolve]. intros E. inv_bind E. rewrite E0. cbn [bind]. inv_bind E. rewrite E1. cbn [bind]. inv_bind E. rewrite E2. cbn [bind]. inv_bind E. rewrite E3. cbn [bind].
  injection E as <-. eexists. split; [reflexivity|constructor].
Qed.
Lemma ends_ws e : ends_blank e -> ws_text (x_tail e).
Proof.
  destruct e as [tag d text tail kids]. cbn [ends_blank x_tail]. intros H c Hc. destruct tail as [s|]; [|easy]. cbn [text_of] in Hc. destruct (H s c eq_refl Hc) as [->|[->|[->| ->]]]; reflexivity.
Qed.
Theorem loads_written ahead e p : dicts e -> ends_blank e -> reread [] e = Ok p -> loads ahead (write_elem e) = xml_load ahead e.
Proof.
  intros Hd He E. unfold loads, xml_load. rewrite (parse_write e); [|now apply (reread_writable e [] p)|now apply ends_ws]. cbn [bind].
  destruct (resolve_no_tail [] (norm e) p (resolve_norm e [] p E)) as (p' & Ep & Ha). rewrite Ep, E. cbn [bind]. symmetry. now apply decode_alike.
Qed.

(* ---------- what is saved has dicts, and a newline at most at the end ---------- *)

Lemma put_nodup rm l : forall e e', NoDup (map fst e) -> put_attributes rm e l = Ok e' -> NoDup (map fst e').
Proof.
  induction l as [|[k v] l IH]; intros e e' H E; [now injection E as <-|]. cbn [put_attributes] in E. inv_bind E. destruct x as [uri n]. inv_bind E. apply (IH _ _ (dset_nodup str_eqb str_eqb_spec _ _ _ H) E).
Qed.
Lemma build_nodup tag a nm ctx tg d : build_elem tag a nm ctx = Ok (tg, d) -> NoDup (map fst d).
Proof.
  unfold build_elem. intros E. inv_bind E. injection E as <- <-. apply (put_nodup _ _ _ _) in E0; [easy|]. clear E0.
  assert (H : forall l e, NoDup (map fst e) -> NoDup (map fst (fold_left (fun e kv => if opt_eqb str_eqb (dget ctx (fst kv)) (Some (snd kv)) then e else dset e (L "xmlns:" ++ fst kv) (snd kv)) l e))).
  { clear. intros l. induction l as [|kv l IH]; intros e H; [easy|]. cbn [fold_left]. apply IH. destruct (opt_eqb _ _ _); [easy|]. now apply (dset_nodup str_eqb str_eqb_spec). }
  specialize (H nm [] ltac:(constructor)). destruct (a_type a), (a_id a); repeat apply (dset_nodup str_eqb str_eqb_spec); exact H.
Qed.
Lemma tree_dicts t : forall inh ctx e, build_tree inh ctx t = Ok e -> dicts e.
Proof.
  induction t as [tag a text kids IH] using xtree_rec'. rewrite Forall_forall in IH. intros inh ctx e E. cbn [build_tree] in E. inv_bind E. destruct x as [tg d]. inv_bind E. injection E as <-. constructor; [now apply build_nodup in E0|].
  clear E0. revert x E1. induction kids as [|k ks IHk]; intros l E; cbn [traverse] in E; [injection E as <-; constructor|]. inv_bind E. inv_bind E. injection E as <-.
  constructor; [now apply (IH k (or_introl eq_refl)) in E0|]. apply (IHk (fun k Hk => IH k (or_intror Hk)) _ E1).
Qed.
Lemma on_last_forall {A} (P : A -> Prop) f l : (forall x, P x -> P (f x)) -> Forall P l -> Forall P (on_last f l).
Proof. intros H Hl. induction Hl as [|x l Hx Hl IH]; [constructor|]. cbn [on_last]. destruct l; constructor; auto. Qed.
Lemma indent_dicts n e : forall level, dicts e -> dicts (indent_elem n level e).
Proof.
  induction e as [tag d text tail kids IH] using xelem_rec'. rewrite Forall_forall in IH. intros level H. inversion_clear H as [? ? ? ? ? Hn Hk]. cbn [indent_elem]. destruct kids as [|k ks]; [now constructor|].
  remember (k :: ks) as l. constructor; [easy|]. apply on_last_forall; [intros [] Hx; inversion_clear Hx; now constructor|]. rewrite Forall_forall in *. intros x Hx. apply in_map_iff in Hx as (y & <- & Hy). auto.
Qed.
Lemma indent_ends n e : ends_blank e -> ends_blank (indent_elem n 0 e).
Proof.
  destruct e as [tag d text tail kids]. cbn [indent_elem]. destruct kids as [|k ks]; [easy|]. cbn [ends_blank]. intros H s c. destruct (blank tail); [|apply H]. intros [= <-].
  unfold newline_indent, spaces. rewrite Nat.mul_0_r. cbn. intros [<-|[]]. auto.
Qed.
Lemma dump_text c indent e : xml_dump c indent = Ok e -> dicts e /\ ends_blank e.
Proof.
  unfold xml_dump. intros E. inv_bind E. injection E as <-. rewrite build_corpus_tree in E0. pose proof (tree_dicts _ _ _ _ E0) as Hd.
  assert (He : ends_blank x).
  { destruct (corpus_tree c) as [tag a text kids]. cbn [build_tree] in E0. inv_bind E0. destruct x0 as [tg d]. inv_bind E0. injection E0 as <-. cbn. discriminate. }
  destruct indent as [n|]; cbn [indent_opt]; [|easy]. split; [now apply indent_dicts|now apply indent_ends].
Qed.
Theorem dumps_load c indent e c' : xml_dump c indent = Ok e -> (forall ahead, xml_load ahead e = Ok c') -> exists s, dumps c indent = Ok s /\ forall ahead, loads ahead s = Ok c'.
Proof.
  intros E El. unfold dumps. rewrite E. cbn [bind]. eexists. split; [reflexivity|]. destruct (dump_text c indent e E) as [Hd He]. intros ahead. rewrite <- (El ahead).
  specialize (El 0). unfold xml_load in El. inv_bind El. now apply (loads_written ahead e x).
Qed.
Theorem text_round_trip c indent : tree_ok [] (corpus_tree c) -> corpus_ok c ->
  exists s c', dumps c indent = Ok s /\ (forall ahead, loads ahead s = Ok c') /\ same_corpus (back_corpus c) c'.
Proof.
  intros Ht Hc. destruct (xml_reads_back c indent Ht Hc) as (e & c' & E & El & Hs). destruct (dumps_load c indent e c' E El) as (s & Es & Hl). eauto.
Qed.
Theorem text_kept c indent : tree_ok [] (corpus_tree c) -> corpus_ok c -> corpus_kept c ->
  exists s c', dumps c indent = Ok s /\ (forall ahead, loads ahead s = Ok c') /\ same_corpus c c'.
Proof.
  intros Ht Hc Hk. destruct (xml_round_trip c indent Ht Hc Hk) as (e & c' & E & El & Hs). destruct (dumps_load c indent e c' E El) as (s & Es & Hl). eauto.
Qed.

(* ---------- what is parsed ---------- *)

Definition sound_text (t : option str) : Prop := match t with None => True | Some s => s <> [] /\ xml_chars s = true end.
Inductive sound : xelem -> Prop :=
| Sound tag d text tail kids : NoDup (map fst d) -> (forall k v, In (k, v) d -> xml_chars v = true) -> sound_text text -> sound_text tail -> Forall sound kids ->
    sound (XElem tag d text tail kids).
Lemma reference_char b c : reference b = Ok c -> xml_char c = true.
Proof.
  assert (H : forall o, char_of o = Ok c -> xml_char c = true).
  { intros [x|]; cbn [char_of]; [|easy]. destruct (xml_char x) eqn:E; [|easy]. now intros [= <-]. }
  unfold reference. destruct (str_eqb b (L "lt")); [now intros [= <-]|]. destruct (str_eqb b (L "gt")); [now intros [= <-]|]. destruct (str_eqb b (L "amp")); [now intros [= <-]|].
  destruct (str_eqb b (L "quot")); [now intros [= <-]|]. destruct (str_eqb b (L "apos")); [now intros [= <-]|]. destruct b as [|h [|x r]]; try easy. destruct (N.eqb h (Ch "#")); [|easy].
  destruct (N.eqb x (Ch "x")); [destruct r; [easy|apply H]|apply H].
Qed.
Lemma read_reference_char s c r : read_reference s = Ok (c, r) -> xml_char c = true.
Proof. unfold read_reference. destruct (split1 _ s) as [[b r']|]; [|easy]. intros E. inv_bind E. injection E as <- <-. now apply reference_char in E0. Qed.
Lemma read_data_chars f : forall s t r, read_data f s = Ok (t, r) -> xml_chars t = true.
Proof.
  induction f as [|f IH]; intros [|c s] t r E; cbn [read_data] in E; try easy; try (now injection E as <- <-).
  destruct (N.eqb c (Ch "<")); [now injection E as <- <-|]. destruct (N.eqb c (Ch "&")).
  - inv_bind E. destruct x as [x r']. inv_bind E. destruct x0 as [t' r1]. injection E as <- <-. apply read_reference_char in E0. apply IH in E1. unfold xml_chars in *. cbn [forallb]. now rewrite E0, E1.
  - destruct (startswith _ _); [easy|]. destruct (xml_char c) eqn:Ec; [|easy]. inv_bind E. destruct x as [t' r1]. injection E as <- <-. apply IH in E0. unfold xml_chars in *. cbn [forallb]. now rewrite Ec, E0.
Qed.
Lemma read_value_chars f : forall q s t r, read_value f q s = Ok (t, r) -> xml_chars t = true.
Proof.
  induction f as [|f IH]; intros q [|c s] t r E; cbn [read_value] in E; try easy. destruct (N.eqb c q); [now injection E as <- <-|]. destruct (N.eqb c (Ch "<")); [easy|]. destruct (N.eqb c (Ch "&")).
  - inv_bind E. destruct x as [x r']. inv_bind E. destruct x0 as [t' r1]. injection E as <- <-. apply read_reference_char in E0. apply IH in E1. unfold xml_chars in *. cbn [forallb]. now rewrite E0, E1.
  - destruct (xml_char c) eqn:Ec; [|easy]. inv_bind E. destruct x as [t' r1]. injection E as <- <-. apply IH in E0. unfold xml_chars in *. cbn [forallb]. destruct (xml_ws c); [|rewrite Ec]; now rewrite E0.
Qed.
Lemma read_start_sound f : forall seen s d short r, read_start f seen s = Ok (d, short, r) ->
  NoDup (map fst d) /\ (forall k, In k (map fst d) -> ~ In k seen) /\ (forall k v, In (k, v) d -> xml_chars v = true).
Proof.
  induction f as [|f IH]; intros seen s d short r E; [easy|]. cbn [read_start] in E. destruct (skip_ws s) as [|c s1]; [easy|].
  assert (N0 : forall (b : bool) (x : str), Ok ([], b, x) = Ok (d, short, r) -> NoDup (map fst d) /\ (forall k, In k (map fst d) -> ~ In k seen) /\ (forall k v, In (k, v) d -> xml_chars v = true)).
  { intros b x [= <- _ _]. split; [constructor|]. split; easy. }
  destruct (N.eqb c (Ch ">")); [now apply (N0 _ _ E)|]. destruct (N.eqb c (Ch "/")); [destruct s1 as [|c' s1]; [easy|]; destruct (N.eqb c' (Ch ">")); [now apply (N0 _ _ E)|easy]|].
  destruct (match s with [] => false | c :: _ => xml_ws c end); [|easy]. destruct (take_name (c :: s1)) as [n s2]. destruct n as [|n0 n]; [easy|]. destruct (skip_ws s2) as [|e s3]; [easy|].
  destruct (N.eqb e (Ch "=")); [|easy]. destruct (skip_ws s3) as [|q s4]; [easy|]. destruct (N.eqb q 34 || N.eqb q 39); [|easy]. inv_bind E. destruct x as [v s5].
  destruct (existsb (str_eqb (n0 :: n)) seen) eqn:Ex; [easy|]. inv_bind E. destruct x as [[d' short'] s6]. injection E as <- _ _. apply IH in E1 as (H1 & H2 & H3). cbn [map fst]. split; [|split].
  - constructor; [|easy]. intros Hin. apply H2 in Hin. apply Hin. now left.
  - intros k [<-|Hk] Hs; [|apply (H2 k Hk); now right]. assert (Ht : existsb (str_eqb (n0 :: n)) seen = true) by (apply existsb_exists; exists (n0 :: n); split; [easy|apply str_eqb_refl]). congruence.
  - intros k v' [[= <- <-]|Hin]; [now apply read_value_chars in E0|eauto].
Qed.
Definition sound_token (t : token) : Prop :=
  match t with TOpen _ d => NoDup (map fst d) /\ (forall k v, In (k, v) d -> xml_chars v = true) | TClose _ => True | TData _ s => xml_chars s = true end.
Lemma tokens_sound f : forall s l, tokens f s = Ok l -> Forall sound_token l.
Proof.
  induction f as [|f IH]; intros [|c r] l E; cbn [tokens] in E; try easy; try (injection E as <-; constructor).
  destruct (negb (N.eqb c (Ch "<"))).
  { inv_bind E. destruct x as [t r']. inv_bind E. injection E as <-. constructor; [now apply read_data_chars in E0|eauto]. }
  destruct (startswith (L "!--") r).
  { destruct (until _ _) as [[t r']|]; [|easy]. destruct r' as [|c' r']; [easy|]. destruct (N.eqb c' (Ch ">") && xml_chars t); [eauto|easy]. }
  destruct (startswith (L "![CDATA[") r).
  { destruct (until _ _) as [[t r']|]; [|easy]. destruct (xml_chars t) eqn:Et; [|easy]. inv_bind E. injection E as <-. constructor; [easy|eauto]. }
  destruct (startswith (L "?") r).
  { destruct (take_name _) as [n r']. destruct (until _ _) as [[t r1]|]; [|easy]. destruct (_ && _); [eauto|easy]. }
  destruct (startswith (L "/") r).
  { destruct (take_name _) as [n r']. destruct (skip_ws r') as [|c' r1]; [easy|]. destruct (N.eqb c' (Ch ">")); [|easy]. inv_bind E. injection E as <-. constructor; [easy|eauto]. }
  destruct (take_name r) as [n r']. inv_bind E. destruct x as [[d short] r1]. destruct n as [|n0 n]; [easy|]. inv_bind E. injection E as <-. apply read_start_sound in E0 as (H1 & _ & H3).
  constructor; [easy|]. destruct short; [constructor; [easy|]|]; eauto.
Qed.
Definition sound_frame (f : frame) : Prop :=
  NoDup (map fst (f_attrib f)) /\ (forall k v, In (k, v) (f_attrib f) -> xml_chars v = true) /\ xml_chars (f_text f) = true /\ Forall sound (f_kids f).
Lemma sound_opt s : xml_chars s = true -> sound_text (opt_text s).
Proof. now destruct s. Qed.
Lemma chars_app a b : xml_chars a = true -> xml_chars b = true -> xml_chars (a ++ b) = true.
Proof. unfold xml_chars. intros H1 H2. now rewrite forallb_app, H1, H2. Qed.
Lemma sound_add s f : xml_chars s = true -> sound_frame f -> sound_frame (add_data s f).
Proof.
  intros Hs (H1 & H2 & H3 & H4). unfold add_data, sound_frame. destruct (f_kids f) as [|[tag d text tail kids] l]; cbn; [split; [easy|split; [easy|split; [now apply chars_app|constructor]]]|].
  split; [easy|split; [easy|split; [easy|]]]. inversion_clear H4 as [|? ? Hk Hl]. constructor; [|easy]. inversion_clear Hk as [? ? ? ? ? K1 K2 K3 K4 K5]. constructor; auto. apply sound_opt, chars_app; [|easy].
  destruct tail as [t|]; [apply K4|reflexivity].
Qed.
Lemma sound_close f : sound_frame f -> sound (close_frame f).
Proof. intros (H1 & H2 & H3 & H4). constructor; auto; [now apply sound_opt|exact I|]. now apply Forall_rev. Qed.
Lemma grow_sound l : forall open e, Forall sound_token l -> Forall sound_frame open -> grow open l = Ok e -> sound e.
Proof.
  induction l as [|t l IH]; intros open e Hl Ho E; [easy|]. inversion_clear Hl as [|? ? Ht Hl']. destruct t as [tag d|tag|plain s]; cbn [grow] in E.
  - refine (IH _ e Hl' _ E). constructor; [|easy]. destruct Ht as [T1 T2]. split; [easy|split; [easy|split; [easy|constructor]]].
  - destruct open as [|f open]; [easy|]. destruct (str_eqb tag (f_tag f)); [|easy]. inversion_clear Ho as [|? ? Hf Ho']. destruct open as [|g open].
    + destruct (forallb blank_token l); [|easy]. injection E as <-. now apply sound_close.
    + inversion_clear Ho' as [|? ? Hg Ho2]. apply (IH (add_kid (close_frame f) g :: open) e Hl'); [|exact E]. constructor; [|easy]. destruct Hg as (G1 & G2 & G3 & G4). split; [easy|split; [easy|split; [easy|]]].
      cbn. constructor; [now apply sound_close|easy].
  - destruct open as [|f open]; [destruct (blank_token _); [eauto|easy]|]. inversion_clear Ho as [|? ? Hf Ho']. apply (IH (add_data s f :: open) e Hl'); [|exact E]. constructor; [now apply sound_add|easy].
Qed.
Lemma parse_sound s e : parse_text s = Ok e -> sound e.
Proof.
  unfold parse_text. intros E. inv_bind E. inv_bind E. apply tokens_sound in E1. apply (grow_sound x0 [] e E1); [constructor|easy].
Qed.
Lemma grow_tail_none l : forall open e, grow open l = Ok e -> x_tail e = None.
Proof.
  induction l as [|t l IH]; intros open e E; [easy|]. destruct t as [tag d|tag|plain s]; cbn [grow] in E; [eauto| |].
  - destruct open as [|f open]; [easy|]. destruct (str_eqb tag (f_tag f)); [|easy]. destruct open; [|eauto]. destruct (forallb blank_token l); [|easy]. now injection E as <-.
  - destruct open as [|f open]; [destruct (blank_token _); [eauto|easy]|eauto].
Qed.
Lemma free_eol s : ~ In 13%N s -> eol s = s.
Proof. intros H. pose proof (eol_plain s [] H) as E. now rewrite !app_nil_r in E. Qed.
Lemma read_sound t : sound_text t -> free_text t -> read_text t = Ok t.
Proof.
  intros H Hf. destruct t as [[|c s]|]; [now destruct H|destruct H as [_ Hc]; unfold read_text; rewrite Hc, free_eol by (now apply Hf); reflexivity|reflexivity].
Qed.
Lemma resolve_sound e : forall scope, sound e -> no_cr e -> resolve scope e = reread scope e.
Proof.
  induction e as [tag d text tail kids IH] using xelem_rec'. rewrite Forall_forall in IH. intros scope Hs Hc. inversion_clear Hs as [? ? ? ? ? _ _ H3 H4 H5]. inversion_clear Hc as [? ? ? ? ? C1 C2 C3].
  cbn [resolve reread]. rewrite (read_sound text), (read_sound tail) by easy. destruct (read_decls scope d) as [scope'|]; [|reflexivity]. cbn [bind]. destruct (read_name scope' true tag); [|reflexivity]. cbn [bind].
  destruct (read_attrs scope' d); [|reflexivity]. cbn [bind]. rewrite Forall_forall in *. rewrite (traverse_ext (resolve scope') (reread scope') kids); [reflexivity|]. intros k Hk. apply IH; auto.
Qed.
Theorem text_as_elem ahead s e : parse_text s = Ok e -> no_cr e -> loads ahead s = xml_load ahead e.
Proof. intros E H. unfold loads, xml_load. rewrite E. cbn [bind]. rewrite (resolve_sound e []); auto. now apply (parse_sound s). Qed.
Theorem text_reload ahead s e c indent : parse_text s = Ok e -> no_cr e -> tidy_document e -> loads ahead s = Ok c ->
  exists s', dumps c indent = Ok s' /\ forall ahead', loads ahead' s' = Ok c.
Proof.
  intros E Hn Ht El. rewrite (text_as_elem ahead s e E Hn) in El. destruct (reload ahead e c indent Ht El) as (e' & E' & El'). apply (dumps_load c indent e' c E' El').
Qed.

(* ---------- layout ---------- *)

Inductive bare : xelem -> Prop :=
| Bare tag d text kids : Forall bare kids -> bare (XElem tag d text None kids).
Lemma tree_bare t : forall inh ctx e, build_tree inh ctx t = Ok e -> bare e.
Proof.
  induction t as [tag a text kids IH] using xtree_rec'. rewrite Forall_forall in IH. intros inh ctx e E. cbn [build_tree] in E. inv_bind E. destruct x as [tg d]. inv_bind E. injection E as <-. constructor.
  clear E0. revert x E1. induction kids as [|k ks IHk]; intros l E; cbn [traverse] in E; [injection E as <-; constructor|]. inv_bind E. inv_bind E. injection E as <-.
  constructor; [now apply (IH k (or_introl eq_refl)) in E0|]. apply (IHk (fun k Hk => IH k (or_intror Hk)) _ E1).
Qed.
Lemma line_blank n level : blank (Some (line_at n level)) = true.
Proof.
  apply blank_spec. intros s c [= <-] [<-|Hc]; [reflexivity|]. apply repeat_spec in Hc as ->. reflexivity.
Qed.
Lemma escape_layout s : (forall c, In c s -> c = 10%N \/ c = 32%N) -> escape_cdata s = s.
Proof.
  induction s as [|c s IH]; intros H; [easy|]. change (escape_cdata (c :: s)) with (escape_cdata1 c ++ escape_cdata s). rewrite IH by (intros; apply H; now right).
  destruct (H c) as [->| ->]; [now left|reflexivity|reflexivity].
Qed.
Lemma escape_line n level : escape_cdata (line_at n level) = line_at n level.
Proof. apply escape_layout. intros c [<-|Hc]; [now left|]. apply repeat_spec in Hc as ->. now right. Qed.
Lemma blank_forall t : blank t = forallb is_space (text_of t).
Proof.
  apply eq_true_iff_eq. rewrite blank_spec, forallb_forall. unfold blank_text. split.
  - intros H c Hc. destruct t as [s|]; [|easy]. now apply (H s).
  - intros H s c -> Hc. now apply H.
Qed.
Lemma write_tail e : write_elem e = write_elem (no_tail e) ++ escape_cdata (text_of (x_tail e)).
Proof. destruct e as [tag d text tail kids]. cbn [write_elem no_tail x_tail text_of escape_cdata flat_map app]. cbn [app]. rewrite <- !app_assoc. cbn [app]. reflexivity. Qed.
Lemma line_more n level : newline_indent n level ++ spaces n = line_at n (S level).
Proof.
  unfold newline_indent, spaces, line_at. cbn [app]. f_equal. change (Ch " ") with 32%N. rewrite <- repeat_app. f_equal. lia.
Qed.
Lemma indent_tail n e : forall level, bare e -> x_tail (indent_elem n (S level) e) = Some (line_at n (S level)).
Proof. intros level H. inversion_clear H. cbn [indent_elem]. destruct kids; reflexivity. Qed.
Lemma no_tail_set i e : no_tail (set_blank_tail i e) = no_tail e.
Proof. now destruct e. Qed.
Lemma write_kids n level kids : (forall k, In k kids -> bare k /\ write_elem (no_tail (indent_elem n (S level) k)) = laid_out n (S level) k) -> kids <> [] ->
  flat_map write_elem (on_last (set_blank_tail (newline_indent n level)) (map (indent_elem n (S level)) kids)) = join (line_at n (S level)) (map (laid_out n (S level)) kids) ++ line_at n level.
Proof.
  induction kids as [|k ks IH]; intros H Hn; [easy|]. destruct (H k (or_introl eq_refl)) as [Hb Hk]. destruct ks as [|k2 ks].
  - cbn [map on_last flat_map join]. rewrite app_nil_r, write_tail, no_tail_set, Hk. f_equal. pose proof (indent_tail n k level Hb) as Et.
    destruct (indent_elem n (S level) k) as [tag d text tail kids']. cbn [x_tail set_blank_tail] in *. subst tail. rewrite line_blank. exact (escape_line n level).
  - change (map (indent_elem n (S level)) (k :: k2 :: ks)) with (indent_elem n (S level) k :: map (indent_elem n (S level)) (k2 :: ks)).
    assert (E : forall (x : xelem) l, l <> [] -> on_last (set_blank_tail (newline_indent n level)) (x :: l) = x :: on_last (set_blank_tail (newline_indent n level)) l) by (intros x [|y l] Hl; easy).
    rewrite E by discriminate. cbn [flat_map]. rewrite IH by (auto; try discriminate; intros; apply H; now right). rewrite write_tail, Hk, (indent_tail n k level Hb). cbn [text_of]. rewrite escape_line.
    change (map (laid_out n (S level)) (k :: k2 :: ks)) with (laid_out n (S level) k :: map (laid_out n (S level)) (k2 :: ks)).
    assert (J : forall (x : str) l, l <> [] -> join (line_at n (S level)) (x :: l) = x ++ line_at n (S level) ++ join (line_at n (S level)) l) by (intros x [|y l] Hl; easy).
    rewrite J by discriminate. rewrite <- !app_assoc. reflexivity.
Qed.
Lemma indent_laid n e : forall level, bare e -> write_elem (no_tail (indent_elem n level e)) = laid_out n level e.
Proof.
  induction e as [tag d text tail kids IH] using xelem_rec'. rewrite Forall_forall in IH. intros level H. inversion_clear H as [? ? ? ? Hk]. cbn [indent_elem laid_out]. destruct kids as [|k ks].
  - cbn [no_tail write_elem text_of escape_cdata flat_map]. rewrite app_nil_r. unfold spelt, is_short. cbn [app]. rewrite <- app_assoc. destruct (text_of text); reflexivity.
  - remember (k :: ks) as l. assert (Hn : l <> []) by (subst; discriminate). clear Heql k ks. cbn [no_tail write_elem text_of escape_cdata flat_map]. rewrite app_nil_r.
    assert (Es : forall t, is_short t (on_last (set_blank_tail (newline_indent n level)) (map (indent_elem n (S level)) l)) = false).
    { intros t. unfold is_short. destruct l as [|a [|b l]]; [easy| |]; cbn; now destruct (text_of t). }
    rewrite Es, (write_kids n level l); [|intros q Hq; rewrite Forall_forall in Hk; split; auto|easy]. rewrite blank_forall.
    unfold spelt. cbn [app]. rewrite <- !app_assoc. f_equal. f_equal. f_equal. change (Ch ">" :: ?x) with (L ">" ++ x). f_equal.
    destruct (forallb is_space (text_of text)); [|reflexivity]. cbn [text_of]. now rewrite line_more, escape_line.
Qed.
Theorem layout_text c n e : xml_dump c None = Ok e -> dumps c (Some n) = Ok (laid_out n 0 e ++ last_line e).
Proof.
  unfold dumps, xml_dump. intros E. inv_bind E. rewrite E0. cbn [bind indent_opt] in *. injection E as <-. rewrite build_corpus_tree in E0. apply tree_bare in E0. f_equal.
  rewrite write_tail, (indent_laid n x 0 E0). f_equal. inversion_clear E0 as [tag d text kids _]. cbn [indent_elem last_line]. destruct kids; [reflexivity|]. cbn [blank x_tail text_of]. unfold newline_indent. rewrite Nat.mul_0_r. reflexivity.
Qed.
End Run.
