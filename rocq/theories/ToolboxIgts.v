(* Proofs about the Toolbox importer: what the references of words and
   morphemes resolve to, the tiers of a record, the igts of a file. *)
From Verif Require Import PyStr PyStrFacts DecFacts Ref SpecRef RefMatch RefProofs RefLaws RefLossless Model Xml SpecXml XmlProofs Odin OdinProofs Value SpecValue ValueProofs Toolbox SpecToolbox ToolboxProofs ToolboxTiers.

Section Igts.
Context {U : Unicode} (lower : str -> str).

Lemma dec_Z_nat n : dec_Z (Z.of_nat n) = dec_nat n.
Proof. unfold dec_Z, dec_nat. destruct n; [reflexivity|]. cbn. reflexivity. Qed.
Lemma span_ref_nat i b e : span_ref i (Z.of_nat b) (Z.of_nat e) = i ++ L "[" ++ dec_nat b ++ L ":" ++ dec_nat e ++ L "]".
Proof. unfold span_ref. destruct (Z.eqb_spec (Z.of_nat b) (-1)); [lia|]. now rewrite !dec_Z_nat. Qed.

Lemma resolve_one g t it ra rid rt i tg text b e m : attr (it_attrs it) ra = Some (i ++ L "[" ++ dec_nat b ++ L ":" ++ dec_nat e ++ L "]") ->
  attr (t_attrs t) ra = Some rid -> the_member tier_id (g_tiers g) rid rt -> the_member item_id (t_items rt) i tg -> id_shape i ->
  it_text tg = Some text ->
  resolve_ref (fun rt i => value (S m) (Some g) (Some rt) i value_refattrs) (Some g) (Some t) it ra = Ok (substring b e text).
Proof.
  intros He Hr Hrt Hi Hid Ht. unfold resolve_ref.
  change (dget (a_dict (it_attrs it)) ra) with (attr (it_attrs it) ra). rewrite He.
  change (dget (a_dict (t_attrs t)) ra) with (attr (t_attrs t) ra). rewrite Hr.
  rewrite (get_member _ _ _ _ Hrt). rewrite <- show_one_span.
  set (rho := fun j => option_map _ (container_get item_id (t_items rt) j)).
  rewrite (resolve_loose rho) by (apply wf_one_span; auto using dec_nat_num).
  rewrite (one_span_text rho i text b e).
  - now rewrite slice_nat.
  - unfold rho. rewrite (get_member _ _ _ _ Hi). cbn [option_map value]. now rewrite Ht.
Qed.

Lemma id_shape_dec i n : id_shape i -> id_shape (i ++ dec_nat n).
Proof.
  intros (c & r & -> & Hc & Hr). exists c, (r ++ dec_nat n). split; [easy|]. split; [easy|]. apply Forall_app. split; [easy|].
  eapply Forall_impl; [|apply dec_nat_ascii]. intros d Hd. right. right. apply is_digit_word.
  now destruct (ascii_digit_val d Hd) as (_ & E & _).
Qed.

(* ---------- words ---------- *)

Lemma sources_split (aln : list pair) : forall n tok, nth_error (sources aln) n = Some tok ->
  exists k p toks s, nth_error aln k = Some (p, Some toks) /\ nth_error toks s = Some tok /\ n = position aln k s.
Proof.
  induction aln as [|[p src] aln IH]; intros n tok E; [now destruct n|]. cbn [sources flat_map snd] in E.
  destruct (Nat.lt_ge_cases n (length (match src with Some l => l | None => [] end))) as [Hn|Hn].
  - rewrite nth_error_app1 in E by easy. destruct src as [toks|]; [|cbn in Hn; lia]. exists 0, p, toks, n. split; [easy|]. split; [exact E|reflexivity].
  - rewrite nth_error_app2 in E by easy. destruct (IH _ _ E) as (k & p' & toks & s & Ek & Es & En).
    exists (S k), p', toks, s. split; [exact Ek|]. split; [exact Es|]. unfold position, sources in *. cbn [firstn flat_map snd].
    rewrite app_length. lia.
Qed.

Lemma join_start toks : forall k tok, nth_error toks k = Some tok ->
  substring (word_start toks k) (word_start toks k + length tok) (join (L " ") toks) = tok.
Proof.
  induction toks as [|t toks IH]; intros [|k] tok E; try discriminate.
  - injection E as ->. cbn [word_start]. cbn [plus]. unfold substring. cbn [skipn]. rewrite Nat.sub_0_r. destruct toks; cbn [join].
    + rewrite <- (app_nil_r tok) at 2. apply firstn_app_len.
    + apply firstn_app_len.
  - cbn [nth_error] in E. specialize (IH k tok E). cbn [word_start].
    assert (Ej : join (L " ") (t :: toks) = (t ++ L " ") ++ join (L " ") toks).
    { destruct toks; [destruct k; discriminate|]. cbn [join]. now rewrite app_assoc. }
    rewrite Ej. unfold substring in *. replace (length t + 1 + word_start toks k) with (word_start toks k + length (t ++ L " ")).
    2:{ rewrite app_length. change (length (L " ")) with 1. lia. }
    rewrite <- skipn_skipn', skipn_app_len.
    replace (word_start toks k + length (t ++ L " ") + length tok - (word_start toks k + length (t ++ L " "))) with (length tok) by lia.
    now replace (word_start toks k + length tok - word_start toks k) with (length tok) in IH by lia.
Qed.

Lemma phrase_tier pid aln pt : make_phrase_tier pid aln = Ok pt ->
  pt = tier_of pid (Some (L "phrases")) [] [item_of pid 1 (join (L " ") (sources aln)) []] /\ accepted_id pid.
Proof.
  unfold make_phrase_tier. intros E. destruct (new_item _ _ _) as [i|] eqn:Ei in E; [|discriminate]. cbn [bind] in E.
  apply new_item_iff in Ei as [Ha ->]. apply new_tier_inv in E as [_ ->]. now split.
Qed.
Lemma phrase_tier_ok pid aln : accepted_id pid -> exists pt, make_phrase_tier pid aln = Ok pt.
Proof.
  intros Ha. unfold make_phrase_tier. eexists.
  rewrite (proj2 (new_item_iff pid 1 _ [] _) (conj Ha eq_refl)). cbn [bind]. apply new_tier_ok; [exact Ha|].
  cbn. constructor; [easy|constructor].
Qed.

Lemma sources_one aln k p toks : nth_error aln k = Some (p, Some toks) ->
  (forall k' p toks, nth_error aln k' = Some (p, Some toks) -> toks <> [] -> k' < 1) -> toks <> [] -> k = 0 /\ sources aln = toks.
Proof.
  intros E H Ht. assert (k = 0) as -> by (specialize (H _ _ _ E Ht); lia). split; [easy|].
  destruct aln as [|x aln]; [discriminate|]. injection E as ->. unfold sources. cbn [flat_map snd].
  assert (E0 : flat_map (fun p : pair => match snd p with Some l => l | None => [] end) aln = []).
  { assert (H' : forall x, In x aln -> match snd x with Some l => l | None => [] end = @nil str).
    { intros [p' [[|t l]|]] Hin; [easy| |easy]. exfalso. apply In_nth_error in Hin as (k' & E). specialize (H (S k') _ _ E). assert (S k' < 1) by (apply H; discriminate). lia. }
    clear -H'. induction aln as [|x aln IH]; [easy|]. cbn. rewrite (H' x (or_introl eq_refl)), IH; [easy|]. intros y Hy. apply H'. now right. }
  now rewrite E0, app_nil_r.
Qed.

Theorem words_resolve pid wid ra aln pt wt g m n tok it : id_shape pid ->
  make_phrase_tier pid aln = Ok pt -> make_tier lower (Some (L "words")) wid (Some ra) aln (Some pt) = Ok wt ->
  the_member tier_id (g_tiers g) pid pt -> nth_error (sources aln) n = Some tok -> nth_error (t_items wt) n = Some it ->
  it_text it = Some tok
  /\ resolve_ref (fun rt i => value (S m) (Some g) (Some rt) i value_refattrs) (Some g) (Some wt) it ra = Ok tok.
Proof.
  intros Hid Ep Ew Hm En Eit.
  assert (Hmk := proj1 (tier_made lower _ _ _ _ _) (ex_intro _ wt Ew)). apply phrase_tier in Ep as [-> _].
  destruct Hmk as [_ [-> | [_ Hmk]]]; [cbn in En; destruct n; discriminate|]. destruct (Hmk ra _ eq_refl eq_refl) as [_ Hmk']. clear Hmk.
  cbn [t_items tier_of length] in Hmk'.
  destruct (sources_split aln n tok En) as (k & p & toks & s & Ek & Es & Epos).
  assert (Htoks : toks <> []) by (intros ->; now destruct s).
  destruct (sources_one aln k p toks Ek (fun k' p' t' H1 H2 => proj1 (Hmk' k' p' t' H1 H2)) Htoks) as [-> Esrc].
  destruct (Hmk' 0 p toks Ek Htoks) as [_ Hp]. destruct p as [w|]; [|exfalso; apply Hp; auto].
  destruct (make_tier_inv _ _ _ _ _ _ _ Ew) as (d & _ & Et & Hn & _ & Hz).
  assert (Hnn : aln <> [(None, None)]) by (intros ->; discriminate).
  destruct (Hz ra _ Hnn eq_refl eq_refl) as [Hd El]. apply zip_items_inv in El as (_ & _ & _ & Hat).
  destruct (Hat 0 (Some w) toks s tok Ek Es) as (r & Hr & Hit). rewrite <- Epos, Eit in Hit.
  assert (Hit' : it = item_of wid (1 + n) tok [(ra, r)]) by congruence. clear Hit. subst it. split; [easy|].
  cbn [nth_error t_items tier_of] in Hr. rewrite reference_seg in Hr by now left. rewrite (align_words lower w toks s tok Es) in Hr.
  cbn [bind fst snd item_of it_attrs mk_attrs a_id id_text] in Hr. rewrite span_ref_nat in Hr.
  assert (Hr' : r = (pid ++ dec_nat 1) ++ L "[" ++ dec_nat (word_start toks s) ++ L ":" ++ dec_nat (word_start toks s + length tok) ++ L "]") by congruence.
  clear Hr. subst r. rewrite (resolve_one g wt _ ra pid (tier_of pid (Some (L "phrases")) [] [item_of pid 1 (join (L " ") (sources aln)) []])
     (pid ++ dec_nat 1) (item_of pid 1 (join (L " ") (sources aln)) []) (join (L " ") (sources aln)) (word_start toks s) (word_start toks s + length tok)).
  - rewrite Esrc. now rewrite join_start.
  - unfold attr, item_of, mk_attrs, dget. cbn [it_attrs a_dict dget_]. now rewrite str_eqb_refl.
  - rewrite Et, Hd. unfold attr, tier_of, mk_attrs, dget. cbn [t_attrs a_dict dget_ id_text a_id]. now rewrite str_eqb_refl.
  - exact Hm.
  - split; [now left|]. split; [easy|]. intros y [<-|[]] _. easy.
  - now apply id_shape_dec.
  - easy.
Qed.

(* ---------- morphemes ---------- *)

Lemma map_sub {A B} (f : A -> B) b e (l : list A) : map f (firstn (e - b) (skipn b l)) = firstn (e - b) (skipn b (map f l)).
Proof. now rewrite <- firstn_map, <- skipn_map. Qed.

Theorem morphemes_resolve mid ra aln rt mt g gid m f k w toks ms s mo i tg :
  make_tier lower (Some (L "morphemes")) mid (Some ra) aln (Some rt) = Ok mt ->
  tier_id rt = Some gid -> the_member tier_id (g_tiers g) gid rt ->
  nth_error aln k = Some (Some w, Some toks) -> 2 <= length toks -> Forall2 bare toks ms ->
  lower w = List.concat ms -> lower w = map f w -> ~ In (Ch "-") (lower w) -> nth_error ms s = Some mo ->
  nth_error (t_items rt) k = Some tg -> the_member item_id (t_items rt) i tg -> id_shape i -> it_text tg = Some w ->
  exists it r, nth_error (t_items mt) (length (sources (firstn k aln)) + s) = Some it
    /\ resolve_ref (fun rt i => value (S m) (Some g) (Some rt) i value_refattrs) (Some g) (Some mt) it ra = Ok r /\ map f r = mo.
Proof.
  intros Em Hgid Hg Ek Hl Hb Hc Hf Hh Hms Etg Hi Hid Ht.
  destruct (align_tiles lower w toks ms s mo Hb Hc Hh Hl Hms) as (b & Ea & Eb).
  assert (Htok : exists tok, nth_error toks s = Some tok).
  { destruct (nth_error toks s) as [tok|] eqn:E; [eauto|]. apply nth_error_None in E. apply bare_strips in Hb. apply (f_equal (@length str)) in Hb. rewrite map_length in Hb.
    assert (s < length ms) by (apply nth_error_Some; congruence). lia. }
  destruct Htok as (tok & Es).
  destruct (make_tier_inv _ _ _ _ _ _ _ Em) as (d & _ & Et & Hn & _ & Hz).
  assert (Hnn : aln <> [(None, None)]) by (intros ->; destruct k as [|[|k]]; discriminate).
  destruct (Hz ra _ Hnn eq_refl eq_refl) as [Hd El]. apply zip_items_inv in El as (_ & _ & _ & Hat).
  destruct (Hat k (Some w) toks s tok Ek Es) as (r & Hr & Hit). rewrite Etg in Hr. rewrite reference_seg in Hr by now right. rewrite Ea in Hr.
  cbn [bind fst snd] in Hr. rewrite span_ref_nat in Hr.
  destruct Hi as (Hi1 & Hi2 & Hi3). unfold item_id in Hi2. rewrite Hi2 in Hr. cbn [id_text] in Hr.
  assert (Hr' : r = i ++ L "[" ++ dec_nat b ++ L ":" ++ dec_nat (b + length mo) ++ L "]") by congruence. clear Hr. subst r.
  eexists _, _. split; [exact Hit|]. split.
  - rewrite (resolve_one g mt _ ra gid rt i tg w b (b + length mo)); [reflexivity| | |exact Hg| |exact Hid|exact Ht].
    + unfold attr, item_of, mk_attrs, dget. cbn [it_attrs a_dict dget_]. now rewrite str_eqb_refl.
    + rewrite Et, Hd. unfold attr, tier_of, mk_attrs, dget. cbn [t_attrs a_dict dget_]. rewrite str_eqb_refl. unfold tier_id in Hgid. now rewrite Hgid.
    + now split.
  - unfold substring. rewrite map_sub, <- Hf, Hc.
    assert (Ems : ms = firstn s ms ++ mo :: skipn (S s) ms).
    { clear -Hms. revert ms Hms; induction s as [|s IH]; intros [|x ms] Em; try discriminate; [now injection Em as ->|]. cbn. f_equal. now apply IH. }
    rewrite Ems at 1. rewrite concat_app, Eb, skipn_app_len. cbn [List.concat].
    replace (length (List.concat (firstn s ms)) + length mo - length (List.concat (firstn s ms))) with (length mo) by lia. apply firstn_app_len.
Qed.

(* ---------- the tiers of a record ---------- *)

Definition known (before : list tier) (prev : dict tier) : Prop :=
  forall k t, dget prev k = Some t -> In t before /\ tier_id t = Some k /\ forall it, In it (t_items t) -> item_id it <> None.
Lemma known_more before prev k t : known before prev -> tier_id t = Some k -> (forall it, In it (t_items t) -> item_id it <> None) ->
  known (before ++ [t]) (dset prev k t).
Proof.
  intros H Hid Hit k' t' E. unfold dget, dset in E. rewrite (dget_dset str_eqb str_eqb_spec) in E.
  destruct (str_eqb_spec k' k) as [->|Hn].
  - injection E as <-. split; [apply in_or_app; right; now left|]. now split.
  - destruct (H k' t' E) as (H1 & H2 & H3). split; [apply in_or_app; now left|]. now split.
Qed.
Lemma numbered_some tid n toks l : numbered tid n toks l -> forall it, In it l -> item_id it <> None.
Proof.
  intros [H1 H2] it Hin. apply In_nth_error in Hin as (k & E). destruct (nth_error toks k) as [tok|] eqn:Et.
  - destruct (H2 k tok Et) as (d & Hd). rewrite E in Hd. injection Hd as ->. easy.
  - apply nth_error_None in Et. assert (k < length l) by (apply nth_error_Some; congruence). lia.
Qed.

Lemma make_tier_anchored ty tid refattr aln algn t before : make_tier lower ty tid refattr aln algn = Ok t ->
  (forall rt, algn = Some rt -> In rt before /\ tier_id rt <> None /\ forall it, In it (t_items rt) -> item_id it <> None) ->
  anchored before t /\ tier_id t = Some tid /\ forall it, In it (t_items t) -> item_id it <> None.
Proof.
  intros E Hrt. destruct (make_tier_inv _ _ _ _ _ _ _ E) as (d & _ & Et & Hn & Hd & Hz).
  split; [|split; [now rewrite Et|exact (numbered_some _ _ _ _ Hn)]].
  intros ra rid Hra.
  assert (Hd' : dget d ra = Some rid) by (rewrite Et in Hra; exact Hra).
  destruct (not_none_pair aln) as [Hna|Hna]; [rewrite Hd in Hd' by auto; discriminate|].
  destruct refattr as [ra0|]; [|rewrite Hd in Hd' by auto; discriminate].
  destruct algn as [rt|]; [|rewrite Hd in Hd' by auto; discriminate].
  destruct (Hz ra0 rt Hna eq_refl eq_refl) as [-> El]. unfold dget in Hd'. cbn [dget_] in Hd'.
  destruct (str_eqb_spec ra ra0) as [->|]; [|discriminate].
  destruct (Hrt rt eq_refl) as (Hin & Hid & Hits). exists rt. split; [exact Hin|]. unfold tier_id in *. destruct (a_id (t_attrs rt)) as [i|]; [|easy].
  cbn [id_text] in Hd'. split; [exact Hd'|]. intros it Hit. apply In_nth_error in Hit as (n & En).
  apply zip_items_inv in El as (Hnum & _ & _ & Hat).
  destruct (nth_error (sources aln) n) as [tok|] eqn:Etok.
  2:{ apply nth_error_None in Etok. assert (n < length (t_items t)) by (apply nth_error_Some; congruence). destruct Hnum. lia. }
  destruct (sources_split aln n tok Etok) as (k & p & toks & s & Ek & Es & ->).
  destruct (Hat k p toks s tok Ek Es) as (r & Hr & Hnth). destruct (reference_names _ _ _ _ _ _ _ Hr) as (tg & Etg & Hnm).
  rewrite En in Hnth. assert (Hit : it = item_of tid (1 + position aln k s) tok [(ra0, r)]) by congruence.
  apply nth_error_In in Etg. destruct (item_id tg) as [j|] eqn:Ej; [|now apply Hits in Etg].
  exists r, tg, j. split; [rewrite Hit; unfold attr, item_of, mk_attrs, dget; cbn [it_attrs a_dict dget_]; now rewrite str_eqb_refl|].
  split; [exact Etg|]. split; [exact Ej|]. unfold item_id in Ej. rewrite Ej in Hnm. exact Hnm.
Qed.

Lemma importing_ok {A} (r : res A) x : importing r = Ok x -> r = Ok x.
Proof. destruct r as [|[]]; easy. Qed.

Lemma all_tiers_anchored o fields : forall prev before ts, known before prev -> all_tiers lower o fields prev = Ok ts ->
  forall a t b, ts = a ++ t :: b -> anchored (before ++ a) t.
Proof.
  induction fields as [|[mkr aln] fields IH]; intros prev before ts Hk E a t b Ets; cbn [all_tiers] in E.
  - injection E as <-. destruct a; discriminate.
  - destruct (dget (o_tier_map o) mkr) as [tid|]; [|exact (IH prev before ts Hk E a t b Ets)].
    set (head := match o_phrase o with
        | Some (src, pid) => if str_eqb src tid then do t <- make_phrase_tier pid aln; Ok ([t], dset prev pid t) else Ok ([], prev)
        | None => Ok ([], prev)
        end) in E.
    destruct head as [[first prev1]|] eqn:Eh; [|discriminate]. cbn [bind] in E.
    assert (Hfirst : known (before ++ first) prev1 /\ forall x y z, first = x ++ y :: z -> x = [] /\ z = [] /\ anchored before y).
    { unfold head in Eh. destruct (o_phrase o) as [[src pid]|].
      - destruct (str_eqb src tid).
        + destruct (make_phrase_tier pid aln) as [pt|] eqn:Ep; [|discriminate]. cbn [bind] in Eh.
          assert (first = [pt] /\ prev1 = dset prev pid pt) as [-> ->] by (split; congruence). apply phrase_tier in Ep as [-> _].
          split. { apply known_more; [exact Hk|easy|]. intros it [<-|[]]. easy. }
          intros [|x0 x] y z Ef; [|destruct x; discriminate]. assert (z = [] /\ y = tier_of pid (Some (L "phrases")) [] [item_of pid 1 (join (L " ") (sources aln)) []]) as [-> ->].
          { split; [now inversion Ef|]. inversion Ef. reflexivity. }
          split; [easy|]. split; [easy|]. intros ra rid Hra. discriminate.
        + assert (first = [] /\ prev1 = prev) as [-> ->] by (split; congruence). rewrite app_nil_r. split; [exact Hk|]. intros [|x0 x]; discriminate.
      - assert (first = [] /\ prev1 = prev) as [-> ->] by (split; congruence). rewrite app_nil_r. split; [exact Hk|]. intros [|x0 x]; discriminate. }
    destruct Hfirst as [Hk1 Hfirst]. clear Eh head.
    destruct (dget (o_types o) tid) as [[ty il]|]; [|discriminate].
    set (ra := match dget (o_alignments o) tid with Some (ra, aid) => (Some ra, dget prev1 aid) | None => (None, None) end) in E.
    destruct ra as [refattr algn] eqn:Era.
    destruct (importing (make_tier lower ty tid refattr aln algn)) as [t1|] eqn:Et; [|discriminate]. cbn [bind] in E. apply importing_ok in Et.
    destruct (all_tiers lower o fields (dset prev1 tid t1)) as [rest|] eqn:Er; [|discriminate]. cbn [bind] in E.
    assert (E' : ts = first ++ t1 :: rest) by congruence. clear E.
    assert (Ha : anchored (before ++ first) t1 /\ tier_id t1 = Some tid /\ forall it, In it (t_items t1) -> item_id it <> None).
    { apply (make_tier_anchored ty tid refattr aln algn t1 (before ++ first) Et). intros rt ->. unfold ra in Era.
      destruct (dget (o_alignments o) tid) as [[ra' aid]|]; [|discriminate].
      assert (Ert : dget prev1 aid = Some rt) by congruence. destruct (Hk1 aid rt Ert) as (H1 & H2 & H3). split; [easy|]. split; [congruence|easy]. }
    destruct Ha as (Ha & Hid & Hits). rewrite E' in Ets. symmetry in Ets.
    apply app_eq_app in Ets as (u & [[-> Eu]|[-> Eu]]).
    + (* at or after t1 *)
      destruct u as [|u0 u].
      * rewrite app_nil_r. injection Eu as -> _. exact Ha.
      * injection Eu as <- Eu.
        assert (Hrest := IH (dset prev1 tid t1) ((before ++ first) ++ [t1]) rest (known_more _ _ _ _ Hk1 Hid Hits) Er u t b Eu).
        now rewrite <- !app_assoc in *.
    + destruct u as [|u0 u].
      * rewrite app_nil_r in Ha. injection Eu as -> _. exact Ha.
      * injection Eu as -> _. destruct (Hfirst a u0 u eq_refl) as (-> & _ & Hanch). now rewrite app_nil_r.
Qed.
Theorem tiers_anchored o fields ts : make_all_tiers lower o fields = Ok ts -> forall a t b, ts = a ++ t :: b -> anchored a t.
Proof. intros E a t b Ets. refine (all_tiers_anchored o fields [] [] ts _ E a t b Ets). intros k x Hx. discriminate. Qed.

(* ---------- the igts of a file ---------- *)

Context (isalpha : char -> bool).

Lemma igt_key_spec key k : igt_key isalpha key = Ok k <-> key_id isalpha key k.
Proof.
  unfold igt_key, key_id. destruct key as [|c r].
  - split; [discriminate|]. intros (c & r & E & _). discriminate.
  - split.
    + intros E. exists c, r. split; [easy|]. destruct (isalpha c); [left|right]; split; congruence.
    + intros (c' & r' & E & H). assert (c = c') as <- by congruence. destruct H as [[-> ->]|[-> ->]]; reflexivity.
Qed.

Lemma igt_attrs_spec m l : forall d a v, dget (igt_attrs m l d) a = Some v <->
  last_value m l a v \/ (forall mkr' v', In (mkr', Some v') l -> dget m mkr' <> Some a) /\ dget d a = Some v.
Proof.
  induction l as [|[mkr [w|]] l IH]; intros d a v; cbn [igt_attrs].
  - split; [intros H; right; split; [easy|exact H]|]. intros [(x & mkr & y & E & _)|[_ H]]; [now destruct x|exact H].
  - rewrite IH. split.
    + intros [(x & k & y & -> & Hk & Hy)|[Hn Hd]]; [left; exists ((mkr, Some w) :: x), k, y; auto|].
      destruct (dget m mkr) as [b|] eqn:Eb.
      * unfold dget, dset in Hd. rewrite (dget_dset str_eqb str_eqb_spec) in Hd. destruct (str_eqb_spec a b) as [->|Hne].
        { left. exists [], mkr, l. assert (w = v) as -> by congruence. auto. }
        right. split; [|exact Hd]. intros k v' [Ek|Hin]; [|eauto]. assert (mkr = k) as <- by congruence. congruence.
      * right. split; [|exact Hd]. intros k v' [Ek|Hin]; [|eauto]. assert (mkr = k) as <- by congruence. congruence.
    + intros [(x & k & y & E & Hk & Hy)|[Hn Hd]].
      * destruct x as [|q x]; cbn [app] in E.
        { assert (mkr = k /\ w = v /\ l = y) as (-> & -> & ->) by (repeat split; congruence). right. split; [exact Hy|].
          rewrite Hk. unfold dget, dset. rewrite (dget_dset str_eqb str_eqb_spec). now destruct (str_eqb_spec a a). }
        left. exists x, k, y. split; [congruence|auto].
      * right. split; [intros k v' Hin; apply (Hn k v'); now right|]. destruct (dget m mkr) as [b|] eqn:Eb; [|exact Hd].
        unfold dget, dset. rewrite (dget_dset str_eqb str_eqb_spec). destruct (str_eqb_spec a b) as [->|_]; [|exact Hd].
        exfalso. exact (Hn mkr w (or_introl eq_refl) Eb).
  - rewrite IH. split.
    + intros [(x & k & y & -> & Hk & Hy)|[Hn Hd]]; [left; exists ((mkr, None) :: x), k, y; auto|]. right. split; [|exact Hd].
      intros k v' [Ek|Hin]; [discriminate|eauto].
    + intros [(x & k & y & E & Hk & Hy)|[Hn Hd]].
      * destruct x as [|q x]; cbn [app] in E; [discriminate|]. left. exists x, k, y. split; [congruence|auto].
      * right. split; [intros k v' Hin; apply (Hn k v'); now right|exact Hd].
Qed.
Lemma make_igt_some key data context o fields g : make_tb_igt lower isalpha key data context o fields = Ok (Some g) ->
  exists id, key_id isalpha key id /\ igt_id g = Some id /\ make_all_tiers lower o fields = Ok (g_tiers g)
    /\ forall a v, attr (g_attrs g) a = Some v <-> last_value (o_attribute_map o) (data ++ context) a v.
Proof.
  unfold make_tb_igt. destruct (igt_key isalpha key) as [k|] eqn:Ek; [|discriminate]. cbn [bind]. apply igt_key_spec in Ek.
  unfold check_id. destruct (id_accepted k); cbn [bind]; [|discriminate].
  destruct (make_all_tiers lower o fields) as [ts|e]; cbn [bind]; [|destruct e; discriminate].
  unfold new_container. destruct (check_ids [] (map (fun t => a_id (t_attrs t)) ts)) as [|e] eqn:Ec; cbn [bind]; [|destruct e; discriminate].
  intros E. exists k. assert (g = {| g_attrs := mk_attrs (Some k) None (igt_attrs (o_attribute_map o) (data ++ context) []); g_md := []; g_tiers := ts |}) as -> by congruence.
  split; [exact Ek|]. split; [easy|]. split; [easy|]. intros a0 v. unfold attr. cbn [g_attrs mk_attrs a_dict]. rewrite igt_attrs_spec.
  split; [intros [H|[_ H]]; [exact H|discriminate]|now left].
Qed.
Lemma check_ids_err l : forall seen e, check_ids seen l = Err e -> e = XigtError.
Proof.
  induction l as [|[i|] l IH]; intros seen e; cbn [check_ids]; [discriminate| |apply IH].
  destruct (existsb (str_eqb i) seen); [congruence|apply IH].
Qed.
Lemma make_igt_none key data context o fields : make_tb_igt lower isalpha key data context o fields = Ok None ->
  make_all_tiers lower o fields = Err XigtImportError.
Proof.
  unfold make_tb_igt. destruct (igt_key isalpha key) as [k|] eqn:Ek; [|discriminate]. cbn [bind].
  unfold check_id. destruct (id_accepted k); cbn [bind]; [|discriminate].
  destruct (make_all_tiers lower o fields) as [ts|e]; cbn [bind]; [|destruct e; easy].
  unfold new_container. destruct (check_ids [] (map (fun t => a_id (t_attrs t)) ts)) as [|e] eqn:Ec; cbn [bind]; [discriminate|].
  apply check_ids_err in Ec as ->. discriminate.
Qed.

Lemma igts_kept_ o pri rs : forall l, toolbox_igts_ lower isalpha o pri rs = Ok l -> kept (skips lower o pri) (keeps lower isalpha o pri) rs l.
Proof.
  induction rs as [|r rs IH]; intros l E; cbn [toolbox_igts_] in E; [injection E as <-; constructor|].
  destruct (dget (r_context r) pri) as [[key|]|] eqn:Ed.
  - destruct (make_tb_igt lower isalpha key (r_data r) (r_context r) o (r_fields r)) as [g|] eqn:Eg; [|discriminate]. cbn [bind] in E.
    destruct (toolbox_igts_ lower isalpha o pri rs) as [l'|]; [|discriminate]. cbn [bind] in E. destruct g as [g|].
    + assert (l = g :: l') as -> by congruence. constructor; [|now apply IH]. apply make_igt_some in Eg as (id & H1 & H2 & H3 & H4).
      exists key, id, (g_tiers g). repeat (split; [assumption|]). split; [easy|exact H4].
    + assert (l = l') as -> by congruence. apply K_skip; [|now apply IH]. right. right. now apply make_igt_none in Eg.
  - apply K_skip; [right; now left|now apply IH].
  - apply K_skip; [now left|now apply IH].
Qed.
Theorem igts_kept o ms pri rs l : o_markers o = ms ++ [pri] -> toolbox_igts lower isalpha o rs = Ok l ->
  kept (skips lower o pri) (keeps lower isalpha o pri) rs l.
Proof. intros Em. unfold toolbox_igts. rewrite Em, rev_app_distr. cbn [rev app]. apply igts_kept_. Qed.

Lemma make_igt_fine key data context o fields : (exists c x, key = c :: x /\ (isalpha c = true -> ascii_letter c)) ->
  (make_all_tiers lower o fields = Err XigtImportError
   \/ exists ts, make_all_tiers lower o fields = Ok ts /\ NoDup (some_ids (map tier_id ts))) ->
  exists g, make_tb_igt lower isalpha key data context o fields = Ok g.
Proof.
  intros (c & x & -> & Hc) Ht. unfold make_tb_igt, igt_key. cbn [bind].
  assert (Ha : id_accepted (if isalpha c then c :: x else L "igt" ++ c :: x) = true).
  { apply accepted_iff. destruct (isalpha c); [exists c, x; auto|]. exists (Ch "i"), (L "gt" ++ c :: x). split; [easy|]. right. vm_compute. split; discriminate. }
  unfold check_id. rewrite Ha. cbn [bind]. destruct Ht as [->|(ts & -> & Hn)]; cbn [bind]; [eauto|].
  unfold new_container. change (fun t => a_id (t_attrs t)) with tier_id. rewrite check_ids_ok by auto. cbn [bind]. eauto.
Qed.
Theorem igts_total o ms pri rs : o_markers o = ms ++ [pri] -> (forall r, In r rs -> fine lower isalpha o r pri) ->
  exists l, toolbox_igts lower isalpha o rs = Ok l.
Proof.
  intros Em. unfold toolbox_igts. rewrite Em, rev_app_distr. cbn [rev app]. induction rs as [|r rs IH]; intros H; cbn [toolbox_igts_]; [eauto|].
  destruct (IH (fun r' Hr => H r' (or_intror Hr))) as (l & El).
  destruct (dget (r_context r) pri) as [[key|]|] eqn:Ed; [|eauto|eauto].
  destruct (H r (or_introl eq_refl) key Ed) as [H1 H2].
  destruct (make_igt_fine key (r_data r) (r_context r) o (r_fields r) H1 H2) as (g & ->). cbn [bind]. rewrite El. cbn [bind]. eauto.
Qed.
End Igts.
