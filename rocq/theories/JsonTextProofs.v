(* JSON as text. *)
From Verif Require Import PyStr PyStrFacts Ref SpecRef Model SpecModel XmlStd Xml SpecXml Json SpecJson JsonText SpecJsonText.
Require Import Lia.
Ltac Zify.zify_post_hook ::= Z.to_euclidean_division_equations.

(* ---------- escapes ---------- *)

Lemma hex_digit_value n : (n < 16)%N -> hex_value (hex_digit n) = Some n.
Proof.
  intros H. unfold hex_digit, hex_value, in_range. destruct (N.ltb_spec n 10).
  - replace ((48 <=? 48 + n)%N && (48 + n <=? 57)%N) with true; [f_equal; lia|]. symmetry. apply andb_true_iff. rewrite !N.leb_le. lia.
  - replace ((48 <=? 87 + n)%N && (87 + n <=? 57)%N) with false; [|symmetry; apply andb_false_iff; right; apply N.leb_gt; lia].
    replace ((97 <=? 87 + n)%N && (87 + n <=? 102)%N) with true; [f_equal; lia|]. symmetry. apply andb_true_iff. rewrite !N.leb_le. lia.
Qed.
Lemma hex4_value n r : (n < 65536)%N -> read_hex4 (hex4 n ++ r) = Some (n, r).
Proof.
  intros H. unfold hex4. cbn [app read_hex4].
  rewrite !hex_digit_value by (apply N.mod_lt; discriminate). f_equal. f_equal. lia.
Qed.
Lemma in_range_true lo hi c : in_range lo hi c = true <-> (lo <= c <= hi)%N.
Proof. unfold in_range. now rewrite andb_true_iff, !N.leb_le. Qed.
Lemma in_range_false lo hi c : in_range lo hi c = false <-> (c < lo \/ hi < c)%N.
Proof. unfold in_range. rewrite andb_false_iff, !N.leb_gt. tauto. Qed.

Lemma skip_u r : skipn 2 (L "\u" ++ r) = r.
Proof. reflexivity. Qed.
Lemma starts_u r : startswith (L "\u") (L "\u" ++ r) = true.
Proof. reflexivity. Qed.

(* what comes next, if it is the escape of a low surrogate *)
Definition joins (r : str) : Prop := exists v r', r = L "\u" ++ r' /\ read_hex4 r' = Some (v, skipn 4 r') /\ low_surrogate v.
Lemma read_u_one c r : (c < 65536)%N -> (high_surrogate c -> forall r', r = L "\u" ++ r' -> exists v r'', read_hex4 r' = Some (v, r'') /\ ~ low_surrogate v) ->
  read_u (hex4 c ++ r) = Some (c, r).
Proof.
  intros Hc H. unfold read_u. rewrite hex4_value by easy. destruct (in_range 55296 56319 c) eqn:E; [|easy]. apply in_range_true in E.
  destruct (startswith (L "\u") r) eqn:E'; [|easy]. cbn [andb].
  assert (X : exists r', r = L "\u" ++ r').
  { change (L "\u") with [92%N; 117%N] in *. destruct r as [|x [|y r]]; cbn [startswith] in E'; [discriminate|now rewrite andb_false_r in E'|]. exists r. apply andb_prop in E' as [E1 E2]. apply andb_prop in E2 as [E2 _].
    apply N.eqb_eq in E1, E2. now subst. }
  destruct X as (r' & ->). rewrite skip_u. destruct (H E r' eq_refl) as (v & r'' & -> & Hv).
  destruct (in_range 56320 57343 v) eqn:Ev; [|easy]. apply in_range_true in Ev. elim Hv. exact Ev.
Qed.
Lemma read_u_two c r : (65536 <= c < 1114112)%N ->
  read_u (hex4 (55296 + (c - 65536) / 1024) ++ u_escape (56320 + (c - 65536) mod 1024) ++ r) = Some (c, r).
Proof.
  intros H. unfold read_u. rewrite hex4_value by lia.
  replace (in_range 55296 56319 (55296 + (c - 65536) / 1024)) with true by (symmetry; apply in_range_true; lia).
  unfold u_escape. rewrite <- app_assoc, starts_u, skip_u. cbn [andb]. rewrite hex4_value by lia.
  replace (in_range 56320 57343 (56320 + (c - 65536) mod 1024)) with true by (symmetry; apply in_range_true; lia).
  f_equal. f_equal. lia.
Qed.

(* ---------- strings ---------- *)

Lemma apart_tail c s : apart (c :: s) -> apart s.
Proof. intros [H K]. split; [intros x Hx; apply H; now right|]. intros l a b r ->. apply (K (c :: l) a b r). reflexivity. Qed.
Lemma not_n (a b : N) : a <> b -> (a =? b)%N = false.
Proof. apply N.eqb_neq. Qed.

Lemma two_tails (x y : N) (a b : str) : x :: y :: a = x :: y :: b -> b = a.
Proof. now intros [= ->]. Qed.
(* what follows a character *)
Lemma no_join c s rest : apart (c :: s) -> high_surrogate c -> forall r', flat_map escape1 s ++ 34%N :: rest = L "\u" ++ r' ->
  exists v r'', read_hex4 r' = Some (v, r'') /\ ~ low_surrogate v.
Proof.
  intros Hs Hc r' E. destruct s as [|d s]; [discriminate|]. cbn [flat_map] in E. rewrite <- app_assoc in E.
  assert (Hd : ~ low_surrogate d) by (apply (proj2 Hs [] c d s eq_refl Hc)).
  assert (Hd' : (d < 1114112)%N) by (apply (proj1 Hs); right; now left).
  unfold escape1 in E. change (L "\u") with [92%N; 117%N] in E.
  repeat match type of E with context [if N.eqb d ?x then _ else _] => destruct (N.eqb_spec d x) as [->|?]; [discriminate|] end.
  destruct (in_range 32 126 d) eqn:E1; [cbn in E; injection E as -> _; lia|].
  destruct (N.ltb_spec d 65536) as [Hl|Hl].
  - unfold u_escape in E. change (L "\u") with [92%N; 117%N] in E. cbn [app] in E. apply two_tails in E as ->.
    exists d, (flat_map escape1 s ++ 34%N :: rest). split; [now apply hex4_value|easy].
  - cbv zeta in E. unfold u_escape in E. change (L "\u") with [92%N; 117%N] in E. rewrite <- !app_assoc in E. cbn [app] in E. apply two_tails in E as ->.
    eexists _, _. split; [apply hex4_value; lia|]. unfold low_surrogate. lia.
Qed.

Lemma escape_nonempty c : escape1 c <> [].
Proof. unfold escape1. repeat match goal with |- context [if ?b then _ else _] => destruct b; [discriminate|] end. discriminate. Qed.

Lemma read_written_string s : forall fuel rest, apart s -> length (flat_map escape1 s) < fuel ->
  read_string fuel (flat_map escape1 s ++ 34%N :: rest) = Ok (s, rest).
Proof.
  induction s as [|c s IH]; intros fuel rest Hs Hf; (destruct fuel as [|fuel]; [cbn in Hf; lia|]).
  - reflexivity.
  - cbn [flat_map] in *. rewrite app_length in Hf. rewrite <- app_assoc.
    assert (Hc : (c < 1114112)%N) by (apply (proj1 Hs); now left).
    assert (Hl : length (flat_map escape1 s) < fuel).
    { pose proof (escape_nonempty c). destruct (escape1 c); [easy|]. cbn in Hf. lia. }
    specialize (IH fuel rest (apart_tail _ _ Hs) Hl). pose proof (no_join c s rest Hs) as NJ. set (tl := flat_map escape1 s ++ 34%N :: rest) in *.
    unfold escape1.
    destruct (N.eqb_spec c 92) as [->|N1]; [change (read_string (S fuel) (L "\\" ++ tl)) with (do (t, r) <- read_string fuel tl; Ok (92%N :: t, r)); now rewrite IH|].
    destruct (N.eqb_spec c 34) as [->|N2]; [change (read_string (S fuel) ([92%N; 34%N] ++ tl)) with (do (t, r) <- read_string fuel tl; Ok (34%N :: t, r)); now rewrite IH|].
    destruct (N.eqb_spec c 10) as [->|N3]; [change (read_string (S fuel) (L "\n" ++ tl)) with (do (t, r) <- read_string fuel tl; Ok (10%N :: t, r)); now rewrite IH|].
    destruct (N.eqb_spec c 13) as [->|N4]; [change (read_string (S fuel) (L "\r" ++ tl)) with (do (t, r) <- read_string fuel tl; Ok (13%N :: t, r)); now rewrite IH|].
    destruct (N.eqb_spec c 9) as [->|N5]; [change (read_string (S fuel) (L "\t" ++ tl)) with (do (t, r) <- read_string fuel tl; Ok (9%N :: t, r)); now rewrite IH|].
    destruct (N.eqb_spec c 12) as [->|N6]; [change (read_string (S fuel) (L "\f" ++ tl)) with (do (t, r) <- read_string fuel tl; Ok (12%N :: t, r)); now rewrite IH|].
    destruct (N.eqb_spec c 8) as [->|N7]; [change (read_string (S fuel) (L "\b" ++ tl)) with (do (t, r) <- read_string fuel tl; Ok (8%N :: t, r)); now rewrite IH|].
    destruct (in_range 32 126 c) eqn:E1.
    + apply in_range_true in E1. cbn [app read_string]. rewrite (not_n _ _ N2), (not_n _ _ N1).
      replace (c <? 32)%N with false by (symmetry; apply N.ltb_ge; lia). now rewrite IH.
    + assert (X : forall t, read_string (S fuel) (L "\u" ++ t) = match read_u t with Some (x, r) => do (t, r) <- read_string fuel r; Ok (x :: t, r) | None => Err ValueError end) by reflexivity.
      destruct (N.ltb_spec c 65536) as [Hl'|Hl'].
      * unfold u_escape. rewrite <- app_assoc, X, read_u_one by easy. now rewrite IH.
      * cbv zeta. rewrite <- app_assoc. change (u_escape (55296 + (c - 65536) / 1024)) with (L "\u" ++ hex4 (55296 + (c - 65536) / 1024)).
        rewrite <- app_assoc, X, read_u_two by easy. now rewrite IH.
Qed.

(* ---------- values ---------- *)

Section JsonInd.
Variable P : json -> Prop.
Hypothesis Hstr : forall s, P (JStr s).
Hypothesis Harr : forall l, Forall P l -> P (JArr l).
Hypothesis Hobj : forall d, Forall (fun kv => P (snd kv)) d -> P (JObj d).
Fixpoint json_rec' (j : json) : P j :=
  match j with
  | JStr s => Hstr s
  | JArr l => Harr l ((fix go l : Forall P l := match l with [] => Forall_nil _ | x :: l => Forall_cons _ (json_rec' x) (go l) end) l)
  | JObj d => Hobj d ((fix go d : Forall (fun kv => P (snd kv)) d := match d with [] => Forall_nil _ | x :: d => Forall_cons _ (json_rec' (snd x)) (go d) end) d)
  end.
End JsonInd.

Fixpoint depth (j : json) : nat :=
  match j with
  | JStr _ => 0
  | JArr l => S (list_max (map depth l))
  | JObj d => S (list_max (map (fun kv => depth (snd kv)) d))
  end.
Definition starts (t : str) : Prop := exists c r, t = c :: r /\ json_ws c = false /\ c <> Ch "]" /\ c <> Ch "}".
Lemma write_starts indent level j : starts (write_json indent level j).
Proof. destruct j as [s|[|x l]|[|x d]]; eexists _, _; (split; [reflexivity|]); (split; [reflexivity|]); split; discriminate. Qed.
Lemma skip_starts t r : starts t -> skip_json (t ++ r) = t ++ r.
Proof. intros (c & u & -> & H & _). cbn [app skip_json]. now rewrite H. Qed.
Lemma skip_blank w s : forallb json_ws w = true -> skip_json (w ++ s) = skip_json s.
Proof. induction w as [|c w IH]; cbn [app skip_json forallb]; [easy|]. intros H. apply andb_prop in H as [H K]. rewrite H. auto. Qed.
Lemma blank_line indent level : forallb json_ws (line_start indent level) = true.
Proof. destruct indent as [n|]; [|reflexivity]. cbn [line_start forallb]. change (json_ws 10) with true. cbn [andb]. induction (n * level); [reflexivity|]. now cbn. Qed.
Lemma sep_shape indent level : exists w, item_sep indent level = Ch "," :: w /\ forallb json_ws w = true.
Proof. destruct indent as [n|]; eexists; (split; [reflexivity|]); [apply (blank_line (Some n) level)|reflexivity]. Qed.

Section Lists.
Variable value : str -> res (json * str).
Variable w : json -> str.
Hypothesis Hw : forall j, starts (w j).
Variables (blank close : str).
Hypothesis Hb : forallb json_ws blank = true.
Hypothesis Hc : forallb json_ws close = true.

Lemma read_items_written l : forall k x rest, Forall (fun j => forall r, value (w j ++ r) = Ok (j, r)) (x :: l) -> length l < k ->
  read_items value k (join (Ch "," :: blank) (map w (x :: l)) ++ close ++ Ch "]" :: rest) = Ok (x :: l, rest).
Proof.
  induction l as [|y l IH]; intros k x rest HF Hk; (destruct k as [|k]; [cbn in Hk; lia|]); apply Forall_cons_iff in HF as [Hx HF].
  - cbn [map join read_items]. rewrite Hx. cbn [bind]. rewrite skip_blank by easy. reflexivity.
  - change (join (Ch "," :: blank) (map w (x :: y :: l))) with (w x ++ (Ch "," :: blank) ++ join (Ch "," :: blank) (map w (y :: l))).
    rewrite <- !app_assoc. cbn [read_items]. rewrite Hx. cbn [bind app].
    change (skip_json (Ch "," :: ?s)) with (Ch "," :: s).
    replace (skip_json (Ch "," :: blank ++ join (Ch "," :: blank) (map w (y :: l)) ++ close ++ Ch "]" :: rest))
      with (Ch "," :: blank ++ join (Ch "," :: blank) (map w (y :: l)) ++ close ++ Ch "]" :: rest) by reflexivity.
    change (N.eqb (Ch ",") (Ch "]")) with false. change (N.eqb (Ch ",") (Ch ",")) with true. cbv iota.
    rewrite skip_blank by easy.
    assert (X : skip_json (join (Ch "," :: blank) (map w (y :: l)) ++ close ++ Ch "]" :: rest) = join (Ch "," :: blank) (map w (y :: l)) ++ close ++ Ch "]" :: rest).
    { destruct l; cbn [map join]; rewrite <- ?app_assoc; now apply skip_starts. }
    rewrite X, IH; [reflexivity|easy|cbn in Hk; lia].
Qed.

Definition pair_text (kv : str * json) : str := write_string (fst kv) ++ L ": " ++ w (snd kv).
Lemma pair_starts kv : starts (pair_text kv).
Proof. eexists _, _. split; [reflexivity|]. split; [reflexivity|]. split; discriminate. Qed.
Lemma read_pairs_written d : forall k x rest, Forall (fun kv => apart (fst kv) /\ forall r, value (w (snd kv) ++ r) = Ok (snd kv, r)) (x :: d) -> length d < k ->
  read_pairs value k (join (Ch "," :: blank) (map pair_text (x :: d)) ++ close ++ Ch "}" :: rest) = Ok (x :: d, rest).
Proof.
  assert (one : forall k kv tl, apart (fst kv) -> (forall r, value (w (snd kv) ++ r) = Ok (snd kv, r)) ->
    read_pairs value (S k) (pair_text kv ++ tl)
    = match skip_json tl with
      | c :: r => if N.eqb c (Ch "}") then Ok ([kv], r)
                  else if N.eqb c (Ch ",") then do (l, r) <- read_pairs value k (skip_json r); Ok (kv :: l, r)
                  else Err ValueError
      | [] => Err ValueError
      end).
  { intros k [key v] tl Ha Hv. cbn [fst snd] in *. unfold pair_text, write_string. cbn [fst snd]. rewrite <- !app_assoc. cbn [app read_pairs].
    change (N.eqb 34 34) with true. cbv iota. rewrite <- app_assoc. cbn [app].
    rewrite read_written_string by (easy || (rewrite app_length; cbn; lia)). cbn [bind].
    change (skip_json (L ": " ++ w v ++ tl)) with (L ": " ++ w v ++ tl). change (L ": " ++ w v ++ tl) with (Ch ":" :: 32%N :: w v ++ tl).
    cbv iota beta. change (N.eqb (Ch ":") (Ch ":")) with true. cbv iota.
    change (skip_json (32%N :: w v ++ tl)) with (skip_json (w v ++ tl)). rewrite skip_starts by apply Hw. rewrite Hv. reflexivity. }
  induction d as [|y d IH]; intros k x rest HF Hk; (destruct k as [|k]; [cbn in Hk; lia|]); apply Forall_cons_iff in HF as [[Hx1 Hx2] HF].
  - cbn [map join]. rewrite one by easy. now rewrite skip_blank.
  - change (join (Ch "," :: blank) (map pair_text (x :: y :: d))) with (pair_text x ++ (Ch "," :: blank) ++ join (Ch "," :: blank) (map pair_text (y :: d))).
    rewrite <- !app_assoc. rewrite one by easy. cbn [app].
    replace (skip_json (Ch "," :: blank ++ join (Ch "," :: blank) (map pair_text (y :: d)) ++ close ++ Ch "}" :: rest))
      with (Ch "," :: blank ++ join (Ch "," :: blank) (map pair_text (y :: d)) ++ close ++ Ch "}" :: rest) by reflexivity.
    change (N.eqb (Ch ",") (Ch "}")) with false. change (N.eqb (Ch ",") (Ch ",")) with true. cbv iota.
    rewrite skip_blank by easy.
    assert (X : skip_json (join (Ch "," :: blank) (map pair_text (y :: d)) ++ close ++ Ch "}" :: rest) = join (Ch "," :: blank) (map pair_text (y :: d)) ++ close ++ Ch "}" :: rest).
    { destruct d; cbn [map join]; rewrite <- ?app_assoc; apply skip_starts, pair_starts. }
    rewrite X, IH; [reflexivity|easy|cbn in Hk; lia].
Qed.
End Lists.

Lemma dset_fresh (d : dict json) k v : ~ In k (map fst d) -> dset d k v = d ++ [(k, v)].
Proof. intros H. apply (dset_new str_eqb str_eqb_spec). now apply dget_none; [apply str_eqb_spec|]. Qed.
Lemma dict_of_nodup d : NoDup (map fst d) -> dict_of d = d.
Proof.
  intros H. unfold dict_of. enough (X : forall acc, NoDup (map fst acc ++ map fst d) -> fold_left (fun d kv => dset d (fst kv) (snd kv)) d acc = acc ++ d) by now apply X.
  clear H. induction d as [|[k v] d IH]; intros acc H; cbn [fold_left]; [now rewrite app_nil_r|].
  cbn [map fst] in H. cbn [fst snd]. rewrite dset_fresh by (apply NoDup_remove_2 in H; intros X; apply H, in_or_app; now left).
  rewrite IH; [now rewrite <- app_assoc|]. rewrite map_app. cbn [map fst]. now rewrite <- app_assoc.
Qed.

Lemma join_length sep l : length l <= S (length (join (Ch "," :: sep) l)).
Proof.
  induction l as [|x [|y l] IH]; [cbn; lia|cbn; lia|].
  change (join (Ch "," :: sep) (x :: y :: l)) with (x ++ (Ch "," :: sep) ++ join (Ch "," :: sep) (y :: l)). rewrite !app_length.
  remember (length (join (Ch "," :: sep) (y :: l))) as n. cbn [length] in *. lia.
Qed.
Lemma depth_le_max (f : json -> nat) l n : list_max (map f l) <= n <-> Forall (fun x => f x <= n) l.
Proof. rewrite list_max_le, Forall_map. reflexivity. Qed.

Lemma read_written indent j : forall level fuel rest, json_apart j -> depth j < fuel -> read_any fuel (write_json indent level j ++ rest) = Ok (j, rest).
Proof.
  induction j as [s|l IH|d IH] using json_rec'; intros level fuel rest Ha Hf; (destruct fuel as [|fuel]; [lia|]).
  - inversion Ha; subst. cbn [write_json]. unfold write_string. cbn [app read_any]. change (N.eqb 34 34) with true. cbv iota.
    rewrite <- app_assoc. cbn [app]. rewrite read_written_string by (easy || (rewrite app_length; cbn; lia)). reflexivity.
  - destruct l as [|x l]; [reflexivity|]. inversion Ha as [|? Hl|]; subst.
    cbn [write_json]. rewrite <- !app_assoc. change (L "[" ++ ?t) with (Ch "[" :: t).
    set (tl := line_start indent (S level) ++ _). cbn [app read_any]. change (N.eqb (Ch "[") 34) with false. change (N.eqb (Ch "[") (Ch "[")) with true. cbv iota.
    destruct (sep_shape indent (S level)) as (w & E & Hwb).
    assert (X : skip_json tl = join (Ch "," :: w) (map (write_json indent (S level)) (x :: l)) ++ line_start indent level ++ Ch "]" :: rest).
    { unfold tl. rewrite skip_blank by apply blank_line. rewrite E. destruct l; cbn [map join]; rewrite <- ?app_assoc; apply skip_starts, write_starts. }
    rewrite X.
    assert (Y : exists c r, join (Ch "," :: w) (map (write_json indent (S level)) (x :: l)) ++ line_start indent level ++ Ch "]" :: rest = c :: r /\ c <> Ch "]").
    { destruct (write_starts indent (S level) x) as (c & r & Ec & _ & Hc & _). destruct l; cbn [map join]; rewrite Ec; eexists _, _; split; [reflexivity|easy|reflexivity|easy]. }
    destruct Y as (c & r & Ec & Hc).
    rewrite Ec at 1. apply N.eqb_neq in Hc. rewrite Hc.
    cbn [depth] in Hf. assert (Hd : list_max (map depth (x :: l)) < fuel) by lia.
    rewrite (read_items_written (read_any fuel) (write_json indent (S level)) (write_starts indent (S level)) w (line_start indent level) Hwb (blank_line _ _)).
    + reflexivity.
    + rewrite Forall_forall in *. intros j Hj r'. apply IH; [easy|now apply Hl|]. pose proof (proj1 (depth_le_max depth (x :: l) _) (le_n _)) as M. rewrite Forall_forall in M. specialize (M _ Hj). lia.
    + unfold tl. match goal with |- _ < S (length (?a :: ?b)) => change (length (a :: b)) with (S (length b)) end. rewrite !app_length. pose proof (join_length w (map (write_json indent (S level)) (x :: l))) as J. rewrite map_length in J. rewrite E. revert J. generalize (length (join (Ch "," :: w) (map (write_json indent (S level)) (x :: l)))). intros. cbn [length] in J. lia.
  - destruct d as [|x d]; [reflexivity|]. inversion Ha as [| |? Hn Hd]; subst.
    cbn [write_json]. rewrite <- !app_assoc. change (L "{" ++ ?t) with (Ch "{" :: t).
    change (fun kv : str * json => write_string (fst kv) ++ L ": " ++ write_json indent (S level) (snd kv)) with (pair_text (write_json indent (S level))).
    set (tl := line_start indent (S level) ++ _). cbn [app read_any]. change (N.eqb (Ch "{") 34) with false. change (N.eqb (Ch "{") (Ch "[")) with false. change (N.eqb (Ch "{") (Ch "{")) with true. cbv iota.
    destruct (sep_shape indent (S level)) as (w & E & Hwb).
    assert (X : skip_json tl = join (Ch "," :: w) (map (pair_text (write_json indent (S level))) (x :: d)) ++ line_start indent level ++ Ch "}" :: rest).
    { unfold tl. rewrite skip_blank by apply blank_line. rewrite E. destruct d; cbn [map join]; rewrite <- ?app_assoc; apply skip_starts, pair_starts. }
    rewrite X.
    assert (Y : exists c r, join (Ch "," :: w) (map (pair_text (write_json indent (S level))) (x :: d)) ++ line_start indent level ++ Ch "}" :: rest = c :: r /\ c <> Ch "}").
    { destruct (pair_starts (write_json indent (S level)) x) as (c & r & Ec & _ & _ & Hc). destruct d; cbn [map join]; rewrite Ec; eexists _, _; split; [reflexivity|easy|reflexivity|easy]. }
    destruct Y as (c & r & Ec & Hc).
    rewrite Ec at 1. apply N.eqb_neq in Hc. rewrite Hc.
    cbn [depth] in Hf. assert (Hm : list_max (map (fun kv => depth (snd kv)) (x :: d)) < fuel) by lia.
    rewrite (read_pairs_written (read_any fuel) (write_json indent (S level)) (write_starts indent (S level)) w (line_start indent level) Hwb (blank_line _ _)).
    + cbn [bind]. now rewrite dict_of_nodup.
    + rewrite Forall_forall in *. intros kv Hk. split; [now apply Hd|]. intros r'. apply (IH kv); [easy|now apply Hd|].
      pose proof (proj1 (list_max_le (map (fun kv => depth (snd kv)) (x :: d)) _) (le_n _)) as M. rewrite Forall_map, Forall_forall in M. specialize (M _ Hk). cbv beta in M. lia.
    + unfold tl. match goal with |- _ < S (length (?a :: ?b)) => change (length (a :: b)) with (S (length b)) end. rewrite !app_length. pose proof (join_length w (map (pair_text (write_json indent (S level))) (x :: d))) as J. rewrite map_length in J. rewrite E. revert J. generalize (length (join (Ch "," :: w) (map (pair_text (write_json indent (S level))) (x :: d)))). intros. cbn [length] in J. lia.
Qed.

Lemma join_part sep l x : In x l -> length x <= length (join sep l).
Proof.
  induction l as [|y [|z l] IH]; [easy|intros [<-|[]]; easy|]. intros H.
  change (join sep (y :: z :: l)) with (y ++ sep ++ join sep (z :: l)). rewrite !app_length. destruct H as [<-|H]; [lia|]. specialize (IH H). lia.
Qed.
Lemma depth_length indent j : forall level, depth j <= length (write_json indent level j).
Proof.
  induction j as [s|l IH|d IH] using json_rec'; intros level; [cbn; lia| |].
  - destruct l as [|x l]; [vm_compute; lia|]. cbn [depth write_json]. rewrite !app_length. change (length (L "[")) with 1. cbn [Nat.add]. apply le_n_S.
    assert (X : list_max (map depth (x :: l)) <= length (join (item_sep indent (S level)) (map (write_json indent (S level)) (x :: l)))); [|lia].
    apply depth_le_max. rewrite Forall_forall in *. intros y Hy. etransitivity; [apply (IH y Hy (S level))|]. apply join_part. now apply in_map.
  - destruct d as [|x d]; [vm_compute; lia|]. cbn [depth write_json]. rewrite !app_length. change (length (L "{")) with 1. cbn [Nat.add]. apply le_n_S.
    set (t := join _ _). assert (X : list_max (map (fun kv => depth (snd kv)) (x :: d)) <= length t); [|lia].
    apply list_max_le. rewrite Forall_map. rewrite Forall_forall in *. intros y Hy. etransitivity; [apply (IH y Hy (S level))|].
    etransitivity; [|apply join_part; apply (in_map _ _ _ Hy)]. cbv beta. rewrite !app_length. lia.
Qed.
Lemma read_write indent j : json_apart j -> read_json (write_json indent 0 j) = Ok j.
Proof.
  intros H. unfold read_json. pose proof (skip_starts _ [] (write_starts indent 0 j)) as K. rewrite app_nil_r in K. rewrite K.
  pose proof (read_written indent j 0 (S (length (write_json indent 0 j))) [] H) as R. rewrite app_nil_r in R. rewrite R; [reflexivity|].
  pose proof (depth_length indent j 0). lia.
Qed.

(* ---------- only ASCII ---------- *)

Lemma hex_digit_plain n : (n < 16)%N -> plain_char (hex_digit n).
Proof. intros H. unfold hex_digit, plain_char. destruct (N.ltb_spec n 10); lia. Qed.
Lemma plain_L (s : str) : forallb (in_range 32 126) s = true -> Forall plain_char s.
Proof. rewrite forallb_forall, Forall_forall. intros H c Hc. now apply in_range_true, H. Qed.
Lemma u_plain n : Forall plain_char (u_escape n).
Proof.
  unfold u_escape. apply Forall_app. split; [now apply plain_L|]. unfold hex4. repeat (constructor; [apply hex_digit_plain, N.mod_lt; discriminate|]). constructor.
Qed.
Lemma escape_plain c : Forall plain_char (escape1 c).
Proof.
  unfold escape1. repeat match goal with |- context [if N.eqb c ?x then _ else _] => destruct (N.eqb c x); [now apply plain_L|] end.
  destruct (in_range 32 126 c) eqn:E; [constructor; [now apply in_range_true|constructor]|].
  destruct (N.ltb c 65536); [apply u_plain|]. apply Forall_app. split; apply u_plain.
Qed.
Lemma string_plain s : Forall plain_char (write_string s).
Proof.
  unfold write_string. constructor; [unfold plain_char; lia|]. apply Forall_app. split; [|constructor; [unfold plain_char; lia|constructor]].
  apply Forall_flat_map. apply Forall_forall. intros c _. apply escape_plain.
Qed.
Lemma plain_written indent s : Forall plain_char s -> Forall (written_char indent) s.
Proof. apply Forall_impl. now left. Qed.
Lemma line_written indent level : Forall (written_char indent) (line_start indent level).
Proof.
  destruct indent as [n|]; [|constructor]. cbn [line_start]. constructor; [now right|]. apply Forall_forall. intros c Hc. apply repeat_spec in Hc as ->.
  left. unfold plain_char. lia.
Qed.
Lemma sep_written indent level : Forall (written_char indent) (item_sep indent level).
Proof.
  destruct indent as [n|]; [apply Forall_app; split; [|apply line_written]|]; apply plain_written; now apply plain_L.
Qed.
Lemma join_Forall (P : N -> Prop) sep l : Forall P sep -> Forall (Forall P) l -> Forall P (join sep l).
Proof.
  intros Hs. induction l as [|x [|y l] IH]; intros H; [constructor|now apply Forall_cons_iff in H|].
  change (join sep (x :: y :: l)) with (x ++ sep ++ join sep (y :: l)). apply Forall_cons_iff in H as [H1 H2].
  apply Forall_app. split; [easy|]. apply Forall_app. split; [easy|]. now apply IH.
Qed.
Lemma write_ascii indent j : forall level, Forall (written_char indent) (write_json indent level j).
Proof.
  induction j as [s|l IH|d IH] using json_rec'; intros level; [apply plain_written, string_plain| |].
  - destruct l as [|x l]; [now apply plain_written, plain_L|]. cbn [write_json].
    apply Forall_app; split; [now apply plain_written, plain_L|]. apply Forall_app; split; [apply line_written|].
    apply Forall_app; split; [|apply Forall_app; split; [apply line_written|now apply plain_written, plain_L]].
    apply join_Forall; [apply sep_written|]. rewrite Forall_map. eapply Forall_impl; [|exact IH]. intros y Hy. apply Hy.
  - destruct d as [|x d]; [now apply plain_written, plain_L|]. cbn [write_json].
    apply Forall_app; split; [now apply plain_written, plain_L|]. apply Forall_app; split; [apply line_written|].
    apply Forall_app; split; [|apply Forall_app; split; [apply line_written|now apply plain_written, plain_L]].
    apply join_Forall; [apply sep_written|]. rewrite Forall_map. eapply Forall_impl; [|exact IH]. intros y Hy. cbv beta.
    apply Forall_app. split; [apply plain_written, string_plain|]. apply Forall_app. split; [now apply plain_written, plain_L|]. apply Hy.
Qed.

(* ---------- what is read has no pairs of surrogates ---------- *)

Lemma hex_value_lt c n : hex_value c = Some n -> (n < 16)%N.
Proof.
  unfold hex_value. destruct (in_range 48 57 c) eqn:E1; [apply in_range_true in E1; intros [= <-]; lia|].
  destruct (in_range 97 102 c) eqn:E2; [apply in_range_true in E2; intros [= <-]; lia|].
  destruct (in_range 65 70 c) eqn:E3; [apply in_range_true in E3; intros [= <-]; lia|]. easy.
Qed.
Lemma read_hex4_lt s n r : read_hex4 s = Some (n, r) -> (n < 65536)%N /\ exists a b c d, s = a :: b :: c :: d :: r.
Proof.
  destruct s as [|a [|b [|c [|d s]]]]; try discriminate. cbn [read_hex4].
  destruct (hex_value a) eqn:Ea; [|easy]. destruct (hex_value b) eqn:Eb; [|easy]. destruct (hex_value c) eqn:Ec; [|easy]. destruct (hex_value d) eqn:Ed; [|easy].
  apply hex_value_lt in Ea, Eb, Ec, Ed. intros E. assert (E1 : n = (((n0 * 16 + n1) * 16 + n2) * 16 + n3)%N) by congruence. assert (E2 : s = r) by congruence.
  subst s. split; [lia|]. now exists a, b, c, d.
Qed.
Lemma sub_Forall {A} (P : A -> Prop) l r : Forall P (l ++ r) -> Forall P r.
Proof. now intros H%Forall_app. Qed.
(* the next character, if it is a low surrogate, is one by an escape *)
Definition low_escape (s : str) : Prop := exists v r, s = L "\u" ++ r /\ exists r', read_hex4 r = Some (v, r') /\ low_surrogate v.
Lemma read_u_sound s c r : Forall scalar s -> read_u s = Some (c, r) -> (c < 1114112)%N /\ Forall scalar r /\ (high_surrogate c -> ~ low_escape r).
Proof.
  intros Hs. unfold read_u. destruct (read_hex4 s) as [[u r1]|] eqn:E; [|easy]. apply read_hex4_lt in E as (Hu & a & b & d & e & ->).
  apply (sub_Forall scalar [a; b; d; e] r1) in Hs.
  destruct (in_range 55296 56319 u && startswith (L "\u") r1) eqn:B.
  - apply andb_prop in B as [B1 B2]. destruct (read_hex4 (skipn 2 r1)) as [[v r2]|] eqn:E2; [|easy].
    pose proof (read_hex4_lt _ _ _ E2) as (Hv & a' & b' & d' & e' & Es).
    destruct (in_range 56320 57343 v) eqn:Bv; intros H.
    + apply in_range_true in B1, Bv. assert (Ec : c = (65536 + ((u - 55296) * 1024 + (v - 56320)))%N) by congruence. assert (r2 = r) by congruence. subst r2.
      split; [lia|]. split; [|unfold high_surrogate; lia].
      assert (Hk : Forall scalar (skipn 2 r1)) by (rewrite <- (firstn_skipn 2 r1) in Hs; now apply sub_Forall in Hs).
      rewrite Es in Hk. now apply (sub_Forall scalar [a'; b'; d'; e'] r) in Hk.
    + assert (u = c) by congruence. assert (r1 = r) by congruence. subst. split; [lia|]. split; [easy|]. intros _ (v' & r' & -> & r'' & E' & Hl).
      rewrite skip_u in E2. rewrite E2 in E'. assert (v = v') by congruence. subst v'. apply in_range_false in Bv. unfold low_surrogate in Hl. lia.
  - intros H. assert (u = c) by congruence. assert (r1 = r) by congruence. subst. split; [lia|]. split; [easy|]. intros Hh (v' & r' & -> & _).
    rewrite starts_u, andb_true_r in B. apply in_range_false in B. unfold high_surrogate in Hh. lia.
Qed.
Lemma apart_cons c s : (c < 1114112)%N -> apart s -> (high_surrogate c -> forall d r, s = d :: r -> ~ low_surrogate d) -> apart (c :: s).
Proof.
  intros Hc [H K] N. split; [intros x [<-|Hx]; auto|]. intros l a b r E. destruct l as [|y l]; cbn in E.
  - assert (c = a) by congruence. subst. intros Ha. apply (N Ha b r). congruence.
  - apply (K l a b r). congruence.
Qed.
Lemma read_string_sound fuel : forall s t r, Forall scalar s -> read_string fuel s = Ok (t, r) ->
  apart t /\ Forall scalar r /\ (forall d t', t = d :: t' -> low_surrogate d -> low_escape s).
Proof.
  induction fuel as [|f IH]; intros s t r Hs E; [discriminate|]. destruct s as [|c s]; [discriminate|].
  cbn [read_string] in E. apply Forall_cons_iff in Hs as [Hc Hs].
  destruct (N.eqb_spec c 34) as [->|N1].
  { assert (t = [] /\ s = r) as [-> ->] by (split; congruence). split; [|split; [easy|discriminate]]. split; [easy|]. intros [|? ?] a b r0; discriminate. }
  destruct (N.eqb_spec c 92) as [->|N2].
  - destruct s as [|e s]; [discriminate|]. apply Forall_cons_iff in Hs as [He Hs]. destruct (N.eqb_spec e (Ch "u")) as [->|N3].
    + destruct (read_u s) as [[x r1]|] eqn:Eu; [|discriminate]. pose proof (read_u_sound _ _ _ Hs Eu) as (Hx & Hr1 & Hh).
      destruct (read_string f r1) as [[t1 r2]|] eqn:Et; [|discriminate]. cbn [bind] in E. assert (t = x :: t1 /\ r2 = r) as [-> ->] by (split; congruence).
      destruct (IH _ _ _ Hr1 Et) as (Ha & Hr & Hl). split; [|split; [easy|]].
      * apply apart_cons; [easy|easy|]. intros Hi d r3 Ed Hd. now apply (Hh Hi), (Hl d r3).
      * intros d t' Ed Hd. assert (x = d) by congruence. subst x. unfold read_u in Eu. destruct (read_hex4 s) as [[u r3]|] eqn:E4; [|discriminate].
        exists u, s. split; [reflexivity|]. exists r3. split; [easy|]. destruct (in_range 55296 56319 u && startswith (L "\u") r3) eqn:B.
        -- apply andb_prop in B as [B _]. apply in_range_true in B. destruct (read_hex4 (skipn 2 r3)) as [[v r4]|]; [|discriminate].
           destruct (in_range 56320 57343 v) eqn:Bv.
           ++ apply in_range_true in Bv. assert (d = (65536 + ((u - 55296) * 1024 + (v - 56320)))%N) by congruence. unfold low_surrogate in Hd. lia.
           ++ assert (u = d) by congruence. now subst.
        -- assert (u = d) by congruence. now subst.
    + destruct (simple_escape e) as [x|] eqn:Es; [|discriminate].
      destruct (read_string f s) as [[t1 r2]|] eqn:Et; [|discriminate]. cbn [bind] in E. assert (t = x :: t1 /\ r2 = r) as [-> ->] by (split; congruence).
      destruct (IH _ _ _ Hs Et) as (Ha & Hr & Hl).
      assert (Hx : (x < 128)%N).
      { unfold simple_escape in Es. repeat match type of Es with context [if ?b then _ else _] => destruct b; [assert (Hn : forall a : N, Some a = Some x -> x = a) by congruence; apply Hn in Es as ->; reflexivity|] end. discriminate. }
      split; [apply apart_cons; [lia|easy|unfold high_surrogate; lia]|]. split; [easy|]. intros d t' Ed Hd. assert (x = d) by congruence. subst. unfold low_surrogate in Hd. lia.
  - destruct (N.ltb c 32) eqn:E3; [discriminate|]. destruct (read_string f s) as [[t1 r2]|] eqn:Et; [|discriminate]. cbn [bind] in E.
    assert (t = c :: t1 /\ r2 = r) as [-> ->] by (split; congruence). destruct (IH _ _ _ Hs Et) as (Ha & Hr & Hl). destruct Hc as (Hc & Hh & Hlo).
    split; [apply apart_cons; [easy|easy|]; intros Hi; now elim Hh|]. split; [easy|]. intros d t' Ed Hd. assert (c = d) by congruence. now subst.
Qed.

Lemma skip_scalar s : Forall scalar s -> Forall scalar (skip_json s).
Proof. induction s as [|c s IH]; cbn [skip_json]; [easy|]. intros H. destruct (json_ws c); [apply IH; now apply Forall_cons_iff in H|easy]. Qed.
Definition value_sound (value : str -> res (json * str)) : Prop := forall s j r, Forall scalar s -> value s = Ok (j, r) -> json_apart j /\ Forall scalar r.
Lemma read_items_sound value : value_sound value -> forall k s l r, Forall scalar s -> read_items value k s = Ok (l, r) -> Forall json_apart l /\ Forall scalar r.
Proof.
  intros Hv. induction k as [|k IH]; intros s l r Hs E; [discriminate|]. cbn [read_items] in E. destruct (value s) as [[v r1]|] eqn:E1; [|discriminate].
  cbn [bind] in E. apply Hv in E1 as [Hj Hr1]; [|easy]. apply skip_scalar in Hr1. destruct (skip_json r1) as [|c r2]; [discriminate|].
  apply Forall_cons_iff in Hr1 as [_ Hr2]. destruct (N.eqb c (Ch "]")); [assert (l = [v] /\ r2 = r) as [-> ->] by (split; congruence); split; [now constructor|easy]|].
  destruct (N.eqb c (Ch ",")); [|discriminate]. destruct (read_items value k (skip_json r2)) as [[l' r3]|] eqn:E3; [|discriminate]. cbn [bind] in E.
  assert (l = v :: l' /\ r3 = r) as [-> ->] by (split; congruence). apply IH in E3 as [Hl Hr]; [|now apply skip_scalar]. split; [now constructor|easy].
Qed.
Lemma read_pairs_sound value : value_sound value -> forall k s l r, Forall scalar s -> read_pairs value k s = Ok (l, r) ->
  Forall (fun kv => apart (fst kv) /\ json_apart (snd kv)) l /\ Forall scalar r.
Proof.
  intros Hv. induction k as [|k IH]; intros s l r Hs E; [discriminate|]. destruct s as [|q s]; [discriminate|]. cbn [read_pairs] in E.
  destruct (N.eqb q 34); [|discriminate]. apply Forall_cons_iff in Hs as [_ Hs].
  destruct (read_string (S (length s)) s) as [[key r0]|] eqn:E0; [|discriminate]. cbn [bind] in E. apply read_string_sound in E0 as (Hk & Hr0 & _); [|easy].
  apply skip_scalar in Hr0. destruct (skip_json r0) as [|c0 r1]; [discriminate|]. apply Forall_cons_iff in Hr0 as [_ Hr1].
  destruct (N.eqb c0 (Ch ":")); [|discriminate]. destruct (value (skip_json r1)) as [[v r2]|] eqn:E1; [|discriminate]. cbn [bind] in E.
  apply Hv in E1 as [Hj Hr2]; [|now apply skip_scalar]. apply skip_scalar in Hr2. destruct (skip_json r2) as [|c r3]; [discriminate|].
  apply Forall_cons_iff in Hr2 as [_ Hr3]. destruct (N.eqb c (Ch "}")); [assert (l = [(key, v)] /\ r3 = r) as [-> ->] by (split; congruence); split; [now constructor|easy]|].
  destruct (N.eqb c (Ch ",")); [|discriminate]. destruct (read_pairs value k (skip_json r3)) as [[l' r4]|] eqn:E3; [|discriminate]. cbn [bind] in E.
  assert (l = (key, v) :: l' /\ r4 = r) as [-> ->] by (split; congruence). apply IH in E3 as [Hl Hr]; [|now apply skip_scalar]. split; [now constructor|easy].
Qed.
Lemma dset_Forall (P : str * json -> Prop) d k v : Forall P d -> P (k, v) -> Forall P (dset d k v).
Proof.
  intros H K. induction d as [|[k' v'] d IH]; cbn; [now constructor|]. apply Forall_cons_iff in H as [H1 H2].
  destruct (str_eqb_spec k k') as [->|N]; constructor; auto.
Qed.
Lemma dict_of_sound (P : str * json -> Prop) l : Forall P l -> NoDup (map fst (dict_of l)) /\ Forall P (dict_of l).
Proof.
  intros H. unfold dict_of. enough (X : forall acc, NoDup (map fst acc) -> Forall P acc -> NoDup (map fst (fold_left (fun d kv => dset d (fst kv) (snd kv)) l acc))
      /\ Forall P (fold_left (fun d kv => dset d (fst kv) (snd kv)) l acc)) by (apply X; constructor).
  induction l as [|[k v] l IH]; intros acc Hn Ha; cbn [fold_left]; [easy|]. apply Forall_cons_iff in H as [H1 H2]. apply (IH H2); cbn [fst snd].
  - now apply (dset_nodup str_eqb str_eqb_spec).
  - now apply dset_Forall.
Qed.
Lemma read_any_sound fuel : value_sound (read_any fuel).
Proof.
  induction fuel as [|f IH]; intros s j r Hs E; [discriminate|]. destruct s as [|c s]; [discriminate|]. cbn [read_any] in E. apply Forall_cons_iff in Hs as [_ Hs].
  destruct (N.eqb c 34).
  { destruct (read_string (S (length s)) s) as [[t r1]|] eqn:E1; [|discriminate]. cbn [bind] in E. assert (j = JStr t /\ r1 = r) as [-> ->] by (split; congruence).
    apply read_string_sound in E1 as (Ha & Hr & _); [|easy]. split; [now constructor|easy]. }
  pose proof (skip_scalar _ Hs) as Hk. destruct (N.eqb c (Ch "[")).
  { destruct (skip_json s) as [|d r1] eqn:Ek; [discriminate|]. destruct (N.eqb d (Ch "]")).
    - assert (j = JArr [] /\ r1 = r) as [-> ->] by (split; congruence). apply Forall_cons_iff in Hk as [_ Hk]. split; [constructor; constructor|easy].
    - destruct (read_items (read_any f) (S (length (c :: s))) (d :: r1)) as [[l r2]|] eqn:E2; [|discriminate]. cbn [bind] in E.
      assert (j = JArr l /\ r2 = r) as [-> ->] by (split; congruence). apply (read_items_sound _ IH) in E2 as [Hl Hr]; [|easy]. split; [now constructor|easy]. }
  destruct (N.eqb c (Ch "{")); [|discriminate].
  destruct (skip_json s) as [|d r1] eqn:Ek; [discriminate|]. destruct (N.eqb d (Ch "}")).
  - assert (j = JObj [] /\ r1 = r) as [-> ->] by (split; congruence). apply Forall_cons_iff in Hk as [_ Hk]. split; [constructor; constructor|easy].
  - destruct (read_pairs (read_any f) (S (length (c :: s))) (d :: r1)) as [[l r2]|] eqn:E2; [|discriminate]. cbn [bind] in E.
    assert (j = JObj (dict_of l) /\ r2 = r) as [-> ->] by (split; congruence). apply (read_pairs_sound _ IH) in E2 as [Hl Hr]; [|easy].
    apply dict_of_sound in Hl as [Hn Hl]. split; [now constructor|easy].
Qed.
Lemma read_json_sound s j : Forall scalar s -> read_json s = Ok j -> json_apart j.
Proof.
  intros Hs E. unfold read_json in E. destruct (read_any (S (length s)) (skip_json s)) as [[j' r]|] eqn:E1; [|discriminate]. cbn [bind] in E.
  apply read_any_sound in E1 as [Hj _]; [|now apply skip_scalar]. destruct (skip_json r); [|discriminate]. assert (j' = j) by congruence. now subst.
Qed.
