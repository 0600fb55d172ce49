From Verif Require Import PyStr PyStrFacts PySort Ref Scripts Format SpecFormat.

(* ---------- parsing ---------- *)

Ltac notin := let Q := fresh in intros Q; vm_compute in Q; repeat (destruct Q as [Q|Q]; [discriminate|]); exact Q.

Inductive parses : str -> list tok -> Prop :=
| P_nil : parses [] []
| P_lit c s ts : is_brace c = false -> parses s ts -> parses (c :: s) (TLit c :: ts)
| P_esc c s ts : is_brace c = true -> parses s ts -> parses (c :: c :: s) (TLit c :: ts)
| P_field s f r ts : parse_field s = Ok (f, r) -> parses r ts -> parses (LBRACE :: s) (TField f :: ts).

Lemma scan_name_len s : forall b n t r, scan_name b s = Ok (n, t, r) -> length r < length s.
Proof.
  induction s as [|c s IH]; intros b n t r; cbn; [discriminate|].
  destruct b.
  - destruct (scan_name _ s) as [[[n' t'] r']|] eqn:E; cbn; [|discriminate]. intros [= _ _ <-]. apply IH in E. lia.
  - destruct (N.eqb c LBRACE); [discriminate|]. destruct (_ || _).
    + intros [= _ _ <-]. lia.
    + destruct (scan_name _ s) as [[[n' t'] r']|] eqn:E; cbn; [|discriminate]. intros [= _ _ <-]. apply IH in E. lia.
Qed.
Lemma scan_spec_len s : forall k n r, scan_spec k s = Ok (n, r) -> length r < length s.
Proof.
  induction s as [|c s IH]; intros k n r; cbn; [discriminate|].
  destruct (N.eqb c LBRACE); [|destruct (N.eqb c RBRACE); [destruct k as [|k]; [intros [= _ <-]; lia|]|]];
    (destruct (scan_spec _ s) as [[n' r']|] eqn:E; cbn; [|discriminate]; intros [= _ <-]; apply IH in E; lia).
Qed.
Lemma parse_field_len s f r : parse_field s = Ok (f, r) -> length r < length s.
Proof.
  unfold parse_field. destruct (scan_name false s) as [[[n t] q]|] eqn:E; cbn; [|discriminate]. apply scan_name_len in E.
  destruct (N.eqb t RBRACE); [intros [= _ <-]; exact E|]. destruct (N.eqb t 58).
  - destruct (scan_spec 0 q) as [[sp q']|] eqn:E2; cbn; [|discriminate]. intros [= _ <-]. apply scan_spec_len in E2. lia.
  - destruct q as [|c [|d q]]; [discriminate|discriminate|]. cbn in E. destruct (N.eqb d RBRACE); [intros [= _ <-]; lia|].
    destruct (N.eqb d 58); [|discriminate]. destruct (scan_spec 0 q) as [[sp q']|] eqn:E2; cbn; [|discriminate].
    intros [= _ <-]. apply scan_spec_len in E2. lia.
Qed.

Lemma parses_parse s ts : parses s ts -> forall n, length s < n -> parse_ n s = (ts, false).
Proof.
  induction 1 as [|c s ts Hc H IH|c s ts Hc H IH|s f r ts Hf H IH]; intros n Hn; (destruct n as [|n]; [cbn in Hn; lia|]); cbn [parse_ length] in *.
  - easy.
  - rewrite Hc, IH by lia. reflexivity.
  - rewrite Hc, N.eqb_refl, IH by lia. reflexivity.
  - change (is_brace LBRACE) with true. cbn iota. destruct s as [|d s']; [discriminate|].
    assert (Hd : N.eqb d LBRACE = false).
    { destruct (N.eqb d LBRACE) eqn:E; [|easy]. unfold parse_field in Hf. cbn [scan_name] in Hf. rewrite E in Hf. discriminate. }
    rewrite Hd. change (N.eqb LBRACE RBRACE) with false. cbn iota. rewrite Hf.
    apply parse_field_len in Hf. rewrite IH by (cbn in *; lia). reflexivity.
Qed.
Lemma parse_ok s ts : parses s ts -> parse s = (ts, false).
Proof. intros H. apply (parses_parse _ _ H). lia. Qed.

Lemma parses_app_text t : no_braces t -> forall s ts, parses s ts -> parses (t ++ s) (map TLit t ++ ts).
Proof.
  induction t as [|c t IH]; intros [H1 H2] s ts H; [exact H|]. cbn. apply P_lit.
  - unfold is_brace. destruct (N.eqb_spec c LBRACE); [subst; exfalso; apply H1; now left|].
    destruct (N.eqb_spec c RBRACE); [subst; exfalso; apply H2; now left|]. reflexivity.
  - apply IH; [|exact H]. split; intros Q; [apply H1|apply H2]; now right.
Qed.

Lemma parses_doubled t : forall s ts, parses s ts -> parses (doubled t ++ s) (map TLit t ++ ts).
Proof.
  induction t as [|c t IH]; intros s ts H; [exact H|]. unfold doubled. cbn [flat_map map app]. fold (doubled t).
  change (N.eqb c LBRACE || N.eqb c RBRACE) with (is_brace c). destruct (is_brace c) eqn:E; cbn [app].
  - apply P_esc; [exact E|]. now apply IH.
  - apply P_lit; [exact E|]. now apply IH.
Qed.

(* ---------- the fields of a description ---------- *)

Definition acc_text (l : list access) : str := flat_map access_text l.
Definition fname (w : which) (l : list access) : str := which_name w ++ acc_text l.
Definition conv_text (c : option N) : str := match c with Some c => [33%N; c] | None => [] end.
Definition spec_text (sp : str) : str := match sp with [] => [] | _ => 58%N :: sp end.
Definition the_field (w : which) (l : list access) (c : option N) (sp : str) : field :=
  {| f_name := fname w l; f_conv := c; f_spec := sp |}.

Lemma written_field w l c sp : written_part (Field w l c sp)
  = LBRACE :: fname w l ++ conv_text c ++ spec_text sp ++ [RBRACE].
Proof.
  unfold written_part, fname, conv_text, spec_text, acc_text. rewrite <- app_assoc. change (L "{") with [LBRACE]. cbn [app].
  destruct c, sp; reflexivity.
Qed.

(* text inside a field that does not end the name *)
Definition quiet (s : str) : Prop := forall c, In c s -> ~ In c (L "{}:![").
Lemma scan_quiet s : quiet s -> forall r n t q, scan_name false r = Ok (n, t, q) -> scan_name false (s ++ r) = Ok (s ++ n, t, q).
Proof.
  induction s as [|c s IH]; intros Hq r n t q H; [exact H|]. cbn [app scan_name].
  assert (Hc : ~ In c (L "{}:![")) by (apply Hq; now left). vm_compute in Hc.
  assert (c <> 123 /\ c <> 125 /\ c <> 58 /\ c <> 33 /\ c <> 91)%N as (E1 & E2 & E3 & E4 & E5) by (repeat split; intros ->; apply Hc; tauto).
  unfold LBRACE, RBRACE. apply N.eqb_neq in E1, E2, E3, E4, E5. rewrite E1, E2, E3, E4, E5. cbn [orb].
  rewrite (IH (fun x Hx => Hq x (or_intror Hx)) r n t q H). reflexivity.
Qed.
Lemma scan_key k : (forall c, In c k -> c <> 93%N) -> forall r n t q, scan_name false r = Ok (n, t, q) ->
  scan_name true (k ++ 93%N :: r) = Ok (k ++ 93%N :: n, t, q).
Proof.
  induction k as [|c k IH]; intros Hk r n t q H; cbn [app scan_name].
  - cbn [N.eqb Pos.eqb negb]. rewrite H. reflexivity.
  - assert (c <> 93%N) by (apply Hk; now left). apply N.eqb_neq in H0. rewrite H0. cbn [negb].
    rewrite (IH (fun x Hx => Hk x (or_intror Hx)) r n t q H). reflexivity.
Qed.
Lemma scan_accs l : Forall access_ok l -> forall r n t q, scan_name false r = Ok (n, t, q) ->
  scan_name false (acc_text l ++ r) = Ok (acc_text l ++ n, t, q).
Proof.
  induction 1 as [|a l Ha Hl IH]; intros r n t q H; [exact H|]. unfold acc_text in *. cbn [flat_map]. rewrite <- !app_assoc.
  specialize (IH r n t q H). destruct a as [a|k]; cbn [access_text access_ok] in *.
  - apply scan_quiet; [|exact IH]. intros c Hc. cbn in Hc. destruct Hc as [<-|Hc]; [notin|now apply Ha].
  - change (L "[") with [91%N]. change (L "]") with [93%N]. cbn [app]. rewrite <- app_assoc. cbn [app scan_name].
    change (N.eqb 91 LBRACE) with false. change (N.eqb 91 RBRACE || N.eqb 91 58 || N.eqb 91 33) with false.
    change (N.eqb 91 91) with true. cbn iota. rewrite (scan_key k) with (n := flat_map access_text l ++ n) (t := t) (q := q).
    + cbn [bind]. rewrite <- !app_assoc. reflexivity.
    + intros c Hc ->. apply (Ha _ Hc). vm_compute. tauto.
    + exact IH.
Qed.
Lemma which_quiet w : quiet (which_name w).
Proof. intros c Hc. destruct w; vm_compute in Hc; repeat (destruct Hc as [<-|Hc]; [notin|]); easy. Qed.
Lemma scan_fname w l : Forall access_ok l -> forall r n t q, scan_name false r = Ok (n, t, q) ->
  scan_name false (fname w l ++ r) = Ok (fname w l ++ n, t, q).
Proof.
  intros Hl r n t q H. unfold fname. rewrite <- !app_assoc. apply scan_quiet; [apply which_quiet|]. now apply scan_accs.
Qed.

Lemma scan_spec_ok sp r : no_braces sp -> scan_spec 0 (sp ++ RBRACE :: r) = Ok (sp, r).
Proof.
  induction sp as [|c sp IH]; intros [H1 H2]; cbn [app scan_spec]; [reflexivity|].
  destruct (N.eqb_spec c LBRACE); [subst; exfalso; apply H1; now left|].
  destruct (N.eqb_spec c RBRACE); [subst; exfalso; apply H2; now left|].
  rewrite IH; [reflexivity|]. split; intros Q; [apply H1|apply H2]; now right.
Qed.

Lemma parse_the_field w l c sp r : part_ok (Field w l c sp) ->
  parse_field (fname w l ++ conv_text c ++ spec_text sp ++ RBRACE :: r) = Ok (the_field w l c sp, r).
Proof.
  intros (Hl & Hc & Hs). unfold parse_field, the_field.
  destruct c as [c|]; cbn [conv_text app].
  - rewrite (scan_fname w l Hl _ [] 33%N (c :: spec_text sp ++ RBRACE :: r)) by reflexivity. cbn [bind].
    change (N.eqb 33 RBRACE) with false. change (N.eqb 33 58) with false. cbn iota. rewrite app_nil_r.
    destruct sp as [|s0 sp]; cbn [spec_text app].
    + change (N.eqb RBRACE RBRACE) with true. reflexivity.
    + change (N.eqb 58 RBRACE) with false. change (N.eqb 58 58) with true. cbn iota.
      change (s0 :: sp ++ RBRACE :: r) with ((s0 :: sp) ++ RBRACE :: r). rewrite scan_spec_ok by exact Hs. reflexivity.
  - destruct sp as [|s0 sp]; cbn [spec_text app].
    + rewrite (scan_fname w l Hl _ [] RBRACE r) by reflexivity. cbn [bind]. rewrite app_nil_r. reflexivity.
    + rewrite (scan_fname w l Hl _ [] 58%N (s0 :: sp ++ RBRACE :: r)) by reflexivity. cbn [bind].
      change (N.eqb 58 RBRACE) with false. change (N.eqb 58 58) with true. cbn iota. rewrite app_nil_r.
      change (s0 :: sp ++ RBRACE :: r) with ((s0 :: sp) ++ RBRACE :: r). rewrite scan_spec_ok by exact Hs. reflexivity.
Qed.

Lemma parses_field w l c sp : part_ok (Field w l c sp) -> forall s ts, parses s ts ->
  parses (written_part (Field w l c sp) ++ s) (TField (the_field w l c sp) :: ts).
Proof.
  intros H s ts Hs. rewrite written_field. cbn [app]. rewrite <- !app_assoc. cbn [app].
  apply P_field with (r := s); [now apply parse_the_field|exact Hs].
Qed.

Definition part_toks (p : part) : list tok :=
  match p with Text s => map TLit (doubled s) | Field w l c sp => [TField (the_field w l c sp)] end.
Lemma parses_part p : part_ok p -> forall s ts, parses s ts -> parses (written_part p ++ s) (part_toks p ++ ts).
Proof.
  intros H s ts Hs. destruct p as [t|w l c sp]; [now apply parses_doubled|now apply parses_field].
Qed.
Lemma parses_written ps : Forall part_ok ps -> parses (written ps) (flat_map part_toks ps).
Proof.
  induction 1 as [|p ps Hp H IH]; [constructor|]. unfold written in *. cbn. now apply parses_part.
Qed.

(* the text of a field has no braces but its own *)
Lemma nb_app s t : no_braces s -> no_braces t -> no_braces (s ++ t).
Proof. intros [A B] [C D]. split; rewrite in_app_iff; tauto. Qed.
Lemma nb_quiet s : quiet s -> no_braces s.
Proof. intros H. split; intros Q; apply (H _ Q); vm_compute; tauto. Qed.
Lemma nb_inner w l c sp : part_ok (Field w l c sp) -> no_braces (fname w l ++ conv_text c ++ spec_text sp).
Proof.
  intros (Hl & Hc & Hs). repeat apply nb_app.
  - apply nb_quiet, which_quiet.
  - clear -Hl. induction Hl as [|a l Ha Hl IH]; [split; easy|]. unfold acc_text in *. cbn. apply nb_app; [|exact IH].
    destruct a as [a|k]; cbn [access_text access_ok] in *.
    + apply nb_app; [split; notin|]. now apply nb_quiet.
    + repeat apply nb_app; try (split; notin).
      split; intros Q; apply (Ha _ Q); vm_compute; tauto.
  - destruct c as [c|]; [|split; easy]. specialize (Hc c eq_refl). vm_compute in Hc.
    split; cbn; intros [Q|[Q|[]]]; try discriminate; subst c; revert Hc; notin.
  - destruct sp as [|s0 sp]; [split; easy|]. cbn [spec_text]. destruct Hs as [A B].
    split; intros [Q|Q]; try discriminate; [apply A|apply B]; exact Q.
Qed.

Lemma first_app s t : forallb (fun c => negb (stops c)) s = true -> first_part (s ++ t) = s ++ first_part t.
Proof. induction s as [|c s IH]; [easy|]. cbn. destruct (stops c); [easy|]. cbn. intros H. now rewrite IH. Qed.
Lemma rest_app s t : forallb (fun c => negb (stops c)) s = true -> rest_part (s ++ t) = rest_part t.
Proof. induction s as [|c s IH]; [easy|]. cbn. destruct (stops c); [easy|]. cbn. intros H. now rewrite IH. Qed.
Lemma first_which w t : first_part (fname w t) = which_name w.
Proof.
  assert (H : first_part (acc_text t) = []) by (destruct t as [|[a|k] t]; reflexivity).
  unfold fname. rewrite first_app, H by (destruct w; reflexivity). apply app_nil_r.
Qed.
Lemma rest_which w t : rest_part (fname w t) = acc_text t.
Proof.
  unfold fname. rewrite rest_app by (destruct w; reflexivity). destruct t as [|[a|k] t]; reflexivity.
Qed.

(* ---------- filling in ---------- *)

Section P.
Context {U : Unicode} (obj_str : nat -> str) (show_other : fval -> str -> option N -> str -> res str).
Notation show := (show obj_str show_other). Notation fill_toks := (fill_toks obj_str show_other).
Notation build := (build obj_str show_other). Notation safe_format := (safe_format obj_str show_other).
Notation str_format := (str_format obj_str show_other).
Notation part_value := (part_value obj_str show_other).

Lemma fill_app ex e a b : fill_toks ex e (a ++ b) = do x <- fill_toks ex e a; do y <- fill_toks ex e b; Ok (x ++ y).
Proof.
  induction a as [|t a IH]; [cbn; now destruct (fill_toks ex e b)|]. destruct t as [c|f]; cbn; rewrite IH.
  - destruct (fill_toks ex e a); cbn; [|easy]. now destruct (fill_toks ex e b).
  - destruct (lookup e _); cbn; [|easy]. destruct (ex _); cbn; [|easy]. destruct (show _ _ _ _); cbn; [|easy].
    destruct (fill_toks ex e a); cbn; [|easy]. destruct (fill_toks ex e b); cbn; [|easy]. now rewrite app_assoc.
Qed.
Lemma fill_lits ex e s : fill_toks ex e (map TLit s) = Ok s.
Proof. induction s as [|c s IH]; [easy|]. cbn. now rewrite IH. Qed.
Lemma parses_text s : no_braces s -> parses s (map TLit s).
Proof. intros H. rewrite <- (app_nil_r s) at 1. rewrite <- (app_nil_r (map TLit s)). apply parses_app_text; [exact H|constructor]. Qed.
Lemma build_text a n e s : no_braces s -> build a (S n) e s = Ok s.
Proof. intros H. cbn [Format.build]. rewrite (parse_ok _ _ (parses_text s H)). now rewrite fill_lits. Qed.
Lemma expand_text a n e s : no_braces s -> (if a || char_in LBRACE s then build a (S n) e s else Ok s) = Ok s.
Proof. intros H. rewrite build_text by exact H. now destruct (_ || _). Qed.

(* the first pass *)
Definition mid (q sq : str) (p : part) : res str :=
  match p with
  | Text s => Ok (doubled s)
  | Field Match _ _ _ => Ok (written_part p)
  | Field _ _ _ _ => part_value q sq (FVal VNone) p
  end.
Definition mid_toks (p : part) : list tok :=
  match p with
  | Text s => map TLit (doubled s)
  | Field Match l c sp => map TLit (written_part p)
  | Field w l c sp => [TField (the_field w l c sp)]
  end.
Lemma is_match w q sq : positional (which_name w) || dmem (given q sq) (which_name w) = match w with Match => false | _ => true end.
Proof. destruct w; reflexivity. Qed.

Lemma retok_field q sq w l c sp : retok (given q sq) (TField (the_field w l c sp))
  = match w with
    | Match => LBRACE :: LBRACE :: fname w l ++ conv_text c ++ spec_text sp ++ [RBRACE; RBRACE]
    | _ => LBRACE :: fname w l ++ conv_text c ++ spec_text sp ++ [RBRACE]
    end.
Proof.
  unfold retok. cbn [f_name f_conv f_spec the_field]. rewrite first_which, is_match. destruct w, c, sp; reflexivity.
Qed.
Lemma parses_retok q sq p : part_ok p -> forall s ts, parses s ts ->
  parses (flat_map (retok (given q sq)) (part_toks p) ++ s) (mid_toks p ++ ts).
Proof.
  intros H s ts Hs. destruct p as [t|w l c sp].
  - cbn [part_toks mid_toks]. replace (flat_map _ _) with (doubled (doubled t)); [now apply parses_doubled|].
    generalize (doubled t). clear. induction l as [|c t IH]; [easy|]. cbn [map flat_map retok]. rewrite <- IH. reflexivity.
  - cbn [part_toks flat_map]. rewrite app_nil_r, retok_field. destruct w; cbn [mid_toks].
    + rewrite <- written_field. now apply parses_field.
    + rewrite <- written_field. now apply parses_field.
    + rewrite written_field. cbn [app map]. apply P_esc; [reflexivity|].
      replace (fname Match l ++ conv_text c ++ spec_text sp ++ [RBRACE]) with ((fname Match l ++ conv_text c ++ spec_text sp) ++ [RBRACE])
        by now rewrite <- !app_assoc.
      replace ((fname Match l ++ conv_text c ++ spec_text sp ++ [RBRACE; RBRACE]) ++ s)
        with ((fname Match l ++ conv_text c ++ spec_text sp) ++ RBRACE :: RBRACE :: s) by now rewrite <- !app_assoc.
      assert (Hn := nb_inner _ _ _ _ H). revert Hn. generalize (fname Match l ++ conv_text c ++ spec_text sp). intros t Hn.
      rewrite map_app, <- app_assoc.
      apply parses_app_text; [exact Hn|]. cbn. apply P_esc; [reflexivity|exact Hs].
Qed.
Lemma parses_retoks q sq ps : Forall part_ok ps ->
  parses (flat_map (retok (given q sq)) (flat_map part_toks ps)) (flat_map mid_toks ps).
Proof.
  induction 1 as [|p ps Hp H IH]; [constructor|]. cbn [flat_map]. rewrite flat_map_app. now apply parses_retok.
Qed.

Lemma fill_mid ex q sq p : part_ok p -> (forall s, no_braces s -> ex s = Ok s) ->
  fill_toks ex (given q sq) (mid_toks p) = mid q sq p.
Proof.
  intros H Hex. destruct p as [t|w l c sp]; [apply fill_lits|].
  assert (E : w <> Match -> fill_toks ex (given q sq) [TField (the_field w l c sp)] = part_value q sq (FVal VNone) (Field w l c sp)).
  { intros Hw. cbn [Format.fill_toks f_name f_conv f_spec the_field]. rewrite first_which, rest_which.
    destruct H as (_ & _ & Hs). rewrite (Hex sp Hs).
    assert (lookup (given q sq) (which_name w) = Ok (value_of q sq (FVal VNone) w)) as -> by (destruct w; [reflexivity|reflexivity|easy]).
    cbn [bind SpecFormat.part_value]. unfold acc_text. destruct (show _ _ _ _); cbn; [now rewrite app_nil_r|easy]. }
  destruct w; [apply E; easy|apply E; easy|]. apply fill_lits.
Qed.
Lemma fill_mids ex q sq ps : Forall part_ok ps -> (forall s, no_braces s -> ex s = Ok s) ->
  fill_toks ex (given q sq) (flat_map mid_toks ps) = do l <- mapM (mid q sq) ps; Ok (concat l).
Proof.
  intros H Hex. induction H as [|p ps Hp H IH]; [easy|]. cbn [flat_map mapM]. rewrite fill_app, IH, fill_mid by easy.
  destruct (mid q sq p); cbn; [|easy]. now destruct (mapM (mid q sq) ps).
Qed.
Lemma safe_written q sq ps : Forall part_ok ps ->
  safe_format (given q sq) (written ps) = do l <- mapM (mid q sq) ps; Ok (concat l).
Proof.
  intros H. unfold Format.safe_format. rewrite (parse_ok _ _ (parses_written ps H)).
  unfold formatter_vformat. cbn [Format.build]. rewrite (parse_ok _ _ (parses_retoks q sq ps H)).
  rewrite fill_mids; [|exact H|].
  - destruct (mapM (mid q sq) ps); reflexivity.
  - intros s Hs. exact (expand_text true 1 (given q sq) s Hs).
Qed.

(* the second pass *)
Definition last_toks (p : part) (y : str) : list tok :=
  match p with Text s => map TLit s | Field Match l c sp => [TField (the_field Match l c sp)] | _ => map TLit y end.
Definition last_value (m : fval) (p : part) (y : str) : res str :=
  match p with Text s => Ok s | Field Match l c sp => show m (acc_text l) c sp | _ => Ok y end.

Lemma mid_ok q sq ps l : Forall part_ok ps -> tame obj_str show_other q sq ps -> mapM (mid q sq) ps = Ok l ->
  Forall2 (fun p y => part_ok p /\ mid q sq p = Ok y /\ (match p with Text _ | Field Match _ _ _ => True | _ => no_braces y end)) ps l.
Proof.
  intros H. revert l. induction H as [|p ps Hp H IH]; intros l Ht E; cbn in E.
  - injection E as <-. constructor.
  - destruct (mid q sq p) as [y|] eqn:Ep; [|discriminate]. cbn in E. destruct (mapM (mid q sq) ps) as [l'|]; [|discriminate].
    cbn in E. injection E as <-. constructor.
    + split; [exact Hp|]. split; [exact Ep|]. destruct p as [t|w a c sp].
      * exact I.
      * destruct w; [| |exact I]; (eapply Ht; [now left|easy|exact Ep]).
    + apply IH; [|reflexivity]. intros w a c sp x Hin. apply Ht. now right.
Qed.

Lemma parses_last ps l q sq :
  Forall2 (fun p y => part_ok p /\ mid q sq p = Ok y /\ (match p with Text _ | Field Match _ _ _ => True | _ => no_braces y end)) ps l ->
  parses (concat l) (concat (map (fun '(p, y) => last_toks p y) (combine ps l))).
Proof.
  induction 1 as [|p y ps l (Hp & E & Hn) H IH]; [constructor|]. cbn [concat combine map].
  destruct p as [t|w a c sp]; [cbn [mid] in E; injection E as <-; now apply parses_doubled|]. destruct w; try (now apply parses_app_text).
  assert (y = written_part (Field Match a c sp)) as -> by (cbn [mid] in E; congruence).
  cbn [last_toks app]. now apply parses_field.
Qed.
Lemma fill_last ex m ps l q sq : (forall s, no_braces s -> ex s = Ok s) ->
  Forall2 (fun p y => part_ok p /\ mid q sq p = Ok y /\ (match p with Text _ | Field Match _ _ _ => True | _ => no_braces y end)) ps l ->
  fill_toks ex [(L "match", m)] (concat (map (fun '(p, y) => last_toks p y) (combine ps l)))
  = do r <- mapM (fun '(p, y) => last_value m p y) (combine ps l); Ok (concat r).
Proof.
  intros Hex. induction 1 as [|p y ps l (Hp & E & Hn) H IH]; [easy|]. cbn [concat combine map mapM]. rewrite fill_app, IH.
  assert (Q : fill_toks ex [(L "match", m)] (last_toks p y) = last_value m p y).
  { destruct p as [t|w a c sp]; [apply fill_lits|]. destruct w; try apply fill_lits.
    cbn [last_toks last_value Format.fill_toks f_name f_conv f_spec the_field]. rewrite first_which, rest_which.
    destruct Hp as (_ & _ & Hs). rewrite (Hex sp Hs). change (lookup [(L "match", m)] (which_name Match)) with (Ok m).
    cbn [bind]. destruct (show _ _ _ _); cbn; [now rewrite app_nil_r|easy]. }
  rewrite Q. destruct (last_value m p y); cbn; [|easy]. now destruct (mapM _ (combine ps l)).
Qed.

Theorem two_passes q sq m ps x : Forall part_ok ps -> tame obj_str show_other q sq ps ->
  ((do d <- safe_format (given q sq) (written ps); str_format [(L "match", m)] d) = Ok x
   <-> stands_for obj_str show_other q sq m ps x).
Proof.
  intros H Ht. rewrite safe_written by exact H.
  assert (Hstep : forall l, mapM (mid q sq) ps = Ok l ->
     str_format [(L "match", m)] (concat l) = do r <- mapM (fun '(p, y) => last_value m p y) (combine ps l); Ok (concat r)).
  { intros l E. assert (F := mid_ok q sq ps l H Ht E). unfold Format.str_format. cbn [Format.build].
    rewrite (parse_ok _ _ (parses_last ps l q sq F)). rewrite (fill_last _ m ps l q sq) by (try exact F; intros s Hs; exact (expand_text false 0 _ s Hs)).
    destruct (mapM _ (combine ps l)); reflexivity. }
  split.
  - destruct (mapM (mid q sq) ps) as [l|] eqn:E; [|discriminate]. cbn [bind]. rewrite (Hstep l eq_refl).
    assert (F := mid_ok q sq ps l H Ht E). clear E Hstep H Ht.
    destruct (mapM _ (combine ps l)) as [r|] eqn:Er; [|discriminate]. cbn. intros [= <-]. exists r. split; [|reflexivity].
    revert r Er. induction F as [|p y ps l (Hp & E & _) F IH]; intros r Er; cbn in Er; [injection Er as <-; constructor|].
    destruct (last_value m p y) as [z|] eqn:Ez; [|discriminate]. cbn in Er.
    destruct (mapM _ (combine ps l)) as [r'|]; [|discriminate]. injection Er as <-. constructor; [|now apply IH].
    destruct p as [t|w a c sp]; cbn in *; [congruence|]. destruct w; cbn in *; unfold acc_text in *; congruence.
  - intros (r & F & ->).
    assert (Hm : exists l, mapM (mid q sq) ps = Ok l /\ mapM (fun '(p, y) => last_value m p y) (combine ps l) = Ok r).
    { clear -F. induction F as [|p z ps r Hz F IH]; [exists []; easy|]. destruct IH as (l & E1 & E2).
      destruct p as [t|w a c sp]; [|destruct w]; cbn [mapM].
      - exists (doubled t :: l). cbn in *. rewrite E1. cbn. rewrite E2. injection Hz as <-. easy.
      - exists (z :: l). cbn [mid]. change (part_value q sq (FVal VNone) (Field Query a c sp)) with (part_value q sq m (Field Query a c sp)).
        rewrite Hz, E1. cbn. now rewrite E2.
      - exists (z :: l). cbn [mid]. change (part_value q sq (FVal VNone) (Field Subquery a c sp)) with (part_value q sq m (Field Subquery a c sp)).
        rewrite Hz, E1. cbn. now rewrite E2.
      - exists (written_part (Field Match a c sp) :: l). cbn [mid]. rewrite E1. cbn [bind combine mapM last_value].
        cbn in Hz. unfold acc_text. rewrite Hz. cbn. now rewrite E2. }
    destruct Hm as (l & E1 & E2). rewrite E1. cbn [bind]. rewrite (Hstep l E1), E2. reflexivity.
Qed.

(* ---------- plain descriptions ---------- *)

Lemma plain_tame q sq ps : Forall plain_part ps -> no_braces q -> no_braces sq -> tame obj_str show_other q sq ps.
Proof.
  intros H Hq Hs w l c sp x Hin Hw. rewrite Forall_forall in H. destruct (H _ Hin) as (-> & Hc & ->). cbn.
  assert (plain_conv c = true) as -> by (destruct Hc as [->| ->]; reflexivity).
  intros [= <-]. destruct w; [exact Hq|exact Hs|easy].
Qed.
Lemma default_ok a : Forall part_ok (default_desc a).
Proof.
  assert (F : forall w c, (c = None \/ c = Some (Ch "s")) -> part_ok (Field w [] c [])).
  { intros w c Hc. split; [constructor|]. split; [|split; easy]. intros d ->. destruct Hc as [[=]|[= ->]]. now left. }
  assert (T : part_ok (Text TAB)) by exact I.
  destruct a; repeat (apply Forall_cons; [first [exact T|apply F; auto]|]); apply Forall_nil.
Qed.
Lemma default_plain a : Forall plain_part (default_desc a).
Proof. destruct a; repeat (apply Forall_cons; [cbn; auto|]); apply Forall_nil. Qed.
Lemma default_written a : written (default_desc a) = match a with Tally => DESC2 | _ => DESC1 end.
Proof. destruct a; reflexivity. Qed.
Lemma default_formats a q sq : exists d, safe_format (given q sq) (written (default_desc a)) = Ok d.
Proof.
  rewrite safe_written by apply default_ok. destruct a; cbn; eauto.
Qed.

(* ---------- the agenda ---------- *)

Notation make_agenda := (make_agenda obj_str show_other). Notation make_job := (make_job obj_str show_other).
Notation fill := (fill obj_str show_other).

Definition agendum_of (t : task) : res agendum :=
  do d <- safe_format (given (t_query t) (t_sub t)) (written (desc_of t));
  Ok {| a_action := t_action t; a_query := t_query t; a_sub := t_sub t; a_desc := d |}.
Definition sub_ok (t : task) : Prop := t_action t <> Tally -> t_sub t = [].

Lemma agenda_step t done args : sub_ok t ->
  make_agenda done (args_of t ++ args) = do a <- agendum_of t; make_agenda (a :: done) args.
Proof.
  intros Hs. unfold agendum_of, args_of, desc_of. cbn [app].
  assert (E : forall rest, make_agenda done (match t_action t with
      | Find => GFind (t_query t) | Tally => GTally (t_query t) (t_sub t)
      | Unique => GUnique (t_query t) | Count => GCount (t_query t) end :: rest)
    = do d <- safe_format (given (t_query t) (t_sub t)) (written (default_desc (t_action t)));
      make_agenda ({| a_action := t_action t; a_query := t_query t; a_sub := t_sub t; a_desc := d |} :: done) rest).
  { intros rest. rewrite default_written. unfold sub_ok in Hs. destruct (t_action t);
      (try rewrite (Hs ltac:(discriminate))); cbn [Format.make_agenda]; unfold new_agendum;
      (destruct (safe_format _ _); reflexivity). }
  destruct (t_desc t) as [ps|]; cbn [app]; rewrite E.
  - destruct (default_formats (t_action t) (t_query t) (t_sub t)) as [d ->]. cbn [bind Format.make_agenda a_query a_sub a_action].
    destruct (safe_format _ (written ps)); reflexivity.
  - destruct (safe_format _ _); reflexivity.
Qed.
Lemma agenda_tasks ts : Forall sub_ok ts -> forall done,
  make_agenda done (flat_map args_of ts) = do l <- mapM agendum_of ts; Ok (rev done ++ l).
Proof.
  induction 1 as [|t ts Ht H IH]; intros done; cbn [flat_map mapM].
  - cbn. now rewrite app_nil_r.
  - rewrite agenda_step by exact Ht. destruct (agendum_of t) as [a|]; [|easy]. cbn [bind]. rewrite IH.
    destruct (mapM agendum_of ts); [|easy]. cbn. now rewrite <- app_assoc.
Qed.

Context (findall : str -> res (list pyval)) (findsub : pyval -> str -> res (list pyval)).
Notation task_ok := (task_ok obj_str show_other). Notation shown := (shown obj_str show_other).
Notation task_output := (task_output obj_str show_other findall findsub).
Notation find_pattern := (find_pattern obj_str show_other findall).
Notation tally_pattern := (tally_pattern obj_str show_other findall findsub).
Notation unique_pattern := (unique_pattern obj_str show_other findall).
Notation count_pattern := (count_pattern obj_str show_other findall).
Notation process_agenda := (process_agenda obj_str show_other findall findsub).

Definition step1 (a : agendum) : res (list str * list (nat * str)) :=
  match a_action a with
  | Find => do p <- find_pattern a; Ok (p, [])
  | Tally => do r <- tally_pattern a; Ok ([], r)
  | Unique => do r <- unique_pattern a; Ok ([], r)
  | Count => do r <- count_pattern a; Ok ([], r)
  end.
Lemma process_cons a l : process_agenda (a :: l) = do (p, r) <- step1 a; do (p', r') <- process_agenda l; Ok (p ++ p', r ++ r').
Proof. reflexivity. Qed.

(* an agendum made for a task fills in what its description stands for; if the
   description cannot be made, nothing stands for anything *)
Lemma fill_task t a : task_ok t -> agendum_of t = Ok a -> forall m x, fill a m = Ok x <-> shown t m x.
Proof.
  intros (Hp & Ht & _) E m x. unfold agendum_of in E. assert (T := two_passes (t_query t) (t_sub t) m (desc_of t) x Hp Ht).
  destruct (safe_format _ _) as [d|]; [|discriminate]. injection E as <-. cbn [bind] in T. unfold Format.fill. cbn [a_desc]. exact T.
Qed.
Lemma mapM_iff {A B} (f : A -> res B) (R : A -> B -> Prop) l : (forall a b, f a = Ok b <-> R a b) ->
  forall r, mapM f l = Ok r <-> Forall2 R l r.
Proof.
  intros H. induction l as [|a l IH]; intros r; cbn.
  - split; [intros [= <-]; constructor|]. inversion 1. reflexivity.
  - split.
    + destruct (f a) as [b|] eqn:E; [|discriminate]. cbn. destruct (mapM f l) as [r'|]; [|discriminate]. cbn. intros [= <-].
      constructor; [now apply H|now apply IH].
    + inversion 1 as [|? b ? r' Hb Hr]; subst. apply H in Hb. apply IH in Hr. rewrite Hb. cbn. rewrite Hr. reflexivity.
Qed.
Lemma step_task t a : task_ok t -> agendum_of t = Ok a -> forall out, step1 a = Ok out <-> task_output t out.
Proof.
  intros Hok E out. assert (F := fill_task t a Hok E).
  assert (Ea : a_action a = t_action t /\ a_query a = t_query t /\ a_sub a = t_sub t).
  { unfold agendum_of in E. destruct (safe_format _ _); [|discriminate]. injection E as <-. auto. }
  destruct Ea as (Ea & Eq & Es). unfold step1, SpecFormat.task_output. rewrite Ea.
  destruct (t_action t).
  - unfold Format.find_pattern. rewrite Eq. destruct (findall (t_query t)) as [ms|]; cbn [bind].
    + assert (M : forall r, mapM (fun m => do x <- fill a (FVal m); Ok (L "  " ++ x)) ms = Ok r
                  <-> Forall2 (fun m line => exists x, shown t (FVal m) x /\ line = L "  " ++ x) ms r).
      { apply mapM_iff. intros m b. destruct (fill a (FVal m)) as [y|] eqn:Ey; cbn [bind].
        - split.
          + intros Q. exists y. split; [now apply F|congruence].
          + intros (x & Hx & ->). apply F in Hx. congruence.
        - split; [discriminate|]. intros (x & Hx & ->). apply F in Hx. congruence. }
      destruct (mapM _ ms) as [p|]; cbn [bind].
      * split; [intros [= <-]; exists ms; split; [easy|]; split; [easy|]; now apply M|].
        intros (ms' & [= <-] & H1 & H2). apply M in H2. destruct out as [o1 o2]. cbn in *. congruence.
      * split; [discriminate|]. intros (ms' & [= <-] & H1 & H2). apply M in H2. discriminate.
    + split; [discriminate|]. intros (ms & H & _). discriminate.
  - unfold Format.tally_pattern. rewrite Eq, Es. destruct (tally _ _) as [c|]; cbn [bind].
    + assert (M : forall r, mapM (fun '(g, n) => do x <- fill a (FTuple g); Ok (n, x)) c = Ok r
                  <-> Forall2 (fun gn nx => fst nx = snd gn /\ shown t (FTuple (fst gn)) (snd nx)) c r).
      { apply mapM_iff. intros [g n] [n' b]. cbn [fst snd]. destruct (fill a (FTuple g)) as [y|] eqn:Ey; cbn [bind].
        - split.
          + intros Q. injection Q as <- <-. split; [easy|now apply F].
          + intros [-> Hx]. apply F in Hx. congruence.
        - split; [discriminate|]. intros [-> Hx]. apply F in Hx. congruence. }
      destruct (mapM _ c) as [p|]; cbn [bind].
      * split; [intros [= <-]; exists c; split; [easy|]; split; [easy|]; now apply M|].
        intros (c' & [= <-] & H1 & H2). apply M in H2. destruct out as [o1 o2]. cbn in *. congruence.
      * split; [discriminate|]. intros (c' & [= <-] & H1 & H2). apply M in H2. discriminate.
    + split; [discriminate|]. intros (c & H & _). discriminate.
  - unfold Format.unique_pattern. rewrite Eq. destruct (unique _) as [n|]; cbn [bind].
    + destruct (fill a (FVal (VStr []))) as [y|] eqn:Ey; cbn [bind].
      * split; [intros [= <-]; exists n, y; split; [easy|]; split; [now apply F|easy]|].
        intros (n' & x & [= <-] & Hx & ->). apply F in Hx. congruence.
      * split; [discriminate|]. intros (n' & x & _ & Hx & _). apply F in Hx. congruence.
    + split; [discriminate|]. intros (n & x & H & _). discriminate.
  - unfold Format.count_pattern, count. rewrite Eq. destruct (findall (t_query t)) as [ms|]; cbn [bind].
    + destruct (fill a (FVal (VStr []))) as [y|] eqn:Ey; cbn [bind].
      * split; [intros [= <-]; exists ms, y; split; [easy|]; split; [now apply F|easy]|].
        intros (n' & x & [= <-] & Hx & ->). apply F in Hx. congruence.
      * split; [discriminate|]. intros (n' & x & _ & Hx & _). apply F in Hx. congruence.
    + split; [discriminate|]. intros (n & x & H & _). discriminate.
Qed.

(* ---------- counts ---------- *)

Lemma max_len_ge rs n x : In (n, x) rs -> length (dec_nat n) <= max_len rs.
Proof.
  unfold max_len. induction rs as [|[n' x'] rs IH]; [easy|]. cbn [In map fold_right fst]. intros [Q|H]; [injection Q as -> ->; lia|]. specialize (IH H). lia.
Qed.
Lemma max_len_in rs : rs <> [] -> exists n x, In (n, x) rs /\ length (dec_nat n) = max_len rs.
Proof.
  unfold max_len. induction rs as [|[n x] rs IH]; [easy|]. intros _. destruct rs as [|r rs]; cbn [map fold_right fst].
  - exists n, x. split; [now left|]. lia.
  - destruct IH as (n' & x' & Hin & E); [easy|]. cbn [map fold_right] in E.
    destruct (Nat.max_spec (length (dec_nat n)) (Nat.max (length (dec_nat (fst r))) (fold_right Nat.max 0 (map (fun r0 => length (dec_nat (fst r0))) rs)))) as [[_ M]|[_ M]]; rewrite M.
    + exists n', x'. split; [now right|exact E].
    + exists n, x. split; [now left|reflexivity].
Qed.
Lemma column_print rs lines : column rs lines <-> lines = print_results rs.
Proof.
  split.
  - intros (w & H1 & H2 & H3). assert (Hw : rs <> [] -> w = max_len rs).
    { intros Hne. destruct (H2 Hne) as (n & x & Hin & <-). destruct (max_len_in rs Hne) as (n' & x' & Hin' & E).
      assert (A := max_len_ge _ _ _ Hin). specialize (H1 _ _ Hin'). lia. }
    unfold print_results. assert (G : rs = [] \/ w = max_len rs) by (destruct rs; [now left|right; now apply Hw]).
    destruct G as [->|<-]; [inversion H3; reflexivity|]. clear H1 H2 Hw.
    induction H3 as [|[n x] line rs lines (k & Hk & ->) H IH]; [easy|]. cbn [map]. rewrite <- IH. f_equal.
    cbn [fst snd] in *. unfold rjust. rewrite <- !app_assoc. replace (w - length (dec_nat n)) with k by lia. reflexivity.
  - intros ->. exists (max_len rs). split; [intros n x; apply max_len_ge|]. split; [apply max_len_in|]. unfold print_results.
    assert (H : forall n x, In (n, x) rs -> length (dec_nat n) <= max_len rs) by (intros n x; apply max_len_ge).
    revert H. generalize (max_len rs). intros w H. induction rs as [|[n x] rs IH]; [constructor|]. cbn [map]. constructor.
    + exists (w - length (dec_nat n)). cbn [fst snd]. split; [specialize (H n x (or_introl eq_refl)); lia|].
      unfold rjust. rewrite <- !app_assoc. reflexivity.
    + apply IH. intros n' x' Hin. apply (H n' x'). now right.
Qed.

(* ---------- a whole run over one file ---------- *)

Notation run1 := (query_run obj_str show_other findall findsub).

Lemma process_tasks ts : Forall task_ok ts -> forall l, mapM agendum_of ts = Ok l ->
  forall p r, process_agenda l = Ok (p, r) <->
  exists outs, Forall2 task_output ts outs /\ p = concat (map fst outs) /\ r = concat (map snd outs).
Proof.
  induction 1 as [|t ts Ht H IH]; intros l El p r; cbn in El.
  - injection El as <-. cbn. split; [intros [= <- <-]; exists []; auto|]. intros (outs & F & -> & ->). inversion F. reflexivity.
  - destruct (agendum_of t) as [a|] eqn:Ea; [|discriminate]. cbn in El. destruct (mapM agendum_of ts) as [l'|]; [|discriminate].
    cbn in El. injection El as <-. rewrite process_cons. assert (S := step_task t a Ht Ea). specialize (IH l' eq_refl). split.
    + destruct (step1 a) as [[p0 r0]|] eqn:E1; cbn [bind]; [|discriminate].
      destruct (process_agenda l') as [[p1 r1]|] eqn:E2; cbn [bind]; [|discriminate]. intros [= <- <-].
      destruct (proj1 (IH p1 r1) eq_refl) as (outs & F & -> & ->). exists ((p0, r0) :: outs). split; [|easy].
      constructor; [now apply S|exact F].
    + intros (outs & F & -> & ->). inversion F as [|? [p0 r0] ? outs' F1 F2]; subst. apply S in F1. rewrite F1. cbn [bind].
      assert (Q : process_agenda l' = Ok (concat (map fst outs'), concat (map snd outs'))) by (apply IH; exists outs'; auto).
      rewrite Q. reflexivity.
Qed.

Lemma run_output_ ts lines : ts <> [] -> Forall task_ok ts ->
  (run1 (flat_map args_of ts) = Ok lines <->
   (forall t, In t ts -> exists a, agendum_of t = Ok a) /\
   exists outs col, Forall2 task_output ts outs /\ column (concat (map snd outs)) col
   /\ lines = concat (map fst outs) ++ col ++ [[]]).
Proof.
  intros Hne H. unfold query_run. assert (Hs : Forall sub_ok ts) by (eapply Forall_impl; [|exact H]; intros t (_ & _ & Q); exact Q).
  assert (Ej : make_job (flat_map args_of ts) = mapM agendum_of ts).
  { destruct ts as [|t ts]; [easy|]. unfold Format.make_job. change (flat_map args_of (t :: ts)) with (args_of t ++ flat_map args_of ts) at 1.
    unfold args_of at 1. cbn [app]. rewrite (agenda_tasks (t :: ts) Hs []). cbn [rev app]. now destruct (mapM _ _). }
  rewrite Ej. split.
  - destruct (mapM agendum_of ts) as [l|] eqn:El; cbn [bind]; [|discriminate]. unfold query_file.
    destruct (process_agenda l) as [[p r]|] eqn:Ep; cbn [bind]; [|discriminate]. intros [= <-].
    apply (process_tasks ts H l El) in Ep as (outs & F & -> & ->). split.
    + clear -El. revert l El. induction ts as [|t ts IH]; intros l El; [easy|]. cbn in El.
      destruct (agendum_of t) as [a|] eqn:Ea; [|discriminate]. cbn in El. destruct (mapM agendum_of ts) as [l'|] eqn:El'; [|discriminate].
      intros u [<-|Hu]; [eauto|]. eapply IH; eauto.
    + exists outs, (print_results (concat (map snd outs))). split; [exact F|]. split; [now apply column_print|reflexivity].
  - intros (Ha & outs & col & F & Hc & ->). apply column_print in Hc as ->.
    destruct (mapM agendum_of ts) as [l|] eqn:El.
    + cbn [bind]. unfold query_file. assert (Q : process_agenda l = Ok (concat (map fst outs), concat (map snd outs)))
        by (apply (process_tasks ts H l El); exists outs; auto).
      rewrite Q. reflexivity.
    + exfalso. clear -El Ha. revert El. induction ts as [|t ts IH]; [discriminate|]. cbn.
      destruct (Ha t (or_introl eq_refl)) as [a ->]. cbn. destruct (mapM agendum_of ts); [discriminate|].
      intros [= ->]. apply IH; [|reflexivity]. intros u Hu. apply Ha. now right.
Qed.

Lemma ready_agendum t : Forall part_ok (desc_of t) -> ((exists a, agendum_of t = Ok a) <-> ready obj_str show_other t).
Proof.
  intros H. unfold agendum_of, ready. rewrite safe_written by exact H.
  generalize (desc_of t). intros ps.
  assert (E : (exists l, mapM (mid (t_query t) (t_sub t)) ps = Ok l) <-> Forall (fun p => exists y, mid (t_query t) (t_sub t) p = Ok y) ps).
  { induction ps as [|p ps IH]; cbn; [split; [constructor|eauto]|]. split.
    - intros (l & El). destruct (mid _ _ p) as [y|] eqn:Ey; [|discriminate]. cbn in El.
      destruct (mapM _ ps) as [l'|]; [|discriminate]. constructor; [eauto|]. apply IH. eauto.
    - inversion 1 as [|? ? [y Ey] Hr]; subst. apply IH in Hr as [l ->]. rewrite Ey. cbn. eauto. }
  transitivity (exists l, mapM (mid (t_query t) (t_sub t)) ps = Ok l).
  { split; [intros [a Ea]|intros [l ->]; cbn; eauto]. destruct (mapM _ ps); [eauto|discriminate]. }
  rewrite E, Forall_forall. split.
  - intros Q w l c sp Hin Hw. destruct (Q _ Hin) as [y Ey]. exists y. destruct w; [exact Ey|exact Ey|easy].
  - intros Q p Hin. destruct p as [x|w l c sp]; [cbn; eauto|]. destruct w; [apply (Q _ _ _ _ Hin); easy|apply (Q _ _ _ _ Hin); easy|cbn; eauto].
Qed.
Theorem run_output ts lines : ts <> [] -> Forall task_ok ts ->
  (run1 (flat_map args_of ts) = Ok lines <->
   Forall (ready obj_str show_other) ts /\
   exists outs col, Forall2 task_output ts outs /\ column (concat (map snd outs)) col
   /\ lines = concat (map fst outs) ++ col ++ [[]]).
Proof.
  intros Hne H. rewrite run_output_ by easy. rewrite (Forall_forall (ready obj_str show_other)).
  rewrite Forall_forall in H. split; intros [Q R]; (split; [|exact R]); intros t Ht; apply (ready_agendum t (proj1 (H t Ht))); now apply Q.
Qed.

Lemma plain_shown t m : Forall plain_part (desc_of t) -> exists x, stands_for obj_str show_other (t_query t) (t_sub t) m (desc_of t) x.
Proof.
  unfold stands_for. generalize (desc_of t). induction 1 as [|p ps Hp _ (x & l & F & ->)]; [exists [], []; split; [constructor|reflexivity]|].
  assert (exists y, part_value (t_query t) (t_sub t) m p = Ok y) as [y Ey].
  { destruct p as [s|w a c sp]; [cbn; eauto|]. destruct Hp as (-> & Hc & ->). cbn.
    assert (plain_conv c = true) as -> by (destruct Hc as [->| ->]; reflexivity). eauto. }
  exists (y ++ concat l), (y :: l). split; [now constructor|reflexivity].
Qed.
Lemma plain_task_ok t : plain_task t -> task_ok t /\ ready obj_str show_other t.
Proof.
  intros (H1 & H2 & H3 & H4 & H5). split; [split; [exact H1|split; [now apply plain_tame|exact H5]]|].
  intros w l c sp Hin _. rewrite Forall_forall in H2. destruct (H2 _ Hin) as (-> & Hc & ->). cbn.
  assert (plain_conv c = true) as -> by (destruct Hc as [->| ->]; reflexivity). eauto.
Qed.
Lemma ex_forall2 {A B} (R : A -> B -> Prop) l : (forall a, In a l -> exists b, R a b) -> exists k, Forall2 R l k.
Proof.
  induction l as [|a l IH]; intros H; [exists []; constructor|].
  destruct (H a (or_introl eq_refl)) as [b Hb]. destruct IH as [k Hk]; [intros; apply H; now right|].
  exists (b :: k). now constructor.
Qed.
Theorem plain_runs ts : ts <> [] -> Forall plain_task ts ->
  ((exists lines, run1 (flat_map args_of ts) = Ok lines) <-> Forall (answered findall findsub) ts).
Proof.
  intros Hne H.
  assert (H1 : Forall task_ok ts) by (eapply Forall_impl; [|exact H]; intros t Ht; now apply plain_task_ok).
  assert (H2 : Forall (ready obj_str show_other) ts) by (eapply Forall_impl; [|exact H]; intros t Ht; now apply plain_task_ok).
  assert (P : forall t, In t ts -> Forall plain_part (desc_of t)) by (rewrite Forall_forall in H; intros t Ht; apply (H t Ht)).
  split.
  - intros [lines E]. apply run_output in E as (_ & outs & col & F & _); [|easy|easy].
    rewrite Forall_forall. intros t Ht. clear -F Ht. induction F as [|u o ts outs Q F IH]; [easy|].
    destruct Ht as [->|Ht]; [|now apply IH]. unfold SpecFormat.task_output in Q. unfold answered.
    destruct (t_action t).
    + destruct Q as (ms & E & _). eauto.
    + destruct Q as (ms & E & _). eauto.
    + destruct Q as (n & x & E & _). eauto.
    + destruct Q as (ms & x & E & _). eauto.
  - intros A. destruct (ex_forall2 task_output ts) as [outs F].
    + intros t Ht. rewrite Forall_forall in A. specialize (A t Ht). specialize (P t Ht).
      assert (S : forall m, exists x, shown t m x) by (intros m; now apply plain_shown).
      unfold SpecFormat.task_output. unfold answered in A. destruct (t_action t).
      * destruct A as [ms E]. destruct (ex_forall2 (fun m line => exists x, shown t (FVal m) x /\ line = L "  " ++ x) ms) as [o Ho].
        { intros m _. destruct (S (FVal m)) as [x Hx]. eauto. }
        exists (o, []). eauto.
      * destruct A as [c E]. destruct (ex_forall2 (fun (gn : list pyval * nat) (nx : nat * str) => fst nx = snd gn /\ shown t (FTuple (fst gn)) (snd nx)) c) as [o Ho].
        { intros [g n] _. destruct (S (FTuple g)) as [x Hx]. exists (n, x). auto. }
        exists ([], o). eauto.
      * destruct A as [ms E]. destruct (S (FVal (VStr []))) as [x Hx]. eexists ([], [(_, x)]). eexists _, x.
        split; [|split; [exact Hx|reflexivity]]. exact E.
      * destruct A as [ms E]. destruct (S (FVal (VStr []))) as [x Hx]. exists ([], [(length ms, x)]). exists ms, x. auto.
    + exists (concat (map fst outs) ++ print_results (concat (map snd outs)) ++ [[]]).
      apply run_output; [easy|easy|]. split; [exact H2|]. exists outs, (print_results (concat (map snd outs))).
      split; [exact F|]. split; [now apply column_print|reflexivity].
Qed.
End P.
