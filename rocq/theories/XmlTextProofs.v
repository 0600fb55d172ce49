(* Proofs about documents as texts: what is written is read as the same elements. *)
From Verif Require Import PyStr PyStrFacts PySort Ref SpecRef Model SpecModel XmlStd Xml SpecXml XmlText SpecXmlText.
From Verif Require Import LoadProofs XmlProofs.
Require Import Lia.

(* ---------- ends of lines ---------- *)

Lemma eol_plain a r : ~ In 13%N a -> eol (a ++ r) = a ++ eol r.
Proof.
  induction a as [|c a IH]; [easy|]. cbn. intros H. destruct (N.eqb_spec c 13); [destruct H; now left|]. rewrite IH; auto.
Qed.
Lemma eol_split n : forall s r c, length s <= n -> c <> 10%N -> eol (s ++ c :: r) = eol s ++ eol (c :: r).
Proof.
  induction n as [|n IH]; intros [|x s] r c Hn Hc; cbn [length] in Hn; try lia; try easy.
  change ((x :: s) ++ c :: r) with (x :: (s ++ c :: r)). cbn [eol]. destruct (N.eqb_spec x 13) as [->|]; [|cbn [app]; f_equal; apply IH; auto; lia].
  destruct s as [|y s]; cbn [app].
  - destruct (N.eqb_spec c 10); [easy|]. reflexivity.
  - destruct (N.eqb_spec y 10); cbn [app]; f_equal; [cbn [length] in Hn; apply IH; auto; lia|]. change (y :: s ++ c :: r) with ((y :: s) ++ c :: r). apply IH; auto. cbn [length] in *. lia.
Qed.
Lemma eol_eol n : forall s, length s <= n -> ~ In 13%N (eol s).
Proof.
  induction n as [|n IH]; intros [|c s] Hn; cbn [length] in Hn; try lia; [cbn; tauto..|]. cbn [eol]. destruct (N.eqb_spec c 13).
  - destruct s as [|c' s]; [cbn; intros [|[]]; discriminate|]. destruct (N.eqb c' 10); cbn [In]; intros [|H]; try discriminate; cbn [length] in Hn; revert H; apply IH; cbn [length]; lia.
  - cbn [In]. intros [|H]; [easy|]. revert H. apply IH. lia.
Qed.
Lemma eol_no_cr s : ~ In 13%N (eol s).
Proof. now apply (eol_eol (length s)). Qed.
Lemma eol_idem s : eol (eol s) = eol s.
Proof. pose proof (eol_plain (eol s) [] (eol_no_cr s)) as H. now rewrite !app_nil_r in H. Qed.
Lemma eol_chars n : forall s, length s <= n -> xml_chars s = true -> xml_chars (eol s) = true.
Proof.
  unfold xml_chars. induction n as [|n IH]; intros [|c s] Hn H; cbn [length] in Hn; try lia; try easy. cbn [eol forallb] in *. apply andb_prop in H as [Hc H]. destruct (N.eqb c 13).
  - destruct s as [|c' s]; [reflexivity|]. cbn [forallb length] in *. pose proof H as H'. apply andb_prop in H' as [_ H'].
    destruct (N.eqb c' 10); cbn [forallb]; (rewrite IH; [reflexivity|cbn [length]; lia|easy]).
  - cbn [forallb]. rewrite Hc. apply IH; [lia|easy].
Qed.
Lemma eol_nil s : eol s = [] -> s = [].
Proof. destruct s as [|c s]; [easy|]. cbn [eol]. destruct (N.eqb c 13); [|easy]. destruct s as [|c' s]; [easy|]. now destruct (N.eqb c' 10). Qed.
Lemma escape_no_cr s : ~ In 13%N s -> ~ In 13%N (escape_cdata s).
Proof.
  unfold escape_cdata. rewrite in_flat_map. intros H (c & Hc & Hi). unfold escape_cdata1 in Hi.
  destruct (N.eqb c (Ch "&")); [vm_compute in Hi; repeat destruct Hi as [Hi|Hi]; discriminate || easy|].
  destruct (N.eqb c (Ch "<")); [vm_compute in Hi; repeat destruct Hi as [Hi|Hi]; discriminate || easy|].
  destruct (N.eqb c (Ch ">")); [vm_compute in Hi; repeat destruct Hi as [Hi|Hi]; discriminate || easy|].
  destruct Hi as [->|[]]. auto.
Qed.
Lemma attrib_no_cr s : ~ In 13%N (escape_attrib s).
Proof.
  unfold escape_attrib. rewrite in_flat_map. intros (c & Hc & Hi). unfold escape_attrib1 in Hi.
  destruct (N.eqb c 34); [vm_compute in Hi; repeat destruct Hi as [Hi|Hi]; discriminate || easy|].
  destruct (N.eqb_spec c 13); [vm_compute in Hi; repeat destruct Hi as [Hi|Hi]; discriminate || easy|].
  destruct (N.eqb c 10); [vm_compute in Hi; repeat destruct Hi as [Hi|Hi]; discriminate || easy|].
  destruct (N.eqb c 9); [vm_compute in Hi; repeat destruct Hi as [Hi|Hi]; discriminate || easy|].
  apply (escape_no_cr [c]); [now intros [|[]]|]. cbn. now rewrite app_nil_r.
Qed.
Lemma escape_eol n : forall s, length s <= n -> eol (escape_cdata s) = escape_cdata (eol s).
Proof.
  induction n as [|n IH]; intros [|c s] Hn; cbn [length] in Hn; try lia; try easy.
  change (escape_cdata (c :: s)) with (escape_cdata1 c ++ escape_cdata s).
  destruct (N.eqb_spec c 13) as [->|N].
  - change (escape_cdata1 13) with [13%N]. destruct s as [|c' s]; [reflexivity|].
    destruct (N.eqb_spec c' 10) as [->|N'].
    + change (eol (13%N :: 10%N :: s)) with (10%N :: eol s). change (escape_cdata (10%N :: s)) with (10%N :: escape_cdata s). cbn [app]. change (eol (13%N :: 10%N :: escape_cdata s)) with (10%N :: eol (escape_cdata s)).
      rewrite IH by (cbn [length] in Hn; lia). reflexivity.
    + assert (E : exists x t, escape_cdata (c' :: s) = x :: t /\ x <> 10%N).
      { change (escape_cdata (c' :: s)) with (escape_cdata1 c' ++ escape_cdata s). unfold escape_cdata1.
        destruct (N.eqb c' (Ch "&")); [eexists; eexists; split; [reflexivity|discriminate]|]. destruct (N.eqb c' (Ch "<")); [eexists; eexists; split; [reflexivity|discriminate]|].
        destruct (N.eqb c' (Ch ">")); [eexists; eexists; split; [reflexivity|discriminate]|]. eexists; eexists; split; [reflexivity|easy]. }
      destruct E as (x & t & E & Hx). assert (E1 : eol ([13%N] ++ escape_cdata (c' :: s)) = 10%N :: eol (escape_cdata (c' :: s))).
      { rewrite E. cbn [app eol]. rewrite N.eqb_refl. destruct (N.eqb_spec x 10); easy. }
      rewrite E1, IH by (cbn [length] in *; lia). cbn [eol]. rewrite N.eqb_refl. destruct (N.eqb_spec c' 10); easy.
  - rewrite eol_plain.
    + rewrite IH by lia. cbn [eol]. destruct (N.eqb_spec c 13); [easy|]. reflexivity.
    + intros H. apply (escape_no_cr [c]); [now intros [|[]]|]. cbn. now rewrite app_nil_r.
Qed.

Definition norm_text (t : option str) : option str := opt_text (eol (text_of t)).
Fixpoint norm (e : xelem) : xelem :=
  match e with XElem tag d text tail kids => XElem tag d (norm_text text) (norm_text tail) (map norm kids) end.
Lemma text_of_opt s : text_of (opt_text s) = s.
Proof. now destruct s. Qed.

(* ---------- names and attributes without carriage returns ---------- *)

Definition name_like (n : str) : Prop := n <> [] /\ forallb tag_char n = true.
Inductive writable : xelem -> Prop :=
| Writable tag d text tail kids : name_like tag -> NoDup (map fst d) -> (forall k v, In (k, v) d -> name_like k /\ xml_chars v = true) ->
    xml_chars (text_of text) = true -> xml_chars (text_of tail) = true -> Forall writable kids -> writable (XElem tag d text tail kids).
Lemma name_no_cr n : forallb tag_char n = true -> ~ In 13%N n.
Proof. rewrite forallb_forall. intros H Hi. now apply H in Hi. Qed.
Lemma tag_no_cr d : (forall k v, In (k, v) d -> name_like k /\ xml_chars v = true) -> ~ In 13%N (flat_map write_attr d).
Proof.
  rewrite in_flat_map. intros H ([k v] & Hk & Hi). unfold write_attr in Hi. cbn [fst snd] in Hi. destruct (H k v Hk) as [[_ Hn] _].
  destruct Hi as [Hi|Hi]; [discriminate|]. rewrite in_app_iff in Hi. destruct Hi as [Hi|Hi]; [now apply (name_no_cr k)|].
  destruct Hi as [Hi|[Hi|Hi]]; try discriminate. rewrite in_app_iff in Hi. destruct Hi as [Hi|[Hi|[]]]; [|discriminate]. now apply (attrib_no_cr v).
Qed.
Definition starts (r : str) : Prop := r = [] \/ exists r', r = Ch "<" :: r'.
Lemma eol_starts s r : starts r -> eol (escape_cdata s ++ r) = escape_cdata (eol s) ++ eol r.
Proof.
  intros [->|(r' & ->)]; [rewrite !app_nil_r; now apply (escape_eol (length s))|]. rewrite (eol_split (length (escape_cdata s))) by (easy || discriminate).
  now rewrite (escape_eol (length s)).
Qed.
Lemma write_starts e r : starts (write_elem e ++ r).
Proof. destruct e. right. cbn [write_elem app]. eauto. Qed.
Lemma writes_starts es r : starts r -> starts (flat_map write_elem es ++ r).
Proof. destruct es as [|e es]; [easy|]. intros _. cbn [flat_map]. rewrite <- app_assoc. apply write_starts. Qed.
Lemma slash_starts r : starts (L "</" ++ r).
Proof. right. exists (Ch "/" :: r). reflexivity. Qed.
Lemma short_norm t ks : is_short (norm_text t) (map norm ks) = is_short t ks.
Proof.
  unfold is_short, norm_text. rewrite text_of_opt. destruct (text_of t) as [|c s] eqn:E; [now destruct ks|].
  destruct (eol (c :: s)) eqn:E'; [now apply eol_nil in E'|easy].
Qed.
Lemma eol_write e : forall r, writable e -> starts r -> eol (write_elem e ++ r) = write_elem (norm e) ++ eol r.
Proof.
  induction e as [tag d text tail kids IH] using xelem_rec'. rewrite Forall_forall in IH. intros r Hw Hr. inversion_clear Hw as [? ? ? ? ? Ht _ Hd _ _ Hk]. cbn [write_elem norm].
  rewrite short_norm. unfold norm_text. rewrite !text_of_opt.
  assert (Ekids : forall r, starts r -> eol (flat_map write_elem kids ++ r) = flat_map write_elem (map norm kids) ++ eol r).
  { clear Hr r. revert Hk IH. clear. induction kids as [|k ks IHk]; intros Hk IH r Hr; [easy|]. cbn [flat_map map]. rewrite <- !app_assoc. inversion_clear Hk.
    rewrite IH; [|now left|easy|now apply writes_starts]. f_equal. apply IHk; auto. intros. apply IH; auto. now right. }
  assert (T : forall r, eol (Ch "<" :: tag ++ flat_map write_attr d ++ r) = Ch "<" :: tag ++ flat_map write_attr d ++ eol r).
  { intros r'. change (Ch "<" :: tag ++ flat_map write_attr d ++ r') with ([Ch "<"] ++ tag ++ flat_map write_attr d ++ r').
    rewrite eol_plain by (intros [|[]]; discriminate). destruct Ht as [_ Ht]. rewrite eol_plain by now apply name_no_cr. rewrite eol_plain by now apply tag_no_cr. reflexivity. }
  cbn [app]. rewrite <- !app_assoc. rewrite T. f_equal. f_equal. f_equal.
  destruct (is_short text kids).
  - rewrite eol_plain by (vm_compute; intuition discriminate). f_equal. now apply eol_starts.
  - cbn [app]. rewrite <- !app_assoc. change (eol (Ch ">" :: ?x)) with (Ch ">" :: eol x). f_equal.
    rewrite eol_starts by (apply writes_starts, slash_starts). f_equal. rewrite Ekids by apply slash_starts. f_equal.
    rewrite eol_plain by (vm_compute; intuition discriminate). f_equal. destruct Ht as [_ Ht]. rewrite eol_plain by now apply name_no_cr. f_equal.
    rewrite eol_plain by (vm_compute; intuition discriminate). f_equal. now apply eol_starts.
Qed.

(* ---------- reading names, text and attributes ---------- *)

Lemma take_name_app n c r : forallb tag_char n = true -> tag_char c = false -> take_name (n ++ c :: r) = (n, c :: r).
Proof.
  induction n as [|x n IH]; cbn; intros H Hc; [now rewrite Hc|]. apply andb_prop in H as [Hx H]. now rewrite Hx, IH.
Qed.
Lemma split1_at c p n : ~ In c p -> split1 c (p ++ c :: n) = Some (p, n).
Proof.
  induction p as [|x p IH]; cbn; intros H; [now rewrite N.eqb_refl|]. destruct (N.eqb_spec x c); [destruct H; now left|]. rewrite IH; auto.
Qed.
Lemma reference_at b c r : ~ In (Ch ";") b -> reference b = Ok c -> read_reference (b ++ Ch ";" :: r) = Ok (c, r).
Proof. intros H E. unfold read_reference. rewrite split1_at by easy. now rewrite E. Qed.
Lemma escape_cases (P : N -> str -> Prop) c : P (Ch "&") (L "&amp;") -> P (Ch "<") (L "&lt;") -> P (Ch ">") (L "&gt;") ->
  (c <> Ch "&" -> c <> Ch "<" -> c <> Ch ">" -> P c [c]) -> P c (escape_cdata1 c).
Proof.
  intros H1 H2 H3 H4. unfold escape_cdata1. destruct (N.eqb_spec c (Ch "&")) as [->|]; [easy|]. destruct (N.eqb_spec c (Ch "<")) as [->|]; [easy|].
  destruct (N.eqb_spec c (Ch ">")) as [->|]; auto.
Qed.
Lemma no_bracket s r : starts r -> startswith (L "]]>") (escape_cdata s ++ r) = false.
Proof.
  assert (Hr : forall p, p <> [] -> ~ startswith [Ch "<"] p = true -> starts r -> startswith p r = false).
  { intros [|x p] Hp Hx [->|(r' & ->)]; try easy. cbn. destruct (N.eqb_spec x (Ch "<")) as [->|]; [|easy]. destruct Hx. reflexivity. }
  assert (H1 : forall s, starts r -> startswith (L ">") (escape_cdata s ++ r) = false).
  { intros [|c t] H; [now apply Hr|]. change (escape_cdata (c :: t)) with (escape_cdata1 c ++ escape_cdata t). rewrite <- app_assoc. apply (escape_cases (fun _ x => startswith (L ">") (x ++ escape_cdata t ++ r) = false)); try reflexivity.
    intros _ _ Hc. change (startswith (L ">") ([c] ++ escape_cdata t ++ r)) with (N.eqb (Ch ">") c && true). destruct (N.eqb_spec (Ch ">") c); [subst; easy|easy]. }
  assert (H2 : forall s, starts r -> startswith (L "]>") (escape_cdata s ++ r) = false).
  { intros [|c t] H; [now apply Hr|]. change (escape_cdata (c :: t)) with (escape_cdata1 c ++ escape_cdata t). rewrite <- app_assoc. apply (escape_cases (fun _ x => startswith (L "]>") (x ++ escape_cdata t ++ r) = false)); try reflexivity.
    intros _ _ Hc. change (startswith (L "]>") ([c] ++ escape_cdata t ++ r)) with (N.eqb (Ch "]") c && startswith (L ">") (escape_cdata t ++ r)). rewrite H1 by easy. apply andb_false_r. }
  intros H. destruct s as [|c t]; [now apply Hr|]. change (escape_cdata (c :: t)) with (escape_cdata1 c ++ escape_cdata t). rewrite <- app_assoc.
  apply (escape_cases (fun _ x => startswith (L "]]>") (x ++ escape_cdata t ++ r) = false)); try reflexivity.
  intros _ _ Hc. change (startswith (L "]]>") ([c] ++ escape_cdata t ++ r)) with (N.eqb (Ch "]") c && startswith (L "]>") (escape_cdata t ++ r)). rewrite H2 by easy. apply andb_false_r.
Qed.
Lemma read_data_end f r : starts r -> length r <= f -> read_data f r = Ok ([], r).
Proof. intros [->|(r' & ->)] H; destruct f; cbn [length] in H; try lia; reflexivity. Qed.
Lemma read_data_at s : forall f r, xml_chars s = true -> starts r -> length (escape_cdata s ++ r) <= f -> read_data f (escape_cdata s ++ r) = Ok (s, r).
Proof.
  induction s as [|c s IH]; intros f r Hs Hr Hf; [now apply read_data_end|].
  pose proof (no_bracket (c :: s) r Hr) as Hb. change (escape_cdata (c :: s)) with (escape_cdata1 c ++ escape_cdata s) in *. rewrite <- app_assoc in *.
  unfold xml_chars in Hs; cbn [forallb] in Hs. apply andb_prop in Hs as [Hc Hs]. revert Hb Hf Hc.
  apply (escape_cases (fun c x => startswith (L "]]>") (x ++ escape_cdata s ++ r) = false -> length (x ++ escape_cdata s ++ r) <= f -> xml_char c = true -> read_data f (x ++ escape_cdata s ++ r) = Ok (c :: s, r)));
    try (intros _ Hf _; destruct f as [|f]; [vm_compute in Hf; lia|]).
  - change (read_data (S f) (L "&amp;" ++ escape_cdata s ++ r)) with (do (x, r0) <- read_reference (L "amp" ++ Ch ";" :: escape_cdata s ++ r); do (t, r1) <- read_data f r0; Ok (x :: t, r1)).
    rewrite (reference_at (L "amp") (Ch "&")) by (reflexivity || vm_compute; intuition discriminate). cbn [bind]. rewrite IH; auto. rewrite app_length in Hf. change (length (L "&amp;")) with 5 in Hf. lia.
  - change (read_data (S f) (L "&lt;" ++ escape_cdata s ++ r)) with (do (x, r0) <- read_reference (L "lt" ++ Ch ";" :: escape_cdata s ++ r); do (t, r1) <- read_data f r0; Ok (x :: t, r1)).
    rewrite (reference_at (L "lt") (Ch "<")) by (reflexivity || vm_compute; intuition discriminate). cbn [bind]. rewrite IH; auto. rewrite app_length in Hf. change (length (L "&lt;")) with 4 in Hf. lia.
  - change (read_data (S f) (L "&gt;" ++ escape_cdata s ++ r)) with (do (x, r0) <- read_reference (L "gt" ++ Ch ";" :: escape_cdata s ++ r); do (t, r1) <- read_data f r0; Ok (x :: t, r1)).
    rewrite (reference_at (L "gt") (Ch ">")) by (reflexivity || vm_compute; intuition discriminate). cbn [bind]. rewrite IH; auto. rewrite app_length in Hf. change (length (L "&gt;")) with 4 in Hf. lia.
  - intros N1 N2 N3 Hb Hf Hc. destruct f as [|f]; [cbn in Hf; lia|]. cbn [app] in *. cbn [read_data]. rewrite Hb, Hc.
    destruct (N.eqb_spec c (Ch "<")); [easy|]. destruct (N.eqb_spec c (Ch "&")); [easy|]. rewrite IH; auto. cbn [length] in Hf. lia.
Qed.
Lemma read_value_at v : forall f r, xml_chars v = true -> length (escape_attrib v ++ 34%N :: r) <= f -> read_value f 34 (escape_attrib v ++ 34%N :: r) = Ok (v, r).
Proof.
  induction v as [|c v IH]; intros f r Hv Hf; [destruct f; [cbn in Hf; lia|reflexivity]|].
  change (escape_attrib (c :: v)) with (escape_attrib1 c ++ escape_attrib v) in *. rewrite <- app_assoc in *. unfold xml_chars in Hv; cbn [forallb] in Hv. apply andb_prop in Hv as [Hc Hv].
  assert (R : forall b x, L "" = [] -> ~ In (Ch ";") b -> reference b = Ok x -> length ((Ch "&" :: b ++ [Ch ";"]) ++ escape_attrib v ++ 34%N :: r) <= f ->
     read_value f 34 ((Ch "&" :: b ++ [Ch ";"]) ++ escape_attrib v ++ 34%N :: r) = Ok (x :: v, r)).
  { intros b x _ Hb Ex Hf'. cbn [app] in *. rewrite <- app_assoc in *. cbn [app] in *. destruct f as [|f]; [cbn in Hf'; lia|]. cbn [read_value].
    change (N.eqb (Ch "&") 34) with false. change (N.eqb (Ch "&") (Ch "<")) with false. change (N.eqb (Ch "&") (Ch "&")) with true. cbn iota.
    rewrite (reference_at b x) by easy. cbn [bind]. rewrite IH; auto. cbn [length] in Hf'. rewrite app_length in Hf'. cbn [length] in Hf'. lia. }
  unfold escape_attrib1 in *.
  destruct (N.eqb_spec c 34) as [->|]; [apply (R (L "quot") 34%N); try easy; vm_compute; intuition discriminate|].
  destruct (N.eqb_spec c 13) as [->|]; [apply (R (L "#13") 13%N); try easy; vm_compute; intuition discriminate|].
  destruct (N.eqb_spec c 10) as [->|]; [apply (R (L "#10") 10%N); try easy; vm_compute; intuition discriminate|].
  destruct (N.eqb_spec c 9) as [->|]; [apply (R (L "#09") 9%N); try easy; vm_compute; intuition discriminate|].
  revert Hf. apply (escape_cases (fun c x => length (x ++ escape_attrib v ++ 34%N :: r) <= f -> read_value f 34 (x ++ escape_attrib v ++ 34%N :: r) = Ok (c :: v, r))).
  - apply (R (L "amp")); try easy. vm_compute; intuition discriminate.
  - apply (R (L "lt")); try easy. vm_compute; intuition discriminate.
  - apply (R (L "gt")); try easy. vm_compute; intuition discriminate.
  - intros N1 N2 N3 Hf. destruct f as [|f]; [cbn in Hf; lia|]. cbn [app read_value] in *. rewrite Hc. destruct (N.eqb_spec c 34); [easy|]. destruct (N.eqb_spec c (Ch "<")); [easy|].
    destruct (N.eqb_spec c (Ch "&")); [easy|]. rewrite IH by (easy || cbn [length] in Hf; lia). cbn [bind]. unfold xml_ws.
    destruct (N.eqb_spec c 32) as [->|]; [reflexivity|]. destruct (N.eqb_spec c 9); [easy|]. destruct (N.eqb_spec c 10); [easy|]. destruct (N.eqb_spec c 13); [easy|]. reflexivity.
Qed.

Lemma skip_space r : skip_ws (Ch " " :: r) = skip_ws r.
Proof. reflexivity. Qed.
Lemma skip_here c r : xml_ws c = false -> skip_ws (c :: r) = c :: r.
Proof. cbn. now intros ->. Qed.
Lemma tag_char_ws c : tag_char c = true -> xml_ws c = false.
Proof.
  intros H. unfold xml_ws. destruct (N.eqb_spec c 32) as [->|]; [discriminate|]. destruct (N.eqb_spec c 9) as [->|]; [discriminate|].
  destruct (N.eqb_spec c 10) as [->|]; [discriminate|]. destruct (N.eqb_spec c 13) as [->|]; [discriminate|]. reflexivity.
Qed.
Lemma tag_char_not c x : tag_char c = true -> tag_char x = false -> N.eqb c x = false.
Proof. intros H H'. destruct (N.eqb_spec c x) as [->|]; [congruence|easy]. Qed.
Lemma existsb_not k l : ~ In k l -> existsb (str_eqb k) l = false.
Proof.
  intros H. destruct (existsb (str_eqb k) l) eqn:E; [|easy]. apply existsb_exists in E as (x & Hx & Ex). destruct (str_eqb_spec k x); [subst; easy|easy].
Qed.
Lemma read_start_at d : forall f seen (short : bool) r, (forall k v, In (k, v) d -> name_like k /\ xml_chars v = true) -> NoDup (map fst d) ->
  (forall k, In k (map fst d) -> ~ In k seen) -> length d < f ->
  read_start f seen (flat_map write_attr d ++ (if short then L " />" else L ">") ++ r) = Ok (d, short, r).
Proof.
  induction d as [|[k v] d IH]; intros f seen short r Hd Hn Hs Hf; (destruct f as [|f]; [lia|]).
  - destruct short; reflexivity.
  - cbn [flat_map]. destruct (Hd k v) as [[Hk0 Hk] Hv]; [now left|]. unfold write_attr at 1. cbn [fst snd]. rewrite <- !app_assoc. cbn [app]. rewrite <- app_assoc. cbn [app]. rewrite <- !app_assoc. cbn [app].
    set (R := flat_map write_attr d ++ (if short then L " />" else L ">") ++ r).
    destruct k as [|c k]; [easy|]. pose proof Hk as Hk'. cbn [forallb] in Hk'. apply andb_prop in Hk' as [Hc _].
    cbn [read_start]. rewrite skip_space. cbn [app]. rewrite skip_here by now apply tag_char_ws. rewrite !tag_char_not by easy. change (xml_ws (Ch " ")) with true. cbn iota.
    rewrite <- (app_assoc (escape_attrib v)). cbn [app].
    change (c :: k ++ L "=" ++ 34%N :: escape_attrib v ++ 34%N :: R) with ((c :: k) ++ Ch "=" :: 34%N :: escape_attrib v ++ 34%N :: R).
    rewrite take_name_app by easy. cbn [app] in *. rewrite skip_here by reflexivity. change (N.eqb (Ch "=") (Ch "=")) with true. cbn iota.
    rewrite skip_here by reflexivity. change (N.eqb 34 34) with true. cbn [orb]. rewrite read_value_at by (easy || cbn; lia). cbn [bind].
    rewrite existsb_not by (apply Hs; now left). cbn [map fst] in *. inversion_clear Hn as [|? ? Hni Hnd]. unfold R. rewrite IH; [reflexivity| |easy| |cbn [length] in Hf; lia].
    + intros k' v' Hin. apply Hd. now right.
    + intros k' Hk1 [<-|Hk2]; [easy|]. apply (Hs k'); [now right|easy].
Qed.

(* ---------- tokens ---------- *)

Lemma tokens_more f : forall f' s l, f <= f' -> tokens f s = Ok l -> tokens f' s = Ok l.
Proof.
  induction f as [|f IH]; intros f' s l Hf E.
  - destruct s; [|discriminate]. destruct f'; exact E.
  - destruct f' as [|f']; [lia|]. assert (H : forall s l, tokens f s = Ok l -> tokens f' s = Ok l) by (intros; apply IH; auto; lia). clear IH Hf.
    destruct s as [|c r]; [exact E|]. cbn [tokens] in *.
    destruct (negb (N.eqb c (Ch "<"))).
    { destruct (read_data _ _) as [[t r']|]; [|discriminate]. cbn [bind] in *. destruct (tokens f r') as [l'|] eqn:E'; [|discriminate]. now rewrite (H _ _ E'). }
    destruct (startswith (L "!--") r).
    { destruct (until _ _) as [[t r']|]; [|discriminate]. destruct r' as [|c' r']; [discriminate|]. destruct (N.eqb c' (Ch ">") && xml_chars t); [auto|discriminate]. }
    destruct (startswith (L "![CDATA[") r).
    { destruct (until _ _) as [[t r']|]; [|discriminate]. destruct (xml_chars t); [|discriminate]. destruct (tokens f r') as [l'|] eqn:E'; [|discriminate]. now rewrite (H _ _ E'). }
    destruct (startswith (L "?") r).
    { destruct (take_name _) as [n r']. destruct (until _ _) as [[t r1]|]; [|discriminate]. destruct (_ && _); [auto|discriminate]. }
    destruct (startswith (L "/") r).
    { destruct (take_name _) as [n r']. destruct (skip_ws r') as [|c' r1]; [discriminate|]. destruct (N.eqb c' (Ch ">")); [|discriminate].
      destruct (tokens f r1) as [l'|] eqn:E'; [|discriminate]. now rewrite (H _ _ E'). }
    destruct (take_name r) as [n r']. destruct (read_start _ _ _) as [[[d short] r1]|]; [|discriminate]. cbn [bind] in *. destruct n; [discriminate|].
    destruct (tokens f r1) as [l'|] eqn:E'; [|discriminate]. now rewrite (H _ _ E').
Qed.
Definition toks_to (s : str) (l : list token) : Prop := tokens (S (length s)) s = Ok l.
Definition data_toks (s : str) : list token := match s with [] => [] | _ => [TData (negb (char_in (Ch "&") (escape_cdata s))) s] end.
Fixpoint toks (e : xelem) : list token :=
  match e with
  | XElem tag d text tail kids => TOpen tag d :: data_toks (text_of text) ++ flat_map toks kids ++ TClose tag :: data_toks (text_of tail)
  end.
Lemma escape_len s : length s <= length (escape_cdata s).
Proof.
  induction s as [|c s IH]; [easy|]. change (escape_cdata (c :: s)) with (escape_cdata1 c ++ escape_cdata s). rewrite app_length. cbn [length].
  assert (1 <= length (escape_cdata1 c)); [|lia]. apply (escape_cases (fun _ x => 1 <= length x)); intros; vm_compute; lia.
Qed.
Lemma escape_head c s : exists x t, escape_cdata (c :: s) = x :: t /\ x <> Ch "<".
Proof.
  change (escape_cdata (c :: s)) with (escape_cdata1 c ++ escape_cdata s). apply (escape_cases (fun _ x => exists y t, x ++ escape_cdata s = y :: t /\ y <> Ch "<"));
    intros; eexists; eexists; (split; [reflexivity|easy || discriminate]).
Qed.
Lemma toks_data s r l : xml_chars s = true -> starts r -> toks_to r l -> toks_to (escape_cdata s ++ r) (data_toks s ++ l).
Proof.
  intros Hs Hr H. destruct s as [|c s]; [exact H|]. unfold toks_to. pose proof (read_data_at (c :: s) (length (escape_cdata (c :: s) ++ r)) r Hs Hr (le_n _)) as Ed.
  assert (Ef : firstn (length (escape_cdata (c :: s) ++ r) - length r) (escape_cdata (c :: s) ++ r) = escape_cdata (c :: s)).
  { rewrite app_length. replace (length (escape_cdata (c :: s)) + length r - length r) with (length (escape_cdata (c :: s)) + 0) by lia. rewrite firstn_app_2. cbn [firstn]. now rewrite app_nil_r. }
  assert (Hl : S (length r) <= length (escape_cdata (c :: s) ++ r)).
  { rewrite app_length. pose proof (escape_len (c :: s)). cbn [length] in *. lia. }
  pose proof (escape_head c s) as (x & t & Ex & Hx). unfold data_toks. cbn iota. set (q := escape_cdata (c :: s)) in *. clearbody q. subst q. cbn [app] in *. set (n := length (x :: t ++ r)) in *.
  cbn [tokens]. destruct (N.eqb_spec x (Ch "<")); [easy|]. cbn [negb]. fold n. rewrite Ed. cbn [bind]. rewrite Ef. rewrite (tokens_more (S (length r)) n r l Hl H). reflexivity.
Qed.
Lemma toks_close tag r l : name_like tag -> toks_to r l -> toks_to (L "</" ++ tag ++ L ">" ++ r) (TClose tag :: l).
Proof.
  intros [_ Ht] H. unfold toks_to. set (n := length (L "</" ++ tag ++ L ">" ++ r)). assert (Hn : S (length r) <= n) by (unfold n; rewrite !app_length; change (length (L "</")) with 2; lia). clearbody n.
  change (L "</" ++ tag ++ L ">" ++ r) with (Ch "<" :: Ch "/" :: tag ++ Ch ">" :: r). cbn [tokens]. change (negb (N.eqb (Ch "<") (Ch "<"))) with false. cbn iota.
  change (startswith (L "!--") (Ch "/" :: tag ++ Ch ">" :: r)) with false. change (startswith (L "![CDATA[") (Ch "/" :: tag ++ Ch ">" :: r)) with false.
  change (startswith (L "?") (Ch "/" :: tag ++ Ch ">" :: r)) with false. change (startswith (L "/") (Ch "/" :: tag ++ Ch ">" :: r)) with true. cbn iota.
  cbn [skipn]. rewrite take_name_app by easy. rewrite skip_here by reflexivity. change (N.eqb (Ch ">") (Ch ">")) with true. cbn iota. now rewrite (tokens_more _ _ _ _ Hn H).
Qed.
Lemma attrs_len d : length d <= length (flat_map write_attr d).
Proof. induction d as [|[k v] d IH]; [easy|]. cbn [flat_map]. rewrite app_length. unfold write_attr at 1. cbn [length]. lia. Qed.
Lemma starts_not p c r : tag_char c = true -> match p with x :: _ => tag_char x = false | [] => False end -> startswith p (c :: r) = false.
Proof. destruct p as [|x p]; [easy|]. intros H Hx. cbn. destruct (N.eqb_spec x c) as [->|]; [congruence|easy]. Qed.
Lemma toks_open tag d (short : bool) r l : name_like tag -> NoDup (map fst d) -> (forall k v, In (k, v) d -> name_like k /\ xml_chars v = true) -> toks_to r l ->
  toks_to (Ch "<" :: tag ++ flat_map write_attr d ++ (if short then L " />" else L ">") ++ r) (TOpen tag d :: if short then TClose tag :: l else l).
Proof.
  intros [Ht0 Ht] Hn Hd H. unfold toks_to. set (R := flat_map write_attr d ++ (if short then L " />" else L ">") ++ r).
  assert (HR : exists c R', R = c :: R' /\ tag_char c = false).
  { unfold R. destruct d as [|[k v] d]; [destruct short; eexists; eexists; split; reflexivity|]. eexists; eexists; split; reflexivity. }
  assert (Hlen : length d < S (length R) /\ S (length r) <= S (length (tag ++ R))).
  { unfold R. rewrite !app_length. pose proof (attrs_len d). lia. }
  destruct HR as (x & R' & ER & Hx). destruct tag as [|c tag]; [easy|]. pose proof Ht as Ht'. cbn [forallb] in Ht'. apply andb_prop in Ht' as [Hc _].
  cbn [length]. set (n := S (length ((c :: tag) ++ R))) in *. cbn [tokens]. change (negb (N.eqb (Ch "<") (Ch "<"))) with false. cbn iota.
  assert (Es : forall p, match p with x :: _ => tag_char x = false | [] => False end -> startswith p ((c :: tag) ++ R) = false) by (intros p Hp; cbn [app]; now apply starts_not).
  rewrite !Es by reflexivity. rewrite ER at 1. rewrite take_name_app by easy. rewrite <- ER. unfold R at 2. rewrite read_start_at; auto; [|now apply Hlen]. cbn [bind].
  rewrite (tokens_more _ n _ _ (proj2 Hlen) H). reflexivity.
Qed.
Lemma toks_at e : forall r l, writable e -> starts r -> toks_to r l -> toks_to (write_elem e ++ r) (toks e ++ l).
Proof.
  induction e as [tag d text tail kids IH] using xelem_rec'. rewrite Forall_forall in IH. intros r l Hw Hr H. inversion_clear Hw as [? ? ? ? ? Ht Hn Hd Hx Hy Hk].
  assert (Ekids : forall r l, starts r -> toks_to r l -> toks_to (flat_map write_elem kids ++ r) (flat_map toks kids ++ l)).
  { clear - Hk IH. induction kids as [|k ks IHk]; intros r l Hr H; [easy|]. cbn [flat_map]. rewrite <- !app_assoc. inversion_clear Hk.
    apply IH; [now left|easy|now apply writes_starts|]. apply IHk; auto. intros. apply IH; auto. now right. }
  cbn [write_elem toks app]. rewrite <- !app_assoc. pose proof (toks_data _ _ _ Hy Hr H) as Htail. destruct (is_short text kids) eqn:Es.
  - unfold is_short in Es. destruct (text_of text); [|discriminate]. destruct kids; [|discriminate]. cbn [flat_map data_toks app]. now apply (toks_open tag d true).
  - change ((Ch ">" :: escape_cdata (text_of text) ++ flat_map write_elem kids ++ L "</" ++ tag ++ L ">") ++ ?x) with (L ">" ++ (escape_cdata (text_of text) ++ flat_map write_elem kids ++ L "</" ++ tag ++ L ">") ++ x).
    apply (toks_open tag d false); auto. rewrite <- !app_assoc. cbn [app]. apply toks_data; [easy|apply writes_starts, slash_starts|]. apply Ekids; [apply slash_starts|].
    now apply toks_close.
Qed.

(* ---------- the tree ---------- *)

Fixpoint final (e : xelem) : xelem :=
  match e with XElem tag d text tail kids => XElem tag d (opt_text (text_of text)) (opt_text (text_of tail)) (map final kids) end.
Definition no_tail (e : xelem) : xelem := match e with XElem tag d text _ kids => XElem tag d text None kids end.
Lemma final_norm e : final (norm e) = norm e.
Proof.
  induction e as [tag d text tail kids IH] using xelem_rec'. cbn [norm final]. unfold norm_text. rewrite !text_of_opt. f_equal. rewrite map_map. induction IH as [|k ks Hk _ IHk]; [easy|]. cbn. now rewrite Hk, IHk.
Qed.
Definition with_kids (ks : list xelem) (f : frame) : frame :=
  {| f_tag := f_tag f; f_attrib := f_attrib f; f_text := f_text f; f_kids := rev ks ++ f_kids f |}.
Lemma with_none f : with_kids [] f = f.
Proof. now destruct f. Qed.
Lemma grow_kids kids open f l : (forall k, In k kids -> forall f open l, grow (f :: open) (toks k ++ l) = grow (add_kid (final k) f :: open) l) ->
  grow (f :: open) (flat_map toks kids ++ l) = grow (with_kids (map final kids) f :: open) l.
Proof.
  revert f l. induction kids as [|k ks IH]; intros f l H; [now rewrite with_none|]. cbn [flat_map map]. rewrite <- app_assoc. rewrite H by now left. rewrite IH by (intros; apply H; now right).
  f_equal. f_equal. unfold with_kids, add_kid. cbn [f_tag f_attrib f_text f_kids rev]. rewrite <- app_assoc. reflexivity.
Qed.
Lemma grow_text tag d s open l : grow ({| f_tag := tag; f_attrib := d; f_text := []; f_kids := [] |} :: open) (data_toks s ++ l) = grow ({| f_tag := tag; f_attrib := d; f_text := s; f_kids := [] |} :: open) l.
Proof. now destruct s. Qed.
Lemma grow_tail tag d text kids s f open l :
  grow (add_kid (XElem tag d text None kids) f :: open) (data_toks s ++ l) = grow (add_kid (XElem tag d text (opt_text s) kids) f :: open) l.
Proof. now destruct s. Qed.
Lemma close_at tag d text kids : close_frame (with_kids (map final kids) {| f_tag := tag; f_attrib := d; f_text := text; f_kids := [] |}) = XElem tag d (opt_text text) None (map final kids).
Proof. unfold close_frame, with_kids. cbn [f_tag f_attrib f_text f_kids]. now rewrite app_nil_r, rev_involutive. Qed.
Lemma grow_at e : forall f open l, grow (f :: open) (toks e ++ l) = grow (add_kid (final e) f :: open) l.
Proof.
  induction e as [tag d text tail kids IH] using xelem_rec'. rewrite Forall_forall in IH. intros f open l. cbn [toks final]. cbn [app grow]. rewrite <- !app_assoc, grow_text, grow_kids by easy.
  cbn [app grow]. cbn [with_kids f_tag]. rewrite str_eqb_refl. rewrite close_at. apply grow_tail.
Qed.
Lemma grow_root tag d text tail kids : forallb blank_token (data_toks (text_of tail)) = true ->
  grow [] (toks (XElem tag d text tail kids)) = Ok (no_tail (final (XElem tag d text tail kids))).
Proof.
  intros H. cbn [toks final no_tail app grow]. rewrite grow_text, grow_kids by (intros; apply grow_at). cbn [app grow]. cbn [with_kids f_tag]. rewrite str_eqb_refl, H, close_at. reflexivity.
Qed.

(* ---------- the document ---------- *)

Lemma norm_writable e : writable e -> writable (norm e).
Proof.
  induction e as [tag d text tail kids IH] using xelem_rec'. rewrite Forall_forall in IH. intros H. inversion_clear H as [? ? ? ? ? Ht Hn Hd Hx Hy Hk]. cbn [norm].
  rewrite Forall_forall in Hk. constructor; auto; [unfold norm_text; rewrite text_of_opt; now apply (eol_chars (length (text_of text)))|unfold norm_text; rewrite text_of_opt; now apply (eol_chars (length (text_of tail)))|].
  apply Forall_forall. intros k Hin. apply in_map_iff in Hin as (k' & <- & Hin). auto.
Qed.
Definition x_tail (e : xelem) : option str := match e with XElem _ _ _ tail _ => tail end.
Definition ws_text (t : option str) : Prop := forall c, In c (text_of t) -> xml_ws c = true.
Lemma ws_eol n : forall s, length s <= n -> (forall c, In c s -> xml_ws c = true) -> forall c, In c (eol s) -> xml_ws c = true.
Proof.
  induction n as [|n IH]; intros [|x s] Hn H c Hc; cbn [length] in Hn; try lia; try easy. cbn [eol] in Hc. destruct (N.eqb x 13).
  - destruct s as [|y s]; [destruct Hc as [<-|[]]; reflexivity|]. destruct (N.eqb y 10); destruct Hc as [<-|Hc]; try reflexivity; cbn [length] in Hn; (eapply IH; [| |exact Hc]; [cbn [length]; lia|intros; apply H; cbn; auto]).
  - destruct Hc as [<-|Hc]; [apply H; now left|]. eapply IH; [| |exact Hc]; [lia|]. intros. apply H. now right.
Qed.
Lemma blank_tail s : (forall c, In c s -> xml_ws c = true) -> forallb blank_token (data_toks s) = true.
Proof.
  intros H. destruct s as [|c s]; [easy|]. cbn [data_toks forallb blank_token]. rewrite andb_true_r. apply andb_true_intro. split; [|now apply (proj2 (forallb_forall xml_ws (c :: s)))].
  apply negb_true_iff. unfold char_in. destruct (existsb _ _) eqn:E; [|easy]. apply existsb_exists in E as (x & Hx & Ex). unfold escape_cdata in Hx. apply in_flat_map in Hx as (y & Hy & Hx).
  apply N.eqb_eq in Ex. subst x. apply H in Hy. exfalso. revert Hy Hx. apply (escape_cases (fun y x => xml_ws y = true -> In (Ch "&") x -> False)); try discriminate. intros N1 _ _ _ [E|[]]. now apply N1.
Qed.
Theorem parse_write e : writable e -> ws_text (x_tail e) -> parse_text (write_elem e) = Ok (no_tail (norm e)).
Proof.
  intros Hw Ht. unfold parse_text. pose proof (eol_write e [] Hw (or_introl eq_refl)) as Ee. rewrite !app_nil_r in Ee. rewrite Ee. clear Ee.
  assert (Ep : prolog (write_elem (norm e)) = Ok (write_elem (norm e))).
  { destruct e as [tag d text tail kids]. inversion_clear Hw as [? ? ? ? ? [Hn Hn'] _ _ _ _ _]. destruct tag as [|c tag]; [easy|]. cbn [norm write_elem app]. unfold prolog. change (N.eqb (Ch "<") 65279) with false. cbn iota.
    cbn [forallb] in Hn'. apply andb_prop in Hn' as [Hc _]. change (startswith (L "<?xml") (Ch "<" :: c :: ?r)) with (startswith (L "?xml") (c :: r)). now rewrite starts_not. }
  rewrite Ep. cbn [bind]. pose proof (toks_at (norm e) [] [] (norm_writable e Hw) (or_introl eq_refl) eq_refl) as Et. rewrite !app_nil_r in Et. unfold toks_to in Et. rewrite Et. cbn [bind].
  rewrite <- (final_norm e) at 2. destruct e as [tag d text tail kids]. cbn [norm]. apply grow_root. cbn [x_tail] in Ht. unfold norm_text. rewrite text_of_opt. apply blank_tail. now apply (ws_eol (length (text_of tail))).
Qed.

(* ---------- what can be read again can be written ---------- *)

Lemma ncname_like s : ncname s = true -> name_like s.
Proof.
  destruct s as [|c s]; [easy|]. cbn [ncname]. intros H. apply andb_prop in H as [Hc H]. split; [easy|]. cbn [forallb]. unfold tag_char at 1, name_char. rewrite Hc. cbn [orb andb].
  rewrite forallb_forall in *. intros x Hx. unfold tag_char. now rewrite H.
Qed.
Lemma like_colon a b : name_like a -> name_like b -> name_like (a ++ Ch ":" :: b).
Proof. intros [H1 H2] [_ H3]. split; [now destruct a|]. rewrite forallb_app. cbn [forallb]. now rewrite H2, H3. Qed.
Lemma split_colon q p l : split1 (Ch ":") q = Some (p, l) -> q = p ++ Ch ":" :: l.
Proof.
  revert p. induction q as [|c q IH]; cbn; [easy|]. intros p. destruct (N.eqb_spec c (Ch ":")) as [->|]; [now intros [= <- <-]|]. destruct (split1 (Ch ":") q) as [[p' l']|]; [|easy].
  intros [= <- <-]. cbn. f_equal. now apply IH.
Qed.
Lemma read_name_like scope dflt q n : read_name scope dflt q = Ok n -> name_like q.
Proof.
  unfold read_name. destruct (split1 (Ch ":") q) as [[p l]|] eqn:E.
  - destruct (ncname p && ncname l) eqn:En; [|easy]. intros _. apply andb_prop in En as [H1 H2]. rewrite (split_colon _ _ _ E). apply like_colon; now apply ncname_like.
  - destruct (ncname q) eqn:En; [|easy]. intros _. now apply ncname_like.
Qed.
Lemma startswith_skip p : forall k, startswith p k = true -> k = p ++ skipn (length p) k.
Proof.
  induction p as [|x p IH]; intros [|c k] H; try easy. cbn in H. apply andb_prop in H as [Hx H]. apply N.eqb_eq in Hx as ->. cbn. f_equal. auto.
Qed.
Lemma decls_like d : forall scope scope', read_decls scope d = Ok scope' -> forall k v p, In (k, v) d -> declares k = Some p -> name_like k /\ xml_chars v = true.
Proof.
  induction d as [|[k v] d IH]; intros scope scope' E k' v' p Hin Hp; [easy|]. cbn [read_decls] in E. destruct Hin as [[= <- <-]|Hin].
  - rewrite Hp in E. destruct (valid_decl p v && _) eqn:Ev; [|easy]. apply andb_prop in Ev as [Ev Ek]. unfold valid_decl in Ev. rewrite !andb_true_iff in Ev. destruct Ev as [[[Ex _] _] En]. split; [|easy].
    unfold declares in Hp. destruct (str_eqb_spec k XMLNS) as [->|]; [apply ncname_like; reflexivity|]. destruct (startswith (L "xmlns:") k) eqn:Es; [|easy]. assert (Hp' : skipn 6 k = p) by congruence. clear Hp.
    destruct p as [|c p]; [easy|]. rewrite !andb_true_iff in En. destruct En as [[En _] _]. assert (Ek' : k = L "xmlns" ++ Ch ":" :: skipn 6 k).
    { exact (startswith_skip (L "xmlns:") k Es). }
    rewrite Ek'. apply like_colon; [apply ncname_like; reflexivity|]. rewrite Hp'. now apply ncname_like.
  - destruct (declares k) as [q|]; [destruct (_ && _); [|easy]|]; eapply IH; eauto.
Qed.
Lemma attrs_like d : forall scope d', read_attrs scope d = Ok d' -> forall k v, In (k, v) d -> declares k = None -> name_like k /\ xml_chars v = true.
Proof.
  induction d as [|[k v] d IH]; intros scope d' E k' v' Hin Hp; [easy|]. cbn [read_attrs] in E. destruct Hin as [[= <- <-]|Hin].
  - rewrite Hp in E. inv_bind E. inv_bind E. destruct (xml_chars v && _) eqn:Ev; [|easy]. apply andb_prop in Ev as [Ev _]. split; [now apply read_name_like in E0|easy].
  - destruct (declares k); [eauto|]. inv_bind E. inv_bind E. eauto.
Qed.
Lemma text_like t t' : read_text t = Ok t' -> xml_chars (text_of t) = true /\ t' = norm_text t.
Proof.
  unfold read_text, norm_text. destruct t as [[|c s]|]; cbn [text_of]; [now intros [= <-]| |now intros [= <-]]. destruct (xml_chars (c :: s)); [|easy]. intros H. assert (E : t' = Some (eol (c :: s))) by congruence. clear H. split; [easy|]. rewrite E. clear E.
  destruct (eol (c :: s)) eqn:E; [now apply eol_nil in E|]. reflexivity.
Qed.
Lemma read_norm_text t t' : read_text t = Ok t' -> read_text (norm_text t) = Ok t'.
Proof.
  intros E. apply text_like in E as [Hc ->]. unfold norm_text. pose proof (eol_idem (text_of t)) as Ei. pose proof (eol_chars _ (text_of t) (le_n _) Hc) as He.
  destruct (eol (text_of t)) as [|c s]; [reflexivity|]. cbn [opt_text read_text]. rewrite He, Ei. reflexivity.
Qed.
Lemma reread_norm e : forall scope p, reread scope e = Ok p -> reread scope (norm e) = Ok p.
Proof.
  induction e as [tag d text tail kids IH] using xelem_rec'. rewrite Forall_forall in IH. intros scope p E. cbn [reread norm] in *. inv_bind E. rewrite E0. cbn [bind].
  inv_bind E. rewrite E1. cbn [bind]. inv_bind E. rewrite E2. cbn [bind]. inv_bind E. rewrite (read_norm_text _ _ E3). cbn [bind]. inv_bind E. inv_bind E. injection E as <-.
  assert (Ek : traverse (reread x) (map norm kids) = Ok x3).
  { clear - IH E4. revert x3 E4. induction kids as [|k ks IHk]; intros l E; [exact E|]. cbn [traverse map] in *. inv_bind E. rewrite (IH k (or_introl eq_refl) x _ E0). cbn [bind].
    fold (traverse (reread x)) in *. inv_bind E. rewrite (IHk (fun k Hk => IH k (or_intror Hk)) _ E1). exact E. }
  rewrite Ek. cbn [bind]. now rewrite (read_norm_text _ _ E5).
Qed.
Lemma reread_writable e : forall scope p, dicts e -> reread scope e = Ok p -> writable e.
Proof.
  induction e as [tag d text tail kids IH] using xelem_rec'. rewrite Forall_forall in IH. intros scope p Hd E. cbn [reread] in E. inversion_clear Hd as [? ? ? ? ? Hn Hk].
  inv_bind E. inv_bind E. inv_bind E. inv_bind E. inv_bind E. inv_bind E. constructor; auto.
  - now apply read_name_like in E1.
  - intros k v Hin. destruct (declares k) as [q|] eqn:Eq; [now apply (decls_like d scope x E0 k v q)|now apply (attrs_like d x x1 E2)].
  - now apply text_like in E3.
  - now apply text_like in E5.
  - rewrite Forall_forall in *. clear - IH E4 Hk. revert x3 E4. induction kids as [|k ks IHk]; intros l E q Hq; [easy|]. cbn [traverse] in E. inv_bind E. fold (traverse (reread x)) in *. inv_bind E.
    destruct Hq as [<-|Hq]; [apply (IH k (or_introl eq_refl) x x0); auto; apply Hk; now left|]. apply (IHk (fun k Hk => IH k (or_intror Hk)) (fun k H => Hk k (or_intror H)) _ E1 q Hq).
Qed.
