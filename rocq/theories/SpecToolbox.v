(* Specification of the Toolbox importer: columns of a line, words of a phrase,
   morphemes of a word, the numbering and the references of a tier. *)
From Verif Require Import PyStr SpecRef Model Value SpecValue Xml SpecXml Toolbox.

(* ---------- columns ---------- *)

(* a byte of white space *)
Definition blank (b : N) : Prop := (9 <= b <= 13)%N \/ b = 32%N.
Definition blanks (w : list N) : Prop := Forall blank w.
(* a run of other bytes *)
Definition token (t : list N) : Prop := t <> [] /\ Forall (fun b => ~ blank b) t.
(* t stands in a ++ t ++ c between white space *)
Definition bounded (a c : list N) : Prop :=
  (a = [] \/ exists a' b, a = a' ++ [b] /\ blank b) /\ (c = [] \/ exists b c', c = b :: c' /\ blank b).

(* no newline at the end *)
Definition no_newline (s : list N) : Prop := forall a b, s = a ++ [b] -> b <> 10%N.

(* a decoding that takes white space for itself, never lengthens a token, and
   fails on a token in white space exactly when it fails on the token *)
Definition sane (decode : list N -> res str) : Prop :=
  (forall w t w', blanks w -> token t -> blanks w' ->
     decode (w ++ t ++ w') = bind (decode t) (fun d => Ok (w ++ d ++ w')))
  /\ (forall t d, token t -> decode t = Ok d -> length d <= length t).

(* the text of tokens and the white space after them: each token is decoded and
   the space it lost is added to the white space behind it *)
Inductive laid_out (decode : list N -> res str) : list N -> str -> Prop :=
| LO_nil : laid_out decode [] []
| LO_token t w s d r : token t -> blanks w -> w <> [] \/ s = [] -> decode t = Ok d -> laid_out decode s r ->
    laid_out decode (t ++ w ++ s) (d ++ w ++ repeat 32%N (length t - length d) ++ r).

(* UTF-8 *)
Definition scalar (c : N) : Prop := (c < 55296 \/ 57344 <= c < 1114112)%N.
Definition utf8_char (c : N) : list N :=
  (if c <? 128 then [c]
   else if c <? 2048 then [192 + c / 64; 128 + c mod 64]
   else if c <? 65536 then [224 + c / 4096; 128 + c / 64 mod 64; 128 + c mod 64]
   else [240 + c / 262144; 128 + c / 4096 mod 64; 128 + c / 64 mod 64; 128 + c mod 64])%N.
Definition utf8_encode (s : str) : list N := flat_map utf8_char s.

(* ---------- morphemes ---------- *)

(* m is the morpheme t without the boundary marks around it *)
Definition mark (c : char) : Prop := In c (L "-=~.").
Definition bare (t m : str) : Prop :=
  exists u v, t = u ++ m ++ v /\ Forall mark u /\ Forall mark v
    /\ (forall c m', m = c :: m' -> ~ mark c) /\ (forall m' c, m = m' ++ [c] -> ~ mark c)
    /\ (m = [] -> v = []).
(* x spells the morphemes l one after another, perhaps with hyphens between *)
Inductive spelled : list str -> str -> Prop :=
| Sp_nil : spelled [] []
| Sp_snoc l t x h m : spelled l x -> h = [] \/ h = L "-" -> bare t m -> spelled (l ++ [t]) (x ++ h ++ m).
(* the words of a line, one space between them: where the k-th begins *)
Fixpoint word_start (toks : list str) (k : nat) : nat :=
  match k, toks with
  | S k', t :: toks' => length t + 1 + word_start toks' k'
  | _, _ => 0
  end.

(* ---------- tiers ---------- *)

Definition sources (aln : list pair) : list str := flat_map (fun p : pair => match snd p with Some l => l | None => [] end) aln.

(* what make_tier accepts *)
Definition makes {U : Unicode} (ty : option str) (tid : str) (refattr : option str) (aln : list pair) (algn : option tier) : Prop :=
  (exists c r, tid = c :: r /\ ascii_letter c)
  /\ (aln = [(None, None)]
      \/ (forall p src, In (p, src) aln -> src <> None)
         /\ forall ra t, refattr = Some ra -> algn = Some t -> length (t_items t) <= length aln
              /\ forall k p toks, nth_error aln k = Some (p, Some toks) -> toks <> [] ->
                   k < length (t_items t) /\ (ty = Some (L "words") \/ ty = Some (L "morphemes") -> p <> None)).

(* an expression that names the item i, whole or a part *)
Definition names (i e : str) : Prop := e = i \/ exists b n, e = i ++ L "[" ++ dec_Z b ++ L ":" ++ dec_Z n ++ L "]".
(* every reference of the tier t by an attribute of the tier leads to an item
   of a tier of before *)
Definition anchored (before : list tier) (t : tier) : Prop :=
  forall ra rid, attr (t_attrs t) ra = Some rid ->
    exists t', In t' before /\ tier_id t' = Some rid
      /\ forall it, In it (t_items t) -> exists e it' i, attr (it_attrs it) ra = Some e
           /\ In it' (t_items t') /\ item_id it' = Some i /\ names i e.

(* ---------- records ---------- *)

(* the id for the key of a record *)
Definition key_id (isalpha : char -> bool) (key id : str) : Prop :=
  exists c r, key = c :: r /\ (isalpha c = true /\ id = key \/ isalpha c = false /\ id = L "igt" ++ key).
(* the records that are kept, in order *)
Inductive kept {A B} (skip : A -> Prop) (R : A -> B -> Prop) : list A -> list B -> Prop :=
| K_nil : kept skip R [] []
| K_skip a la lb : skip a -> kept skip R la lb -> kept skip R (a :: la) lb
| K_keep a la b lb : R a b -> kept skip R la lb -> kept skip R (a :: la) (b :: lb).

Section Records.
Context {U : Unicode} (lower : str -> str) (isalpha : char -> bool).
(* the record is header matter, or its tiers cannot be imported *)
Definition skips (o : tb_options) (pri : str) (r : record) : Prop :=
  dget (r_context r) pri = None \/ dget (r_context r) pri = Some None
  \/ make_all_tiers lower o (r_fields r) = Err XigtImportError.
(* v is the last value that l has for a marker of the attribute a *)
Definition last_value (m : dict str) (l : list (str * option str)) (a v : str) : Prop :=
  exists x mkr y, l = x ++ (mkr, Some v) :: y /\ dget m mkr = Some a
    /\ forall mkr' v', In (mkr', Some v') y -> dget m mkr' <> Some a.
(* g is the igt of the record: its id from the key, its tiers from the fields,
   its attributes from the markers in the record and its context *)
Definition keeps (o : tb_options) (pri : str) (r : record) (g : igt) : Prop :=
  exists key id ts, dget (r_context r) pri = Some (Some key) /\ key_id isalpha key id /\ igt_id g = Some id
    /\ make_all_tiers lower o (r_fields r) = Ok ts /\ g_tiers g = ts
    /\ forall a v, attr (g_attrs g) a = Some v <-> last_value (o_attribute_map o) (r_data r ++ r_context r) a v.
(* the key, if any, is not empty, does not begin with a letter outside ASCII,
   and the tiers are made, with different ids, or refused with XigtImportError *)
Definition fine (o : tb_options) (r : record) (pri : str) : Prop :=
  forall key, dget (r_context r) pri = Some (Some key) ->
    (exists c x, key = c :: x /\ (isalpha c = true -> ascii_letter c))
    /\ (make_all_tiers lower o (r_fields r) = Err XigtImportError
        \/ exists ts, make_all_tiers lower o (r_fields r) = Ok ts /\ NoDup (some_ids (map tier_id ts))).
End Records.
