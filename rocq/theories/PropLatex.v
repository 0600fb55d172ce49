(* Properties C38, C39 and C68: the LaTeX exporter. *)
From Verif Require Import PyStr SpecRef Ref Model Value Latex SpecLatex SpecLatexDoc.
From Verif Require LatexEscProofs LatexStackProofs LatexTextProofs LatexDocProofs LatexExamples.
Import LatexExamples.

(* ---------- C38: escaping ---------- *)

(* escape writes a string character by character: each special character as its
   escape, each other one as itself. *)
Theorem C38_charwise : forall s ws, Forall2 escapes s ws -> escape s = concat ws.
Proof. exact @LatexEscProofs.escape_charwise. Qed.
Print Assumptions C38_charwise.
(* There is such a way to write every string. *)
Theorem C38_total : forall s, exists ws, Forall2 escapes s ws.
Proof. exact @LatexEscProofs.escape_total. Qed.
Print Assumptions C38_total.
(* Different strings have different escapes. *)
Theorem C38_injective : forall s t, escape s = escape t -> s = t.
Proof. exact @LatexEscProofs.escape_injective. Qed.
Print Assumptions C38_injective.
(* TeX prints the string again exactly if in it no backslash, tilde or caret is
   directly followed by a letter or a blank. *)
Theorem C38_typeset : forall letter, tex_letters letter -> forall s,
  typesets letter (escape s) s <-> ~ runs_on letter s.
Proof. exact @LatexEscProofs.typesets_iff. Qed.
Print Assumptions C38_typeset.
(* Otherwise it does not: the escape of a backslash runs on into the next word. *)
Theorem C38_typeset_refuted : exists s, ~ typesets is_letter (escape s) s.
Proof. exact LatexExamples.not_typeset. Qed.
Print Assumptions C38_typeset_refuted.

Example C38_example : escape (L "50% of {a_b} ~1") = L "50\% of \{a\_b\} \textasciitilde1" /\ tex_letters is_letter
  /\ ~ runs_on is_letter (L "50% of {a_b} ~1").
Proof. exact (conj eq_refl (conj tex_ascii no_run_on)). Qed.
Example C38_example_backslash : escape (L "\foo^2") = L "\textbackslashfoo\textasciicircum2".
Proof. exact eq_refl. Qed.

(* ---------- C39: the table ---------- *)

(* If each tier is aligned in order with the one above it, with unaligned items
   only at its ends, there is a table.  Row k holds the items of tier k, each
   once and in order.  Every column has a row per tier and at most one empty row
   more; the first has none more. *)
Theorem C39_table_partial : forall (U : Unicode) A idof expr (first : list A) tiers,
  first <> [] -> identified idof first -> ordered_stack idof expr first tiers ->
  exists cols, group_alignments idof expr (first :: tiers) = Ok cols
    /\ (forall k t, nth_error (first :: tiers) k = Some t -> whole_row k cols = t)
    /\ (forall c, In c cols -> S (length tiers) <= length c <= S (S (length tiers))
          /\ forall k, S (length tiers) <= k -> row k c = [])
    /\ (exists c0 cols', cols = c0 :: cols' /\ length c0 = S (length tiers)).
Proof. exact @LatexStackProofs.group_table. Qed.
Print Assumptions C39_table_partial.
(* If no tier ends in an unaligned item, all columns have the same depth. *)
Theorem C39_depth_partial : forall (U : Unicode) A idof expr (first : list A) tiers cols,
  first <> [] -> identified idof first -> ordered_stack idof expr first tiers ->
  Forall (ends_aligned expr) tiers -> group_alignments idof expr (first :: tiers) = Ok cols ->
  forall c, In c cols -> length c = S (length tiers).
Proof. exact @LatexStackProofs.group_depth. Qed.
Print Assumptions C39_depth_partial.
(* An aligned item stands in one column with all items of the span it covers. *)
Theorem C39_shares : forall (U : Unicode) A idof expr (first : list A) tiers cols,
  first <> [] -> identified idof first -> ordered_stack idof expr first tiers ->
  group_alignments idof expr (first :: tiers) = Ok cols ->
  forall k above items x p q, nth_error (first :: tiers) k = Some above -> nth_error (first :: tiers) (S k) = Some items ->
    In x items -> covers idof expr above x p q ->
    exists c, In c cols /\ In x (row (S k) c) /\ forall r y, p <= r <= q -> nth_error above r = Some y -> In y (row k c).
Proof. exact @LatexStackProofs.group_shares. Qed.
Print Assumptions C39_shares.
(* The text has a line for each chosen tier, in which the escaped contents of its
   items stand in order, divided among the same number of columns, and a line
   for each translation. *)
Theorem C39_lines : forall (U : Unicode) lower isub tsub fuel tier_types g content first tiers,
  filter (chosen lower tier_types) (g_tiers g) = first :: tiers -> tiers <> [] ->
  (forall t, In t (g_tiers g) -> chosen lower tier_types t = true -> tier_id t <> None) ->
  t_items first <> [] -> identified titem_id (titems first) ->
  ordered_stack titem_id titem_expr (titems first) (map titems tiers) ->
  (forall t i, In t (g_tiers g) -> In i (t_items t) -> content_or fuel g (t, i) = Ok (content (t, i))) ->
  exists n lines,
    export_igt lower (fun ty s => Ok (isub ty s)) (fun ty s => Ok (tsub ty s)) fuel tier_types g
    = Ok (join newline ([L "\begin{exe}\small"; L "\ex\g" ++ repeat (Ch "l") (S (length tiers))]
           ++ lines ++ flat_map (trans_lines content tsub) (g_tiers g) ++ [L "\end{exe}"]))
    /\ Forall2 (line_for content isub tsub n) (first :: tiers) lines.
Proof. exact @LatexTextProofs.export_lines. Qed.
Print Assumptions C39_lines.

(* An unaligned item at the end of a tier makes columns of different depth. *)
Theorem C39_depth_refuted : exists first tiers cols,
  first <> [] /\ identified titem_id first /\ ordered_stack (U := ascii_unicode) titem_id titem_expr first tiers
  /\ group_alignments (U := ascii_unicode) titem_id titem_expr (first :: tiers) = Ok cols
  /\ exists c c', In c cols /\ In c' cols /\ length c <> length c'.
Proof. exact LatexExamples.depth_differs. Qed.
Print Assumptions C39_depth_refuted.
(* An unaligned item between two others can come before both. *)
Theorem C39_order_refuted : exists first tiers last_tier cols, first <> [] /\ identified titem_id first
  /\ ordered_stack (U := ascii_unicode) titem_id titem_expr first tiers /\ identified titem_id last_tier
  /\ ordered_loosely (U := ascii_unicode) titem_id titem_expr (last tiers first) last_tier
  /\ group_alignments (U := ascii_unicode) titem_id titem_expr (first :: tiers ++ [last_tier]) = Ok cols
  /\ whole_row (S (length tiers)) cols <> last_tier.
Proof. exact LatexExamples.order_broken. Qed.
Print Assumptions C39_order_refuted.
(* An item without alignment and segmentation is an error. *)
Theorem C39_reference_refuted : exists first items, first <> [] /\ identified titem_id first /\ identified titem_id items
  /\ group_alignments (U := ascii_unicode) titem_id titem_expr [first; items] = Err TypeError.
Proof. exact LatexExamples.no_reference. Qed.
Print Assumptions C39_reference_refuted.
(* So is an item that names a later item before an earlier one. *)
Theorem C39_reversed_refuted : exists first x p q, identified titem_id first
  /\ covers (U := ascii_unicode) titem_id titem_expr first x p q /\ q < p
  /\ group_alignments (U := ascii_unicode) titem_id titem_expr [first; [x]] = Err IndexError.
Proof. exact LatexExamples.reversed. Qed.
Print Assumptions C39_reversed_refuted.
(* For an item without content a pair of braces is printed. *)
Theorem C39_empty_refuted : exists g x, @value ascii_unicode 10 (Some g) (Some (fst x)) (snd x) value_refattrs = Ok None
  /\ @cell_text ascii_unicode (fun _ s => Ok s) 10 g [] [x] = Ok (L "{\{\}}").
Proof. exact LatexExamples.placeholder. Qed.
Print Assumptions C39_empty_refuted.

Example C39_example : ids_of (@group_tiers ascii_unicode [tw; tm; tg])
  = [ [[L "w1"]; [L "m1"; L "m2"]; [L "g1"; L "g2"]]; [[L "w2"; L "w3"]; [L "m3"; L "m4"]; [L "g3"]] ].
Proof. exact ex_table. Qed.
Example C39_example_hyps : identified titem_id (titems tw)
  /\ ordered_stack (U := ascii_unicode) titem_id titem_expr (titems tw) [titems tm; titems tg]
  /\ Forall (ends_aligned (U := ascii_unicode) titem_expr) [titems tm; titems tg].
Proof. exact (conj (proj1 ex_hyps) (conj (proj2 ex_hyps) ex_ends)). Qed.
Example C39_example_covers : covers (U := ascii_unicode) titem_id titem_expr (titems tm)
  (tg, it (L "g3") [(ALIGNMENT, L "m3,m4")] (Some (L "100%"))) 2 3.
Proof. exact ex_covers. Qed.
Example C39_example_text :
  @export_igt ascii_unicode lower_ascii (fun ty s => Ok (same ty s)) (fun ty s => Ok (same ty s)) 10 default_tier_types ex
  = Ok (join newline [L "\begin{exe}\small"; L "\ex\glll"; L "{dogs} {in a\_b}\\"; L "{dog s} {in a\_b}\\"; L "{dog PL} {100\%}\\";
                      L "\trans dogs \& more"; L "\end{exe}"]).
Proof. exact ex_text. Qed.

(* ---------- C68: the document ---------- *)

(* If nothing is raised, the file is the preamble, the block of each igt in
   order, each followed by a blank line, and the end. *)
Theorem C68_document : forall (U : Unicode) lower isub tsub fuel types gs text,
  export_file lower isub tsub fuel types gs = (text, None) <->
  exists bs, Forall2 (fun g b => export_igt lower isub tsub fuel types g = Ok b) gs bs
    /\ text = unlines (opening ++ spaced bs ++ closing).
Proof. exact @LatexDocProofs.document. Qed.
Print Assumptions C68_document.
(* An igt that cannot be exported ends it: the file holds the preamble and the
   blocks of the igts before it. *)
Theorem C68_stops : forall (U : Unicode) lower isub tsub fuel types gs text e,
  export_file lower isub tsub fuel types gs = (text, Some e) <->
  exists gs1 g gs2 bs, gs = gs1 ++ g :: gs2
    /\ Forall2 (fun g b => export_igt lower isub tsub fuel types g = Ok b) gs1 bs
    /\ export_igt lower isub tsub fuel types g = Err e /\ text = unlines (opening ++ spaced bs).
Proof. exact @LatexDocProofs.stops. Qed.
Print Assumptions C68_stops.
(* An igt without two tiers of the types asked for is mentioned in a comment. *)
Theorem C68_comment : forall (U : Unicode) lower isub tsub fuel types g,
  ~ two_of (of_type lower types) (g_tiers g) ->
  export_igt lower isub tsub fuel types g = Ok (comment (igt_id g)).
Proof. exact @LatexDocProofs.comment_if. Qed.
Print Assumptions C68_comment.
(* It is one, if the id has no line feed; *)
Theorem C68_comment_partial : forall i : option str, (forall s, i = Some s -> ~ In 10%N s) -> all_comment (comment i).
Proof. exact LatexDocProofs.comment_safe. Qed.
Print Assumptions C68_comment_partial.
(* but an id may have one, and what follows it is typeset. *)
Theorem C68_comment_refuted : exists i, @id_accepted ascii_unicode i = true /\ ~ all_comment (comment (Some i)).
Proof. exact LatexExamples.comment_broken. Qed.
Print Assumptions C68_comment_refuted.
(* Not every igt with two such tiers can be exported: not if one of them has no
   id, *)
Theorem C68_nameless_refuted : forall (U : Unicode) lower isub tsub fuel types g t,
  two_of (of_type lower types) (g_tiers g) -> In t (g_tiers g) -> of_type lower types t -> tier_id t = None ->
  export_igt lower isub tsub fuel types g = Err TypeError.
Proof. exact @LatexDocProofs.no_tier_id. Qed.
Print Assumptions C68_nameless_refuted.
(* nor if the first of them is empty. *)
Theorem C68_empty_refuted : forall (U : Unicode) lower isub tsub fuel types g t,
  two_of (of_type lower types) (g_tiers g) -> first_of (of_type lower types) (g_tiers g) t -> t_items t = [] ->
  (forall t, In t (g_tiers g) -> of_type lower types t -> tier_id t <> None) ->
  export_igt lower isub tsub fuel types g = Err IndexError.
Proof. exact @LatexDocProofs.first_empty. Qed.
Print Assumptions C68_empty_refuted.

Definition plain_sub (ty s : str) : res str := Ok s.
Definition file_of := @export_file ascii_unicode lower_ascii plain_sub plain_sub 10 default_tier_types.
Definition lone : igt := {| g_attrs := at0 (L "i2") None []; g_md := []; g_tiers := [tw; tt_] |}.
Definition untyped : tier := {| t_attrs := at0 (L "u") None []; t_md := []; t_items := [] |}.
Definition anonymous : igt := {| g_attrs := {| a_id := None; a_type := None; a_dict := []; a_ns := None; a_nsmap := None |}; g_md := []; g_tiers := [untyped; untyped; untyped] |}.
Definition untagged : tier := {| t_attrs := {| a_id := None; a_type := Some (L "Glosses"); a_dict := []; a_ns := None; a_nsmap := None |}; t_md := []; t_items := [] |}.
Definition nameless_tiers : igt := {| g_attrs := at0 (L "i4") None []; g_md := []; g_tiers := [tw; untagged] |}.
Definition hollow : igt := {| g_attrs := at0 (L "i3") None []; g_md := []; g_tiers := [ti (L "w") (L "words") [] []; tm] |}.
Example C68_example : file_of [lone; anonymous] = (unlines
  [[]; L "\documentclass{article}"; L "\usepackage{gb4e}"; L "\begin{document}"; [];
   L "%"; L "% cannot export IGT i2"; L "%"; []; L "%"; L "% cannot export IGT None"; L "%"; []; []; L "\end{document}"; []], None).
Proof. vm_compute. reflexivity. Qed.
Example C68_example_stops : file_of [lone; hollow; ex] = (unlines
  [[]; L "\documentclass{article}"; L "\usepackage{gb4e}"; L "\begin{document}"; [];
   L "%"; L "% cannot export IGT i2"; L "%"; []], Some IndexError).
Proof. vm_compute. reflexivity. Qed.
Example C68_example_nameless : two_of (of_type lower_ascii default_tier_types) (g_tiers nameless_tiers)
  /\ snd (file_of [nameless_tiers]) = Some TypeError.
Proof. split; [exists [], tw, [], (untagged), []; split; [reflexivity|]; split; eexists; (split; [reflexivity|]); vm_compute; auto|vm_compute; reflexivity]. Qed.
Example C68_example_hollow : first_of (of_type lower_ascii default_tier_types) (g_tiers hollow) (ti (L "w") (L "words") [] []).
Proof. exists [], [tm]. split; [reflexivity|]. split; [eexists; split; [reflexivity|]; vm_compute; auto|intros y []]. Qed.

(* what a table that cannot be built raises: a reference to an item that is not
   there, an item without an id *)
Example C39_missing : @group_tiers ascii_unicode [tw; ti (L "m") (L "morphemes") [] [it (L "m1") [(ALIGNMENT, L "w9")] (Some (L "a"))]] = Err KeyError.
Proof. vm_compute. reflexivity. Qed.
Example C39_no_item_id : @group_tiers ascii_unicode
  [ti (L "w") (L "words") [] [{| it_attrs := {| a_id := None; a_type := None; a_dict := []; a_ns := None; a_nsmap := None |}; it_text := Some (L "a") |}];
   ti (L "m") (L "morphemes") [] [it (L "m1") [(ALIGNMENT, L "w1")] (Some (L "a"))]] = Err TypeError.
Proof. vm_compute. reflexivity. Qed.
