(* Properties of the deprecated functions on alignment expressions (C64). *)
From Verif Require Import PyStr Ref SpecRef Model Value RefOld SpecRefOld.
From Verif Require RefOldProofs.

(* a1[0:3,-2:10]+b.2 *)
Definition old_sample : expr :=
  [ {| sl_delim := []; sl_id := L "a1";
       sl_spans := [ {| sp_delim := []; sp_start := L "0"; sp_end := L "3" |};
                     {| sp_delim := L ","; sp_start := L "-2"; sp_end := L "10" |} ] |};
    {| sl_delim := L "+"; sl_id := L "b.2"; sl_spans := [] |} ].
Definition old_items : str -> option (res (option str)) :=
  fun i => if str_eqb i (L "a1") then Some (Ok (Some (L "hello"))) else
           if str_eqb i (L "b.2") then Some (Ok (Some (L "x"))) else
           if str_eqb i (L "n") then Some (Ok None) else None.

(* the old function gives what resolve() gives *)
Theorem C64_agrees : forall (U : Unicode) (get : str -> option (res (option str))) (e : expr),
  plain e -> (forall s, In s e -> has_value get (sl_id s)) ->
  resolve_alignment_expression get (show e) [] (L " ") = resolve get (show e).
Proof. intros U. exact RefOldProofs.old_agrees. Qed.
Print Assumptions C64_agrees.

(* with other separators: between selections, not between the spans of one *)
Theorem C64_separators : forall (U : Unicode) (get : str -> option (res (option str))) (plus comma : str) (e : expr),
  plain e -> (forall s, In s e -> has_value get (sl_id s)) ->
  resolve_alignment_expression get (show e) plus comma = text_with get plus comma e.
Proof. intros U. exact RefOldProofs.old_text. Qed.
Print Assumptions C64_separators.

(* the list of delimiters, ids and spans *)
Theorem C64_spans : forall (U : Unicode) (e : expr), plain e ->
  get_alignment_expression_spans (Some (show e)) = (do l <- expr_pieces e; Ok (map RefOldProofs.as_old l)).
Proof. intros U. exact RefOldProofs.old_spans. Qed.
Print Assumptions C64_spans.

(* the first missing item: an undefined name instead of the documented warning *)
Theorem C64_missing : forall (U : Unicode) (get : str -> option (res (option str))) (e : expr) (s : sel) (l r : list sel) (plus comma : str),
  plain e -> e = l ++ s :: r -> (forall s', In s' l -> exists t, get (sl_id s') = Some (Ok (Some t))) -> get (sl_id s) = None ->
  resolve_alignment_expression get (show e) plus comma = Err NameError /\ resolve get (show e) = Err XigtStructureError.
Proof. intros U. exact RefOldProofs.old_missing. Qed.
Print Assumptions C64_missing.

(* the tier an attribute of a tier names *)
Theorem C64_aligned_tier : forall (U : Unicode) (a : attrs) (ps : list attrs) (g : igt) (ra k : str) (t : tier),
  ~ In (Ch ":") ra -> dget (a_dict a) ra = Some k -> find_id tier_id (g_tiers g) k = Some t ->
  get_aligned_tier (a :: ps) (Some g) ra = Ok (Some t).
Proof. intros U. exact RefOldProofs.aligned_tier. Qed.
Print Assumptions C64_aligned_tier.
Theorem C64_no_aligned_tier : forall (U : Unicode) (a : attrs) (ps : list attrs) (g : option igt) (ra : str),
  ~ In (Ch ":") ra -> dget (a_dict a) ra = None -> get_aligned_tier (a :: ps) g ra = Err NameError.
Proof. intros U. exact RefOldProofs.no_aligned_tier. Qed.
Print Assumptions C64_no_aligned_tier.

Ltac int_ok := match goal with
  | |- int_shape (L "-2") => exists (L "-"), (L "2")
  | |- int_shape ?x => exists [], x
  end; (split; [reflexivity|]); (split; [auto|]); (split; [discriminate|]); repeat constructor.
Example C64_example : forall U : Unicode, plain old_sample
  /\ (forall s, In s old_sample -> has_value old_items (sl_id s))
  /\ show old_sample = L "a1[0:3,-2:10]+b.2"
  /\ resolve_alignment_expression old_items (show old_sample) [] (L " ") = Ok (L "hel lox")
  /\ resolve_alignment_expression old_items (show old_sample) (L "*") (L "/") = Ok (L "hel lo*x")
  /\ get_alignment_expression_spans (Some (show old_sample))
     = Ok [OTuple (L "a1") 0 3; OStr (L ","); OTuple (L "a1") (-2) 10; OStr (L "+"); OStr (L "b.2")]
  /\ resolve_alignment_expression old_items (L "a1,c") [] (L " ") = Err NameError.
Proof.
  intros U. split; [|split; [|repeat split; vm_compute; reflexivity]].
  - unfold plain, old_sample. cbn [plain_sels plain_spans sl_delim sl_id sl_spans sp_delim sp_start sp_end].
    repeat split; try int_ok; try (right; reflexivity); try (left; reflexivity).
    all: match goal with |- id_shape ?x => let y := eval vm_compute in x in match y with ?c :: ?t => exists c, t end end.
    all: split; [reflexivity|]; split; [vm_compute; intuition discriminate|].
    all: repeat constructor; unfold id_char; (right; right; reflexivity) || (right; left; reflexivity).
  - intros s [<-|[<-|[]]]; eexists; (split; [vm_compute; reflexivity|discriminate]).
Qed.

(* the full statement of agreement is without plain and has_value: a run of
   delimiters counts once for resolve() only, and an item without a value is a
   TypeError *)
Theorem C64_run_refuted : forall U : Unicode, exists get e,
  resolve get e = Ok (L "hello x") /\ resolve_alignment_expression get e [] (L " ") = Ok (L "hello  x").
Proof. intros U. exists old_items, (L "a1,,b.2"). split; vm_compute; reflexivity. Qed.
Print Assumptions C64_run_refuted.
Theorem C64_no_value_refuted : forall U : Unicode, exists get e,
  resolve get e = Ok (L "hello ") /\ resolve_alignment_expression get e [] (L " ") = Err TypeError.
Proof. intros U. exists old_items, (L "a1,n"). split; vm_compute; reflexivity. Qed.
Print Assumptions C64_no_value_refuted.
(* other separators are not used inside the brackets *)
Theorem C64_inner_separators_refuted : forall U : Unicode, exists get e plus comma,
  resolve_alignment_expression get (expand e) plus comma <> resolve_alignment_expression get e plus comma.
Proof. intros U. exists old_items, (L "a1[0:3+3:5]"), (L "*"), (L "/"). vm_compute. discriminate. Qed.
Print Assumptions C64_inner_separators_refuted.
