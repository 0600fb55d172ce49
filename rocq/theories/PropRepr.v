(* Property C86: how objects are shown. *)
From Verif Require Import PyStr SpecRef Ref Model Value SpecValue Repr SpecRepr.
From Verif Require ReprProofs ReprExamples ValueExamples ItsdbExamples.
Import ReprExamples ItsdbExamples.

(* C86.  Everything but an item can be shown, *)
Theorem C86_total : forall (U : Unicode) fuel a x, ~ is_item x -> exists s, repr fuel a x = Ok s.
Proof. exact @ReprProofs.repr_total. Qed.
Print Assumptions C86_total.
(* an item exactly if its value can be found; *)
Theorem C86_item : forall (U : Unicode) fuel a g t i x,
  repr fuel a (TItem g t i) = Err x <-> value fuel g t i [L "content"; L "segmentation"] = Err x.
Proof. exact @ReprProofs.repr_item. Qed.
Print Assumptions C86_item.
(* which is then shown. *)
Theorem C86_value : forall (U : Unicode) fuel a g t i v, value fuel g t i [L "content"; L "segmentation"] = Ok v ->
  exists u, repr fuel a (TItem g t i) = Ok (u ++ L "with value """ ++ (match v with Some s => s | None => L "None" end) ++ L """ at " ++ dec_N a ++ L ">").
Proof. exact @ReprProofs.repr_value. Qed.
Print Assumptions C86_value.
(* The text names the class, the id or name, and the address, *)
Theorem C86_shows : forall (U : Unicode) fuel a x s, repr fuel a x = Ok s -> shows s (class_of x) (label_of x) a.
Proof. exact @ReprProofs.repr_shows. Qed.
Print Assumptions C86_shows.
(* and the number of members; *)
Theorem C86_count : forall (U : Unicode) fuel a x n, count_of x = Some n ->
  exists u, repr fuel a x = Ok (u ++ L ") with " ++ dec_nat n ++ L " " ++ members_of x ++ L " at " ++ dec_N a ++ L ">").
Proof. exact @ReprProofs.repr_count. Qed.
Print Assumptions C86_count.
(* tiers are shown with their type. *)
Theorem C86_tier : forall (U : Unicode) fuel a t, exists u v,
  repr fuel a (TTier t) = Ok (u ++ L "; type: " ++ (match a_type (t_attrs t) with Some s => s | None => L "None" end) ++ v)
  /\ u = L "<Tier object (id: " ++ (match a_id (t_attrs t) with Some (c :: r) => c :: r | _ => L "--" end)
  /\ v = L ") with " ++ dec_nat (length (t_items t)) ++ L " Items at " ++ dec_N a ++ L ">".
Proof. exact @ReprProofs.repr_tier. Qed.
Print Assumptions C86_tier.
(* What is shown the same is at the same address, of the same class, and has the same id, if the ids are proper ones. *)
Theorem C86_apart : forall (U : Unicode) fuel fuel' a b x y s, repr fuel a x = Ok s -> repr fuel' b y = Ok s ->
  a = b /\ class_of x = class_of y /\ (clean_label (label_of x) -> clean_label (label_of y) -> label_of x = label_of y).
Proof. exact @ReprProofs.repr_apart. Qed.
Print Assumptions C86_apart.
Example C86_example : show 12%N (TIgt igt2) = Ok (L "<Igt object (id: i2) with 2 Tiers at 12>")
  /\ show 3%N (TTier words1) = Ok (L "<Tier object (id: w; type: words) with 2 Items at 3>")
  /\ show 3%N (TTier {| t_attrs := bare_; t_md := []; t_items := [] |}) = Ok (L "<Tier object (id: --; type: None) with 0 Items at 3>")
  /\ show 4%N (TItem (Some igt1) (Some words1) (word (L "w2") (L "dog"))) = Ok (L "<Item object (id: w2) with value ""dog"" at 4>")
  /\ show 5%N (TItem None None {| it_attrs := bare_; it_text := None |}) = Ok (L "<Item object (id: --) with value ""None"" at 5>")
  /\ show 6%N (TCorpus {| c_attrs := bare_; c_md := []; c_igts := [igt1] |}) = Ok (L "<XigtCorpus object (id: --) with 1 Igts at 6>")
  /\ show 7%N (TMetadata {| md_attrs := bare_; md_metas := [] |}) = Ok (L "<Metadata object (id: --) with 0 Metas at 7>")
  /\ show 8%N (TMeta {| me_attrs := at_ (L "m1") None; me_text := None; me_kids := [] |}) = Ok (L "<Meta object (id: m1) at 8>")
  /\ show 9%N (TChild (MChild (L "subject") bare_ None [])) = Ok (L "<MetaChild object (name: subject) at 9>").
Proof. exact shown. Qed.
Example C86_apart_meets : clean_label (label_of (TIgt igt2)) /\ clean_label (label_of (TTier words1)) /\ clean_label None.
Proof. repeat split; try discriminate; cbn; intros H; repeat destruct H as [H|H]; try discriminate; easy. Qed.
(* So not everything can be shown, *)
Theorem C86_total_refuted : (forall fuel a, @repr ascii_unicode (S fuel) a (TItem None None lone) = Err XigtStructureError)
  /\ forall fuel a, @repr ascii_unicode fuel a (TItem (Some ValueExamples.loop_igt) (Some ValueExamples.loop_tier) ValueExamples.loop_item) = Err RecursionError.
Proof. exact not_shown. Qed.
Print Assumptions C86_total_refuted.
(* and other ids can be mistaken. *)
Theorem C86_label_refuted : exists i j s, a_id (it_attrs i) <> a_id (it_attrs j) /\ show 1%N (TItem None None i) = Ok s /\ show 1%N (TItem None None j) = Ok s.
Proof. exact label_refuted. Qed.
Print Assumptions C86_label_refuted.
