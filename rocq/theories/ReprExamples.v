(* Examples for how objects are shown. *)
From Verif Require Import PyStr SpecRef Ref Model Value SpecValue Repr SpecRepr.
From Verif Require ValueExamples ItsdbExamples.
Import ItsdbExamples.

Definition show := @repr ascii_unicode 9.
Definition bare_ : attrs := {| a_id := None; a_type := None; a_dict := []; a_ns := None; a_nsmap := None |}.
Definition lone : item := {| it_attrs := {| a_id := Some (L "i1"); a_type := None; a_dict := [(L "content", L "w1")]; a_ns := None; a_nsmap := None |}; it_text := None |}.

Lemma shown : show 12%N (TIgt igt2) = Ok (L "<Igt object (id: i2) with 2 Tiers at 12>")
  /\ show 3%N (TTier words1) = Ok (L "<Tier object (id: w; type: words) with 2 Items at 3>")
  /\ show 3%N (TTier {| t_attrs := bare_; t_md := []; t_items := [] |}) = Ok (L "<Tier object (id: --; type: None) with 0 Items at 3>")
  /\ show 4%N (TItem (Some igt1) (Some words1) (word (L "w2") (L "dog"))) = Ok (L "<Item object (id: w2) with value ""dog"" at 4>")
  /\ show 5%N (TItem None None {| it_attrs := bare_; it_text := None |}) = Ok (L "<Item object (id: --) with value ""None"" at 5>")
  /\ show 6%N (TCorpus {| c_attrs := bare_; c_md := []; c_igts := [igt1] |}) = Ok (L "<XigtCorpus object (id: --) with 1 Igts at 6>")
  /\ show 7%N (TMetadata {| md_attrs := bare_; md_metas := [] |}) = Ok (L "<Metadata object (id: --) with 0 Metas at 7>")
  /\ show 8%N (TMeta {| me_attrs := at_ (L "m1") None; me_text := None; me_kids := [] |}) = Ok (L "<Meta object (id: m1) at 8>")
  /\ show 9%N (TChild (MChild (L "subject") bare_ None [])) = Ok (L "<MetaChild object (name: subject) at 9>").
Proof. vm_compute. repeat split; reflexivity. Qed.
(* an item that refers, but is in no tier; and one that refers to itself *)
Lemma not_shown : (forall fuel a, @repr ascii_unicode (S fuel) a (TItem None None lone) = Err XigtStructureError)
  /\ forall fuel a, @repr ascii_unicode fuel a (TItem (Some ValueExamples.loop_igt) (Some ValueExamples.loop_tier) ValueExamples.loop_item) = Err RecursionError.
Proof.
  split; [reflexivity|]. intros fuel a. cbn [repr].
  pose proof (proj2 (proj2 (proj2 (proj2 (proj2 (proj2 (proj2 (proj2 (@ValueExamples.c13_example ascii_unicode))))))))) as H. unfold overflows in H.
  change value_refattrs with [L "content"; L "segmentation"]. now rewrite (H fuel).
Qed.
(* ids with such characters can be confused with what follows *)
Lemma label_refuted : exists i j s, a_id (it_attrs i) <> a_id (it_attrs j) /\ show 1%N (TItem None None i) = Ok s /\ show 1%N (TItem None None j) = Ok s.
Proof.
  exists {| it_attrs := at_ (L "a") None; it_text := Some (L "b"") with value ""c") |}, {| it_attrs := at_ (L "a) with value ""b""") None; it_text := Some (L "c") |}.
  eexists. split; [discriminate|]. split; vm_compute; reflexivity.
Qed.
