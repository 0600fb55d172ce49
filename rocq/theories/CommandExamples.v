(* Concrete runs of xigt sort. *)
From Coq Require Import Permutation.
From Verif Require Import PyStr PyStrFacts SpecRef Model SpecModel XmlStd Xml SpecXml SpecReload ReloadExamples SpecChunks ChunksProofs Index Scripts Path SpecPath Command SpecCommand.
From Verif Require CommandProofs BlindProofs.
#[local] Existing Instance ascii_unicode.

Definition item_ (i t : string) : xelem := XElem (L "item") [(L "id", L i)] (Some (L t)) None [].
Definition tier_ (d : dict str) (kids : list xelem) : xelem := XElem (L "tier") d None None kids.
Definition igt_ (i source : string) (kids : list xelem) : xelem :=
  XElem (L "igt") [(L "id", L i)] None None
    (XElem (L "metadata") [] None None [XElem (L "meta") [(L "type", L "source")] (Some (L source)) None []] :: kids).

(* glosses before the words they are aligned with, i10 before i9, w10 before w9 *)
Definition doc_mixed : xelem :=
  doc_of []
    [igt_ "i10" "b" [tier_ [(L "id", L "g"); (L "type", L "glosses"); (L "alignment", L "w")] [item_ "g1" "dog"];
                     tier_ [(L "id", L "w"); (L "type", L "words")] [item_ "w10" "canis"; item_ "w9" "est"]];
     igt_ "i9" "b" [];
     igt_ "i11" "a" [tier_ [(L "type", L "words")] [item_ "w2" "et"]]].
Definition opts (a b : option (list str)) (d : option str) (i : option (list str)) : sort_opts :=
  {| igt_key := a; tier_key := b; tier_deps := d; item_key := i |}.
(* --igt-key=metadata/meta/text() --igt-key=@id --tier-deps='segmentation, alignment' --item-key=@id *)
Definition o_all : sort_opts := opts (Some [L "metadata/meta/text()"; L "@id"]) None (Some (L "segmentation, alignment")) (Some [L "@id"]).

(* ids in document order *)
Definition ids_in (e : xelem) : list str :=
  (fix go (e : xelem) : list str :=
     match e with XElem _ d _ _ kids => (match dget d (L "id") with Some i => [i] | None => [] end) ++ flat_map go kids end) e.

Section Examples.
Context (ix : igt -> index) (vfuel : nat).
Lemma mixed_tidy : tidy_document doc_mixed.
Proof. split; [apply tidyb_ok|]; reflexivity. Qed.
Lemma mixed_sorted : exists e', (forall ahead, sort_document ix vfuel 9 ahead o_all doc_mixed = Ok e')
  /\ ids_in doc_mixed = map L ["i10"; "g"; "g1"; "w"; "w10"; "w9"; "i9"; "i11"; "w2"]%string
  /\ ids_in e' = map L ["i11"; "w2"; "i9"; "i10"; "w"; "w9"; "w10"; "g"; "g1"]%string.
Proof.
  eexists. split; [intros ahead; unfold sort_document; erewrite load_any by (vm_compute; reflexivity); vm_compute; reflexivity|].
  split; vm_compute; reflexivity.
Qed.
Lemma mixed_blind : each (igt_key o_all) (order_blind ix vfuel an_igt) /\ each (item_key o_all) (order_blind ix vfuel an_item).
Proof.
  assert (V : forall s, s <> [] -> (forall c, In c s -> ~ special c) -> strip s = s -> (forall k, keyword k -> ~ starts s k) ->
    ~ starts s (L "@") -> ~ starts s (L "*") -> ~ starts s (L """") -> forall b, valid_name b s) by (intros; right; right; tauto).
  assert (Vm : forall s b, In s [L "metadata"; L "meta"; L "id"] -> valid_name b s).
  { intros s b H. apply V.
    - destruct H as [<-|[<-|[<-|[]]]]; discriminate.
    - intros c Hc Hs. vm_compute in Hs. destruct H as [<-|[<-|[<-|[]]]]; vm_compute in Hc; intuition (subst; discriminate).
    - destruct H as [<-|[<-|[<-|[]]]]; vm_compute; reflexivity.
    - intros k Hk [r E]. destruct H as [<-|[<-|[<-|[]]]]; destruct Hk as [->|[->|[->| ->]]]; discriminate E.
    - intros [r E]. destruct H as [<-|[<-|[<-|[]]]]; discriminate E.
    - intros [r E]. destruct H as [<-|[<-|[<-|[]]]]; discriminate E.
    - intros [r E]. destruct H as [<-|[<-|[<-|[]]]]; discriminate E. }
  split; intros p ps [= <-]; intros H.
  - destruct H as [<-|[<-|[]]].
    + change (L "metadata/meta/text()") with (show (plain_path [HChild (L "metadata"); HChild (L "meta"); HCall (L "text") None])).
      apply BlindProofs.own_paths; [reflexivity|repeat constructor|].
      cbn. repeat split; try discriminate; try (now apply Vm; cbn; tauto). now left.
    + change (L "@id") with (show (plain_path [HAttr (L "id")])). apply BlindProofs.own_paths; [exact I|constructor|].
      cbn. repeat split; try discriminate; try (now apply Vm; cbn; tauto).
  - destruct H as [<-|[]]. change (L "@id") with (show (plain_path [HAttr (L "id")])). apply BlindProofs.item_paths; [repeat constructor|].
    cbn. repeat split; try discriminate; try (now apply Vm; cbn; tauto).
Qed.
Lemma mixed_again : exists e', (forall ahead, sort_document ix vfuel 9 ahead o_all doc_mixed = Ok e') /\ forall ahead, sort_document ix vfuel 9 ahead o_all e' = Ok e'.
Proof.
  eexists. split; [intros ahead; unfold sort_document; erewrite load_any by (vm_compute; reflexivity); vm_compute; reflexivity|].
  intros ahead; unfold sort_document; erewrite load_any by (vm_compute; reflexivity); vm_compute; reflexivity.
Qed.

(* igts by their first item, and items by id *)
Definition doc_first : xelem :=
  doc_of [] [igt_ "a" "" [tier_ [] [item_ "w3" "x"; item_ "w1" "y"]]; igt_ "b" "" [tier_ [] [item_ "w2" "z"]]].
Definition o_first : sort_opts := opts (Some [L "tier/item/@id"]) None None (Some [L "@id"]).
Lemma first_refuted : exists e e' e'', tidy_document e
  /\ (forall fuel ahead, sort_document ix vfuel fuel ahead o_first e = Ok e') /\ (forall fuel ahead, sort_document ix vfuel fuel ahead o_first e' = Ok e'')
  /\ ids_in e' = map L ["b"; "w2"; "a"; "w1"; "w3"]%string /\ ids_in e'' = map L ["a"; "w1"; "w3"; "b"; "w2"]%string.
Proof.
  exists doc_first. do 2 eexists. split; [split; [apply tidyb_ok|]; reflexivity|].
  split; [intros fuel ahead; unfold sort_document; erewrite load_any by (vm_compute; reflexivity); vm_compute; reflexivity|].
  split; [intros fuel ahead; unfold sort_document; erewrite load_any by (vm_compute; reflexivity); vm_compute; reflexivity|].
  split; vm_compute; reflexivity.
Qed.
(* a path to objects that have members *)
Lemma object_refuted : exists e, tidy_document e /\ (exists c, forall ahead, xml_load ahead e = Ok c)
  /\ forall fuel ahead in_place, run_sort ix vfuel fuel ahead (opts (Some [L "tier"]) None None None) in_place e = (Err TypeError, Some e).
Proof.
  exists doc_first. split; [split; [apply tidyb_ok|]; reflexivity|]. split.
  - eexists. intros ahead. erewrite load_any by (vm_compute; reflexivity). reflexivity.
  - intros fuel ahead b. unfold run_sort, sort_document. erewrite load_any by (vm_compute; reflexivity). vm_compute. reflexivity.
Qed.
(* two paths that give texts: the ids a and a1, each followed by the type t *)
Lemma runs_refuted : exists e o, tidy_document e /\ each (igt_key o) (texts_for ix vfuel an_igt)
  /\ forall fuel ahead, sort_document ix vfuel fuel ahead o e = Err TypeError.
Proof.
  exists (doc_of [] [XElem (L "igt") [(L "id", L "a"); (L "type", L "t")] None None []; XElem (L "igt") [(L "id", L "a1"); (L "type", L "t")] None None []]).
  exists (opts (Some [L "@id"; L "@type"]) None None None). split; [split; [apply tidyb_ok|]; reflexivity|]. split.
  - destruct (CommandProofs.id_texts ix vfuel) as (H1 & H2 & _). intros p ps [= <-] [<-|[<-|[]]] n _; [exact (H1 n I)|exact (H2 n I)].
  - intros fuel ahead. unfold sort_document. erewrite load_any by (vm_compute; reflexivity). vm_compute. reflexivity.
Qed.
End Examples.
