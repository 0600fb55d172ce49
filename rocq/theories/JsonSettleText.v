(* Saving twice, as texts; a corpus that settles. *)
From Verif Require Import PyStr PyStrFacts Ref SpecRef Model SpecModel XmlStd Xml SpecXml Json SpecJson JsonText SpecJsonText SpecJsonSettle.
From Verif Require Import LoadProofs JsonTextProofs JsonRunProofs JsonSettleProofs XmlExamples JsonExamples.

Require Import Lia.
Section Text.
Context {U : Unicode}.
Theorem text_second c indent indent' s c1 : plain_corpus c -> Forall apart (of_corpus c) -> json_dumps c indent = Ok s -> json_loads s = Ok c1 ->
  exists s1 c2, json_dumps c1 indent' = Ok s1 /\ json_loads s1 = Ok c2 /\ same_corpus c1 c2.
Proof.
  intros Hp Hs E D. unfold json_dumps in E. inv_bind E. assert (s = write_json indent 0 x) as -> by congruence. clear E.
  pose proof (encode_fine c x Hs E0) as Hx. unfold json_loads in D. rewrite read_write in D by easy. cbn [bind] in D.
  apply json_text_round_trip; [now apply (json_settles c x)|now apply (decode_strings x)].
Qed.
(* texts that are read and written again have the same value *)
Theorem reformat indent s j : Forall scalar s -> read_json s = Ok j -> read_json (write_json indent 0 j) = Ok j.
Proof. intros H E. apply read_write. now apply (read_json_sound s). Qed.
(* what is loaded and saved *)
Theorem text_reload indent s c s1 : Forall scalar s -> json_loads s = Ok c -> json_dumps c indent = Ok s1 ->
  exists j, json_encode c = Ok j /\ read_json s1 = Ok j /\ Forall scalar s1.
Proof.
  intros Hs D E. pose proof (json_read_strings s c Hs D) as Hf. unfold json_dumps in E. inv_bind E. exists x. split; [easy|].
  assert (s1 = write_json indent 0 x) as -> by congruence. split; [apply read_write, (encode_fine c x Hf E0)|].
  eapply Forall_impl; [|apply write_ascii]. intros a [H|[_ ->]]; unfold scalar, high_surrogate, low_surrogate, plain_char in *; lia.
Qed.
End Text.

(* an attribute in a declared namespace, an empty text, a type of the corpus *)
Definition js : corpus :=
  {| c_attrs := {| a_id := Some (L "c"); a_type := Some (L "t"); a_dict := [(in_ns MY_URI (L "k"), L "v")]; a_ns := None; a_nsmap := Some [(L "my", MY_URI)] |};
     c_md := [{| md_attrs := no_attrs; md_metas := [{| me_attrs := no_attrs; me_text := None;
       me_kids := [MChild (L "title") {| a_id := None; a_type := Some (L "x"); a_dict := []; a_ns := Some (L "my"); a_nsmap := None |} None []] |}] |}];
     c_igts := [{| g_attrs := with_id (L "i"); g_md := [];
                   g_tiers := [{| t_attrs := with_id (L "w"); t_md := []; t_items := [{| it_attrs := with_id (L "w1"); it_text := Some [] |}] |}] |}] |}.
Definition js1 : corpus :=
  {| c_attrs := {| a_id := Some (L "c"); a_type := None; a_dict := [(L "my:k", L "v")]; a_ns := None; a_nsmap := Some [(L "my", MY_URI)] |};
     c_md := [{| md_attrs := no_attrs; md_metas := [{| me_attrs := no_attrs; me_text := None;
       me_kids := [MChild (L "title") {| a_id := None; a_type := None; a_dict := []; a_ns := Some MY_URI; a_nsmap := None |} None []] |}] |}];
     c_igts := [{| g_attrs := with_id (L "i"); g_md := [];
                   g_tiers := [{| t_attrs := with_id (L "w"); t_md := []; t_items := [{| it_attrs := with_id (L "w1"); it_text := None |}] |}] |}] |}.
Lemma js_plain : forall U : Unicode, plain_corpus js.
Proof.
  intros U. split; [|split].
  - intros m E. assert (m = [(L "my", MY_URI)]) as -> by (cbn in E; congruence). intros p u [E1|[]].
    assert (p = L "my") as -> by congruence. assert (u = MY_URI) as -> by congruence.
    split; [split; [vm_compute; intuition discriminate|intros r; discriminate]|discriminate].
  - constructor; [|constructor]. split; [intros m; discriminate|]. constructor; [|constructor]. split; [intros m; discriminate|].
    constructor; [|constructor]. constructor; [|intros m; discriminate|constructor].
    do 2 eexists. split; [reflexivity|]. split; [reflexivity|]. split; [reflexivity|]. cbn. intros x Hx. left.
    repeat (destruct Hx as [<-|Hx]; [reflexivity|]). easy.
  - constructor; [|constructor]. split; [intros m; discriminate|]. split; [constructor|]. constructor; [|constructor].
    split; [intros m; discriminate|]. split; [constructor|]. constructor; [intros m; discriminate|constructor].
Qed.
Lemma js_once : exists j, json_encode js = Ok j /\ @json_decode ascii_unicode j = Ok js1.
Proof. eexists. split; vm_compute; reflexivity. Qed.
Lemma js_twice : exists j, json_encode js1 = Ok j /\ @json_decode ascii_unicode j = Ok js1.
Proof. eexists. split; vm_compute; reflexivity. Qed.
Lemma js_apart : Forall apart (of_corpus js).
Proof.
  apply Forall_forall. intros s H. apply JsonRunProofs.apart_ascii. revert s H. apply Forall_forall.
  vm_compute. repeat (constructor; [reflexivity|]). constructor.
Qed.
Lemma js_example : exists j, json_encode js = Ok j /\ @json_decode ascii_unicode j = Ok js1 /\ json_encode js1 <> Ok j.
Proof. eexists. split; [vm_compute; reflexivity|]. split; [vm_compute; reflexivity|]. vm_compute. discriminate. Qed.
Lemma js_text : exists s, json_dumps js None = Ok s /\ @json_loads ascii_unicode s = Ok js1.
Proof. eexists. split; [vm_compute; reflexivity|]. vm_compute. reflexivity. Qed.

(* the prefix is {u}, then u bound: the key is written as {u}:k, then as p::k *)
Definition brace : corpus :=
  {| c_attrs := {| a_id := None; a_type := None; a_dict := [(in_ns MY_URI (L "k"), L "v")]; a_ns := None;
                   a_nsmap := Some [(L "{u}", MY_URI); (L "p", L "u")] |}; c_md := []; c_igts := [] |}.
Lemma brace_changes : exists c j c1 j1 c2, json_encode c = Ok j /\ @json_decode ascii_unicode j = Ok c1
  /\ json_encode c1 = Ok j1 /\ @json_decode ascii_unicode j1 = Ok c2 /\ ~ same_corpus c1 c2.
Proof.
  exists brace. do 4 eexists. split; [vm_compute; reflexivity|]. split; [vm_compute; reflexivity|]. split; [vm_compute; reflexivity|].
  split; [vm_compute; reflexivity|]. intros ((_ & _ & _ & H) & _). specialize (H (L "p::k")). vm_compute in H. discriminate.
Qed.
