(* Property C76: JSON as text; what settles (C25). *)
From Verif Require Import PyStr SpecRef Ref Model SpecModel XmlStd Xml SpecXml Json SpecJson JsonText SpecJsonText SpecJsonSettle.
From Verif Require JsonTextProofs JsonRunProofs JsonSettleProofs JsonSettleText XmlExamples JsonExamples JsonTextExamples.
Import XmlExamples JsonExamples JsonTextExamples JsonSettleText.

(* ---------- C76 ---------- *)

(* What is written, with any indentation, is read as the value that was written, *)
Theorem C76_written : forall indent j, json_apart j -> read_json (write_json indent 0 j) = Ok j.
Proof. exact JsonTextProofs.read_write. Qed.
Print Assumptions C76_written.
Example C76_written_example : forall indent, exists j, json_encode jt = Ok j /\ read_json (write_json indent 0 j) = Ok j
  /\ write_json None 0 j = jt_line /\ write_json (Some 2) 0 j = jt_lines.
Proof. exact written_example. Qed.
(* it has only printable ASCII characters, and line feeds if it is indented. *)
Theorem C76_ascii : forall indent j, Forall (written_char indent) (write_json indent 0 j).
Proof. exact (fun indent j => JsonTextProofs.write_ascii indent j 0). Qed.
Print Assumptions C76_ascii.
(* Loading the text of a corpus is decoding what it is encoded as. *)
Theorem C76_text : forall (U : Unicode) c indent j, json_encode c = Ok j -> Forall apart (of_corpus c) ->
  exists s, json_dumps c indent = Ok s /\ Forall (written_char indent) s /\ read_json s = Ok j /\ json_loads s = json_decode j.
Proof. exact @JsonRunProofs.json_text. Qed.
Print Assumptions C76_text.
Example C76_text_example : Forall apart (of_corpus jt) /\ json_dumps jt (Some 2) = Ok jt_lines /\ @json_loads ascii_unicode jt_lines = Ok jt.
Proof. exact (conj jt_apart (conj (proj2 jt_dumps) (proj2 jt_loads))). Qed.
(* A corpus of C25 is saved as a text and loaded again.  Missing from the full claim
   is what is missing from C25, and strings with surrogates in pairs. *)
Theorem C76_round_trip_partial : forall (U : Unicode) c indent, jcorpus c -> Forall apart (of_corpus c) ->
  exists s c', json_dumps c indent = Ok s /\ json_loads s = Ok c' /\ same_corpus c c'.
Proof. exact @JsonRunProofs.json_text_round_trip. Qed.
Print Assumptions C76_round_trip_partial.
Example C76_round_trip_example : forall U : Unicode, jcorpus jc /\ Forall apart (of_corpus jc).
Proof. exact (fun U => conj jc_ok jc_apart). Qed.
(* The two halves of a character are loaded as the character. *)
Theorem C76_round_trip_refuted : @jcorpus ascii_unicode (halves [55357; 56832]%N)
  /\ exists s, json_dumps (halves [55357; 56832]%N) None = Ok s /\ @json_loads ascii_unicode s = Ok (halves [128512]%N).
Proof. exact (conj (halves_wellformed _ (fun E => eq_ind [55357; 56832]%N (fun l => match l with [] => False | _ => True end) I [] E)) halves_joined). Qed.
Print Assumptions C76_round_trip_refuted.

(* Any text of characters, whoever wrote it: its value has only strings that survive, *)
Theorem C76_read : forall s j, Forall scalar s -> read_json s = Ok j -> json_apart j.
Proof. exact JsonTextProofs.read_json_sound. Qed.
Print Assumptions C76_read.
Example C76_read_example : exists j, read_json foreign = Ok j.
Proof. exact (ex_intro _ _ foreign_read). Qed.
(* so has the corpus loaded from it, which is hence saved as a text that is read as
   what the corpus is encoded as. *)
Theorem C76_read_strings : forall (U : Unicode) s c, Forall scalar s -> json_loads s = Ok c -> Forall apart (of_corpus c).
Proof. exact @JsonRunProofs.json_read_strings. Qed.
Print Assumptions C76_read_strings.
Theorem C76_reload : forall (U : Unicode) indent s c s1, Forall scalar s -> json_loads s = Ok c -> json_dumps c indent = Ok s1 ->
  exists j, json_encode c = Ok j /\ read_json s1 = Ok j /\ Forall scalar s1.
Proof. exact @JsonSettleText.text_reload. Qed.
Print Assumptions C76_reload.
Example C76_reload_example : Forall scalar foreign2 /\ exists c s1, @json_loads ascii_unicode foreign2 = Ok c /\ json_dumps c None = Ok s1.
Proof. exact (conj foreign2_scalar reload_example). Qed.
(* What is no JSON is an error. *)
Example C76_bad_texts : Forall (fun s => @json_loads ascii_unicode s = Err ValueError) bad_texts.
Proof. exact bad_texts_fail. Qed.

(* ---------- C25: what is lost is lost once ---------- *)

(* Whatever the first saving changed, the corpus that is loaded is one that survives, *)
Theorem C25_settles : forall (U : Unicode) c j c1, plain_corpus c -> json_encode c = Ok j -> json_decode j = Ok c1 -> jcorpus c1.
Proof. exact @JsonSettleProofs.json_settles. Qed.
Print Assumptions C25_settles.
(* so it is saved and loaded as it is; *)
Theorem C25_second : forall (U : Unicode) c j c1, plain_corpus c -> json_encode c = Ok j -> json_decode j = Ok c1 ->
  exists j1 c2, json_encode c1 = Ok j1 /\ json_decode j1 = Ok c2 /\ same_corpus c1 c2.
Proof. exact @JsonSettleProofs.json_second. Qed.
Print Assumptions C25_second.
Example C25_second_example : (forall U : Unicode, plain_corpus js) /\ exists j, json_encode js = Ok j /\ @json_decode ascii_unicode j = Ok js1
  /\ json_encode js1 <> Ok j.
Proof. exact (conj js_plain js_example). Qed.
(* and as texts. *)
Theorem C76_second : forall (U : Unicode) c indent indent' s c1, plain_corpus c -> Forall apart (of_corpus c) ->
  json_dumps c indent = Ok s -> json_loads s = Ok c1 ->
  exists s1 c2, json_dumps c1 indent' = Ok s1 /\ json_loads s1 = Ok c2 /\ same_corpus c1 c2.
Proof. exact @JsonSettleText.text_second. Qed.
Print Assumptions C76_second.
Example C76_second_example : Forall apart (of_corpus js) /\ exists s, json_dumps js None = Ok s /\ @json_loads ascii_unicode s = Ok js1.
Proof. exact (conj js_apart js_text). Qed.
(* A prefix that begins with a brace is a namespace the second time. *)
Theorem C25_second_refuted : exists c j c1 j1 c2, json_encode c = Ok j /\ @json_decode ascii_unicode j = Ok c1
  /\ json_encode c1 = Ok j1 /\ @json_decode ascii_unicode j1 = Ok c2 /\ ~ same_corpus c1 c2.
Proof. exact brace_changes. Qed.
Print Assumptions C25_second_refuted.
