(* Concrete texts for the properties of JSON as text. *)
From Verif Require Import PyStr PyStrFacts Ref SpecRef Model SpecModel XmlStd Xml SpecXml XmlExamples Json SpecJson JsonText SpecJsonText.
From Verif Require JsonProofs JsonTextProofs JsonRunProofs JsonExamples.
Import JsonExamples.
Require Import Lia.

(* double quotes within texts of JSON are written as single ones here *)
Definition q (s : String.string) : str := map (fun c => if N.eqb c 39 then 34%N else c) (L s).
Definition nl : str := [10%N].

(* quotes, backslash, ends of lines, a letter and a character beyond U+FFFF *)
Definition odd_text : str := q "a'b\c" ++ [10; 9; 233; 128512; 127]%N.
Definition jt : corpus :=
  {| c_attrs := {| a_id := Some (L "c"); a_type := None; a_dict := [(L "x", L "1")]; a_ns := None; a_nsmap := None |}; c_md := [];
     c_igts := [{| g_attrs := with_id (L "i"); g_md := [];
                   g_tiers := [{| t_attrs := with_id (L "w"); t_md := [];
                                  t_items := [{| it_attrs := with_id (L "w1"); it_text := Some odd_text |}] |}] |}] |}.
Definition jt_line : str :=
  q "{'id': 'c', 'attributes': {'x': '1'}, 'igts': [{'id': 'i', 'tiers': [{'id': 'w', 'items': [{'id': 'w1', 'text': 'a\'b\\c\n\t\u00e9\ud83d\ude00\u007f'}]}]}]}".
Definition jt_lines : str := join nl
  [q "{"; q "  'id': 'c',"; q "  'attributes': {"; q "    'x': '1'"; q "  },"; q "  'igts': ["; q "    {"; q "      'id': 'i',"; q "      'tiers': [";
   q "        {"; q "          'id': 'w',"; q "          'items': ["; q "            {"; q "              'id': 'w1',";
   q "              'text': 'a\'b\\c\n\t\u00e9\ud83d\ude00\u007f'"; q "            }"; q "          ]"; q "        }"; q "      ]"; q "    }"; q "  ]"; q "}"].
Lemma odd_apart : apart odd_text.
Proof.
  unfold odd_text. change (q "a'b\c" ++ [10; 9; 233; 128512; 127]%N) with [97; 34; 98; 92; 99; 10; 9; 233; 128512; 127]%N.
  repeat (apply JsonTextProofs.apart_cons; [lia| |unfold high_surrogate; lia]). apply JsonRunProofs.apart_nil.
Qed.
Lemma jt_apart : Forall apart (of_corpus jt).
Proof.
  change (of_corpus jt) with [L "c"; L "x"; L "1"; L "i"; L "w"; L "w1"; odd_text].
  repeat (constructor; [first [exact odd_apart|apply JsonRunProofs.apart_ascii; reflexivity]|]). constructor.
Qed.
Lemma jt_encodes : exists j, json_encode jt = Ok j.
Proof. eexists. vm_compute. reflexivity. Qed.
Lemma jt_dumps : json_dumps jt None = Ok jt_line /\ json_dumps jt (Some 2) = Ok jt_lines.
Proof. split; vm_compute; reflexivity. Qed.
Lemma jt_loads : @json_loads ascii_unicode jt_line = Ok jt /\ @json_loads ascii_unicode jt_lines = Ok jt.
Proof. split; vm_compute; reflexivity. Qed.
Lemma jc_apart : Forall apart (of_corpus jc).
Proof. apply Forall_forall. intros s H. apply JsonRunProofs.apart_ascii. revert s H. rewrite <- Forall_forall. repeat (constructor; [vm_compute; reflexivity|]). constructor. Qed.

(* a text as others may write it: white space, escapes that are not needed, upper
   case digits, a key twice (the last is taken) *)
Definition foreign : str := q " {'attributes':{}," ++ nl ++ q "'igts'" ++ [9%N] ++ q ":[ { 'id':'x', 'id' : 'i\uD83D\uDE00\/' } ]} " ++ nl.
Lemma foreign_read : read_json foreign = Ok (JObj [(L "attributes", JObj []); (L "igts", JArr [JObj [(L "id", JStr (L "i" ++ [128512%N] ++ L "/"))]])]).
Proof. vm_compute. reflexivity. Qed.
Definition foreign2 : str := q "{'id':'c','igts':[{'id':'x','id':'i'}]}".
Lemma foreign2_scalar : Forall scalar foreign2.
Proof.
  assert (H : forallb (fun c => N.ltb c 128) foreign2 = true) by (vm_compute; reflexivity).
  apply Forall_forall. intros c Hc. rewrite forallb_forall in H. specialize (H c Hc). apply N.ltb_lt in H.
  unfold scalar, high_surrogate, low_surrogate. lia.
Qed.
Lemma foreign2_loads : @json_loads ascii_unicode foreign2
  = Ok {| c_attrs := with_id (L "c"); c_md := []; c_igts := [{| g_attrs := with_id (L "i"); g_md := []; g_tiers := [] |}] |}.
Proof. vm_compute. reflexivity. Qed.

(* two halves of a character are loaded as the character *)
Definition halves (t : str) : corpus :=
  {| c_attrs := no_attrs; c_md := [];
     c_igts := [{| g_attrs := with_id (L "i"); g_md := [];
                   g_tiers := [{| t_attrs := with_id (L "w"); t_md := []; t_items := [{| it_attrs := with_id (L "w1"); it_text := Some t |}] |}] |}] |}.
Lemma halves_joined : exists s, json_dumps (halves [55357; 56832]%N) None = Ok s /\ @json_loads ascii_unicode s = Ok (halves [128512]%N).
Proof.
  exists (q "{'igts': [{'id': 'i', 'tiers': [{'id': 'w', 'items': [{'id': 'w1', 'text': '\ud83d\ude00'}]}]}]}").
  split; vm_compute; reflexivity.
Qed.
Lemma halves_wellformed : forall t, t <> [] -> @jcorpus ascii_unicode (halves t).
Proof.
  intros t Ht. unfold halves.
  split; [cbn [c_attrs]; jattrs_|]. split; [reflexivity|]. split; [split; constructor|]. split; [|nd]. constructor; [|constructor].
  split; [cbn [g_attrs]; jattrs_|]. split; [discriminate|]. split; [split; constructor|]. split; [|nd]. constructor; [|constructor].
  split; [jattrs_|]. split; [discriminate|]. split; [split; constructor|]. split; [|nd]. constructor; [|constructor].
  split; [jattrs_|]. split; [discriminate|]. cbn [it_text]. intros E. now injection E.
Qed.
(* texts that are no JSON *)
Definition bad_texts : list str :=
  [[]; q "{"; q "{'id'}"; q "{'id': 'c',}"; q "['a' 'b']"; q "{'id': 'c'} x"; q "'a"; q "'\x'"; q "'\u12'"; q "'" ++ nl ++ q "'"; 65279%N :: q "{}"; q "{id: 'c'}"].
Lemma bad_texts_fail : Forall (fun s => @json_loads ascii_unicode s = Err ValueError) bad_texts.
Proof. repeat (constructor; [vm_compute; reflexivity|]). constructor. Qed.
Lemma written_example indent : exists j, json_encode jt = Ok j /\ read_json (write_json indent 0 j) = Ok j
  /\ write_json None 0 j = jt_line /\ write_json (Some 2) 0 j = jt_lines.
Proof.
  destruct jt_encodes as [j E]. exists j. split; [exact E|]. split; [apply JsonTextProofs.read_write, (JsonRunProofs.encode_fine jt j jt_apart E)|].
  destruct jt_dumps as [D1 D2]. unfold json_dumps in D1, D2. rewrite E in D1, D2. cbn [bind] in D1, D2. split; congruence.
Qed.
Lemma reload_example : exists c s1, @json_loads ascii_unicode foreign2 = Ok c /\ json_dumps c None = Ok s1.
Proof. do 2 eexists. split; [exact foreign2_loads|]. vm_compute. reflexivity. Qed.
