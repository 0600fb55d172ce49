(* What was imported can be loaded: C54 and C75 together. *)
From Verif Require Import PyStr SpecRef Ref Model SpecModel XmlStd Xml SpecXml XmlText Odin SpecOdin Files ImportRun SpecImport.
From Verif Require OdinXmlProofs TextRunProofs.

Section ImportRead.
Context {U : Unicode}.
Variable title : str -> str.
Variable odin_blocks : str -> list block * option exn.
Variable o : options.

Theorem import_reads s bs : odin_blocks s = (bs, None) ->
  Forall block_ok bs -> Forall (block_clean title o) bs ->
  legal (o_replacement o) -> no_return (o_replacement o) -> NoDup (some_ids (map b_igt_id bs)) ->
  exists c t c', odin_corpus title bs o = Ok c /\ Forall2 (block_igt o) bs (c_igts c)
    /\ import_text title odin_blocks o s = Ok t /\ (forall ahead, loads ahead t = Ok c') /\ same_corpus (back_corpus c) c'.
Proof.
  intros E Hb Hc Hl Hr Hn. destruct (OdinXmlProofs.odin_readable title bs o Hb Hc Hl Hr Hn) as (c & e & c' & H1 & H2 & H3 & H4 & H5).
  destruct (TextRunProofs.dumps_load c (Some 2) e c' H3 H4) as (t & H6 & H7). exists c, t, c'. split; [easy|]. split; [easy|].
  split; [|easy]. unfold import_text. rewrite E, H1. exact H6.
Qed.
(* the text ends badly: so does the import *)
Theorem import_ends s bs x : odin_blocks s = (bs, Some x) -> exists y, import_text title odin_blocks o s = Err y
  /\ (y = x \/ odin_corpus title bs o = Err y).
Proof.
  intros E. unfold import_text. rewrite E. destruct (odin_corpus title bs o) as [c|y]; cbn [bind]; [exists x|exists y]; (split; [easy|]); [now left|now right].
Qed.
Theorem import_fails s bs e x : odin_blocks s = (bs, e) -> odin_corpus title bs o = Err x -> import_text title odin_blocks o s = Err x.
Proof. intros E H. unfold import_text. now rewrite E, H. Qed.
End ImportRead.
