(* Examples for exporting to an [incr tsdb()] profile as a whole. *)
From Verif Require Import PyStr SpecRef Ref Model SpecModel XmlStd Xml SpecXml XmlText Itsdb SpecItsdb Files SpecImport Stream SpecStream ItsdbRun SpecItsdbRun.
From Verif Require ItsdbExamples XmlExamples ItsdbRunProofs.
Import ItsdbExamples.

(* rows as text: each value on a line *)
Definition shown (v : cell str) : str := match v with Number z => dec_nat (Z.to_nat z) | Value v => v end.
Definition show (row : dict (cell str)) : str :=
  flat_map (fun kv : str * cell str => fst kv ++ L "=" ++ shown (snd kv) ++ L ";") row.
(* a profile with the Relations file and the rows; the directory must be new *)
Definition skeleton (out p : str) (r : list (dict (cell str)) * option exn) (w : disk) : res unit * disk :=
  match make_dir w out, dget (d_files w) p with
  | Some w1, Some rel =>
    match put_text w1 (path_in out (L "relations")) rel with
    | Some w2 => match put_text w2 (path_in out (L "item")) (flat_map (fun x => show x ++ [10%N]) (fst r)) with
                 | Some w3 => match snd r with None => (Ok tt, w3) | Some x => (Err x, w2) end
                 | None => (Err OSError, w2)
                 end
    | None => (Err OSError, w1)
    end
  | _, _ => (Err OSError, w)
  end.
Definition none (s : str) : option stream := None.
Definition json (s : str) : res it_config :=
  if str_eqb s (L "1") then Ok {| r_config := config1; r_relations := Some (Some (L "rel")) |}
  else if str_eqb s (L "2") then Ok {| r_config := config1; r_relations := None |}
  else if str_eqb s (L "3") then Ok {| r_config := config1; r_relations := Some (Some (L "gone")) |}
  else if str_eqb s (L "4") then Ok {| r_config := config1; r_relations := Some None |}
  else Err ValueError.
Definition corpus_ (gs : list igt) : corpus := {| c_attrs := {| a_id := None; a_type := None; a_dict := []; a_ns := None; a_nsmap := None |}; c_md := []; c_igts := gs |}.
Definition saved (gs : list igt) : str := match @dumps ascii_unicode (corpus_ gs) (Some 2) with Ok s => s | Err _ => [] end.
Definition std : str := L "/logon/lingo/lkb/src/tsdb/skeletons/english/Relations".
(* its second igt has two tiers of one id *)
Definition twice : str := L "<xigt-corpus><igt id=""i2""><tier id=""w""/></igt><igt id=""i3""><tier id=""a""/><tier id=""a""/></igt></xigt-corpus>".
Definition w0 : disk := {| d_dirs := []; d_files :=
  [(L "a.xml", saved [igt1; igt2]); (L "b.xml", twice); (L "bad.xml", L "<xigt-corpus><igt>"); (L "rel", L "R"); (std, L "S");
   (L "c1", L "1"); (L "c2", L "2"); (L "c3", L "3"); (L "c4", L "4"); (L "c5", L "5")] |}.
Definition root : option str := Some (L "/logon").
Definition run := @it_run ascii_unicode str ev1 json skeleton none (fun _ => 8).
Definition item_text : str := L "i-id=5;i-comment=1;i-length=1;" ++ [10%N] ++ L "i-id=15;i-comment=2;i-length=2;" ++ [10%N].
Definition profile (rel items : str) : disk := {| d_dirs := [L "out"]; d_files := d_files w0 ++ [(L "out/relations", rel); (L "out/item", items)] |}.

Lemma made : run None (L "a.xml") (L "out") (Some (L "c1")) w0 = (Ok tt, profile (L "R") item_text)
  /\ run root (L "a.xml") (L "out") (Some (L "c2")) w0 = (Ok tt, profile (L "S") item_text)
  /\ run (Some (L "/logon/")) (L "a.xml") (L "out") (Some (L "c2")) w0 = (Ok tt, profile (L "S") item_text).
Proof. vm_compute. repeat split; reflexivity. Qed.
(* the rows end with an error of the input, which is found after the first row *)
Lemma cut : run None (L "b.xml") (L "out") (Some (L "c1")) w0
  = (Err XigtError, {| d_dirs := [L "out"]; d_files := d_files w0 ++ [(L "out/relations", L "R")] |}).
Proof. vm_compute. reflexivity. Qed.
(* nothing is written, but there is no error *)
Lemma silent : run None (L "a.xml") (L "out") (Some (L "c2")) w0 = (Ok tt, w0) /\ run root (L "a.xml") (L "out") (Some (L "c3")) w0 = (Ok tt, w0)
  /\ run root (L "a.xml") (L "out") (Some (L "c4")) w0 = (Ok tt, w0) /\ run (Some (L "/other")) (L "a.xml") (L "out") (Some (L "c2")) w0 = (Ok tt, w0)
  /\ run None (L "a.xml") (L "out") (Some []) w0 = (Ok tt, w0).
Proof. vm_compute. repeat split; reflexivity. Qed.
Lemma raised : run None (L "bad.xml") (L "out") (Some (L "c2")) w0 = (Err ParseError, w0) /\ run root (L "none.xml") (L "out") None w0 = (Err OSError, w0)
  /\ run root (L "a.xml") (L "out") (Some (L "none")) w0 = (Err OSError, w0) /\ run root (L "a.xml") (L "out") (Some (L "c5")) w0 = (Err ValueError, w0)
  /\ run root (L "a.xml") (L "out") None w0 = (Err AttributeError, {| d_dirs := [L "out"]; d_files := d_files w0 ++ [(L "out/relations", L "S")] |}).
Proof. vm_compute. repeat split; reflexivity. Qed.
Lemma options2 : options_of json w0 (Some (L "c2")) {| r_config := config1; r_relations := None |}.
Proof. right. exists (L "c2"), (L "2"). repeat split; try reflexivity. discriminate. Qed.
Lemma found2 : found root w0 {| r_config := config1; r_relations := None |} std.
Proof.
  split; [discriminate|]. split; [vm_compute; discriminate|]. right. split; [reflexivity|]. exists (L "/logon"). split; [reflexivity|]. now apply ItsdbRunProofs.below_join.
Qed.
Lemma not_found : forall p, ~ found None w0 {| r_config := config1; r_relations := None |} p.
Proof. intros p (_ & _ & [E|(_ & r & E & _)]); discriminate. Qed.
Lemma exported2 : exists st, @load_stream ascii_unicode none 8 twice = Ok st /\ exported ev1 (prepare_config config1) st
  [[(L "i-id", Number 5%Z); (L "i-comment", Value (L "1")); (L "i-length", Value (L "1"))]] (Some XigtError).
Proof.
  eexists. split; [vm_compute; reflexivity|]. eexists _, []. rewrite app_nil_r. split; [reflexivity|]. split; [vm_compute; reflexivity|reflexivity].
Qed.
(* there is a Relations file at the default place, but the one that was asked for is missing *)
Lemma fallback_refuted : exists f p s c c' rows, found root w0 {| r_config := r_config f; r_relations := None |} p
  /\ options_of json w0 (Some (L "c3")) f /\ dget (d_files w0) (L "a.xml") = Some s /\ @loads ascii_unicode 8 s = Ok c
  /\ xigt_export ev1 true (c_igts c) (r_config f) = Ok (c', Some rows) /\ rows <> [] /\ run root (L "a.xml") (L "out") (Some (L "c3")) w0 = (Ok tt, w0).
Proof.
  exists {| r_config := config1; r_relations := Some (Some (L "gone")) |}, std. do 4 eexists. split; [exact found2|]. split.
  - right. exists (L "c3"), (L "3"). repeat split; try reflexivity. discriminate.
  - split; [vm_compute; reflexivity|]. split; [vm_compute; reflexivity|]. split; [vm_compute; reflexivity|]. split; [discriminate|vm_compute; reflexivity].
Qed.
Definition ev_id (e : str) (g : igt) : res str := match a_id (g_attrs g) with Some i => Ok i | None => Ok [] end.
Lemma ev_id_same : forall e g g', same_igt g g' -> ev_id e g = ev_id e g'.
Proof. intros e g g' H. unfold ev_id. now replace (a_id (g_attrs g')) with (a_id (g_attrs g)) by (destruct H as (H & _); destruct H; congruence). Qed.
Lemma saved_rows : exists c' rows, xigt_export ev_id true (c_igts XmlExamples.xc) config1 = Ok (c', Some rows) /\ rows <> [].
Proof. eexists _, _. split; [vm_compute; reflexivity|discriminate]. Qed.
