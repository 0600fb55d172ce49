(* Concrete runs of xigt partition. *)
From Verif Require Import PyStr PyStrFacts SpecRef Model SpecModel XmlStd Xml SpecXml XmlExamples SpecReload ReloadExamples Attr SpecChunks ChunksProofs Index Scripts SpecScripts Path SpecPath
  Command SpecCommand PartitionRun SpecPartition.
From Verif Require PartRunProofs PartAgainProofs.
#[local] Existing Instance ascii_unicode.

Definition OLAC_URI : str := L "http://www.language-archives.org/OLAC/1.1/".
Definition ns_decls : dict str := [(L "xmlns:dc", DC_URI); (L "xmlns:olac", OLAC_URI)].
(* an igt with an attribute and a subject *)
Definition igt_on (i doc tag code : string) : xelem :=
  XElem (L "igt") [(L "id", L i); (L "doc-id", L doc)] None None [in_meta [] (XElem (L tag) [(L "olac:code", L code)] None None [])].
Definition note_of (t : string) : xelem := in_meta [] (XElem (L "note") [] (Some (L t)) None []).
Definition doc_a : xelem := doc_of (ns_decls ++ [(L "id", L "A")]) [note_of "about A"; igt_on "i1" "d1" "dc:subject" "ady"; igt_on "i2" "d2" "dc:subject" "tur"; XElem (L "igt") [] None None []].
Definition doc_b : xelem := doc_of ns_decls [igt_on "i3" "d1" "dc:subject" "tur"; igt_on "i4" "d3" "dc:subject" "ady"].
Definition w0 : world := {| dirs := [L "in"]; files := [(L "in/a.xml", doc_a); (L "in/b.xml", doc_b); (L "c.xml", doc_b)] |}.
Definition by_code : str := L "metadata//dc:subject/@olac:code".
Definition by_doc : str := L "@doc-id".
Definition found (r : res unit * world) : list (str * list str) :=
  map (fun pe => (fst pe, flat_map (fun k => match k with XElem t d _ _ _ => match dget d (L "id") with Some i => [i] | None => [L "?"] end end) (x_kids (snd pe)))) (files (snd r)).
Definition in_files : list str := [L "in/a.xml"; L "in/b.xml"].
Definition lazy_parser : xelem -> nat := fun _ => 0.

Lemma name_ok s b : In s [L "metadata"; L "dc:subject"; L "olac:code"; L "doc-id"] -> valid_name b s.
Proof.
  intros H. right. right. split; [|split; [|split; [|split; [|split; [|split]]]]].
  - destruct H as [<-|[<-|[<-|[<-|[]]]]]; discriminate.
  - intros c Hc Hs. vm_compute in Hs. destruct H as [<-|[<-|[<-|[<-|[]]]]]; vm_compute in Hc; intuition (subst; discriminate).
  - destruct H as [<-|[<-|[<-|[<-|[]]]]]; vm_compute; reflexivity.
  - intros k Hk [r E]. destruct H as [<-|[<-|[<-|[<-|[]]]]]; destruct Hk as [->|[->|[->| ->]]]; discriminate E.
  - intros [r E]. destruct H as [<-|[<-|[<-|[<-|[]]]]]; discriminate E.
  - intros [r E]. destruct H as [<-|[<-|[<-|[<-|[]]]]]; discriminate E.
  - intros [r E]. destruct H as [<-|[<-|[<-|[<-|[]]]]]; discriminate E.
Qed.
Definition code_steps : list head := [HChild (L "metadata"); HDesc (L "dc:subject"); HAttr (L "olac:code")].
Lemma code_path : by_code = show (plain_path code_steps) /\ Forall downward code_steps /\ wf (plain_path code_steps).
Proof.
  split; [reflexivity|split; [repeat constructor|]]. cbn. repeat split; try discriminate; try (now apply name_ok; cbn; tauto).
Qed.

Section Examples.
Context (ix : igt -> index) (vfuel : nat).
Notation run := (run_partition ix vfuel lazy_parser).
Lemma occurs_list path fns fs l : map (key_by ix vfuel path) (inputs (read_file lazy_parser fs) fns) = map Ok l ->
  forall k, occurs (key_by ix vfuel path) (read_file lazy_parser fs) fns k <-> In k l.
Proof.
  intros E k. split.
  - intros (g & Hg & Hk). assert (Hi : In (Ok k) (map Ok l)) by (rewrite <- E, <- Hk; now apply in_map). apply in_map_iff in Hi as (k' & [= ->] & Hk'). easy.
  - intros Hk. assert (Hi : In (Ok k) (map (key_by ix vfuel path) (inputs (read_file lazy_parser fs) fns))) by (rewrite E; now apply in_map).
    apply in_map_iff in Hi as (g & Hg & Hin). now exists g.
Qed.
Lemma w0_tidy : tidy_inputs w0 in_files.
Proof. intros fn e [<-|[<-|[]]]; vm_compute; intros [= <-]; (split; [apply tidyb_ok|]; reflexivity). Qed.
Lemma w0_closed : closed w0.
Proof. intros p [[<-|[]]|[<-|[<-|[<-|[]]]]]; reflexivity. Qed.
Lemma w0_keys : map (key_by ix vfuel (Some by_code)) (inputs (read_file lazy_parser (files w0)) in_files)
  = map Ok [Some (L "ady"); Some (L "tur"); None; Some (L "tur"); Some (L "ady")].
Proof. vm_compute. reflexivity. Qed.
Lemma w0_plain k : occurs (key_by ix vfuel (Some by_code)) (read_file lazy_parser (files w0)) in_files k -> no_slash (name_of (L "---") k).
Proof.
  intros H. apply (occurs_list _ _ _ _ w0_keys) in H. intros Hi. revert Hi. destruct H as [<-|[<-|[<-|[<-|[<-|[]]]]]]; vm_compute; intuition discriminate.
Qed.
Lemma w0_run : exists w', run (L "out") (L "---") (Some by_code) in_files w0 = (Ok tt, w')
  /\ dirs w' = [L "out"; L "in"]
  /\ found (Ok tt, w') = found (Ok tt, w0) ++ [(L "out/ady.xml", [L "i1"; L "i4"]); (L "out/tur.xml", [L "i2"; L "i3"]); (L "out/---.xml", [L "?"])].
Proof. eexists. split; [vm_compute; reflexivity|]. split; vm_compute; reflexivity. Qed.
Lemma groups_same k : same_prefixes (map snd (of_key (key_by ix vfuel (Some by_code)) (read_file lazy_parser (files w0)) k in_files)).
Proof.
  assert (H : Forall (fun m => a_nsmap (g_attrs (snd m)) = Some [(L "dc", DC_URI); (L "olac", OLAC_URI)]) (inputs (read_file lazy_parser (files w0)) in_files))
    by (vm_compute; repeat constructor).
  rewrite Forall_forall in H. unfold of_key. revert H. generalize (inputs (read_file lazy_parser (files w0)) in_files) as l. generalize (Some [(L "dc", DC_URI); (L "olac", OLAC_URI)]) as o.
  intros o l H g g' Hg Hg'. apply in_map_iff in Hg as (m & <- & Hm), Hg' as (m' & <- & Hm'). apply filter_In in Hm as [Hm _], Hm' as [Hm' _].
  now rewrite (H m Hm), (H m' Hm').
Qed.
Lemma w0_again : exists w1 w2, run (L "out") (L "---") (Some by_code) in_files w0 = (Ok tt, w1)
  /\ run (L "out2/") (L "---") (Some by_code) [L "out/---.xml"; L "out/tur.xml"; L "out/ady.xml"] w1 = (Ok tt, w2)
  /\ (exists e, dget (files w1) (L "out/tur.xml") = Some e /\ dget (files w2) (L "out2/tur.xml") = Some e)
  /\ forall k, same_prefixes (map snd (of_key (key_by ix vfuel (Some by_code)) (read_file lazy_parser (files w0)) k in_files)).
Proof.
  do 2 eexists. split; [vm_compute; reflexivity|]. split; [vm_compute; reflexivity|]. split; [eexists; split; vm_compute; reflexivity|].
  exact groups_same.
Qed.

(* the namespace of the path does not count: a subject of another namespace is found *)
Definition doc_my : xelem := doc_of (ns_decls ++ [(L "xmlns:my", MY_URI)]) [igt_on "i1" "d1" "my:subject" "noise"].
Definition w_my : world := {| dirs := []; files := [(L "a.xml", doc_my)] |}.
Lemma namespace_refuted : exists e w', tidy_document e /\ files w_my = [(L "a.xml", e)]
  /\ run (L "out") (L "---") (Some by_code) [L "a.xml"] w_my = (Ok tt, w')
  /\ found (Ok tt, w') = [(L "a.xml", [L "i1"]); (L "out/noise.xml", [L "i1"])].
Proof.
  exists doc_my. eexists. split; [split; [apply tidyb_ok|]; reflexivity|]. split; [reflexivity|]. split; [vm_compute; reflexivity|]. vm_compute. reflexivity.
Qed.
(* a key that is a path to an input replaces it, and an igt is lost *)
Definition doc_abs : xelem := doc_of [] [XElem (L "igt") [(L "id", L "i1"); (L "doc-id", L "/in/a")] None None []; XElem (L "igt") [(L "id", L "i2"); (L "doc-id", L "d2")] None None []].
Definition w_abs : world := {| dirs := [L "/in"]; files := [(L "/in/a.xml", doc_abs)] |}.
Lemma inputs_refuted : exists w', tidy_inputs w_abs [L "/in/a.xml"] /\ run (L "out") (L "---") (Some by_doc) [L "/in/a.xml"] w_abs = (Ok tt, w')
  /\ found (Ok tt, w_abs) = [(L "/in/a.xml", [L "i1"; L "i2"])]
  /\ found (Ok tt, w') = [(L "/in/a.xml", [L "i1"]); (L "out/d2.xml", [])].
Proof.
  eexists. split; [intros fn e [<-|[]]; vm_compute; intros [= <-]; (split; [apply tidyb_ok|]; reflexivity)|].
  split; [vm_compute; reflexivity|]. split; vm_compute; reflexivity.
Qed.
(* igts of other documents get the prefixes of the first *)
Definition doc_c : xelem := doc_of [] [XElem (L "igt") [(L "id", L "i9"); (L "doc-id", L "d1")] None None []].
Definition w_mix : world := {| dirs := []; files := [(L "b.xml", doc_b); (L "c.xml", doc_c)] |}.
Lemma exact_refuted : exists w' e gs, tidy_inputs w_mix [L "b.xml"; L "c.xml"]
  /\ run (L "out") (L "---") (Some by_doc) [L "b.xml"; L "c.xml"] w_mix = (Ok tt, w')
  /\ gs = map snd (of_key (key_by ix vfuel (Some by_doc)) (read_file lazy_parser (files w_mix)) (Some (L "d1")) [L "b.xml"; L "c.xml"])
  /\ dget (files w') (L "out/d1.xml") = Some e /\ length gs = 2 /\ ~ holds_exactly e gs.
Proof.
  do 3 eexists. split; [intros fn e [<-|[<-|[]]]; vm_compute; intros [= <-]; (split; [apply tidyb_ok|]; reflexivity)|].
  split; [vm_compute; reflexivity|]. split; [vm_compute; reflexivity|]. split; [vm_compute; reflexivity|]. split; [reflexivity|].
  intros (c & Hl & _ & _ & _ & _ & _ & Hg). specialize (Hl 0). vm_compute in Hl. injection Hl as <-. discriminate Hg.
Qed.
(* what igts inherit from the corpus is lost *)
Definition doc_lang : xelem := doc_of [(L "lang", L "de")] [XElem (L "igt") [(L "id", L "i1"); (L "doc-id", L "d1")] None None []].
Definition w_lang : world := {| dirs := []; files := [(L "a.xml", doc_lang)] |}.
Definition inherits (e : xelem) (k : str) : list (res (option str)) :=
  match xml_load 0 e with Ok c => map (fun g => get_attribute [g_attrs g; c_attrs c] k None true None) (c_igts c) | Err _ => [] end.
Lemma inherited_refuted : exists w' e, tidy_inputs w_lang [L "a.xml"] /\ run (L "out") (L "---") (Some by_doc) [L "a.xml"] w_lang = (Ok tt, w')
  /\ dget (files w') (L "out/d1.xml") = Some e /\ inherits doc_lang (L "lang") = [Ok (Some (L "de"))] /\ inherits e (L "lang") = [Ok None].
Proof.
  do 2 eexists. split; [intros fn e [<-|[]]; vm_compute; intros [= <-]; (split; [apply tidyb_ok|]; reflexivity)|].
  split; [vm_compute; reflexivity|]. split; [vm_compute; reflexivity|]. split; vm_compute; reflexivity.
Qed.
(* an id that occurs twice: not read all at once, but igt by igt *)
Definition doc_twice : xelem := doc_of [] [XElem (L "igt") [(L "id", L "i1"); (L "doc-id", L "d1")] None None []; XElem (L "igt") [(L "id", L "i1"); (L "doc-id", L "d2")] None None []].
Definition w_twice : world := {| dirs := []; files := [(L "a.xml", doc_twice)] |}.
Lemma twice_example : (exists w', run (L "out") (L "---") (Some by_doc) [L "a.xml"] w_twice = (Ok tt, w')
    /\ found (Ok tt, w') = [(L "a.xml", [L "i1"; L "i1"]); (L "out/d1.xml", [L "i1"]); (L "out/d2.xml", [L "i1"])])
  /\ xml_load 0 doc_twice = Err XigtError.
Proof. split; [eexists; split; [vm_compute; reflexivity|vm_compute; reflexivity]|vm_compute; reflexivity]. Qed.
End Examples.
