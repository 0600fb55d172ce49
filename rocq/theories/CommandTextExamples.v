(* Concrete runs of xigt sort and xigt partition over text files. *)
From Verif Require Import PyStr PyStrFacts Ref SpecRef Model SpecModel XmlStd Xml SpecXml SpecReload XmlText SpecXmlText ReloadExamples XmlTextExamples Index Scripts SpecScripts
  Path SpecPath Command SpecCommand PartitionRun SpecPartition CommandText SpecCommandText.
From Verif Require CommandExamples PartExamples Files CommandTextProofs.
Require Import Lia.
#[local] Existing Instance ascii_unicode.
Import CommandExamples PartExamples.

(* glosses before the words they are aligned with, i10 before i9, w10 before w9 *)
Definition mixed_text : str := L "<!-- not sorted --><xigt-corpus><igt id='i10'><tier id='g' alignment='w'><item id='g1'>dog &amp; bone</item></tier>
<tier id='w'><item id='w10'>canis</item><item id='w9'/></tier></igt><igt id='i9'/></xigt-corpus>
".
Definition sorted_text : str := L "<xigt-corpus>
  <igt id=""i9"" />
  <igt id=""i10"">
    <tier id=""w"">
      <item id=""w9"" />
      <item id=""w10"">canis</item>
    </tier>
    <tier id=""g"" alignment=""w"">
      <item id=""g1"">dog &amp; bone</item>
    </tier>
  </igt>
</xigt-corpus>
".
Definition o_ids : sort_opts := opts (Some [L "@id"]) None (Some (L "segmentation, alignment")) (Some [L "@id"]).
Definition lazy_text : str -> nat := fun _ => 0.
Definition d_mixed : Files.disk := {| Files.d_dirs := []; Files.d_files := [(L "a.txt", L "notes"); (L "in.xml", mixed_text)] |}.
Definition d_sorted : Files.disk := {| Files.d_dirs := []; Files.d_files := [(L "a.txt", L "notes"); (L "in.xml", sorted_text)] |}.

Ltac tidy_up := eexists; split; [vm_compute; reflexivity|split; [apply no_crb_ok; now vm_compute|split; [apply tidyb_ok|]; now vm_compute]].

Section SortExamples.
Context (ix : igt -> index) (vfuel : nat).
Lemma mixed_tidy_text : tidy_text mixed_text.
Proof. tidy_up. Qed.
Lemma mixed_runs : sort_text ix vfuel 9 0 o_ids mixed_text = Ok sorted_text
  /\ run_sort_text ix vfuel lazy_text 9 o_ids false (L "in.xml") d_mixed = (Ok (sorted_text ++ L "
"), d_mixed)
  /\ run_sort_text ix vfuel lazy_text 9 o_ids true (L "in.xml") d_mixed = (Ok [], d_sorted)
  /\ run_sort_text ix vfuel lazy_text 9 o_ids true (L "in.xml") d_sorted = (Ok [], d_sorted)
  /\ run_sort_text ix vfuel lazy_text 9 o_ids true (L "a.txt") d_mixed = (Err ParseError, d_mixed).
Proof. repeat split; vm_compute; reflexivity. Qed.
Lemma ids_blind : each (igt_key o_ids) (order_blind ix vfuel an_igt) /\ each (item_key o_ids) (order_blind ix vfuel an_item).
Proof.
  destruct (mixed_blind ix vfuel) as [H1 H2]. split; [|exact H2]. unfold each in *. cbn [igt_key o_ids o_all opts] in *. intros q qs [= <-] [<-|[]]. apply (H1 _ _ eq_refl). right. now left.
Qed.
End SortExamples.

(* two files, three keys *)
Definition text_a : str := L "<xigt-corpus xmlns:olac='http://www.language-archives.org/OLAC/1.1/' id='A'>
 <metadata><meta>about A</meta></metadata>
 <igt id='i1' doc-id='d1'/><igt id='i2' doc-id='d:2'/><igt><tier id='w'><item id='w1'>x</item></tier></igt>
</xigt-corpus>".
Definition text_b : str := L "<xigt-corpus xmlns:olac='http://www.language-archives.org/OLAC/1.1/'><igt id='i3' doc-id='d:2'/></xigt-corpus>".
Definition d_parts : Files.disk := {| Files.d_dirs := [L "in"]; Files.d_files := [(L "in/a.xml", text_a); (L "in/b.xml", text_b); (L "notes", L "<")] |}.
Definition written : dict str :=
  [(L "out/d1.xml", L "<xigt-corpus xmlns:olac=""http://www.language-archives.org/OLAC/1.1/"">
  <igt id=""i1"" doc-id=""d1"" />
</xigt-corpus>
");
   (L "out/d-2.xml", L "<xigt-corpus xmlns:olac=""http://www.language-archives.org/OLAC/1.1/"">
  <igt id=""i2"" doc-id=""d:2"" />
  <igt id=""i3"" doc-id=""d:2"" />
</xigt-corpus>
");
   (L "out/---.xml", L "<xigt-corpus xmlns:olac=""http://www.language-archives.org/OLAC/1.1/"">
  <igt>
    <tier id=""w"">
      <item id=""w1"">x</item>
    </tier>
  </igt>
</xigt-corpus>
")].
Definition d_written : Files.disk := {| Files.d_dirs := [L "out"; L "in"]; Files.d_files := Files.d_files d_parts ++ written |}.

Section PartExamples.
Context (ix : igt -> index) (vfuel : nat).
Notation key := (key_by ix vfuel (Some by_doc)).
Notation load := (read_text_file lazy_text (Files.d_files d_parts)).
Notation file := (out_path (L "out") (L "---")).
Lemma parts_tidy : tidy_texts d_parts in_files.
Proof. intros fn s [<-|[<-|[]]] E; [assert (Es : s = text_a) by (vm_compute in E |- *; congruence)|assert (Es : s = text_b) by (vm_compute in E |- *; congruence)]; subst s; tidy_up. Qed.
Lemma parts_keys : map key (inputs load in_files) = map Ok [Some (L "d1"); Some (L "d:2"); None; Some (L "d:2")].
Proof. vm_compute. reflexivity. Qed.
Lemma parts_occur k : occurs key load in_files k -> In k [Some (L "d1"); Some (L "d:2"); None].
Proof.
  intros (g & Hg & Hk). assert (Hi : In (Ok k) (map key (inputs load in_files))) by (rewrite <- Hk; now apply in_map).
  rewrite parts_keys in Hi. apply in_map_iff in Hi as (k' & [= ->] & Hk'). cbn in *. tauto.
Qed.
Lemma parts_apart : (forall k, occurs key load in_files k -> ~ In (file k) in_files)
  /\ (forall k k', occurs key load in_files k -> occurs key load in_files k' -> file k = file k' -> k = k').
Proof.
  split.
  - intros k Hk. apply parts_occur in Hk. destruct Hk as [<-|[<-|[<-|[]]]]; vm_compute; intuition discriminate.
  - intros k k' Hk Hk'. apply parts_occur in Hk, Hk'. destruct Hk as [<-|[<-|[<-|[]]]], Hk' as [<-|[<-|[<-|[]]]]; try reflexivity; vm_compute; discriminate.
Qed.
Lemma parts_run : run_partition_text ix vfuel lazy_text (L "out") (L "---") (Some by_doc) in_files d_parts = (Ok tt, d_written).
Proof. vm_compute. reflexivity. Qed.
Lemma parts_stop : run_partition_text ix vfuel lazy_text (L "in/") (L "---") (Some by_doc) in_files d_parts = (Err SystemExit, d_parts)
  /\ exists w', run_partition_text ix vfuel lazy_text (L "out") (L "---") (Some by_doc) [L "in/a.xml"; L "notes"] d_parts = (Err ParseError, w')
     /\ Files.d_dirs w' = [L "out"; L "in"] /\ Files.d_files w' = Files.d_files d_parts.
Proof. split; [vm_compute; reflexivity|]. eexists. split; [vm_compute; reflexivity|]. split; reflexivity. Qed.
Lemma parts_again : exists w2, run_partition_text ix vfuel lazy_text (L "two") (L "---") (Some by_doc) (map fst written) d_written = (Ok tt, w2)
  /\ Files.d_files w2 = Files.d_files d_written ++ map (fun ps => (L "two" ++ skipn 3 (fst ps), snd ps)) written.
Proof. eexists. split; vm_compute; reflexivity. Qed.
End PartExamples.

(* a carriage return given by reference is written as such, and read as a newline *)
Definition cr_text : str := L "<xigt-corpus><igt id='i1'><tier id='w'><item id='w1'>a&#13;b</item></tier></igt></xigt-corpus>".
Lemma cr_lost : forall ix vfuel, exists s' c c', sort_text ix vfuel 9 0 (opts None None None None) cr_text = Ok s' /\ loads 0 cr_text = Ok c /\ loads 0 s' = Ok c'
  /\ map it_text (flat_map t_items (flat_map g_tiers (c_igts c))) = [Some (L "a" ++ 13%N :: L "b")]
  /\ map it_text (flat_map t_items (flat_map g_tiers (c_igts c'))) = [Some (L "a" ++ 10%N :: L "b")].
Proof. intros ix vfuel. do 3 eexists. split; [vm_compute; reflexivity|]. split; [vm_compute; reflexivity|]. split; [vm_compute; reflexivity|]. split; vm_compute; reflexivity. Qed.
