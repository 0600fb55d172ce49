(* Property C82: xigt sort and xigt partition over text files. *)
From Verif Require Import PyStr Ref SpecRef Model SpecModel XmlStd Xml SpecXml SpecReload XmlText SpecXmlText Index SortTiers Scripts SpecScripts Path SpecPath
  Command SpecCommand PartitionRun SpecPartition CommandText SpecCommandText.
From Verif Require Files CommandTextProofs CommandTextExamples PartExamples.
Import CommandTextExamples.

(* ---------- sort ---------- *)

(* The text that is written loads as the corpus that was read, sorted as the
   options say (C71), and nothing else. *)
Theorem C82_sort : forall (U : Unicode) ix vfuel fuel n o s s', tidy_text s -> sort_text ix vfuel fuel n o s = Ok s' ->
  exists c c' a, loads n s = Ok c /\ asked ix vfuel o c a /\ sorted_corpus fuel a c c' /\ forall n', loads n' s' = Ok c'.
Proof. exact @CommandTextProofs.sort_text_sorts. Qed.
Print Assumptions C82_sort.
(* It fails only if the text cannot be loaded or the corpus cannot be sorted. *)
Theorem C82_sort_fails : forall (U : Unicode) ix vfuel fuel n o s x, tidy_text s -> sort_text ix vfuel fuel n o s = Err x ->
  loads n s = Err x \/ exists c, loads n s = Ok c /\ sort_corpus fuel (args_of ix vfuel o c) c = Err x.
Proof. exact @CommandTextProofs.sort_text_fails. Qed.
Print Assumptions C82_sort_fails.
(* Without --in-place that text and a newline are printed and the disk is as
   before; with it nothing is printed and the text of the file is replaced.  If it
   fails nothing changes. *)
Theorem C82_sort_run : forall (U : Unicode) ix vfuel ahead fuel o fn w s, dget (Files.d_files w) fn = Some s -> tidy_text s ->
  match sort_text ix vfuel fuel (ahead s) o s with
  | Ok t => run_sort_text ix vfuel ahead fuel o false fn w = (Ok (t ++ L "
"), w) /\ exists w', run_sort_text ix vfuel ahead fuel o true fn w = (Ok [], w') /\ replaced w w' fn t
  | Err x => forall in_place, run_sort_text ix vfuel ahead fuel o in_place fn w = (Err x, w)
  end.
Proof. exact @CommandTextProofs.run_sort_files. Qed.
Print Assumptions C82_sort_run.
Theorem C82_sort_missing : forall (U : Unicode) ix vfuel ahead fuel o in_place fn w, dget (Files.d_files w) fn = None ->
  run_sort_text ix vfuel ahead fuel o in_place fn w = (Err OSError, w).
Proof. exact @CommandTextProofs.run_sort_missing. Qed.
Print Assumptions C82_sort_missing.
(* Whatever the text, only the file that was named can change, and only with
   --in-place. *)
Theorem C82_sort_frame : forall (U : Unicode) ix vfuel ahead fuel o in_place fn w r w', run_sort_text ix vfuel ahead fuel o in_place fn w = (r, w') ->
  Files.d_dirs w' = Files.d_dirs w /\ (forall p, p <> fn -> dget (Files.d_files w') p = dget (Files.d_files w) p) /\ (in_place = false -> w' = w).
Proof. exact @CommandTextProofs.run_sort_frame. Qed.
Print Assumptions C82_sort_frame.
(* Sorting in place again leaves the disk as it is, to the letter (for the paths
   of C71_again). *)
Theorem C82_sort_again : forall (U : Unicode) ix vfuel ahead fuel o fn w w' s, dget (Files.d_files w) fn = Some s -> tidy_text s ->
  each (igt_key o) (order_blind ix vfuel an_igt) -> each (tier_key o) (order_blind ix vfuel a_tier) -> each (item_key o) (order_blind ix vfuel an_item) ->
  run_sort_text ix vfuel ahead fuel o true fn w = (Ok [], w') ->
  exists m, forall fuel', m <= fuel' -> run_sort_text ix vfuel ahead fuel' o true fn w' = (Ok [], w').
Proof. exact @CommandTextProofs.run_sort_again. Qed.
Print Assumptions C82_sort_again.
Example C82_sort_example : forall ix vfuel, @tidy_text mixed_text
  /\ (@sort_text ascii_unicode ix vfuel 9 0 o_ids mixed_text = Ok sorted_text
     /\ @run_sort_text ascii_unicode ix vfuel lazy_text 9 o_ids false (L "in.xml") d_mixed = (Ok (sorted_text ++ L "
"), d_mixed)
     /\ @run_sort_text ascii_unicode ix vfuel lazy_text 9 o_ids true (L "in.xml") d_mixed = (Ok [], d_sorted)
     /\ @run_sort_text ascii_unicode ix vfuel lazy_text 9 o_ids true (L "in.xml") d_sorted = (Ok [], d_sorted)
     /\ @run_sort_text ascii_unicode ix vfuel lazy_text 9 o_ids true (L "a.txt") d_mixed = (Err ParseError, d_mixed))
  /\ (each (igt_key o_ids) (@order_blind ascii_unicode ix vfuel an_igt) /\ each (item_key o_ids) (@order_blind ascii_unicode ix vfuel an_item)).
Proof. exact (fun ix vfuel => conj mixed_tidy_text (conj (mixed_runs ix vfuel) (ids_blind ix vfuel))). Qed.
(* The condition on carriage returns is needed: here one is turned into a newline
   though nothing is sorted. *)
Theorem C82_carriage_return_refuted : forall ix vfuel, exists s' c c',
  @sort_text ascii_unicode ix vfuel 9 0 (CommandExamples.opts None None None None) cr_text = Ok s' /\ @loads ascii_unicode 0 cr_text = Ok c /\ @loads ascii_unicode 0 s' = Ok c'
  /\ map it_text (flat_map t_items (flat_map g_tiers (c_igts c))) = [Some (L "a" ++ 13%N :: L "b")]
  /\ map it_text (flat_map t_items (flat_map g_tiers (c_igts c'))) = [Some (L "a" ++ 10%N :: L "b")].
Proof. exact cr_lost. Qed.
Print Assumptions C82_carriage_return_refuted.

(* ---------- partition ---------- *)

(* If it succeeds, the directory was created, each key has a file whose text loads
   as the igts of that key in the order of the inputs and nothing else, and the
   other files are what they were. *)
Theorem C82_partition : forall (U : Unicode) ix vfuel ahead outdir default_key path fns w w',
  let key := key_by ix vfuel path in let load := read_text_file ahead (Files.d_files w) in let file := out_path outdir default_key in
  tidy_texts w fns -> (forall k, occurs key load fns k -> ~ In (file k) fns) ->
  (forall k k', occurs key load fns k -> occurs key load fns k' -> file k = file k' -> k = k') ->
  run_partition_text ix vfuel ahead outdir default_key path fns w = (Ok tt, w') ->
  (exists d s, outdir = d ++ s /\ Forall (eq (Ch "/")) s /\ Files.d_dirs w' = d :: Files.d_dirs w)
  /\ (forall k, occurs key load fns k ->
       exists t, dget (Files.d_files w') (file k) = Some t /\ text_holds t (map snd (of_key key load k fns))
       /\ (same_prefixes (map snd (of_key key load k fns)) -> text_holds_exactly t (map snd (of_key key load k fns))))
  /\ (forall p, (forall k, occurs key load fns k -> p <> file k) -> dget (Files.d_files w') p = dget (Files.d_files w) p).
Proof. exact @CommandTextProofs.partition_texts. Qed.
Print Assumptions C82_partition.
(* Whatever happens, only files of keys are written. *)
Theorem C82_partition_frame : forall (U : Unicode) ix vfuel ahead outdir default_key path fns w r w',
  run_partition_text ix vfuel ahead outdir default_key path fns w = (r, w') ->
  forall p, (forall k, occurs (key_by ix vfuel path) (read_text_file ahead (Files.d_files w)) fns k -> p <> out_path outdir default_key k) ->
  dget (Files.d_files w') p = dget (Files.d_files w) p.
Proof. exact @CommandTextProofs.partition_texts_frame. Qed.
Print Assumptions C82_partition_frame.
(* When it succeeds. *)
Theorem C82_partition_succeeds : forall (U : Unicode) ix vfuel ahead outdir default_key path fns w,
  let key := key_by ix vfuel path in let load := read_text_file ahead (Files.d_files w) in let file := out_path outdir default_key in
  tidy_texts w fns -> (forall k, occurs key load fns k -> ~ In (file k) fns) ->
  ((exists w', run_partition_text ix vfuel ahead outdir default_key path fns w = (Ok tt, w')) <->
   exists w1, create_outdir outdir w = Some w1
   /\ (forall fn, In fn fns -> exists l, load fn = Ok l)
   /\ (forall m, In m (inputs load fns) -> exists k, key m = Ok k)
   /\ (forall k, ids_distinct member_id (of_key key load k fns))
   /\ (forall k, occurs key load fns k -> can_write w1 (file k))).
Proof. exact @CommandTextProofs.partition_texts_succeeds. Qed.
Print Assumptions C82_partition_succeeds.
(* The directory comes first. *)
Theorem C82_partition_dirs : forall (U : Unicode) ix vfuel ahead outdir default_key path fns w r w',
  run_partition_text ix vfuel ahead outdir default_key path fns w = (r, w') ->
  match create_outdir outdir w with None => r = Err SystemExit /\ w' = w | Some w1 => Files.d_dirs w' = Files.d_dirs w1 end.
Proof. exact @CommandTextProofs.partition_texts_dirs. Qed.
Print Assumptions C82_partition_dirs.
(* The first file that is missing or is not well-formed stops it, with the error that
   reading it gives, before any file is written. *)
Theorem C82_partition_broken : forall (U : Unicode) ix vfuel ahead outdir default_key path a fn b w w1 x,
  create_outdir outdir w = Some w1 ->
  (forall f, In f a -> exists l, read_text_file ahead (Files.d_files w) f = Ok l /\ forall m, In m l -> exists k, key_by ix vfuel path m = Ok k) ->
  (dget (Files.d_files w) fn = None /\ x = OSError) \/ (exists s, dget (Files.d_files w) fn = Some s /\ parse_text s = Err x) ->
  run_partition_text ix vfuel ahead outdir default_key path (a ++ fn :: b) w = (Err x, w1) /\ Files.d_files w1 = Files.d_files w.
Proof. exact @CommandTextProofs.partition_texts_broken. Qed.
Print Assumptions C82_partition_broken.
(* Reading a text igt by igt gives the igts that loading it gives. *)
Theorem C82_modes : forall (U : Unicode) n s c, loads n s = Ok c -> text_open n s = Ok (map (pair (emptied c)) (c_igts c)).
Proof. exact @CommandTextProofs.text_modes. Qed.
Print Assumptions C82_modes.
(* Partitioning the texts that were written again, into another directory, gives
   the same texts to the letter. *)
Theorem C82_partition_again : forall (U : Unicode) ix vfuel ahead out1 out2 default_key hs, Forall downward hs -> wf (plain_path hs) ->
  let path := Some (show (plain_path hs)) in let key := key_by ix vfuel path in
  let o1 := out_path out1 default_key in let o2 := out_path out2 default_key in
  forall fns w w1 ks, tidy_texts w fns ->
  (forall k, occurs key (read_text_file ahead (Files.d_files w)) fns k -> ~ In (o1 k) fns) ->
  (forall k k', occurs key (read_text_file ahead (Files.d_files w)) fns k -> occurs key (read_text_file ahead (Files.d_files w)) fns k' -> o1 k = o1 k' -> k = k') ->
  (forall k, same_prefixes (map snd (of_key key (read_text_file ahead (Files.d_files w)) k fns))) ->
  run_partition_text ix vfuel ahead out1 default_key path fns w = (Ok tt, w1) ->
  NoDup ks -> (forall k, In k ks <-> occurs key (read_text_file ahead (Files.d_files w)) fns k) ->
  (forall k k', In k ks -> In k' ks -> o2 k <> o1 k') -> (forall k k', In k ks -> In k' ks -> o2 k = o2 k' -> k = k') ->
  ((exists w2, run_partition_text ix vfuel ahead out2 default_key path (map o1 ks) w1 = (Ok tt, w2)) <->
   exists w', create_outdir out2 w1 = Some w' /\ forall k, In k ks -> can_write w' (o2 k))
  /\ forall w2, run_partition_text ix vfuel ahead out2 default_key path (map o1 ks) w1 = (Ok tt, w2) ->
     forall k, In k ks -> dget (Files.d_files w2) (o2 k) = dget (Files.d_files w1) (o1 k).
Proof. exact @CommandTextProofs.partition_texts_again. Qed.
Print Assumptions C82_partition_again.
Example C82_partition_example : forall ix vfuel,
  let key := @key_by ascii_unicode ix vfuel (Some PartExamples.by_doc) in let load := @read_text_file ascii_unicode lazy_text (Files.d_files d_parts) in
  let file := out_path (L "out") (L "---") in let run := @run_partition_text ascii_unicode ix vfuel lazy_text in
  tidy_texts d_parts PartExamples.in_files
  /\ ((forall k, occurs key load PartExamples.in_files k -> ~ In (file k) PartExamples.in_files)
     /\ (forall k k', occurs key load PartExamples.in_files k -> occurs key load PartExamples.in_files k' -> file k = file k' -> k = k'))
  /\ run (L "out") (L "---") (Some PartExamples.by_doc) PartExamples.in_files d_parts = (Ok tt, d_written)
  /\ (run (L "in/") (L "---") (Some PartExamples.by_doc) PartExamples.in_files d_parts = (Err SystemExit, d_parts)
     /\ exists w', run (L "out") (L "---") (Some PartExamples.by_doc) [L "in/a.xml"; L "notes"] d_parts = (Err ParseError, w')
        /\ Files.d_dirs w' = [L "out"; L "in"] /\ Files.d_files w' = Files.d_files d_parts)
  /\ exists w2, run (L "two") (L "---") (Some PartExamples.by_doc) (map fst written) d_written = (Ok tt, w2)
     /\ Files.d_files w2 = Files.d_files d_written ++ map (fun ps => (L "two" ++ skipn 3 (fst ps), snd ps)) written.
Proof. exact (fun ix vfuel => conj parts_tidy (conj (parts_apart ix vfuel) (conj (parts_run ix vfuel) (conj (parts_stop ix vfuel) (parts_again ix vfuel))))). Qed.
