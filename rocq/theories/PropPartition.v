(* Property C72: xigt partition as a whole. *)
From Verif Require Import PyStr SpecRef Model Attr Index XmlStd Xml SpecReload Scripts SpecScripts Path SpecPath Command SpecCommand PartitionRun SpecPartition.
From Verif Require PartRunProofs PartAgainProofs PartExamples.
Import PartExamples.

(* If it succeeds, the directory was created, each key has a file that can be read
   in any mode and holds the igts of that key in the order of the inputs and nothing
   else, and the other files are what they were.  No file of a key may be an input
   or the file of another key. *)
Theorem C72_files : forall (U : Unicode) ix vfuel ahead outdir default_key path fns w w',
  let key := key_by ix vfuel path in let load := read_file ahead (files w) in let file := out_path outdir default_key in
  tidy_inputs w fns -> (forall k, occurs key load fns k -> ~ In (file k) fns) ->
  (forall k k', occurs key load fns k -> occurs key load fns k' -> file k = file k' -> k = k') ->
  run_partition ix vfuel ahead outdir default_key path fns w = (Ok tt, w') ->
  (exists d s, outdir = d ++ s /\ Forall (eq (Ch "/")) s /\ dirs w' = d :: dirs w)
  /\ (forall k, occurs key load fns k ->
       exists e, dget (files w') (file k) = Some e /\ holds e (map snd (of_key key load k fns))
       /\ (same_prefixes (map snd (of_key key load k fns)) -> holds_exactly e (map snd (of_key key load k fns))))
  /\ (forall p, (forall k, occurs key load fns k -> p <> file k) -> dget (files w') p = dget (files w) p).
Proof. exact @PartRunProofs.run_writes. Qed.
Print Assumptions C72_files.
(* Whatever happens, only files of keys are written. *)
Theorem C72_frame : forall (U : Unicode) ix vfuel ahead outdir default_key path fns w r w',
  run_partition ix vfuel ahead outdir default_key path fns w = (r, w') ->
  forall p, (forall k, occurs (key_by ix vfuel path) (read_file ahead (files w)) fns k -> p <> out_path outdir default_key k) ->
  dget (files w') p = dget (files w) p.
Proof. exact @PartRunProofs.run_frame. Qed.
Print Assumptions C72_frame.
(* When it succeeds. *)
Theorem C72_succeeds : forall (U : Unicode) ix vfuel ahead outdir default_key path fns w,
  let key := key_by ix vfuel path in let load := read_file ahead (files w) in let file := out_path outdir default_key in
  tidy_inputs w fns -> (forall k, occurs key load fns k -> ~ In (file k) fns) ->
  ((exists w', run_partition ix vfuel ahead outdir default_key path fns w = (Ok tt, w')) <->
   exists w1, mkdir w outdir = Some w1
   /\ (forall fn, In fn fns -> exists l, load fn = Ok l)
   /\ (forall m, In m (inputs load fns) -> exists k, key m = Ok k)
   /\ (forall k, ids_distinct member_id (of_key key load k fns))
   /\ (forall k, occurs key load fns k -> openable w1 (file k))).
Proof. exact @PartRunProofs.run_succeeds. Qed.
Print Assumptions C72_succeeds.
(* Directories: mkdir creates one that is not there, in one that is; open creates
   or replaces a file in a directory. *)
Theorem C72_mkdir : forall w d w1, mkdir w d = Some w1 <->
  exists b, names d b /\ b <> [] /\ ~ In b (dirs w) /\ ~ In b (map fst (files w)) /\ above w b /\ w1 = {| dirs := b :: dirs w; files := files w |}.
Proof. exact PartRunProofs.mkdir_made. Qed.
Print Assumptions C72_mkdir.
Theorem C72_open : forall w p, openable w p <-> above w p /\ ~ (p <> [] /\ exists b, names p b /\ (b = [] \/ In b (dirs w))).
Proof. exact PartRunProofs.openable_spec. Qed.
Print Assumptions C72_open.
(* The directory is created first; if that is not possible nothing else is done. *)
Theorem C72_dirs : forall (U : Unicode) ix vfuel ahead outdir default_key path fns w r w',
  run_partition ix vfuel ahead outdir default_key path fns w = (r, w') ->
  match mkdir w outdir with None => r = Err SystemExit /\ w' = w | Some w1 => dirs w' = dirs w1 end.
Proof. exact @PartRunProofs.run_dirs. Qed.
Print Assumptions C72_dirs.
(* If no key has a slash nothing can go wrong with the files: no file that was
   there changes, and it succeeds if the directory can be created, the inputs can
   be read, they have keys, and ids are distinct for each key. *)
Theorem C72_kept : forall (U : Unicode) ix vfuel ahead outdir default_key path fns w r w',
  closed w -> (forall k, occurs (key_by ix vfuel path) (read_file ahead (files w)) fns k -> no_slash (name_of default_key k)) ->
  run_partition ix vfuel ahead outdir default_key path fns w = (r, w') ->
  forall p e, dget (files w) p = Some e -> dget (files w') p = Some e.
Proof. exact @PartRunProofs.plain_kept. Qed.
Print Assumptions C72_kept.
Theorem C72_plain : forall (U : Unicode) ix vfuel ahead outdir default_key path fns w,
  let key := key_by ix vfuel path in let load := read_file ahead (files w) in
  closed w -> tidy_inputs w fns -> (forall k, occurs key load fns k -> no_slash (name_of default_key k)) ->
  ((exists w', run_partition ix vfuel ahead outdir default_key path fns w = (Ok tt, w')) <->
   (exists w1, mkdir w outdir = Some w1)
   /\ (forall fn, In fn fns -> exists l, load fn = Ok l)
   /\ (forall m, In m (inputs load fns) -> exists k, key m = Ok k)
   /\ (forall k, ids_distinct member_id (of_key key load k fns))).
Proof. exact @PartRunProofs.run_plain. Qed.
Print Assumptions C72_plain.
Example C72_example : forall ix vfuel, tidy_inputs w0 in_files /\ closed w0
  /\ (forall k, occurs (@key_by ascii_unicode ix vfuel (Some by_code)) (@read_file ascii_unicode lazy_parser (files w0)) in_files k -> no_slash (name_of (L "---") k))
  /\ exists w', @run_partition ascii_unicode ix vfuel lazy_parser (L "out") (L "---") (Some by_code) in_files w0 = (Ok tt, w')
     /\ dirs w' = [L "out"; L "in"]
     /\ found (Ok tt, w') = found (Ok tt, w0) ++ [(L "out/ady.xml", [L "i1"; L "i4"]); (L "out/tur.xml", [L "i2"; L "i3"]); (L "out/---.xml", [L "?"])].
Proof. exact (fun ix vfuel => conj w0_tidy (conj w0_closed (conj (w0_plain ix vfuel) (w0_run ix vfuel)))). Qed.

(* The key is the text that the path finds first. *)
Theorem C72_keys : forall (U : Unicode) ix vfuel p m k, key_by ix vfuel (Some p) m = Ok k <-> key_is ix vfuel p m k.
Proof. exact @PartAgainProofs.key_by_spec. Qed.
Print Assumptions C72_keys.
(* Without a path it succeeds only if there is nothing to do. *)
Theorem C72_no_path : forall (U : Unicode) ix vfuel ahead outdir default_key fns w w',
  run_partition ix vfuel ahead outdir default_key None fns w = (Ok tt, w') -> inputs (read_file ahead (files w)) fns = [] /\ files w' = files w.
Proof. exact @PartAgainProofs.no_path. Qed.
Print Assumptions C72_no_path.
(* For a path of plain steps down from the igt the key does not depend on the
   corpus the igt is in, if its namespaces are known (they are if it was read). *)
Theorem C72_own : forall (U : Unicode) ix vfuel hs c c' g, Forall downward hs -> wf (plain_path hs) -> a_nsmap (g_attrs g) <> None ->
  key_by ix vfuel (Some (show (plain_path hs))) (c, g) = key_by ix vfuel (Some (show (plain_path hs))) (c', g).
Proof. exact @PartAgainProofs.key_own. Qed.
Print Assumptions C72_own.
Example C72_own_example : by_code = show (plain_path code_steps) /\ Forall downward code_steps /\ @wf ascii_unicode (plain_path code_steps).
Proof. exact code_path. Qed.

(* Reading igt by igt gives the igts that reading all at once gives; it can fail
   to read all at once what can be read igt by igt only because of ids. *)
Theorem C72_modes : forall (U : Unicode) n e c, xml_load n e = Ok c -> xml_open n e = Ok (map (pair (emptied c)) (c_igts c)).
Proof. exact @PartAgainProofs.load_open. Qed.
Print Assumptions C72_modes.
Theorem C72_modes_ids : forall (U : Unicode) n e l, xml_open n e = Ok l -> ((exists c, xml_load n e = Ok c) <-> ids_distinct member_id l).
Proof. exact @PartAgainProofs.open_load. Qed.
Print Assumptions C72_modes_ids.
Example C72_modes_example : forall ix vfuel,
  (exists w', @run_partition ascii_unicode ix vfuel lazy_parser (L "out") (L "---") (Some by_doc) [L "a.xml"] w_twice = (Ok tt, w')
    /\ found (Ok tt, w') = [(L "a.xml", [L "i1"; L "i1"]); (L "out/d1.xml", [L "i1"]); (L "out/d2.xml", [L "i1"])])
  /\ @xml_load ascii_unicode 0 doc_twice = Err XigtError.
Proof. exact twice_example. Qed.

(* Partitioning the files that were written again, into another directory, gives
   the same documents. *)
Theorem C72_again : forall (U : Unicode) ix vfuel ahead out1 out2 default_key hs, Forall downward hs -> wf (plain_path hs) ->
  let path := Some (show (plain_path hs)) in let key := key_by ix vfuel path in
  let o1 := out_path out1 default_key in let o2 := out_path out2 default_key in
  forall fns w w1 ks, tidy_inputs w fns ->
  (forall k, occurs key (read_file ahead (files w)) fns k -> ~ In (o1 k) fns) ->
  (forall k k', occurs key (read_file ahead (files w)) fns k -> occurs key (read_file ahead (files w)) fns k' -> o1 k = o1 k' -> k = k') ->
  (forall k, same_prefixes (map snd (of_key key (read_file ahead (files w)) k fns))) ->
  run_partition ix vfuel ahead out1 default_key path fns w = (Ok tt, w1) ->
  NoDup ks -> (forall k, In k ks <-> occurs key (read_file ahead (files w)) fns k) ->
  (forall k k', In k ks -> In k' ks -> o2 k <> o1 k') -> (forall k k', In k ks -> In k' ks -> o2 k = o2 k' -> k = k') ->
  ((exists w2, run_partition ix vfuel ahead out2 default_key path (map o1 ks) w1 = (Ok tt, w2)) <->
   exists w', mkdir w1 out2 = Some w' /\ forall k, In k ks -> openable w' (o2 k))
  /\ forall w2, run_partition ix vfuel ahead out2 default_key path (map o1 ks) w1 = (Ok tt, w2) ->
     forall k, In k ks -> dget (files w2) (o2 k) = dget (files w1) (o1 k).
Proof. exact @PartAgainProofs.partition_again. Qed.
Print Assumptions C72_again.
Example C72_again_example : forall ix vfuel, exists w1 w2,
  @run_partition ascii_unicode ix vfuel lazy_parser (L "out") (L "---") (Some by_code) in_files w0 = (Ok tt, w1)
  /\ @run_partition ascii_unicode ix vfuel lazy_parser (L "out2/") (L "---") (Some by_code) [L "out/---.xml"; L "out/tur.xml"; L "out/ady.xml"] w1 = (Ok tt, w2)
  /\ (exists e, dget (files w1) (L "out/tur.xml") = Some e /\ dget (files w2) (L "out2/tur.xml") = Some e)
  /\ forall k, same_prefixes (map snd (of_key (@key_by ascii_unicode ix vfuel (Some by_code)) (@read_file ascii_unicode lazy_parser (files w0)) k in_files)).
Proof. exact w0_again. Qed.

(* The path of the help text also finds subjects of other namespaces. *)
Theorem C72_namespace_refuted : forall ix vfuel, exists e w', tidy_document e /\ files w_my = [(L "a.xml", e)]
  /\ @run_partition ascii_unicode ix vfuel lazy_parser (L "out") (L "---") (Some by_code) [L "a.xml"] w_my = (Ok tt, w')
  /\ found (Ok tt, w') = [(L "a.xml", [L "i1"]); (L "out/noise.xml", [L "i1"])].
Proof. exact namespace_refuted. Qed.
Print Assumptions C72_namespace_refuted.
(* A key that begins with a slash can name an input, which is replaced while it is
   still needed: an igt is lost. *)
Theorem C72_inputs_refuted : forall ix vfuel, exists w', tidy_inputs w_abs [L "/in/a.xml"]
  /\ @run_partition ascii_unicode ix vfuel lazy_parser (L "out") (L "---") (Some by_doc) [L "/in/a.xml"] w_abs = (Ok tt, w')
  /\ found (Ok tt, w_abs) = [(L "/in/a.xml", [L "i1"; L "i2"])]
  /\ found (Ok tt, w') = [(L "/in/a.xml", [L "i1"]); (L "out/d2.xml", [])].
Proof. exact inputs_refuted. Qed.
Print Assumptions C72_inputs_refuted.
(* If prefixes differ, igts get those of the first igt. *)
Theorem C72_exact_refuted : forall ix vfuel, exists w' e gs, tidy_inputs w_mix [L "b.xml"; L "c.xml"]
  /\ @run_partition ascii_unicode ix vfuel lazy_parser (L "out") (L "---") (Some by_doc) [L "b.xml"; L "c.xml"] w_mix = (Ok tt, w')
  /\ gs = map snd (of_key (@key_by ascii_unicode ix vfuel (Some by_doc)) (@read_file ascii_unicode lazy_parser (files w_mix)) (Some (L "d1")) [L "b.xml"; L "c.xml"])
  /\ dget (files w') (L "out/d1.xml") = Some e /\ length gs = 2 /\ ~ @holds_exactly ascii_unicode e gs.
Proof. exact exact_refuted. Qed.
Print Assumptions C72_exact_refuted.
(* What igts inherit from their corpus is lost. *)
Theorem C72_inherited_refuted : forall ix vfuel, exists w' e, tidy_inputs w_lang [L "a.xml"]
  /\ @run_partition ascii_unicode ix vfuel lazy_parser (L "out") (L "---") (Some by_doc) [L "a.xml"] w_lang = (Ok tt, w')
  /\ dget (files w') (L "out/d1.xml") = Some e /\ inherits doc_lang (L "lang") = [Ok (Some (L "de"))] /\ inherits e (L "lang") = [Ok None].
Proof. exact inherited_refuted. Qed.
Print Assumptions C72_inherited_refuted.
