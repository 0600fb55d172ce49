(* Property C71: xigt sort as a whole. *)
From Coq Require Import Permutation Sorted.
From Verif Require Import PyStr SpecRef Model Attr Index XmlStd Xml SpecReload SortTiers Scripts SpecScripts Path SpecPath Command SpecCommand.
From Verif Require CommandProofs BlindProofs CommandExamples.
Import CommandExamples.

(* What is written can be read in any mode and is then the corpus that was read,
   sorted as the options say, and nothing else. *)
Theorem C71_sorts : forall (U : Unicode) ix vfuel fuel ahead o e e', tidy_document e -> sort_document ix vfuel fuel ahead o e = Ok e' ->
  exists c c' a, xml_load ahead e = Ok c /\ asked ix vfuel o c a /\ sorted_corpus fuel a c c' /\ forall ahead', xml_load ahead' e' = Ok c'.
Proof. exact @CommandProofs.sorts_asked. Qed.
Print Assumptions C71_sorts.
(* so it has the same igts, tiers and items in another order *)
Theorem C71_reordered : forall fuel a c c', sorted_corpus fuel a c c' -> reordered c c'.
Proof. exact CommandProofs.sorted_reordered. Qed.
Print Assumptions C71_reordered.
(* It fails only if the document cannot be read or the corpus cannot be sorted. *)
Theorem C71_fails : forall (U : Unicode) ix vfuel fuel ahead o e x, tidy_document e -> sort_document ix vfuel fuel ahead o e = Err x ->
  xml_load ahead e = Err x \/ exists c, xml_load ahead e = Ok c /\ sort_corpus fuel (args_of ix vfuel o c) c = Err x.
Proof. exact @CommandProofs.fails. Qed.
Print Assumptions C71_fails.
(* The keys and attributes used are those asked for: the texts found by the
   paths, cut into runs; the attributes separated by commas. *)
Theorem C71_options : forall (U : Unicode) ix vfuel o c, asked ix vfuel o c (args_of ix vfuel o c).
Proof. exact @CommandProofs.options. Qed.
Print Assumptions C71_options.
(* the text a path finds, as used below *)
Theorem C71_finds : forall (U : Unicode) ix vfuel n p t, text_at ix vfuel n p = Ok t <-> finds ix vfuel n p t.
Proof. exact @CommandProofs.finds_text. Qed.
Print Assumptions C71_finds.
Theorem C71_commas : forall s l, by_commas s l <-> split_on (Ch ",") s = l.
Proof. exact CommandProofs.commas. Qed.
Print Assumptions C71_commas.
Example C71_example : forall ix vfuel, tidy_document doc_mixed
  /\ exists e', (forall ahead, @sort_document ascii_unicode ix vfuel 9 ahead o_all doc_mixed = Ok e')
     /\ ids_in doc_mixed = map L ["i10"; "g"; "g1"; "w"; "w10"; "w9"; "i9"; "i11"; "w2"]%string
     /\ ids_in e' = map L ["i11"; "w2"; "i9"; "i10"; "w"; "w9"; "w10"; "g"; "g1"]%string.
Proof. exact (fun ix vfuel => conj mixed_tidy (mixed_sorted ix vfuel)). Qed.

(* Sorting again changes nothing, if the paths do not depend on the order of
   igts, tiers and items; also with --tier-deps, whatever ids the tiers have. *)
Theorem C71_again : forall (U : Unicode) ix vfuel fuel ahead o e e', tidy_document e ->
  each (igt_key o) (order_blind ix vfuel an_igt) -> each (tier_key o) (order_blind ix vfuel a_tier) -> each (item_key o) (order_blind ix vfuel an_item) ->
  sort_document ix vfuel fuel ahead o e = Ok e' ->
  exists n, forall fuel' ahead', n <= fuel' -> sort_document ix vfuel fuel' ahead' o e' = Ok e'.
Proof. exact @CommandProofs.again. Qed.
Print Assumptions C71_again.
(* Such are the paths to the attributes and the metadata of an igt or tier, and
   all paths down from an item. *)
Theorem C71_own : forall (U : Unicode) ix vfuel h hs, own_step h -> Forall downward hs -> wf (plain_path (h :: hs)) ->
  order_blind ix vfuel an_igt (show (plain_path (h :: hs))) /\ order_blind ix vfuel a_tier (show (plain_path (h :: hs))).
Proof. exact @BlindProofs.own_paths. Qed.
Print Assumptions C71_own.
Theorem C71_item : forall (U : Unicode) ix vfuel hs, Forall downward hs -> wf (plain_path hs) -> order_blind ix vfuel an_item (show (plain_path hs)).
Proof. exact @BlindProofs.item_paths. Qed.
Print Assumptions C71_item.
Example C71_again_example : forall ix vfuel,
  each (igt_key o_all) (@order_blind ascii_unicode ix vfuel an_igt) /\ each (item_key o_all) (@order_blind ascii_unicode ix vfuel an_item)
  /\ exists e', (forall ahead, @sort_document ascii_unicode ix vfuel 9 ahead o_all doc_mixed = Ok e')
     /\ forall ahead, @sort_document ascii_unicode ix vfuel 9 ahead o_all e' = Ok e'.
Proof.
  exact (fun ix vfuel => conj (proj1 (mixed_blind ix vfuel)) (conj (proj2 (mixed_blind ix vfuel)) (mixed_again ix vfuel))).
Qed.
(* In general sorting again can change the order: igts by their first item, and items by id. *)
Theorem C71_again_refuted : forall ix vfuel, exists e e' e'', tidy_document e
  /\ (forall fuel ahead, @sort_document ascii_unicode ix vfuel fuel ahead o_first e = Ok e')
  /\ (forall fuel ahead, @sort_document ascii_unicode ix vfuel fuel ahead o_first e' = Ok e'')
  /\ ids_in e' = map L ["b"; "w2"; "a"; "w1"; "w3"]%string /\ ids_in e'' = map L ["a"; "w1"; "w3"; "b"; "w2"]%string.
Proof. exact first_refuted. Qed.
Print Assumptions C71_again_refuted.

(* With at most one path for each level, which always gives a text or nothing,
   and without --tier-deps, sorting succeeds. *)
Theorem C71_succeeds : forall (U : Unicode) ix vfuel fuel ahead o e c, tidy_document e -> xml_load ahead e = Ok c ->
  single (igt_key o) (texts_for ix vfuel an_igt) -> single (tier_key o) (texts_for ix vfuel a_tier) -> single (item_key o) (texts_for ix vfuel an_item) ->
  (tier_deps o = None \/ tier_key o <> None) ->
  exists e', sort_document ix vfuel fuel ahead o e = Ok e'.
Proof. exact @CommandProofs.succeeds. Qed.
Print Assumptions C71_succeeds.
(* such paths are @id, @type and for items text() *)
Theorem C71_texts : forall (U : Unicode) ix vfuel, texts_for ix vfuel (fun _ => True) (L "@id") /\ texts_for ix vfuel (fun _ => True) (L "@type")
  /\ texts_for ix vfuel an_item (L "text()").
Proof. exact @CommandProofs.id_texts. Qed.
Print Assumptions C71_texts.
(* --igt-key=@id sorts the igts by the natural order of their ids *)
Theorem C71_by_id : forall (U : Unicode) ix vfuel fuel ahead e c, tidy_document e -> xml_load ahead e = Ok c ->
  let o := {| igt_key := Some [L "@id"]; tier_key := None; tier_deps := None; item_key := None |} in
  exists e' c', sort_document ix vfuel fuel ahead o e = Ok e' /\ (forall ahead', xml_load ahead' e' = Ok c')
    /\ c_attrs c' = c_attrs c /\ c_md c' = c_md c /\ Permutation (c_igts c') (c_igts c)
    /\ StronglySorted (fun g h => exists kg kh, natural (match a_id (g_attrs g) with Some i => i | None => [] end) kg
         /\ natural (match a_id (g_attrs h) with Some i => i | None => [] end) kh /\ (kg = kh \/ natural_less kg kh)) (c_igts c')
    /\ forall i, filter (fun g => opt_eqb str_eqb (a_id (g_attrs g)) i) (c_igts c') = filter (fun g => opt_eqb str_eqb (a_id (g_attrs g)) i) (c_igts c).
Proof. exact @CommandProofs.by_id. Qed.
Print Assumptions C71_by_id.
(* not with two paths, nor with a path to objects that have members *)
Theorem C71_succeeds_refuted : forall ix vfuel, exists e o, tidy_document e /\ each (igt_key o) (@texts_for ascii_unicode ix vfuel an_igt)
  /\ forall fuel ahead, @sort_document ascii_unicode ix vfuel fuel ahead o e = Err TypeError.
Proof. exact runs_refuted. Qed.
Print Assumptions C71_succeeds_refuted.
Theorem C71_object_refuted : forall ix vfuel, exists e, tidy_document e /\ (exists c, forall ahead, @xml_load ascii_unicode ahead e = Ok c)
  /\ forall fuel ahead in_place, @run_sort ascii_unicode ix vfuel fuel ahead (opts (Some [L "tier"]) None None None) in_place e = (Err TypeError, Some e).
Proof. exact object_refuted. Qed.
Print Assumptions C71_object_refuted.

(* Without --in-place the file is as before.  With it, it holds what would be
   printed without; and if sorting fails, it is as before. *)
Theorem C71_in_place : forall (U : Unicode) ix vfuel fuel ahead o file, tidy_document file ->
  match sort_document ix vfuel fuel ahead o file with
  | Ok e => run_sort ix vfuel fuel ahead o false file = (Ok (Some e), Some file)
            /\ run_sort ix vfuel fuel ahead o true file = (Ok None, Some e)
  | Err x => forall in_place, run_sort ix vfuel fuel ahead o in_place file = (Err x, Some file)
  end.
Proof. exact @CommandProofs.in_place_printed. Qed.
Print Assumptions C71_in_place.
