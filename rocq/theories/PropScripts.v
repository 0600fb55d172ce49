(* Properties C35, C36, C37 and C47: xigt partition, sort and query. *)
From Coq Require Import Permutation Sorted.
From Verif Require Import PyStr SpecRef Ref Model ModelExamples Value SortTiers Container SpecContainer Scripts SpecScripts.
From Verif Require SortScriptProofs PartitionProofs TallyProofs ScriptExamples.
Import ScriptExamples.

(* ---------- C35: partition ---------- *)

(* When partition succeeds and no two of the keys share a file name, there is
   one file per key; it holds the igts of that key in input order; and the files
   together hold every igt of the input, once. *)
Theorem C35_exact : forall (M : Type) key load (idof : M -> option str) outdir default_key fns out,
  partition key load idof outdir default_key fns = Ok out ->
  (forall k k', occurs key load fns k -> occurs key load fns k' ->
     out_path outdir default_key k = out_path outdir default_key k' -> k = k') ->
  NoDup (map fst out)
  /\ (forall k, occurs key load fns k -> In (out_path outdir default_key k, of_key key load k fns) out)
  /\ (forall p l, In (p, l) out -> exists k, occurs key load fns k /\ p = out_path outdir default_key k /\ l = of_key key load k fns)
  /\ Permutation (concat (map snd out)) (inputs load fns).
Proof. exact @PartitionProofs.partition_exact. Qed.
Print Assumptions C35_exact.

(* Partition succeeds exactly if every file can be read, every key can be found,
   and no two igts of the same key have the same id. *)
Theorem C35_succeeds : forall (M : Type) key load (idof : M -> option str) outdir default_key fns,
  (exists out, partition key load idof outdir default_key fns = Ok out) <->
  (forall fn, In fn fns -> exists l, load fn = Ok l)
  /\ (forall g, In g (inputs load fns) -> exists k, key g = Ok k)
  /\ (forall k, ids_distinct idof (of_key key load k fns)).
Proof. exact @PartitionProofs.partition_ok. Qed.
Print Assumptions C35_succeeds.

(* Two keys that do not begin with a slash share a file exactly if they are the
   same but for colons (an absent key counts as the default key). *)
Theorem C35_names : forall outdir default_key k k',
  relative (name_of default_key k) -> relative (name_of default_key k') ->
  (out_path outdir default_key k = out_path outdir default_key k' <-> same_but_colons (name_of default_key k) (name_of default_key k')).
Proof. exact @PartitionProofs.same_path. Qed.
Print Assumptions C35_names.

(* Otherwise igts are lost: the keys x:y and x-y give one file, which holds the
   igts of the last only. *)
Theorem C35_colon_refuted : exists key load outdir default_key fns out g,
  partition key load igt_id outdir default_key fns = Ok out /\ In g (inputs load fns) /\ (forall p l, In (p, l) out -> ~ In g l)
  /\ (forall k, occurs key load fns k -> relative (name_of default_key k)).
Proof. exact ScriptExamples.colon_lost. Qed.
Print Assumptions C35_colon_refuted.
(* The same happens to igts without key when the default key is a key. *)
Theorem C35_default_refuted : exists key load outdir default_key fns out g,
  partition key load igt_id outdir default_key fns = Ok out /\ In g (inputs load fns) /\ (forall p l, In (p, l) out -> ~ In g l)
  /\ (forall k s, occurs key load fns k -> k = Some s -> ~ In (Ch ":") s) /\ ~ In (Ch ":") default_key.
Proof. exact ScriptExamples.default_lost. Qed.
Print Assumptions C35_default_refuted.
(* A key that begins with a slash gives a file outside the output directory. *)
Theorem C35_outside_refuted : exists key load outdir default_key fns out p l,
  partition key load igt_id outdir default_key fns = Ok out /\ In (p, l) out /\ (forall n, p <> outdir ++ L "/" ++ n).
Proof. exact ScriptExamples.slash_outside. Qed.
Print Assumptions C35_outside_refuted.

Example C35_example : partition lang_of files igt_id (L "out") (L "---") ab
  = Ok [(L "out/de.xml", [lang_igt (L "i1") (L "de"); lang_igt (L "i4") (L "de"); lang_igt (L "j2") (L "de")]);
        (L "out/x-y.xml", [lang_igt (L "i2") (L "x:y"); lang_igt (L "j1") (L "x:y")]);
        (L "out/---.xml", [the_igt (L "i3") []])]
  /\ (forall k k', occurs lang_of files ab k -> occurs lang_of files ab k' -> out_path (L "out") (L "---") k = out_path (L "out") (L "---") k' -> k = k').
Proof. exact (conj ab_parted ab_apart). Qed.

(* ---------- C36: sort keys ---------- *)

(* The key for one path is the text found (none counts as empty), cut into its
   maximal runs of digits, read as numbers, and of other characters. *)
Theorem C36_key : forall (U : Unicode) A (find : A -> str -> res (option str)) sk x k,
  make_sortkey find [sk] x = Ok k <-> exists v, find x sk = Ok v /\ natural (match v with Some s => s | None => [] end) k.
Proof. exact @SortScriptProofs.sortkey_one. Qed.
Print Assumptions C36_key.
Theorem C36_key_exists : forall (U : Unicode) s, exists ps, natural s ps /\ forall qs, natural s qs -> qs = ps.
Proof. exact @SortScriptProofs.natural_unique. Qed.
Print Assumptions C36_key_exists.

(* Any two such keys can be compared. *)
Theorem C36_one : forall (U : Unicode) A (find : A -> str -> res (option str)) sk x y kx ky,
  make_sortkey find [sk] x = Ok kx -> make_sortkey find [sk] y = Ok ky -> exists v, key_lt kx ky = Ok v.
Proof. exact @SortScriptProofs.one_comparable. Qed.
Print Assumptions C36_one.

(* Comparing keys is comparing them run by run, *)
Theorem C36_order : forall a b, (key_lt a b = Ok true <-> natural_less a b) /\ (key_lt b a = Ok false <-> a = b \/ natural_less a b).
Proof. exact SortScriptProofs.key_order. Qed.
Print Assumptions C36_order.
(* so that texts that agree up to a number are ordered by that number. *)
Theorem C36_numbers : forall (U : Unicode) p d1 d2 r1 r2 ps qs, (forall q c, p = q ++ [c] -> is_digit c = false) ->
  all_digits d1 -> d1 <> [] -> ~ starts_with_digit r1 -> all_digits d2 -> d2 <> [] -> ~ starts_with_digit r2 ->
  (number d1 < number d2)%Z -> natural (p ++ d1 ++ r1) ps -> natural (p ++ d2 ++ r2) qs -> natural_less ps qs.
Proof. exact @SortScriptProofs.numeric_order. Qed.
Print Assumptions C36_numbers.

(* With several paths keys can be compared when the texts found for all but the
   last have equally many runs. *)
Theorem C36_several_partial : forall (U : Unicode) A (find : A -> str -> res (option str)) sks sk x y kx ky,
  (forall p, In p sks -> exists vx vy px py, find x p = Ok vx /\ find y p = Ok vy
     /\ natural (match vx with Some s => s | None => [] end) px
     /\ natural (match vy with Some s => s | None => [] end) py /\ length px = length py) ->
  make_sortkey find (sks ++ [sk]) x = Ok kx -> make_sortkey find (sks ++ [sk]) y = Ok ky ->
  exists v, key_lt kx ky = Ok v.
Proof. exact @SortScriptProofs.several_comparable. Qed.
Print Assumptions C36_several_partial.
(* Without that they cannot always, and sorting fails: the example in the help of
   xigt sort, --igt-key=@doc-id --igt-key=@id, with documents a1 and a. *)
Theorem C36_several_refuted : exists (U : Unicode) A (find : A -> str -> res (option str)) sks x y kx ky,
  make_sortkey find sks x = Ok kx /\ make_sortkey find sks y = Ok ky /\ key_lt kx ky = Err TypeError
  /\ sort_keyed (make_sortkey find sks) [x; y] = Err TypeError.
Proof. exact ScriptExamples.several_fail. Qed.
Print Assumptions C36_several_refuted.

Example C36_example : @make_sortkey ascii_unicode _ attr_of [L "@id"] [(L "@id", L "i10")] = Ok [PStr (L "i"); PInt 10; PStr []]
  /\ @make_sortkey ascii_unicode _ attr_of [L "@id"] [(L "@id", L "i2b")] = Ok [PStr (L "i"); PInt 2; PStr (L "b")]
  /\ key_lt [PStr (L "i"); PInt 2; PStr (L "b")] [PStr (L "i"); PInt 10; PStr []] = Ok true.
Proof. exact ScriptExamples.ids_compare. Qed.

(* ---------- C37: sorting ---------- *)

(* A list sorted by key holds the members it had, in order of their keys, ties in
   the order they had. *)
Theorem C37_list : forall A (key : A -> res (list piece)) l l', sort_keyed key l = Ok l' -> sorted_by key l l'.
Proof. exact @SortScriptProofs.sort_keyed_spec. Qed.
Print Assumptions C37_list.
(* Sorting by one path succeeds if the path can be followed everywhere. *)
Theorem C37_one_path : forall (U : Unicode) A (find : A -> str -> res (option str)) sk l,
  (forall x, In x l -> exists v, find x sk = Ok v) -> exists l', sort_keyed (make_sortkey find [sk]) l = Ok l'.
Proof. exact @SortScriptProofs.sort_one_path. Qed.
Print Assumptions C37_one_path.
(* Sorting a container sorts its members and leaves lookup by id, the objects and
   other containers as they were. *)
Theorem C37_container : forall (U : Unicode) B (key : nat -> res (list piece)) (s : @state B) k, snd (sort_container key s k) = RNone ->
  sorted_by key (members s k) (members (fst (sort_container key s k)) k)
  /\ (forall i, id_accepted i = true -> getitem (conts (fst (sort_container key s k)) k) (KStr i) = getitem (conts s k) (KStr i))
  /\ (forall j, j <> k -> conts (fst (sort_container key s k)) j = conts s j)
  /\ (forall a, objs (fst (sort_container key s k)) a = objs s a).
Proof. exact @SortScriptProofs.sort_container_spec. Qed.
Print Assumptions C37_container.
(* The command sorts igts, tiers and items as asked and changes nothing else. *)
Theorem C37_corpus : forall fuel a c c', sort_corpus fuel a c = Ok c' -> sorted_corpus fuel a c c'.
Proof. exact @SortScriptProofs.sort_corpus_spec. Qed.
Print Assumptions C37_corpus.

Example C37_example : sort_keyed (@make_sortkey ascii_unicode _ attr_of [L "@id"]) some_ids_ = Ok sorted_ids
  /\ sort_corpus 5 by_ids untidy = Ok tidy.
Proof. exact (conj ids_sort tidied). Qed.

(* ---------- C47: tally ---------- *)

(* Each group that the subquery gives for some match is listed once, with the
   number of matches it is given for; these add up to the number of matches; the
   list is in descending order, ties in order of first occurrence. *)
Theorem C47_tally : forall M (sub : M -> res (list pyval)) ms c, tally sub (Ok ms) = Ok c ->
  exists gs, mapM sub ms = Ok gs
  /\ NoDup (map fst c)
  /\ (forall g n, In (g, n) c <-> 0 < n /\ n = count_occ group_dec gs g)
  /\ list_sum (map snd c) = length ms
  /\ StronglySorted (fun a b => snd b < snd a \/ snd a = snd b /\ first_before gs (fst a) (fst b)) c.
Proof. exact @TallyProofs.tally_spec. Qed.
Print Assumptions C47_tally.
(* It succeeds exactly if the subquery gives texts and absent attributes only. *)
Theorem C47_succeeds : forall M (sub : M -> res (list pyval)) ms gs, mapM sub ms = Ok gs ->
  (exists c, tally sub (Ok ms) = Ok c) <-> Forall plain_group gs.
Proof. exact @TallyProofs.tally_ok. Qed.
Print Assumptions C47_succeeds.
(* Any subquery for items, such as the one in the help of xigt query,
   .//item[value()="dog"], fails as soon as one is found. *)
Theorem C47_objects_refuted : exists (sub : nat -> res (list pyval)) ms gs, mapM sub ms = Ok gs /\ tally sub (Ok ms) = Err TypeError.
Proof. exact ScriptExamples.objects_fail. Qed.
Print Assumptions C47_objects_refuted.
Theorem C47_objects : forall M (sub : M -> res (list pyval)) ms gs, mapM sub ms = Ok gs -> ~ Forall plain_group gs ->
  tally sub (Ok ms) = Err TypeError.
Proof. exact @TallyProofs.tally_objects. Qed.
Print Assumptions C47_objects.
(* --unique gives the number of different texts found. *)
Theorem C47_unique : forall vs, plain_group vs ->
  exists n l, unique (Ok vs) = Ok n /\ length l = n /\ NoDup l /\ forall v, In v l <-> In v vs.
Proof. exact @TallyProofs.unique_spec. Qed.
Print Assumptions C47_unique.
Theorem C47_unique_refuted : exists vs, unique (Ok vs) = Err TypeError.
Proof. exact ScriptExamples.unique_fails. Qed.
Print Assumptions C47_unique_refuted.

Example C47_example : tally texts (Ok [1; 2; 0; 3; 4; 5]) = Ok [([VStr (L "dog")], 3); ([], 2); ([VStr (L "a"); VNone], 1)].
Proof. exact texts_tallied. Qed.
