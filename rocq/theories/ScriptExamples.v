(* Concrete corpora for sort, partition and query, and inputs they get wrong. *)
From Coq Require Import Permutation Sorted.
From Verif Require Import PyStr PyStrFacts Model SpecRef ModelExamples Value SortTiers ValueExamples Scripts SpecScripts.
From Verif Require SortScriptProofs PartitionProofs TallyProofs.

(* objects that are their attributes, with paths to them *)
Definition attr_of (x : dict str) (path : str) : res (option str) := Ok (dget x path).
Definition docs : list (dict str) :=
  [[(L "@doc-id", L "a1"); (L "@id", L "i1")]; [(L "@doc-id", L "a"); (L "@id", L "i2")]].
Lemma docs_fail : @make_sortkey ascii_unicode _ attr_of [L "@doc-id"; L "@id"] (nth 0 docs []) = Ok [PStr (L "a"); PInt 1; PStr []; PStr (L "i"); PInt 1; PStr []]
  /\ @make_sortkey ascii_unicode _ attr_of [L "@doc-id"; L "@id"] (nth 1 docs []) = Ok [PStr (L "a"); PStr (L "i"); PInt 2; PStr []]
  /\ sort_keyed (@make_sortkey ascii_unicode _ attr_of [L "@doc-id"; L "@id"]) docs = Err TypeError.
Proof. vm_compute. auto. Qed.

(* ids in natural order; i2 before i10, ties as they were *)
Definition some_ids_ : list (dict str) :=
  [[(L "@id", L "i10")]; [(L "@id", L "i2"); (L "@x", L "1")]; [(L "@id", L "i02")]; []; [(L "@id", L "i2b")]].
Definition sorted_ids : list (dict str) :=
  [[]; [(L "@id", L "i2"); (L "@x", L "1")]; [(L "@id", L "i02")]; [(L "@id", L "i2b")]; [(L "@id", L "i10")]].
Lemma ids_sort : sort_keyed (@make_sortkey ascii_unicode _ attr_of [L "@id"]) some_ids_ = Ok sorted_ids.
Proof. vm_compute. reflexivity. Qed.

(* a corpus whose igts, tiers and items are sorted *)
Definition by_id {A} (attrs_of : A -> attrs) (x : A) : res (list piece) :=
  @make_sortkey ascii_unicode A (fun x _ => Ok (a_id (attrs_of x))) [L "@id"] x.
Definition the_igt (i : str) (l : list tier) : igt := {| g_attrs := mk_attrs i []; g_md := []; g_tiers := l |}.
Definition tidy_w : tier := mk_tier (L "w") [] [mk_item (L "w2") (L "b"); mk_item (L "w10") (L "a")].
Definition untidy_w : tier := mk_tier (L "w") [] [mk_item (L "w10") (L "a"); mk_item (L "w2") (L "b")].
Definition untidy : corpus := {| c_attrs := no_attrs; c_md := [];
  c_igts := [the_igt (L "i3") [untidy_w; mk_tier (L "g") [] []]; the_igt (L "i1") []] |}.
Definition tidy : corpus := {| c_attrs := no_attrs; c_md := [];
  c_igts := [the_igt (L "i1") []; the_igt (L "i3") [mk_tier (L "g") [] []; tidy_w]] |}.
Definition by_ids : sort_args := {| by_igt := Some (by_id g_attrs); by_tier := Some (fun _ => by_id t_attrs); by_deps := None; by_item := Some (fun _ _ => by_id it_attrs) |}.
Lemma tidied : sort_corpus 5 by_ids untidy = Ok tidy.
Proof. vm_compute. reflexivity. Qed.

(* two files by language *)
Definition lang_igt (i l : str) : igt := {| g_attrs := mk_attrs i [(L "lang", l)]; g_md := []; g_tiers := [] |}.
Definition lang_of (g : igt) : res (option str) := Ok (dget (a_dict (g_attrs g)) (L "lang")).
Definition files (fn : str) : res (list igt) :=
  if str_eqb fn (L "a.xml") then Ok [lang_igt (L "i1") (L "de"); lang_igt (L "i2") (L "x:y"); the_igt (L "i3") []; lang_igt (L "i4") (L "de")]
  else if str_eqb fn (L "b.xml") then Ok [lang_igt (L "j1") (L "x:y"); lang_igt (L "j2") (L "de")]
  else if str_eqb fn (L "c.xml") then Ok [lang_igt (L "k1") (L "x-y")]
  else Err RuntimeError.
Definition ab := [L "a.xml"; L "b.xml"].
Lemma ab_parted : partition lang_of files igt_id (L "out") (L "---") ab
  = Ok [(L "out/de.xml", [lang_igt (L "i1") (L "de"); lang_igt (L "i4") (L "de"); lang_igt (L "j2") (L "de")]);
        (L "out/x-y.xml", [lang_igt (L "i2") (L "x:y"); lang_igt (L "j1") (L "x:y")]);
        (L "out/---.xml", [the_igt (L "i3") []])].
Proof. vm_compute. reflexivity. Qed.
Lemma ab_keys k : occurs lang_of files ab k -> k = Some (L "de") \/ k = Some (L "x:y") \/ k = None.
Proof. intros (g & Hg & Hk). vm_compute in Hg. destruct Hg as [<-|[<-|[<-|[<-|[<-|[<-|[]]]]]]]; vm_compute in Hk; injection Hk as <-; auto. Qed.
Lemma ab_apart k k' : occurs lang_of files ab k -> occurs lang_of files ab k' -> out_path (L "out") (L "---") k = out_path (L "out") (L "---") k' -> k = k'.
Proof.
  intros H H' E. apply ab_keys in H as [-> | [-> | ->]], H' as [-> | [-> | ->]]; try reflexivity; vm_compute in E; discriminate.
Qed.

(* two languages, one file: the second language replaces the first *)
Lemma colon_lost : exists key load d dk fns out g,
  partition key load igt_id d dk fns = Ok out /\ In g (inputs load fns) /\ (forall p l, In (p, l) out -> ~ In g l)
  /\ (forall k, occurs key load fns k -> relative (name_of dk k)).
Proof.
  exists lang_of, files, (L "out"), (L "---"), [L "b.xml"; L "c.xml"]. eexists. exists (lang_igt (L "j1") (L "x:y")).
  split; [vm_compute; reflexivity|]. split; [vm_compute; auto|]. split.
  - intros p l H. vm_compute in H. destruct H as [H|[H|[]]]; injection H as <- <-; vm_compute; intuition discriminate.
  - intros k (g & Hg & Hk). vm_compute in Hg. destruct Hg as [<-|[<-|[<-|[]]]]; vm_compute in Hk; injection Hk as <-; intros t; vm_compute; discriminate.
Qed.
(* an igt without the attribute and one whose attribute is the default key *)
Definition files2 (fn : str) : res (list igt) := Ok [the_igt (L "i1") []; lang_igt (L "i2") (L "---")].
Lemma default_lost : exists key load d dk fns out g,
  partition key load igt_id d dk fns = Ok out /\ In g (inputs load fns) /\ (forall p l, In (p, l) out -> ~ In g l)
  /\ (forall k s, occurs key load fns k -> k = Some s -> ~ In (Ch ":") s) /\ ~ In (Ch ":") dk.
Proof.
  exists lang_of, files2, (L "out"), (L "---"), [L "a.xml"]. eexists. exists (the_igt (L "i1") []).
  split; [vm_compute; reflexivity|]. split; [vm_compute; auto|]. split; [|split].
  - intros p l H. vm_compute in H. destruct H as [H|[]]. injection H as <- <-. vm_compute. intuition discriminate.
  - intros k s (g & Hg & Hk) E. subst k. vm_compute in Hg. destruct Hg as [<-|[<-|[]]]; vm_compute in Hk; [discriminate|]. injection Hk as <-. vm_compute. intuition discriminate.
  - vm_compute. intuition discriminate.
Qed.
(* a key that begins with a slash names a file outside the output directory *)
Lemma slash_outside : exists key load d dk fns out p l,
  partition key load igt_id d dk fns = Ok out /\ In (p, l) out /\ (forall n, p <> d ++ L "/" ++ n).
Proof.
  exists lang_of, (fun _ => Ok [lang_igt (L "i1") (L "/tmp/x")]), (L "out"), (L "---"), [L "a.xml"]. eexists. exists (L "/tmp/x.xml"), [lang_igt (L "i1") (L "/tmp/x")].
  split; [vm_compute; reflexivity|]. split; [vm_compute; auto|]. intros n H. vm_compute in H. discriminate.
Qed.

(* groups of texts; a group of items cannot be counted *)
Definition texts (n : nat) : res (list pyval) :=
  Ok (match n with 0 => [VStr (L "dog")] | 1 => [VStr (L "a"); VNone] | 2 => [] | 3 => [VStr (L "dog")] | 4 => [] | _ => [VStr (L "dog")] end).
Lemma texts_tallied : tally texts (Ok [1; 2; 0; 3; 4; 5]) = Ok [([VStr (L "dog")], 3); ([], 2); ([VStr (L "a"); VNone], 1)].
Proof. vm_compute. reflexivity. Qed.
Lemma objects_fail : exists (sub : nat -> res (list pyval)) ms gs, mapM sub ms = Ok gs /\ tally sub (Ok ms) = Err TypeError.
Proof. exists (fun _ => Ok [VObj 0]), [0], [[VObj 0]]. vm_compute. auto. Qed.
Lemma unique_fails : exists vs, unique (Ok vs) = Err TypeError.
Proof. exists [VStr (L "a"); VObj 0]. reflexivity. Qed.
Lemma several_fail : exists (U : Unicode) A (find : A -> str -> res (option str)) sks x y kx ky,
  make_sortkey find sks x = Ok kx /\ make_sortkey find sks y = Ok ky /\ key_lt kx ky = Err TypeError
  /\ sort_keyed (make_sortkey find sks) [x; y] = Err TypeError.
Proof.
  exists ascii_unicode, (dict str), attr_of, [L "@doc-id"; L "@id"], (nth 0 docs []), (nth 1 docs []).
  eexists _, _. split; [exact (proj1 docs_fail)|]. split; [exact (proj1 (proj2 docs_fail))|]. split; [reflexivity|exact (proj2 (proj2 docs_fail))].
Qed.
Lemma ids_compare : @make_sortkey ascii_unicode _ attr_of [L "@id"] [(L "@id", L "i10")] = Ok [PStr (L "i"); PInt 10; PStr []]
  /\ @make_sortkey ascii_unicode _ attr_of [L "@id"] [(L "@id", L "i2b")] = Ok [PStr (L "i"); PInt 2; PStr (L "b")]
  /\ key_lt [PStr (L "i"); PInt 2; PStr (L "b")] [PStr (L "i"); PInt 10; PStr []] = Ok true.
Proof. vm_compute. auto. Qed.
