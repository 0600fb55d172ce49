(* Properties C27 to C31, C52 and C53: XigtPath.

   [ix] gives the reference indices of an igt and [vfuel] bounds the depth of
   Item.value; the theorems hold for all of them.  A path is a tree ([path] in
   SpecPath.v) and [show] its text; [wf] says that the tree can be written. *)
From Coq Require Import Sorted.
From Verif Require Import PyStr SpecRef Model ModelExamples Value Attr SpecAttr Index SpecIndex Path SpecPath SpecPathRef.
From Verif Require PathTokenProofs PathProofs PathLaws PathDesc PathSpace PathRefProofs PathExamples.
Import PathExamples.

(* ---------- C27: find and findall ---------- *)

(* find returns the first result of findall, and None if there is none. *)
Theorem C27_first : forall (U : Unicode) ix vfuel v p l,
  findall ix vfuel v p = Ok l -> find ix vfuel v p = Ok (hd_error l).
Proof. exact @PathLaws.findall_find. Qed.
Print Assumptions C27_first.

(* Conversely, when find fails so does findall, in the same way; when find finds
   nothing then findall does; and when find finds an object then findall begins
   with it or fails later. *)
Theorem C27_converse : forall (U : Unicode) ix vfuel v p,
  match find ix vfuel v p with
  | Ok None => findall ix vfuel v p = Ok []
  | Ok (Some x) => (exists l, findall ix vfuel v p = Ok (x :: l)) \/ exists e, findall ix vfuel v p = Err e
  | Err e => findall ix vfuel v p = Err e
  end.
Proof. exact @PathLaws.find_findall. Qed.
Print Assumptions C27_converse.

(* The last case happens: find can succeed where findall fails. *)
Theorem C27_lazy : exists n p x e,
  @find ascii_unicode (@construct_index ascii_unicode) 50 (VNode n) p = Ok (Some x)
  /\ @findall ascii_unicode (@construct_index ascii_unicode) 50 (VNode n) p = Err e.
Proof. exact PathExamples.find_lazy. Qed.
Print Assumptions C27_lazy.

Example C27_example :
  labs (G root (L "//item")) = Ok [L "p1"; L "w1"; L "w2"; L "t1"]
  /\ exists x, @find ascii_unicode (@construct_index ascii_unicode) 50 (VNode root) (L "//item") = Ok (Some x) /\ lab x = L "p1".
Proof. split; [reflexivity|]. eexists. vm_compute. split; reflexivity. Qed.

(* ---------- C28: descendants ---------- *)

(* .//name succeeds, and lists the object itself and all its descendants of that
   name, metadata included, in document order, each once. *)
Theorem C28_descendants : forall (U : Unicode) ix vfuel n name,
  valid_name true name -> no_colon name ->
  exists l, findall ix vfuel (VNode n) (L ".//" ++ name) = Ok l
  /\ lists_exactly n (fun _ o => element_name o = name) l.
Proof. exact @PathDesc.descendants_plain. Qed.
Print Assumptions C28_descendants.

(* With a prefix, .//p:name lists the same descendants whatever their namespace;
   only the object itself is listed or not by its namespace, which is compared with
   the prefix as it stands. *)
Theorem C28_prefix : forall (U : Unicode) ix vfuel n p name,
  valid_name true (p ++ L ":" ++ name) -> no_colon p -> no_colon name ->
  exists l, findall ix vfuel (VNode n) (L ".//" ++ p ++ L ":" ++ name) = Ok l
  /\ lists_exactly n (fun pos o => element_name o = name /\ (pos = [] -> a_ns (attrs_of o) = Some p)) l.
Proof. exact @PathDesc.descendants_prefix. Qed.
Print Assumptions C28_prefix.

(* So a prefix does not restrict the result to its namespace. *)
Theorem C28_prefix_refuted : exists n m ns,
  prefixes (map attrs_of (n_obj n :: n_up n)) ns
  /\ (exists l, @findall ascii_unicode (@construct_index ascii_unicode) 50 (VNode n) (L ".//dc:subject") = Ok l /\ In (VNode m) l)
  /\ a_ns (attrs_of (n_obj m)) <> ns (L "dc").
Proof. exact PathExamples.prefix_ignored. Qed.
Print Assumptions C28_prefix_refuted.
(* And an object of that name and namespace does not find itself. *)
Theorem C28_self_refuted : exists n ns,
  prefixes (map attrs_of (n_obj n :: n_up n)) ns /\ element_name (n_obj n) = L "subject"
  /\ a_ns (attrs_of (n_obj n)) = ns (L "dc") /\ ns (L "dc") <> None
  /\ @findall ascii_unicode (@construct_index ascii_unicode) 50 (VNode n) (L ".//dc:subject") = Ok [].
Proof. exact PathExamples.prefix_unresolved. Qed.
Print Assumptions C28_self_refuted.

Example C28_example : @valid_name ascii_unicode true (L "item") /\ no_colon (L "item")
  /\ labs (G root (L ".//item")) = Ok [L "p1"; L "w1"; L "w2"; L "t1"]
  /\ labs (G root (L ".//subject")) = Ok [L "Japanese"; L "else"]
  /\ labs (G root (L ".//*")) = Ok [].
Proof. split; [name_tac|]. split; [vm_compute; intuition discriminate|]. vm_compute. repeat split. Qed.
Example C28_prefix_example : @valid_name ascii_unicode true (L "dc" ++ L ":" ++ L "subject") /\ no_colon (L "dc") /\ no_colon (L "subject")
  /\ labs (G root (L ".//dc:subject")) = Ok [L "Japanese"; L "else"].
Proof. split; [name_tac|]. split; [vm_compute; intuition discriminate|]. split; [vm_compute; intuition discriminate|]. reflexivity. Qed.

(* ---------- C29: composition ---------- *)

(* p/q evaluates q at each result of p, in order. *)
Theorem C29_slash : forall (U : Unicode) ix vfuel p q v l,
  wf p -> wf q -> relative q -> lone_group p = false ->
  (findall ix vfuel v (show p ++ L "/" ++ show q) = Ok l <->
   exists m ls, findall ix vfuel v (show p) = Ok m
     /\ Forall2 (fun x lx => findall ix vfuel x (show q) = Ok lx) m ls /\ l = concat ls).
Proof. exact @PathLaws.slash_law. Qed.
Print Assumptions C29_slash.

(* p//name evaluates .//name at each result of p, in order. *)
Theorem C29_descend : forall (U : Unicode) ix vfuel p n v l,
  wf p -> lone_group p = false -> valid_name true n ->
  (findall ix vfuel v (show p ++ L "//" ++ n) = Ok l <->
   exists m ls, findall ix vfuel v (show p) = Ok m
     /\ Forall2 (fun x lx => findall ix vfuel x (L ".//" ++ n) = Ok lx) m ls /\ l = concat ls).
Proof. exact @PathLaws.descend_law. Qed.
Print Assumptions C29_descend.

(* p[q="s"] keeps the results of p at which q has the result s, and p[q!="s"] the others. *)
Theorem C29_predicate : forall (U : Unicode) ix vfuel p sub (neg : bool) lit v l,
  wf p -> lone_group p = false -> wf_path false true sub -> plain lit ->
  (findall ix vfuel v (show p ++ L "[" ++ show sub ++ (if neg then L "!=" else L "=") ++ quoted lit ++ L "]") = Ok l <->
   exists m bs, findall ix vfuel v (show p) = Ok m
     /\ Forall2 (fun x b => exists r, findall ix vfuel x (show sub) = Ok r
                  /\ (b = true <-> if neg then ~ In (VStr lit) r else In (VStr lit) r)) m bs
     /\ l = kept m bs).
Proof. exact @PathLaws.predicate_law. Qed.
Print Assumptions C29_predicate.

(* (p|q|...) has the results of p, then those of q, and so on. *)
Theorem C29_group : forall (U : Unicode) ix vfuel p ps v l,
  Forall (wf_path true false) (p :: ps) ->
  (findall ix vfuel v (L "(" ++ join (L "|") (map show (p :: ps)) ++ L ")") = Ok l <->
   exists ls, Forall2 (fun q lq => findall ix vfuel v (show q) = Ok lq) (p :: ps) ls /\ l = concat ls).
Proof. exact @PathLaws.group_law. Qed.
Print Assumptions C29_group.

(* A path that begins with a slash is evaluated at the nearest enclosing corpus;
   without a corpus it fails. *)
Theorem C29_absolute : forall (U : Unicode) ix vfuel ss n below c u v l,
  wf (Path true ss) -> n_obj n :: n_up n = below ++ PCorpus c :: u ->
  Forall (fun o => match o with PCorpus _ => False | _ => True end) below ->
  v = {| n_obj := PCorpus c; n_up := u |} ->
  (findall ix vfuel (VNode n) (show (Path true ss)) = Ok l <->
   findall ix vfuel (VNode v) (L "." ++ show (Path true ss)) = Ok l).
Proof. exact @PathLaws.absolute_law. Qed.
Print Assumptions C29_absolute.
Theorem C29_no_corpus : forall (U : Unicode) ix vfuel ss n,
  wf (Path true ss) ->
  Forall (fun o => match o with PCorpus _ => False | _ => True end) (n_obj n :: n_up n) ->
  forall l, findall ix vfuel (VNode n) (show (Path true ss)) <> Ok l.
Proof. exact @PathLaws.absolute_nowhere. Qed.
Print Assumptions C29_no_corpus.

(* The single steps: . and .. *)
Theorem C29_self : forall (U : Unicode) ix vfuel v, findall ix vfuel v (L ".") = Ok [v].
Proof. exact @PathLaws.self_law. Qed.
Print Assumptions C29_self.
Theorem C29_parent : forall (U : Unicode) ix vfuel o up o',
  findall ix vfuel (VNode {| n_obj := o; n_up := o' :: up |}) (L "..") = Ok [VNode {| n_obj := o'; n_up := up |}].
Proof. exact @PathLaws.parent_law. Qed.
Print Assumptions C29_parent.
(* a name, or *: the children of that name, or all, in order, the metadata first *)
Theorem C29_child : forall (U : Unicode) ix vfuel n name l,
  valid_name false name -> no_colon name -> picked (named name) (kid_objs (n_obj n)) l ->
  findall ix vfuel (VNode n) name = Ok (map (fun o => VNode {| n_obj := o; n_up := n_obj n :: n_up n |}) l).
Proof. exact @PathLaws.child_law. Qed.
Print Assumptions C29_child.
(* p:name: those of the namespace of p *)
Theorem C29_child_prefix : forall (U : Unicode) ix vfuel n p name m l,
  valid_name false (p ++ L ":" ++ name) -> no_colon p ->
  prefixes (map attrs_of (n_obj n :: n_up n)) m ->
  picked (prefixed m p name) (kid_objs (n_obj n)) l ->
  findall ix vfuel (VNode n) (p ++ L ":" ++ name) = Ok (map (fun o => VNode {| n_obj := o; n_up := n_obj n :: n_up n |}) l).
Proof. exact @PathLaws.child_prefix_law. Qed.
Print Assumptions C29_child_prefix.
(* @id and @type: the id and the type, if there is one *)
Theorem C29_id : forall (U : Unicode) ix vfuel n,
  findall ix vfuel (VNode n) (L "@id") = Ok (match a_id (attrs_of (n_obj n)) with Some s => [VStr s] | None => [] end).
Proof. exact @PathLaws.id_law. Qed.
Print Assumptions C29_id.
Theorem C29_type : forall (U : Unicode) ix vfuel n,
  findall ix vfuel (VNode n) (L "@type") = Ok (match a_type (attrs_of (n_obj n)) with Some s => [VStr s] | None => [] end).
Proof. exact @PathLaws.type_law. Qed.
Print Assumptions C29_type.
(* @a and @p:a: the value of the attribute, or None *)
Theorem C29_attribute : forall (U : Unicode) ix vfuel n a m full,
  valid_name true a -> ~ In a [L "id"; L "type"; L "name"; L "*"] ->
  no_colon a -> prefixes (map attrs_of (n_obj n :: n_up n)) m -> names m a None full ->
  findall ix vfuel (VNode n) (L "@" ++ a) = Ok [match dget (a_dict (attrs_of (n_obj n))) full with Some s => VStr s | None => VNone end].
Proof. exact @PathLaws.attribute_law. Qed.
Print Assumptions C29_attribute.
Theorem C29_attribute_prefix : forall (U : Unicode) ix vfuel n p a m full,
  valid_name true (p ++ L ":" ++ a) -> a <> L "*" ->
  no_colon p -> prefixes (map attrs_of (n_obj n :: n_up n)) m -> names m a (Some p) full ->
  findall ix vfuel (VNode n) (L "@" ++ p ++ L ":" ++ a) = Ok [match dget (a_dict (attrs_of (n_obj n))) full with Some s => VStr s | None => VNone end].
Proof. exact @PathLaws.attribute_prefix_law. Qed.
Print Assumptions C29_attribute_prefix.
(* text(): the text of an item, a meta or a child of a meta, or None *)
Theorem C29_text : forall (U : Unicode) ix vfuel n t,
  match n_obj n with
  | PItem i => it_text i = t
  | PMeta m => me_text m = t
  | PChild (MChild _ _ t' _) => t' = t
  | _ => False
  end ->
  findall ix vfuel (VNode n) (L "text()") = Ok [match t with Some s => VStr s | None => VNone end].
Proof. exact @PathLaws.text_law. Qed.
Print Assumptions C29_text.

(* What follows a group at the beginning of a path is ignored: (p|q)/r has the
   results of (p|q). *)
Theorem C29_group_refuted : exists n p q m,
  @wf ascii_unicode p /\ @wf ascii_unicode q /\ relative q
  /\ G n (show p) = Ok [VNode m] /\ G n (show p ++ L "/" ++ show q) = Ok [VNode m]
  /\ exists k1 k2 k3, G m (show q) = Ok [VNode k1; VNode k2; VNode k3].
Proof. exact PathExamples.after_group_ignored. Qed.
Print Assumptions C29_group_refuted.
(* A group within a group fails when the steps before it find nothing, though it
   finds nothing on its own. *)
Theorem C29_nested_group_refuted :
  G root (L "(tier/(item|metadata)|igt)") = Err XigtPathError
  /\ G root (L "tier/(item|metadata)") = Ok []
  /\ G root (L "igt") = Ok [VNode igt_node].
Proof. exact PathExamples.empty_context_group. Qed.
Print Assumptions C29_nested_group_refuted.
(* A path with a predicate cannot be used in a predicate. *)
Theorem C29_nested_predicate_refuted :
  G igt_node (L "tier[item[@id=""w1""]/@id=""w1""]") <> Ok [VNode (tier_node wd)]
  /\ G (tier_node wd) (L "item[@id=""w1""]/@id") = Ok [VStr (L "w1")].
Proof. exact PathExamples.nested_predicate. Qed.
Print Assumptions C29_nested_predicate_refuted.
(* What follows a superfluous bracket or parenthesis is ignored. *)
Theorem C29_rest_refuted :
  G root (L "igt]/tier") = G root (L "igt") /\ G root (L "igt)foo") = G root (L "igt")
  /\ G root (L "igt") = Ok [VNode igt_node].
Proof. exact PathExamples.rest_ignored. Qed.
Print Assumptions C29_rest_refuted.

(* //tier[@type="words"]/(item|../tier)/referent("segmentation"), and the parts used above *)
Example C29_example : @wf ascii_unicode p_long /\ @wf ascii_unicode p_igt /\ @wf ascii_unicode p_tier /\ relative p_tier /\ lone_group p_igt = false
  /\ @wf_path ascii_unicode false true p_type /\ plain (L "words")
  /\ labs (G root (show p_long)) = Ok [L "p1"; L "p1"; L "p"]
  /\ labs (G root (show p_igt ++ L "/" ++ show p_tier)) = Ok [L "p"; L "w"; L "t"]
  /\ labs (G root (show p_igt_tier ++ L "[" ++ show p_type ++ L "!=" ++ quoted (L "words") ++ L "]")) = Ok [L "p"; L "t"]
  /\ labs (G igt_node (L "(" ++ join (L "|") (map show [p_tier; p_items]) ++ L ")")) = Ok [L "p"; L "w"; L "t"; L "p1"; L "w1"; L "w2"; L "t1"].
Proof.
  split; [apply long_wf|]. split; [apply igt_wf|]. split; [apply tier_wf|]. split; [easy|]. split; [easy|].
  split; [apply type_wf|]. split; [split; vm_compute; intuition discriminate|]. vm_compute. repeat split.
Qed.
Example C29_example_steps :
  labs (G root (L "igt/metadata/meta/dc:subject/@olac:code")) = Ok [L "jpn"]
  /\ labs (G (tier_node wd) (L "@segmentation")) = Ok [L "p"] /\ labs (G (tier_node wd) (L "@alignment")) = Ok [L "None"]
  /\ labs (G igt_node (L "*")) = Ok [L "md1"; L "p"; L "w"; L "t"].
Proof. vm_compute. repeat split. Qed.

(* ---------- C30: existence ---------- *)

(* p[q] succeeds only if p finds nothing (its result is then empty). *)
Theorem C30_existence : forall (U : Unicode) ix vfuel p sub v l,
  wf p -> lone_group p = false -> wf_path false true sub ->
  (findall ix vfuel v (show p ++ L "[" ++ show sub ++ L "]") = Ok l <-> findall ix vfuel v (show p) = Ok [] /\ l = []).
Proof. exact @PathLaws.existence_law. Qed.
Print Assumptions C30_existence.

(* So it does not keep the objects at which q finds something. *)
Theorem C30_refuted : exists n p sub m k,
  @wf ascii_unicode p /\ lone_group p = false /\ @wf_path ascii_unicode false true sub
  /\ G n (show p) = Ok [VNode m] /\ G m (show sub) = Ok [k]
  /\ G n (show p ++ L "[" ++ show sub ++ L "]") <> Ok [VNode m].
Proof. exact PathExamples.existence_refuted. Qed.
Print Assumptions C30_refuted.

Example C30_example : G root (L "igt[@id]") = Err TypeError /\ G root (L "tier[@id]") = Ok [].
Proof. vm_compute. split; reflexivity. Qed.

(* ---------- C31: tokens ---------- *)

(* The tokens hold every character of the path in order but white space and
   exclamation marks; and all but white space if every exclamation mark stands
   before an equals sign. *)
Theorem C31_but_marks : forall (U : Unicode) path,
  squeeze (no_bang (concat (tokenize path))) = squeeze (no_bang path).
Proof. exact @PathTokenProofs.nothing_but_bangs. Qed.
Print Assumptions C31_but_marks.
Theorem C31_nothing_lost : forall (U : Unicode) path,
  (forall a b, path = a ++ L "!" ++ b -> exists c, b = L "=" ++ c) ->
  squeeze (concat (tokenize path)) = squeeze path.
Proof. exact @PathTokenProofs.nothing_lost. Qed.
Print Assumptions C31_nothing_lost.

(* A name without special characters is one token exactly if it does not begin
   with the name of a function (or is the name of a function). *)
Theorem C31_name : forall (U : Unicode) s,
  s <> [] -> (forall c, In c s -> ~ special c) -> strip s = s ->
  ~ starts s (L "@") -> ~ starts s (L "*") -> ~ starts s (L """") ->
  (tokenize s = [s] <-> forall k r, keyword k -> s = k ++ r -> r = []).
Proof. exact @PathTokenProofs.name_one_token. Qed.
Print Assumptions C31_name.
(* A string literal without escapes is one token. *)
Theorem C31_literal : forall (U : Unicode) s, plain s -> tokenize (quoted s) = [quoted s].
Proof. exact @PathTokenProofs.literal_one_token. Qed.
Print Assumptions C31_literal.
(* The tokens of a path are those it was written with. *)
Theorem C31_show : forall (U : Unicode) g np p, wf_path g np p -> tokenize (show p) = path_toks p.
Proof. exact @PathTokenProofs.show_tokens. Qed.
Print Assumptions C31_show.

(* Names that begin with the name of a function are split, and a lone exclamation mark is lost. *)
Theorem C31_refuted :
  @tokenize ascii_unicode (L "textual") = [L "text"; L "ual"] /\ @tokenize ascii_unicode (L "a!b") = [L "a"; L "b"].
Proof. exact PathExamples.name_split. Qed.
Print Assumptions C31_refuted.

Example C31_example :
  @tokenize ascii_unicode (L "one/(two | three)[@a != ""x y""]")
  = [L "one"; L "/"; L "("; L "two"; L "|"; L "three"; L ")"; L "["; L "@"; L "a"; L "!="; L """x y"""; L "]"]
  /\ (forall k r, keyword k -> L "item" = k ++ r -> r = []) /\ @tokenize ascii_unicode (L "item") = [L "item"].
Proof.
  split; [vm_compute; reflexivity|]. split; [|vm_compute; reflexivity].
  intros k r [-> | [-> | [-> | ->]]] E; vm_compute in E; discriminate.
Qed.

(* ---------- C52: white space ---------- *)

(* White space may be put before, between and behind the tokens of a path, but not
   before @ nor before a string literal with special characters. *)
Theorem C52_spaces : forall (U : Unicode) ix vfuel p s v,
  wf p -> spaced (path_toks p) s -> findall ix vfuel v s = findall ix vfuel v (show p).
Proof. exact @PathSpace.spaced_findall. Qed.
Print Assumptions C52_spaces.

(* Before @ it makes the rest a name. *)
Theorem C52_at_refuted : exists n p q x,
  G n (p ++ L "/" ++ q) = Ok [VStr x] /\ G n (p ++ L "/ " ++ q) = Ok [].
Proof. exact PathExamples.space_before_at. Qed.
Print Assumptions C52_at_refuted.
(* Before a literal with special characters it cuts the literal in pieces. *)
Theorem C52_literal_refuted :
  labs (G root (L "//item[text()=""Three dogs bark.""]")) = Ok [L "t1"]
  /\ G root (L "//item[text()= ""Three dogs bark.""]") = Ok [].
Proof. exact PathExamples.space_before_literal. Qed.
Print Assumptions C52_literal_refuted.

Example C52_example : @wf ascii_unicode p_long /\ @spaced ascii_unicode (path_toks p_long)
  (L " // tier [@type = ""words"" ] / ( item | ../ tier ) / referent( ""segmentation"" ) ").
Proof. split; [apply long_wf|exact PathExamples.long_spaced]. Qed.

(* ---------- C53: references ---------- *)

(* In an igt with distinct ids, referent("ra") has, for each id that the object
   mentions in its attribute ra, in order, the tier or item of that id, or None if
   there is none; referent() does this for the attributes alignment, content and segmentation. *)
Theorem C53_referent : forall (U : Unicode) vfuel g up n i arg,
  ids_distinct (all_nodes g) -> ids_accepted g -> In n (all_nodes g) -> node_id n = Some i ->
  match arg with Some ra => plain ra | None => True end ->
  exists l, findall construct_index vfuel (VNode (at_node g up n)) (L "referent(" ++ match arg with Some ra => quoted ra | None => [] end ++ L ")") = Ok l
  /\ Forall2 (points g up)
       (flat_map (mentions n) (match arg with Some ra => [ra] | None => [L "alignment"; L "content"; L "segmentation"] end)) l.
Proof. exact @PathRefProofs.referent_law. Qed.
Print Assumptions C53_referent.

(* referrer("ra") has the objects that mention the object in their attribute ra,
   tiers if it is a tier and items if it is an item, in document order, each once;
   referrer() does this for each of the attributes. *)
Theorem C53_referrer : forall (U : Unicode) vfuel g up n i arg,
  ids_distinct (all_nodes g) -> ids_accepted g -> In n (all_nodes g) -> node_id n = Some i ->
  match arg with Some ra => plain ra | None => True end ->
  exists ls, Forall2 (fun ra l => picked (refers i ra) (peers g n) l)
               (match arg with Some ra => [ra] | None => [L "alignment"; L "content"; L "segmentation"] end) ls
  /\ findall construct_index vfuel (VNode (at_node g up n)) (L "referrer(" ++ match arg with Some ra => quoted ra | None => [] end ++ L ")")
     = Ok (map (fun m => VNode (at_node g up m)) (concat ls)).
Proof. exact @PathRefProofs.referrer_law. Qed.
Print Assumptions C53_referrer.

(* value() has the value of an item. *)
Theorem C53_value : forall (U : Unicode) vfuel g up t i x,
  value vfuel (Some g) (Some t) i value_refattrs = Ok x ->
  findall construct_index vfuel (VNode (at_node g up (NItem t i))) (L "value()") = Ok [match x with Some s => VStr s | None => VNone end].
Proof. exact @PathRefProofs.value_law. Qed.
Print Assumptions C53_value.

(* Only the first of several arguments counts. *)
Theorem C53_arguments_refuted :
  labs (G (item_node wd (seg (L "w1") (L "p1[0:6]"))) (L "referent(""alignment"",""segmentation"")")) = Ok []
  /\ labs (G (item_node wd (seg (L "w1") (L "p1[0:6]"))) (L "referent(""segmentation"")")) = Ok [L "p1"].
Proof. exact PathExamples.second_argument_lost. Qed.
Print Assumptions C53_arguments_refuted.

Example C53_example : ids_distinct (all_nodes ig) /\ @ids_accepted ascii_unicode ig
  /\ In (NTier ph) (all_nodes ig) /\ node_id (NTier ph) = Some (L "p") /\ plain (L "segmentation")
  /\ labs (G (tier_node ph) (L "referrer()")) = Ok [L "t"; L "w"]
  /\ labs (G (tier_node ph) (L "referrer(""segmentation"")")) = Ok [L "w"]
  /\ labs (G (tier_node wd) (L "referent()")) = Ok [L "p"]
  /\ labs (G (item_node wd (seg (L "w1") (L "p1[0:6]"))) (L "value()")) = Ok [L "inu=ga"].
Proof.
  split; [apply PathExamples.ig_distinct|]. split; [apply PathExamples.ig_accepted|]. split; [now left|]. split; [reflexivity|].
  split; [split; vm_compute; intuition discriminate|]. vm_compute. repeat split.
Qed.
