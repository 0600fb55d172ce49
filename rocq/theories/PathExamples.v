(* Concrete corpora (tests/example_corpora.py) and paths (tests/test_xigtpath.py). *)
From Coq Require Import Sorted.
From Verif Require Import PyStr SpecRef Model ModelExamples Attr SpecAttr Index SpecIndex Path SpecPath PathTokenProofs PathLaws.

Definition typed (i t : str) (d : dict str) : attrs :=
  {| a_id := Some i; a_type := Some t; a_dict := d; a_ns := None; a_nsmap := None |}.
Definition ided (i : str) (d : dict str) : attrs :=
  {| a_id := Some i; a_type := None; a_dict := d; a_ns := None; a_nsmap := None |}.
Definition it (i t : str) : item := {| it_attrs := ided i []; it_text := Some t |}.
Definition DC : str := L "http://purl.org/dc/elements/1.1/".
Definition OLAC : str := L "http://www.language-archives.org/OLAC/1.1/".
Definition dc_child (n code t : str) : mchild :=
  MChild n {| a_id := None; a_type := None; a_dict := [(clark OLAC (L "code"), code)]; a_ns := Some DC; a_nsmap := None |} (Some t) [].
(* a child of the same name in another namespace *)
Definition other_child (n t : str) : mchild :=
  MChild n {| a_id := None; a_type := None; a_dict := []; a_ns := Some (L "http://other"); a_nsmap := None |} (Some t) [].

(* xc1m, with one more child *)
Definition md_x : metadata :=
  {| md_attrs := ided (L "md1") [];
     md_metas := [{| me_attrs := ided (L "meta1") []; me_text := None;
       me_kids := [dc_child (L "subject") (L "jpn") (L "Japanese"); dc_child (L "language") (L "eng") (L "English");
                   other_child (L "subject") (L "else")] |}] |}.
Definition ph : tier := {| t_attrs := typed (L "p") (L "phrases") []; t_md := []; t_items := [it (L "p1") (L "inu=ga san-biki hoe-ru")] |}.
Definition tr : tier := {| t_attrs := typed (L "t") (L "translations") [(L "alignment", L "p")]; t_md := [];
  t_items := [{| it_attrs := ided (L "t1") [(L "alignment", L "p1")]; it_text := Some (L "Three dogs bark.") |}] |}.
Definition seg (i e : str) : item := {| it_attrs := ided i [(L "segmentation", e)]; it_text := None |}.
Definition wd : tier := {| t_attrs := typed (L "w") (L "words") [(L "segmentation", L "p")]; t_md := [];
  t_items := [seg (L "w1") (L "p1[0:6]"); seg (L "w2") (L "p1[7:15]")] |}.
Definition ig : igt := {| g_attrs := ided (L "i1") []; g_md := [md_x]; g_tiers := [ph; wd; tr] |}.
Definition co : corpus :=
  {| c_attrs := {| a_id := Some (L "xc1"); a_type := None; a_dict := []; a_ns := None;
                   a_nsmap := Some [(L "olac", OLAC); (L "dc", DC)] |};
     c_md := []; c_igts := [ig] |}.
Definition root : pnode := {| n_obj := PCorpus co; n_up := [] |}.
Definition igt_node : pnode := {| n_obj := PIgt ig; n_up := [PCorpus co] |}.
Definition tier_node (t : tier) : pnode := {| n_obj := PTier t; n_up := [PIgt ig; PCorpus co] |}.
Definition item_node (t : tier) (i : item) : pnode := {| n_obj := PItem i; n_up := [PTier t; PIgt ig; PCorpus co] |}.

#[local] Existing Instance ascii_unicode.

Definition G (n : pnode) (p : str) : res (list pval) := findall construct_index 50 (VNode n) p.
(* names of the results: ids, texts *)
Definition lab (v : pval) : str :=
  match v with
  | VNode n => match a_id (attrs_of (n_obj n)) with Some i => i
               | None => match n_obj n with PChild (MChild _ _ (Some t) _) => t | _ => L "?" end end
  | VStr s => s | VNone => L "None" | VList _ => L "list"
  end.
Definition labs (r : res (list pval)) : res (list str) := match r with Ok l => Ok (map lab l) | Err e => Err e end.

(* cases of the test suite *)
Example t_tokens :
  tokenize (L "one[@attr=""val""]") = [L "one"; L "["; L "@"; L "attr"; L "="; L """val"""; L "]"]
  /\ tokenize (L "one/(two | three)/four") = [L "one"; L "/"; L "("; L "two"; L "|"; L "three"; L ")"; L "/"; L "four"]
  /\ tokenize (L "one/referrer(""alignment"")") = [L "one"; L "/"; L "referrer"; L "("; L """alignment"""; L ")"]
  /\ tokenize (L "//") = [L "//"].
Proof. vm_compute. repeat split. Qed.
Example t_nodes :
  labs (G igt_node (L "/.")) = Ok [L "xc1"] /\ labs (G root (L "tier")) = Ok []
  /\ labs (G igt_node (L "../.")) = Ok [L "xc1"]
  /\ labs (G root (L "//item")) = Ok [L "p1"; L "w1"; L "w2"; L "t1"]
  /\ labs (G root (L "/igt/tier/item")) = Ok [L "p1"; L "w1"; L "w2"; L "t1"]
  /\ labs (G root (L "/igt/*")) = Ok [L "md1"; L "p"; L "w"; L "t"].
Proof. vm_compute. repeat split. Qed.
Example t_predicates :
  labs (G root (L "//tier[@type=""phrases""]/item")) = Ok [L "p1"]
  /\ labs (G root (L "//item[../@type=""translations""]")) = Ok [L "t1"]
  /\ labs (G root (L "//tier[@type!=""phrases""]")) = Ok [L "w"; L "t"]
  /\ labs (G root (L "//tier[@type=""words""]/item[value()=""inu=ga""]")) = Ok [L "w1"].
Proof. vm_compute. repeat split. Qed.
Example t_metadata :
  labs (G root (L "igt/metadata/meta/dc:subject")) = Ok [L "Japanese"]
  /\ labs (G root (L "igt/metadata/meta/dc:subject/@olac:code")) = Ok [L "jpn"]
  /\ labs (G root (L "igt/metadata/meta/dc:*/@olac:code")) = Ok [L "jpn"; L "eng"]
  /\ labs (G root (L "igt/metadata/meta/dc:subject/text()")) = Ok [L "Japanese"].
Proof. vm_compute. repeat split. Qed.
Example t_references :
  labs (G root (L "//tier[@type=""words""]/referent()")) = Ok [L "p"]
  /\ labs (G root (L "//tier[@type=""words""]/referent(""alignment"")")) = Ok []
  /\ labs (G root (L "//item[../@type=""phrases""]/referrer()")) = Ok [L "t1"; L "w1"; L "w2"]
  /\ labs (G root (L "//tier[@type=""phrases""]/referrer()")) = Ok [L "t"; L "w"].
Proof. vm_compute. repeat split. Qed.
Example t_disjunction :
  labs (G root (L "(/igt/tier[@type=""phrases""] | /igt/tier[@type=""translations""])")) = Ok [L "p"; L "t"]
  /\ labs (G root (L "igt/(tier[@type=""phrases""] | tier[@type=""translations""])/item")) = Ok [L "p1"; L "t1"].
Proof. vm_compute. repeat split. Qed.

(* ---------- paths as trees ---------- *)

Definition child (n : str) : head * list pred := (HChild n, []).
Definition rel (ss : list (head * list pred)) : path := Path false ss.
Definition p_igt : path := rel [child (L "igt")].
Definition p_tier : path := rel [child (L "tier")].
Definition p_igt_tier : path := rel [child (L "igt"); child (L "tier")].
Definition p_type : path := rel [(HAttr (L "type"), [])].
Definition p_items : path := Path true [(HDesc (L "item"), [])].
(* //tier[@type="words"]/(item | ../tier)/referent("segmentation") *)
Definition p_long : path :=
  Path true [(HDesc (L "tier"), [Pred p_type (Some (false, L "words"))]);
             (HGroup (rel [child (L "item")]) [rel [(HUp, []); child (L "tier")]], []);
             (HCall (L "referent") (Some (L "segmentation")), [])].
Example long_text : show p_long = L "//tier[@type=""words""]/(item|../tier)/referent(""segmentation"")".
Proof. reflexivity. Qed.
Ltac name_tac :=
  right; right; split; [discriminate|]; split;
  [intros c Hc Hs; vm_compute in Hc, Hs; repeat (destruct Hc as [<-|Hc]; [intuition discriminate|]); easy|];
  split; [vm_compute; reflexivity|]; split;
  [intros k [-> | [-> | [-> | ->]]] (r & E); vm_compute in E; discriminate|];
  repeat split; intros (r & E); vm_compute in E; discriminate.
Ltac wf_tac :=
  unfold wf; cbn -[valid_name plain keyword];
  repeat match goal with
  | |- _ /\ _ => split
  | |- valid_name _ _ => name_tac
  | |- keyword _ => unfold keyword; tauto
  | |- plain _ => split; vm_compute; intuition discriminate
  | |- _ => easy
  end.
Example long_wf : wf p_long. Proof. unfold p_long, p_type, rel, child. wf_tac. Qed.
Example igt_wf : wf p_igt. Proof. unfold p_igt, rel, child. wf_tac. Qed.
Example tier_wf : wf p_tier. Proof. unfold p_tier, rel, child. wf_tac. Qed.
Example igt_tier_wf : wf p_igt_tier. Proof. unfold p_igt_tier, rel, child. wf_tac. Qed.
Example type_wf : wf_path false true p_type. Proof. unfold p_type, rel. wf_tac. Qed.
Example items_wf : wf p_items. Proof. unfold p_items. wf_tac. Qed.
Example long_found : labs (G root (show p_long)) = Ok [L "p1"; L "p1"; L "p"].
Proof. vm_compute. reflexivity. Qed.

(* ---------- where the claims fail ---------- *)

(* what follows a group at the beginning of a path is ignored *)
Lemma after_group_ignored : exists n p q m,
  wf p /\ wf q /\ relative q
  /\ G n (show p) = Ok [VNode m] /\ G n (show p ++ L "/" ++ show q) = Ok [VNode m]
  /\ exists k1 k2 k3, G m (show q) = Ok [VNode k1; VNode k2; VNode k3].
Proof.
  exists root, (rel [(HGroup p_igt [p_tier], [])]), p_tier, igt_node.
  split. { unfold rel, p_igt, p_tier, child. wf_tac. }
  split; [apply tier_wf|]. split; [easy|]. split; [reflexivity|]. split; [reflexivity|].
  exists (tier_node ph), (tier_node wd), (tier_node tr). reflexivity.
Qed.
(* a group with nothing before it, inside a group *)
Lemma empty_context_group : 
  G root (L "(tier/(item|metadata)|igt)") = Err XigtPathError
  /\ G root (L "tier/(item|metadata)") = Ok []
  /\ G root (L "igt") = Ok [VNode igt_node].
Proof. vm_compute. repeat split. Qed.
(* predicates in predicates *)
Lemma nested_predicate :
  G igt_node (L "tier[item[@id=""w1""]/@id=""w1""]") <> Ok [VNode (tier_node wd)]
  /\ G (tier_node wd) (L "item[@id=""w1""]/@id") = Ok [VStr (L "w1")].
Proof. vm_compute. split; [discriminate|reflexivity]. Qed.
(* an end is not noticed *)
Lemma rest_ignored : G root (L "igt]/tier") = G root (L "igt") /\ G root (L "igt)foo") = G root (L "igt")
  /\ G root (L "igt") = Ok [VNode igt_node].
Proof. vm_compute. repeat split. Qed.
(* two arguments *)
Lemma second_argument_lost :
  labs (G (item_node wd (seg (L "w1") (L "p1[0:6]"))) (L "referent(""alignment"",""segmentation"")")) = Ok []
  /\ labs (G (item_node wd (seg (L "w1") (L "p1[0:6]"))) (L "referent(""segmentation"")")) = Ok [L "p1"].
Proof. vm_compute. repeat split. Qed.

(* find may have a result where findall has none *)
Lemma find_lazy : exists n p x e, find construct_index 50 (VNode n) p = Ok (Some x) /\ G n p = Err e.
Proof.
  exists igt_node, (L "*/text()"). do 2 eexists. split; vm_compute; reflexivity.
Qed.

(* existence *)
Lemma existence_refuted : exists n p sub m k,
  wf p /\ lone_group p = false /\ wf_path false true sub
  /\ G n (show p) = Ok [VNode m] /\ G m (show sub) = Ok [k]
  /\ G n (show p ++ L "[" ++ show sub ++ L "]") <> Ok [VNode m].
Proof.
  exists root, p_igt, (rel [(HAttr (L "id"), [])]), igt_node, (VStr (L "i1")).
  split; [apply igt_wf|]. split; [easy|]. split. { unfold rel. wf_tac. }
  split; [reflexivity|]. split; [reflexivity|]. vm_compute. discriminate.
Qed.

(* prefixes are not heeded below the first object, and not resolved at it *)
Definition meta_node : pnode :=
  {| n_obj := PMeta {| me_attrs := ided (L "meta1") []; me_text := None;
       me_kids := [dc_child (L "subject") (L "jpn") (L "Japanese"); dc_child (L "language") (L "eng") (L "English");
                   other_child (L "subject") (L "else")] |};
     n_up := [PMetadata md_x; PIgt ig; PCorpus co] |}.
Definition kid_node (c : mchild) : pnode :=
  {| n_obj := PChild c; n_up := n_obj meta_node :: n_up meta_node |}.
Lemma prefix_ignored : exists n m ns,
  prefixes (map attrs_of (n_obj n :: n_up n)) ns
  /\ (exists l, G n (L ".//dc:subject") = Ok l /\ In (VNode m) l)
  /\ a_ns (attrs_of (n_obj m)) <> ns (L "dc").
Proof.
  exists meta_node, (kid_node (other_child (L "subject") (L "else"))), (dget [(L "olac", OLAC); (L "dc", DC)]).
  split; [do 3 (apply px_inherit; [reflexivity|]); apply px_own; reflexivity|]. split.
  - eexists. split; [vm_compute; reflexivity|]. vm_compute. tauto.
  - vm_compute. discriminate.
Qed.
Lemma prefix_unresolved : exists n ns,
  prefixes (map attrs_of (n_obj n :: n_up n)) ns /\ element_name (n_obj n) = L "subject"
  /\ a_ns (attrs_of (n_obj n)) = ns (L "dc") /\ ns (L "dc") <> None /\ G n (L ".//dc:subject") = Ok [].
Proof.
  exists (kid_node (dc_child (L "subject") (L "jpn") (L "Japanese"))), (dget [(L "olac", OLAC); (L "dc", DC)]).
  split; [do 4 (apply px_inherit; [reflexivity|]); apply px_own; reflexivity|].
  vm_compute. repeat split; discriminate.
Qed.
(* no name stands for all descendants *)
Lemma star_finds_nothing : G root (L ".//*") = Ok [].
Proof. vm_compute. reflexivity. Qed.

(* names that begin with the name of a function; exclamation marks; space before @ *)
Lemma name_split : tokenize (L "textual") = [L "text"; L "ual"] /\ tokenize (L "a!b") = [L "a"; L "b"].
Proof. vm_compute. split; reflexivity. Qed.
Lemma space_before_at : exists n p q x,
  G n (p ++ L "/" ++ q) = Ok [VStr x] /\ G n (p ++ L "/ " ++ q) = Ok [].
Proof. exists root, (L "igt"), (L "@id"), (L "i1"). vm_compute. split; reflexivity. Qed.
(* but in a predicate *)
Example space_in_predicate : labs (G root (L "//tier[ @type = ""words"" ]")) = Ok [L "w"].
Proof. vm_compute. reflexivity. Qed.
Lemma space_before_literal :
  labs (G root (L "//item[text()=""Three dogs bark.""]")) = Ok [L "t1"]
  /\ G root (L "//item[text()= ""Three dogs bark.""]") = Ok [].
Proof. vm_compute. split; reflexivity. Qed.
Lemma spaced_pairs l e : blank e -> Forall (fun gt => blank (fst gt) /\ (fst gt = [] \/ may_gap (snd gt))) l ->
  spaced (map snd l) (flat_map (fun gt => fst gt ++ snd gt) l ++ e).
Proof.
  intros He H. induction H as [|[g t] l [H1 H2] _ IH]; cbn [map flat_map snd fst app]; [now constructor|].
  rewrite <- !app_assoc. now constructor.
Qed.
Lemma long_spaced : spaced (path_toks p_long)
  (L " // tier [@type = ""words"" ] / ( item | ../ tier ) / referent( ""segmentation"" ) ").
Proof.
  pose (l := map (fun p => (L (fst p), L (snd p)))
    [(" ", "//"); (" ", "tier"); (" ", "["); ("", "@"); ("", "type"); (" ", "="); (" ", """words"""); (" ", "]"); (" ", "/"); (" ", "(");
     (" ", "item"); (" ", "|"); (" ", ".."); ("", "/"); (" ", "tier"); (" ", ")"); (" ", "/"); (" ", "referent"); ("", "(");
     (" ", """segmentation"""); (" ", ")")]%string).
  apply (spaced_pairs l (L " ")); [now repeat constructor|].
  unfold l. cbn [map fst snd]. repeat (apply Forall_cons; [split; [now repeat constructor|]|]); try apply Forall_nil.
  all: cbn [fst snd]; first [now left|right; split; [discriminate|intros [r E]; vm_compute in E; discriminate E]
    |right; split; [discriminate|intros _ c Hc Hs; vm_compute in Hc, Hs; intuition congruence]].
Qed.

Lemma ig_distinct : ids_distinct (all_nodes ig).
Proof.
  intros p q n m i Hp Hq Hn Hm.
  do 8 (destruct p as [|p]; [try discriminate; injection Hp as <-; injection Hn as <-;
     do 8 (destruct q as [|q]; [first [reflexivity|discriminate|injection Hq as <-; vm_compute in Hm; discriminate]|]); destruct q; discriminate|]).
  destruct p; discriminate.
Qed.
Lemma ig_accepted : ids_accepted ig.
Proof.
  intros n i H E. cbn in H. repeat (destruct H as [<-|H]; [injection E as <-; reflexivity|]). easy.
Qed.
