(* Concrete objects for the attribute theorems, and counterexamples. *)
From Verif Require Import PyStr PyStrFacts Model Value ValueExamples Attr SpecAttr AttrProofs.

Definition at_item : attrs := {| a_id := Some (L "w1"); a_type := None; a_dict := [(L "lang", L "de")]; a_ns := None; a_nsmap := None |}.
Definition at_tier : attrs := {| a_id := Some (L "w"); a_type := None; a_dict := [(L "{http://x}tag", L "N"); (L "src", L "t")]; a_ns := None; a_nsmap := None |}.
Definition at_igt : attrs := {| a_id := Some (L "i1"); a_type := None; a_dict := [(L "src", L "i"); (L "lang", L "en")];
                                a_ns := None; a_nsmap := Some [(L "x", L "http://x"); (L "y", L "http://y")] |}.
Definition at_chain : list attrs := [at_item; at_tier; at_igt].
Definition at_map : str -> option str := dget [(L "x", L "http://x"); (L "y", L "http://y")].
Lemma at_prefixes : prefixes at_chain at_map.
Proof. apply px_inherit; [easy|]. apply px_inherit; [easy|]. now apply px_own. Qed.
Lemma no_colon_by k : negb (existsb (N.eqb (Ch ":")) k) = true -> no_colon k.
Proof.
  intros H Hin. apply negb_true_iff in H. assert (existsb (N.eqb (Ch ":")) k = true); [|congruence].
  apply existsb_exists. exists (Ch ":"). split; [easy|apply N.eqb_refl].
Qed.
Lemma c22_example :
  prefixes at_chain at_map
  /\ names at_map (L "x" ++ Ch ":" :: L "tag") None (clark (L "http://x") (L "tag"))
  /\ names at_map (L "tag") (Some (L "x")) (clark (L "http://x") (L "tag"))
  /\ nearest (clark (L "http://x") (L "tag")) at_chain (Some (L "N"))
  /\ get_attribute at_chain (L "x:tag") None true None = Ok (Some (L "N"))
  /\ get_attribute at_chain (L "src") None true None = Ok (Some (L "t"))
  /\ get_attribute at_chain (L "y:tag") (Some (L "?")) true None = Ok (Some (L "?"))
  /\ get_attribute at_chain (L "z:tag") (Some (L "?")) true None = Err KeyError.
Proof.
  split; [exact at_prefixes|]. split; [apply nm_prefix; [now apply no_colon_by|intros [r E]; vm_compute in E; discriminate|reflexivity]|].
  split; [apply nm_ns; [now apply no_colon_by|reflexivity]|].
  split; [apply nr_later; [reflexivity|]; apply nr_here; reflexivity|].
  repeat split; vm_compute; reflexivity.
Qed.
(* the other spelling is not inherited *)
Lemma c22_spelling : exists (chain : list attrs) (m : str -> option str) (p n uri v : str),
  prefixes chain m /\ no_colon p /\ (~ exists r, p = Ch "{" :: r) /\ no_colon n /\ m p = Some uri
  /\ get_attribute chain (p ++ Ch ":" :: n) None true None = Ok (Some v)
  /\ get_attribute chain n None true (Some p) = Ok None.
Proof.
  exists at_chain, at_map, (L "x"), (L "tag"), (L "http://x"), (L "N"). split; [exact at_prefixes|].
  split; [now apply no_colon_by|]. split; [intros [r E]; vm_compute in E; discriminate|]. split; [now apply no_colon_by|].
  split; [reflexivity|]. split; vm_compute; reflexivity.
Qed.
Lemma c22_ns_example :
  names at_map (L "tag") (Some (L "x")) (clark (L "http://x") (L "tag"))
  /\ forall b k v, In b [at_tier; at_igt] -> dget (a_dict b) k = Some v -> ~ doubled k.
Proof.
  split; [apply nm_ns; [now apply no_colon_by|reflexivity]|].
  intros b k v Hb Hk (u & w & r & ->).
  apply (dget_in str_eqb str_eqb_spec) in Hk. destruct Hb as [<-|[<-|[]]]; vm_compute in Hk; repeat (destruct Hk as [Hk|Hk]; [injection Hk as Hk _|]); try easy.
  - do 9 (destruct u as [|? u]; [try discriminate; injection Hk; discriminate|injection Hk as ? Hk]).
    exfalso. assert (Hin : In 123%N (u ++ 125%N :: 123%N :: w ++ 125%N :: r)) by (apply in_app_iff; right; right; now left).
    unfold clark in Hk. revert Hin Hk. vm_compute. intros Hin Hk. rewrite <- Hk in Hin. intuition discriminate.
Qed.

Definition meta_of (ty x : str) : meta :=
  {| me_attrs := {| a_id := None; a_type := Some ty; a_dict := []; a_ns := None; a_nsmap := None |}; me_text := Some x; me_kids := [] |}.
Definition md_of (ty : str) (l : list meta) : metadata :=
  {| md_attrs := {| a_id := None; a_type := Some ty; a_dict := []; a_ns := None; a_nsmap := None |}; md_metas := l |}.
Definition gm_chain : list (list metadata) :=
  [[md_of (L "other") [meta_of (L "language") (L "fr")]];
   [md_of (L "xigt-meta") [meta_of (L "language") (L "de"); meta_of (L "source") (L "s")];
    md_of (L "xigt-meta") [meta_of (L "language") (L "it")]];
   [md_of (L "xigt-meta") [meta_of (L "language") (L "en")]]].
Lemma c46_example :
  metas_of (Some (L "language")) [] (nth 0 gm_chain []) []
  /\ metas_of (Some (L "language")) [] (nth 1 gm_chain []) [meta_of (L "language") (L "de"); meta_of (L "language") (L "it")]
  /\ get_meta gm_chain (Some (L "language")) [] true = Some [meta_of (L "language") (L "de"); meta_of (L "language") (L "it")]
  /\ get_meta gm_chain (Some (L "language")) [] false = None.
Proof.
  split; [exact (own_metas_spec (Some (L "language")) [] (nth 0 gm_chain []))|].
  split; [exact (own_metas_spec (Some (L "language")) [] (nth 1 gm_chain []))|]. split; vm_compute; reflexivity.
Qed.

Lemma c48_empty : exists (d d' : dict str) (al se : str),
  ref_init d (Some al) None (Some se) = Ok d' /\ dget d' ALIGNMENT = Some al /\ dget d' SEGMENTATION = Some se.
Proof. exists [], [(ALIGNMENT, L "a"); (SEGMENTATION, [])], (L "a"), []. repeat split; vm_compute; reflexivity. Qed.
Lemma c48_example :
  ref_init [(L "x", L "y")] (Some (L "a1")) (Some (L "b1")) None
    = Ok [(L "x", L "y"); (ALIGNMENT, L "a1"); (CONTENT, L "b1")]
  /\ ref_init [] None (Some (L "b1")) (Some (L "c1")) = Err XigtError.
Proof. split; vm_compute; reflexivity. Qed.

Definition sel_item (i : str) (ty ns : option str) : item :=
  {| it_attrs := {| a_id := Some i; a_type := ty; a_dict := []; a_ns := ns; a_nsmap := None |}; it_text := None |}.
Definition sel_a : item := sel_item (L "a") (Some (L "n")) (Some (L "http://x")).
Definition sel_b : item := sel_item (L "b") (Some (L "v")) (Some (L "http://x")).
Definition sel_c : item := sel_item (L "c") (Some (L "n")) (Some (L "http://x")).
Definition sel_d : item := sel_item (L "d") (Some (L "n")) None.
Lemma c49_example :
  NoDup (map fst [(TYPE, Some (L "n")); (NAMESPACE, Some (L "x"))])
  /\ select item_getattr (Some [(L "x", L "http://x")]) [sel_a; sel_b; sel_c; sel_d] [(TYPE, Some (L "n")); (NAMESPACE, Some (L "x"))] = Ok [sel_a; sel_c]
  /\ select item_getattr (Some []) [sel_a; sel_b; sel_c; sel_d] [(NAMESPACE, None)] = Ok [sel_d].
Proof. split; [repeat constructor; vm_compute; intuition discriminate|]. split; vm_compute; reflexivity. Qed.
(* the metadata containers have no nsmap *)
Lemma c49_metadata : exists (A : Type) (ga : A -> str -> option str) (l : list A) (kw : dict (option str)),
  NoDup (map fst kw) /\ select ga None l kw = Err AttributeError.
Proof.
  exists metadata, (fun _ _ => None), [], [(NAMESPACE, Some (L "x"))]. split; [repeat constructor; vm_compute; intuition discriminate|reflexivity].
Qed.
