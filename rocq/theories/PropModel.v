(* Property theorems about the data model: C07. *)
From Verif Require Import PyStr Model SpecModel ModelProofs ModelExamples.

(* ---------- C07 ---------- *)

Theorem C07_equality_spec : forall a b : obj,
  wf_obj a -> wf_obj b -> same_class a b -> (obj_eqb a b = true <-> same_obj a b).
Proof. exact eq_spec. Qed.
Print Assumptions C07_equality_spec.

(* missing: symmetry between objects of different classes, which fails *)
Theorem C07_equivalence_partial :
  (forall a, wf_obj a -> obj_eqb a a = true)
  /\ (forall a b, wf_obj a -> wf_obj b -> same_class a b -> obj_eqb a b = obj_eqb b a)
  /\ (forall a b c, wf_obj a -> wf_obj b -> wf_obj c ->
        obj_eqb a b = true -> obj_eqb b c = true -> obj_eqb a c = true).
Proof. exact eq_equivalence_all. Qed.
Print Assumptions C07_equivalence_partial.

Theorem C07_across_classes : forall a b : obj, ~ same_class a b -> wf_obj a -> wf_obj b ->
  (obj_eqb a b = true <->
   match a, b with
   | PItem i, PMeta m => it_text i = me_text m /\ same_attrs (it_attrs i) (me_attrs m)
   | PItem i, PChild (MChild _ at_ t _) => it_text i = t /\ same_attrs (it_attrs i) at_
   | PMeta m, PChild (MChild _ at_ t k) =>
       me_text m = t /\ same_attrs (me_attrs m) at_ /\ Forall2 same_child (me_kids m) k
   | _, _ => False
   end).
Proof. exact eq_across. Qed.
Print Assumptions C07_across_classes.

Example C07_example :
  wf_obj (PCorpus (corpus_with attrs1)) /\ wf_obj (PCorpus (corpus_with attrs2))
  /\ same_class (PCorpus (corpus_with attrs1)) (PCorpus (corpus_with attrs2))
  /\ obj_eqb (PCorpus (corpus_with attrs1)) (PCorpus (corpus_with attrs2)) = true
  /\ obj_eqb (PCorpus (corpus_with attrs1)) (PCorpus (corpus_with (with_id (L "t")))) = false
  /\ ~ same_class (PItem (text_item (L "x"))) (PMeta (text_meta (L "x")))
  /\ obj_eqb (PItem (text_item (L "x"))) (PMeta (text_meta (L "x"))) = true.
Proof.
  split; [wf_concrete|]. split; [wf_concrete|]. split; [exact I|].
  split; [vm_compute; reflexivity|]. split; [vm_compute; reflexivity|]. split; [intros []|vm_compute; reflexivity].
Qed.

(* an Item equals a Meta with the same text and attributes, but not conversely *)
Theorem C07_symmetry_refuted : exists a b : obj,
  wf_obj a /\ wf_obj b /\ obj_eqb a b = true /\ obj_eqb b a = false.
Proof. exact c07_symmetry_refuted. Qed.
Print Assumptions C07_symmetry_refuted.

(* likewise for a Meta and a MetaChild *)
Theorem C07_meta_child_refuted : exists a b : obj,
  wf_obj a /\ wf_obj b /\ members_of a = members_of b /\ obj_eqb a b = true /\ obj_eqb b a = false.
Proof. exact c07_meta_child_refuted. Qed.
Print Assumptions C07_meta_child_refuted.

Theorem C07_item_not_equal : forall (i : item) (b : obj), obj_neb (PItem i) b = negb (obj_eqb (PItem i) b).
Proof. exact item_ne. Qed.
Print Assumptions C07_item_not_equal.

Theorem C07_not_equal_sound : forall a b : obj,
  same_class a b -> obj_eqb a b = true -> obj_neb a b = false.
Proof. exact ne_sound. Qed.
Print Assumptions C07_not_equal_sound.

(* what != decides for containers: whether the members differ *)
Theorem C07_not_equal_members : forall (a b : obj) (l l' : list obj),
  members_of a = Some l -> members_of b = Some l' ->
  (obj_neb a b = false <-> Forall2 (fun x y => obj_eqb x y = true) l l').
Proof. exact ne_members. Qed.
Print Assumptions C07_not_equal_members.

(* two tiers with different ids and types, neither equal nor unequal *)
Theorem C07_not_equal_refuted : exists a b : obj,
  wf_obj a /\ wf_obj b /\ same_class a b /\ obj_eqb a b = false /\ obj_neb a b = false.
Proof. exact c07_not_equal_refuted. Qed.
Print Assumptions C07_not_equal_refuted.
