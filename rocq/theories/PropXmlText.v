(* Properties C74 and C75: documents as texts. *)
From Verif Require Import PyStr SpecRef Ref Model SpecModel XmlStd Xml SpecXml SpecReload XmlText SpecXmlText AttrOrder SpecAttrOrder.
From Verif Require XmlTextProofs TextRunProofs AttrOrderProofs XmlExamples XmlTextExamples.
Import XmlExamples XmlTextExamples.

(* C74.  Saved documents are laid out one element a line, each n spaces further in than
   its parent; but for that they are what is saved without indentation. *)
Theorem C74_layout : forall (U : Unicode) c n e, xml_dump c None = Ok e -> dumps c (Some n) = Ok (laid_out n 0 e ++ last_line e).
Proof. exact @TextRunProofs.layout_text. Qed.
Print Assumptions C74_layout.
Example C74_layout_example : exists e, @xml_dump ascii_unicode xc None = Ok e /\ @dumps ascii_unicode xc (Some 2) = Ok lines1
  /\ @laid_out ascii_unicode 2 0 e ++ last_line e = lines1.
Proof. exact layout_example. Qed.

(* The comparisons of attribute names order the attributes of each element: namespaces,
   id, type, alignment, content, segmentation, others; nothing else is changed, *)
Theorem C74_order : forall e, dicts e -> same_but_order e (sort_attrs e) /\ all_in_order (sort_attrs e).
Proof. exact AttrOrderProofs.attrs_sorted. Qed.
Print Assumptions C74_order.
(* there is no other such order, so it does not matter how attributes were inserted, *)
Theorem C74_order_unique : forall e e', dicts e -> same_but_order e e' -> sort_attrs e = sort_attrs e'.
Proof. exact AttrOrderProofs.sort_same. Qed.
Print Assumptions C74_order_unique.
(* and sorting again changes nothing. *)
Theorem C74_order_kept : forall e, all_in_order e -> dicts e -> sort_attrs e = e.
Proof. exact AttrOrderProofs.sort_sorted. Qed.
Print Assumptions C74_order_kept.
(* The comparison itself. *)
Theorem C74_comparison : forall a b, qname_lt a b = true <-> attr_before a b.
Proof. exact (fun a b => iff_sym (AttrOrderProofs.before_spec a b)). Qed.
Print Assumptions C74_comparison.
Example C74_order_example : let e := XElem (L "item") [(L "zeta", L "1"); (L "segmentation", L "2"); (L "id", L "i"); (L "xmlns:b", L "u"); (L "content", L "3"); (L "Zeta", L "4");
     (L "type", L "t"); (L "xmlns:a", L "v"); (L "alignment", L "5")] None None [] in
  dicts e /\ write_elem (sort_attrs e) = L "<item xmlns:a=""v"" xmlns:b=""u"" id=""i"" type=""t"" alignment=""5"" content=""3"" segmentation=""2"" Zeta=""4"" zeta=""1"" />".
Proof. exact order_example. Qed.

(* C75.  What is written as a text is read as the elements that were written, if it can
   be read; all that a corpus is saved as can be written so. *)
Theorem C75_written : forall (U : Unicode) ahead e p, dicts e -> ends_blank e -> reread [] e = Ok p -> loads ahead (write_elem e) = xml_load ahead e.
Proof. exact @TextRunProofs.loads_written. Qed.
Print Assumptions C75_written.
Theorem C75_dumped : forall (U : Unicode) c indent e, xml_dump c indent = Ok e -> dicts e /\ ends_blank e.
Proof. exact @TextRunProofs.dump_text. Qed.
Print Assumptions C75_dumped.
(* So a corpus that is saved as a text is loaded from it; C24 for texts. *)
Theorem C75_round_trip : forall (U : Unicode) c indent, tree_ok [] (corpus_tree c) -> corpus_ok c ->
  exists s c', dumps c indent = Ok s /\ (forall ahead, loads ahead s = Ok c') /\ same_corpus (back_corpus c) c'.
Proof. exact @TextRunProofs.text_round_trip. Qed.
Print Assumptions C75_round_trip.
Theorem C75_kept : forall (U : Unicode) c indent, tree_ok [] (corpus_tree c) -> corpus_ok c -> corpus_kept c ->
  exists s c', dumps c indent = Ok s /\ (forall ahead, loads ahead s = Ok c') /\ same_corpus c c'.
Proof. exact @TextRunProofs.text_kept. Qed.
Print Assumptions C75_kept.
Example C75_round_trip_example : tree_ok [] (corpus_tree xc) /\ @corpus_ok ascii_unicode xc /\ @corpus_kept ascii_unicode xc /\ @dumps ascii_unicode xc (Some 2) = Ok lines1.
Proof. exact (conj xc_tree_ok (conj (proj1 (@xc_ok ascii_unicode)) (conj (proj2 (@xc_ok ascii_unicode)) (let (e, H) := layout_example in proj1 (proj2 H))))). Qed.

(* Any text, however it is written, is read as its elements are; *)
Theorem C75_as_elem : forall (U : Unicode) ahead s e, parse_text s = Ok e -> no_cr e -> loads ahead s = xml_load ahead e.
Proof. exact @TextRunProofs.text_as_elem. Qed.
Print Assumptions C75_as_elem.
Example C75_as_elem_example : exists c, (forall ahead, @loads ascii_unicode ahead text1 = Ok c)
  /\ map (fun g => map (fun t => map (fun i => (it_text i, a_dict (it_attrs i))) (t_items t)) (g_tiers g)) (c_igts c)
     = [[[(Some (L "a & <b> & !"), []); (None, [(L "alignment", L "w1, w1")])]]].
Proof. exact (@text1_loads ascii_unicode). Qed.
(* and what was loaded from it is saved as a text that is loaded as the same corpus. *)
Theorem C75_reload_partial : forall (U : Unicode) ahead s e c indent, parse_text s = Ok e -> no_cr e -> tidy_document e -> loads ahead s = Ok c ->
  exists s', dumps c indent = Ok s' /\ forall ahead', loads ahead' s' = Ok c.
Proof. exact @TextRunProofs.text_reload. Qed.
Print Assumptions C75_reload_partial.
Example C75_reload_example : parse_text text1 = Ok elem1 /\ no_cr elem1 /\ tidy_document elem1.
Proof. exact text1_parses. Qed.
(* Not so if carriage returns are written as references: they are saved as they are. *)
Theorem C75_reload_refuted : exists s c s' c', @loads ascii_unicode 8 s = Ok c /\ @dumps ascii_unicode c None = Ok s' /\ @loads ascii_unicode 8 s' = Ok c'
  /\ item_texts c = [Some [Ch "a"; 13%N; Ch "b"]] /\ item_texts c' = [Some [Ch "a"; 10%N; Ch "b"]].
Proof. exact cr_refuted. Qed.
Print Assumptions C75_reload_refuted.
Example C75_not_well_formed : forallb (fun s => match @loads ascii_unicode 8 s with Err ParseError => true | _ => false end) bad_texts = true.
Proof. exact bad_texts_fail. Qed.
