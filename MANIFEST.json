{
 "claims": [
  {
   "property": "C01",
   "status": "proved",
   "theorems": [
    "C01_accepted_ids_start_with_letter",
    "C01_accepted_ids_are_not_integers",
    "C01_integers",
    "C01_decimal"
   ],
   "note": "Accepted ids are exactly the strings starting with an ASCII letter; none is an integer literal. "
  },
  {
   "property": "C02",
   "status": "partial",
   "theorems": [
    "C02_accepted_ids_are_referable_refuted",
    "C02_referable_ids_partial",
    "C02_shaped_ids_accepted"
   ],
   "note": "The full statement is false of the code (prefix match in the setter): _refuted gives the witness 'a b'. Proved: an id is referable iff it is fully id-shaped, and all such ids are accepted."
  },
  {
   "property": "C03",
   "status": "partial",
   "theorems": [
    "C03_history_lookup_partial",
    "C03_get_partial",
    "C03_refresh_restores",
    "C03_refresh_succeeds_iff",
    "C03_failed_remove_refuted",
    "C03_failed_assignment_refuted"
   ],
   "note": "Proved for every history of managed operations, including failing ones, except two failure modes the code does not roll back (remove() of an unequal object with a member's id; item assignment with an id in use); those are refuted with witnesses. refresh_index repairs any state and succeeds exactly when ids are distinct."
  },
  {
   "property": "C04",
   "status": "partial",
   "theorems": [
    "C04_append_insert_atomic",
    "C04_delete_atomic",
    "C04_remove_assign_atomic_partial",
    "C04_failed_remove_damages",
    "C04_remove_refuted",
    "C04_assignment_refuted"
   ],
   "note": "append, insert, delete: full. remove and item assignment: full unless the object's id is a member's id; in that case refuted (and a failing remove always damages the index)."
  },
  {
   "property": "C05",
   "status": "partial",
   "theorems": [
    "C05_history_parents_partial",
    "C05_assignment_refuted",
    "C05_shared_member_refuted"
   ],
   "note": "Item assignment never sets the parent, and an object added to two containers has only the last parent: both refuted. Proved for all other histories."
  },
  {
   "property": "C06",
   "status": "proved",
   "theorems": [
    "C06_list_operations",
    "C06_succeeds_iff",
    "C06_members_have_class",
    "C06_slice",
    "C06_other_containers",
    "C06_subscript",
    "C06_delete_by_position",
    "C06_delete_position_refuted"
   ],
   "note": "All operations as list operations; del c[i] is exact for members with ids, and refuted for equal members without ids."
  },
  {
   "property": "C07",
   "status": "partial",
   "theorems": [
    "C07_equality_spec",
    "C07_equivalence_partial",
    "C07_across_classes",
    "C07_symmetry_refuted",
    "C07_meta_child_refuted",
    "C07_item_not_equal",
    "C07_not_equal_sound",
    "C07_not_equal_members",
    "C07_not_equal_refuted"
   ],
   "note": "Within a class == is proved to decide structural equality (attribute order and prefixes ignored), hence an equivalence; reflexive and transitive over all classes. Symmetry across classes (Item/Meta, Meta/MetaChild) and '!=' as negation (containers inherit list.__ne__) are refuted with witnesses; exactly what != decides is proved."
  },
  {
   "property": "C08",
   "status": "proved",
   "theorems": [
    "C08_ids_of_expression",
    "C08_ids_of_any_string"
   ],
   "note": "For well-formed expressions and for arbitrary strings."
  },
  {
   "property": "C09",
   "status": "proved",
   "theorems": [
    "C09_selections_lossless",
    "C09_selections_of_expression",
    "C09_selections_line_break_refuted"
   ],
   "note": "Losslessness for all strings without line breaks (as stated); with a line break it is refuted."
  },
  {
   "property": "C10",
   "status": "proved",
   "theorems": [
    "C10_expand_of_expression",
    "C10_compress_of_expression",
    "C10_spans_of_expression",
    "C10_expand_idempotent",
    "C10_compress_idempotent",
    "C10_compress_expand",
    "C10_expand_compress",
    "C10_expand_compress_wide_delimiter_refuted"
   ],
   "note": "Well-formed = one-character delimiters as documented; for wider outer delimiters expand∘compress is refuted, the other laws still hold."
  },
  {
   "property": "C11",
   "status": "proved",
   "theorems": [
    "C11_expand_preserves_meaning",
    "C11_compress_preserves_meaning"
   ],
   "note": "For every environment of item values, including failing ones."
  },
  {
   "property": "C12",
   "status": "proved",
   "theorems": [
    "C12_resolve_meaning",
    "C12_resolve_missing_item"
   ],
   "note": "Denotational semantics of expressions; structure errors characterised."
  },
  {
   "property": "C13",
   "status": "proved",
   "theorems": [
    "C13_text",
    "C13_no_reference",
    "C13_reference",
    "C13_missing_tier",
    "C13_unique",
    "C13_terminates",
    "C13_acyclic_tiers",
    "C13_cycles_overflow",
    "C13_orphan",
    "C13_resolve_raises"
   ],
   "note": "For well-formed reference expressions; evaluation order, missing tiers, orphans; terminates on acyclic item references and on acyclic tier references; cycles overflow the stack."
  },
  {
   "property": "C14",
   "status": "proved",
   "theorems": [
    "C14_nested_segmentation"
   ],
   "note": "At any nesting depth, by the relation segment; value() is the base text between the composed offsets."
  },
  {
   "property": "C15",
   "status": "partial",
   "theorems": [
    "C15_tiers",
    "C15_items",
    "C15_cached",
    "C15_shared_ids_refuted",
    "C15_tier_item_clash_refuted"
   ],
   "note": "Tiers: full. Items: full for igts without shared ids; with an id shared by two items or by an item and a tier the law is refuted. The cached tables are inverse for every igt."
  },
  {
   "property": "C16",
   "status": "partial",
   "theorems": [
    "C16_referents",
    "C16_referrer_cache",
    "C16_referrers_partial",
    "C16_repeated_mention_refuted",
    "C16_cross_reference_refuted"
   ],
   "note": "Referents: full for igts with distinct ids. Referrers: the cache content is characterised exactly; it agrees with the direct scan when references stay among tiers / among items and no id is repeated; both gaps are refuted."
  },
  {
   "property": "C17",
   "status": "partial",
   "theorems": [
    "C17_constructed",
    "C17_refreshed_partial",
    "C17_growing_partial",
    "C17_stale_refuted"
   ],
   "note": "After construction: full. After refresh: exact for every id some item still has; a removed item's id still answers (refuted), as refresh_indices never clears the table."
  },
  {
   "property": "C18",
   "status": "partial",
   "theorems": [
    "C18_hops",
    "C18_stops",
    "C18_short_ids_partial",
    "C18_acyclic_partial",
    "C18_acyclic_terminates",
    "C18_diverges_refuted",
    "C18_early_stop_refuted"
   ],
   "note": "Every hop yielded is correct, always. The full trail is proved for one-character tier ids, and for acyclic references when no id is a character of another; termination for acyclic references. Non-termination on some cycles and stopping early are refuted cases of the source."
  },
  {
   "property": "C19",
   "status": "proved",
   "theorems": [
    "C19_descendants",
    "C19_no_id"
   ],
   "note": "For igts with distinct non-empty tier ids, cycles included."
  },
  {
   "property": "C20",
   "status": "proved",
   "theorems": [
    "C20_order",
    "C20_no_ids_refuted",
    "C20_unique",
    "C20_again",
    "C20_any",
    "C20_again_any",
    "C20_together"
   ],
   "note": "For igts with distinct tier ids, at most one tier without id; with several tiers without id the claim is refuted. The order is the only one with the stated properties, and sorting again changes nothing. Whatever ids the tiers have, none is lost, those that share an id come together in their old order, and sorting again changes nothing (C20_any, C20_together, C20_again_any)."
  },
  {
   "property": "C21",
   "status": "partial",
   "theorems": [
    "C21_terminates_partial",
    "C21_cycle",
    "C21_refuted",
    "C21_missing",
    "C21_exactly"
   ],
   "note": "Returns exactly when every reference that is followed leads to a tier and none leads back; on every cycle it never returns (refuted as stated); a missing tier raises KeyError."
  },
  {
   "property": "C22",
   "status": "partial",
   "theorems": [
    "C22_own",
    "C22_default",
    "C22_inherit_partial",
    "C22_nearest",
    "C22_spellings_partial",
    "C22_spellings_refuted",
    "C22_namespace_not_inherited",
    "C22_unknown_prefix"
   ],
   "note": "Own values, defaults, prefixes and inheriting are proved for keys without a namespace argument; with one, nothing is inherited, and the equivalence of the spellings fails when inheriting (refuted)."
  },
  {
   "property": "C23",
   "status": "partial",
   "theorems": [
    "C23_reads_back",
    "C23_round_trip_partial",
    "C23_empty_text_refuted",
    "C23_carriage_return_refuted",
    "C23_corpus_type_refuted",
    "C23_blank_meta_refuted",
    "C23_child_id_refuted",
    "C23_tier_namespace_refuted"
   ],
   "note": "For all corpora satisfying tree_ok/corpus_ok and any indent, C23_reads_back gives exactly what loads(dumps()) returns. Equality with the original needs corpus_kept; six refutations show what the code loses (item text '', corpus type, blank meta text, MetaChild attribute id, namespaced tier, carriage returns). Writer and expat are modelled in XmlStd.v (assumed)."
  },
  {
   "property": "C24",
   "status": "proved",
   "theorems": [
    "C24_names_resolve",
    "C24_default_set_refuted",
    "C24_empty_prefix_refuted"
   ],
   "note": "The document re-reads and every name resolves to the object's namespace in its scope, text after elements is layout only, for any mixture of own and inherited nsmaps with declarable non-empty prefixes. Outside: default-set prefixes and the empty prefix are refuted."
  },
  {
   "property": "C25",
   "status": "partial",
   "theorems": [
    "C25_round_trip_partial",
    "C25_attribute_refuted",
    "C25_corpus_type_refuted",
    "C25_empty_text_refuted",
    "C25_namespace_refuted",
    "C25_settles",
    "C25_second",
    "C25_second_refuted"
   ],
   "note": "C25_round_trip_partial: every corpus in jcorpus round-trips (all nestings, inherited and own prefixes). The documented claim is false for attributes in declared namespaces, corpus types, empty item texts and MetaChild namespaces equal to a prefix (four refutations). C25_settles and C25_second: whatever corpus with plain prefixes and names is saved and loaded meets jcorpus from then on (C25_second_refuted for prefixes beginning with a brace). For texts see C76."
  },
  {
   "property": "C26",
   "status": "partial",
   "theorems": [
    "C26_modes",
    "C26_deterministic",
    "C26_full_again",
    "C26_incremental",
    "C26_transient",
    "C26_full_iff",
    "C26_list_refuted",
    "C26_list_twice_refuted",
    "C26_failing_source",
    "C26_failing_construction"
   ],
   "note": "Proved for generator sources (XML) under all schedules; false for list sources (JSON, mode incremental) after a partial iteration, see the refutations."
  },
  {
   "property": "C27",
   "status": "proved",
   "theorems": [
    "C27_first",
    "C27_converse",
    "C27_lazy"
   ],
   "note": "find is the head of findall whenever findall succeeds; the converse with the lazy exception (find can succeed where findall fails) is exact."
  },
  {
   "property": "C28",
   "status": "proved",
   "theorems": [
    "C28_descendants",
    "C28_prefix",
    "C28_prefix_refuted",
    "C28_self_refuted"
   ],
   "note": "Names without prefix as claimed; the namespace clause is false of the code, and C28_prefix says what a prefix does."
  },
  {
   "property": "C29",
   "status": "proved",
   "theorems": [
    "C29_slash",
    "C29_descend",
    "C29_predicate",
    "C29_group",
    "C29_absolute",
    "C29_no_corpus",
    "C29_self",
    "C29_parent",
    "C29_child",
    "C29_child_prefix",
    "C29_id",
    "C29_type",
    "C29_attribute",
    "C29_attribute_prefix",
    "C29_text",
    "C29_group_refuted",
    "C29_nested_group_refuted",
    "C29_nested_predicate_refuted",
    "C29_rest_refuted"
   ],
   "note": "Holds for the well-formed paths (wf in SpecPath.v); the refutations show why each restriction of wf is needed."
  },
  {
   "property": "C30",
   "status": "proved",
   "theorems": [
    "C30_existence",
    "C30_refuted"
   ],
   "note": "False of the code: the predicate raises whenever it is evaluated."
  },
  {
   "property": "C31",
   "status": "proved",
   "theorems": [
    "C31_but_marks",
    "C31_nothing_lost",
    "C31_name",
    "C31_literal",
    "C31_show",
    "C31_refuted"
   ],
   "note": "Exact: what is lost is white space and lone exclamation marks; names are one token exactly if they do not properly begin with a function name."
  },
  {
   "property": "C32",
   "status": "proved",
   "theorems": [
    "C32_igt",
    "C32_tier",
    "C32_item",
    "C32_corpus",
    "C32_places"
   ],
   "note": "Exact for igts in a corpus, tiers in an igt, items in a tier and in an igt, and corpora among the files. 'Earlier' is by position. Loading rejects duplicates inside one container first (C51), so at those scopes the records arise only for corpora built otherwise; item duplicates across tiers and corpus duplicates across files do reach the validator."
  },
  {
   "property": "C33",
   "status": "partial",
   "theorems": [
    "C33_filter",
    "C33_run",
    "C33_fails",
    "C33_unparsable_refuted",
    "C33_quiet"
   ],
   "note": "The report-tree part holds for all trees and levels, and the verdict of a run is characterised exactly. 'Exit status 0 means every file was checked' is refuted: files that are not well-formed are passed over; with --quiet every completed run passes."
  },
  {
   "property": "C34",
   "status": "partial",
   "theorems": [
    "C34_tiers",
    "C34_unspecified",
    "C34_items",
    "C34_spans",
    "C34_spans_sound",
    "C34_overlap_partial",
    "C34_overlap_sound",
    "C34_overlap_refuted",
    "C34_empty_tier_refuted",
    "C34_position_refuted",
    "C34_ends",
    "C34_ends_refuted"
   ],
   "note": "Tier references and missing ids are reported exactly (tier references up to positions, item references into non-empty tiers); spans beyond the value are reported. Refuted: overlapping ranges are never reported, ids into an empty tier are not checked, a position passes as a tier reference, and some expressions end validation with an exception."
  },
  {
   "property": "C35",
   "status": "partial",
   "theorems": [
    "C35_exact",
    "C35_succeeds",
    "C35_names",
    "C35_colon_refuted",
    "C35_default_refuted",
    "C35_outside_refuted"
   ],
   "note": "Exact (one file per key, input order, every igt once) whenever no two keys share a file name; which keys do is characterised. Refuted otherwise: keys that differ in ':' and '-' only, or a key equal to the default key, overwrite each other's file, and igts are lost. The key of an igt and reading a file are parameters; writing is taken to succeed."
  },
  {
   "property": "C36",
   "status": "partial",
   "theorems": [
    "C36_key",
    "C36_key_exists",
    "C36_one",
    "C36_order",
    "C36_numbers",
    "C36_several_partial",
    "C36_several_refuted"
   ],
   "note": "Proved for one path. Refuted for several paths (the documented use): the run counts of earlier paths can differ, and str and int are compared."
  },
  {
   "property": "C37",
   "status": "proved",
   "theorems": [
    "C37_list",
    "C37_one_path",
    "C37_container",
    "C37_corpus"
   ],
   "note": "For whatever the path gives (a parameter); with several paths sorting may raise instead (C36), in which case nothing is claimed about the order left behind."
  },
  {
   "property": "C38",
   "status": "proved",
   "theorems": [
    "C38_charwise",
    "C38_total",
    "C38_injective",
    "C38_typeset",
    "C38_typeset_refuted"
   ],
   "note": "As stated, for all strings. In addition: TeX prints the string again exactly if no backslash, tilde or caret runs on into a letter or blank; otherwise not (refuted)."
  },
  {
   "property": "C39",
   "status": "partial",
   "theorems": [
    "C39_table_partial",
    "C39_depth_partial",
    "C39_shares",
    "C39_lines",
    "C39_depth_refuted",
    "C39_order_refuted",
    "C39_reference_refuted",
    "C39_reversed_refuted",
    "C39_empty_refuted"
   ],
   "note": "Every item once, in its row, in order, with all it is aligned with in its column: for all ordered stacks with unaligned items only at the ends of tiers. Equal depth holds unless a tier ends in an unaligned item (then refuted); an unaligned item in the middle breaks the order (refuted)."
  },
  {
   "property": "C40",
   "status": "partial",
   "theorems": [
    "C40_replaces",
    "C40_determined",
    "C40_legal",
    "C40_length",
    "C40_idempotent",
    "C40_untouched_partial",
    "C40_astral_refuted"
   ],
   "note": "For all strings: exactly the characters illegal in XML or beyond the basic plane are replaced, length kept, idempotent, result legal. Legal characters beyond the basic plane are replaced too (refuted)."
  },
  {
   "property": "C41",
   "status": "proved",
   "theorems": [
    "C41_raw_tier",
    "C41_no_content",
    "C41_igts",
    "C41_igts_iff",
    "C41_raises"
   ],
   "note": "For all blocks; a line without content is a KeyError. Also: one igt per block in order, and exactly which blocks can be imported."
  },
  {
   "property": "C42",
   "status": "partial",
   "theorems": [
    "C42_columns_partial",
    "C42_layout",
    "C42_total",
    "C42_utf8",
    "C42_text",
    "C42_blank",
    "C42_blank_refuted"
   ],
   "note": "Holds for every line with a token, for any encoding that decodes white space to itself and lengthens no token (UTF-8 and Latin-1 proved to be such). Refuted for lines of white space, which become empty."
  },
  {
   "property": "C43",
   "status": "proved",
   "theorems": [
    "C43_words"
   ],
   "note": "For all token lists."
  },
  {
   "property": "C44",
   "status": "partial",
   "theorems": [
    "C44_bounds_partial",
    "C44_single_refuted",
    "C44_order_refuted"
   ],
   "note": "With two or more morphemes both ends lie in the word, and beg <= end if the segment is marked precise. Refuted for a single morpheme longer than its word and for beg <= end in an imprecise segment."
  },
  {
   "property": "C45",
   "status": "proved",
   "theorems": [
    "C45_numbered",
    "C45_made",
    "C45_refers"
   ],
   "note": "One item per token, numbered from 1; when a tier is made; what its items refer to."
  },
  {
   "property": "C46",
   "status": "proved",
   "theorems": [
    "C46_nearest",
    "C46_default",
    "C46_own",
    "C46_metas"
   ],
   "note": "For chains of any length."
  },
  {
   "property": "C47",
   "status": "partial",
   "theorems": [
    "C47_tally",
    "C47_succeeds",
    "C47_objects",
    "C47_objects_refuted",
    "C47_unique",
    "C47_unique_refuted"
   ],
   "note": "Proved when the subquery gives strings or absent attributes, and it fails exactly otherwise: objects of the model define == without a hash, so counting them raises TypeError (the documented example does). What the paths give is a parameter."
  },
  {
   "property": "C48",
   "status": "partial",
   "theorems": [
    "C48_excludes_partial",
    "C48_empty_refuted",
    "C48_error",
    "C48_reads_back"
   ],
   "note": "For non-empty strings; with an empty string both can be set (refuted)."
  },
  {
   "property": "C49",
   "status": "proved",
   "theorems": [
    "C49_filter",
    "C49_no_nsmap",
    "C49_metadata_refuted"
   ],
   "note": "For containers that have an nsmap; the containers holding metadata have none and raise AttributeError when searched by namespace (refuted case)."
  },
  {
   "property": "C50",
   "status": "proved",
   "theorems": [
    "C50_first",
    "C50_missing",
    "C50_failures",
    "C50_all",
    "C50_all_refreshed"
   ],
   "note": "For igts with distinct ids and well-formed expressions, with the failure cases."
  },
  {
   "property": "C51",
   "status": "proved",
   "theorems": [
    "C51_xml_load",
    "C51_json_load"
   ],
   "note": "Every corpus returned by either codec (mode full)."
  },
  {
   "property": "C52",
   "status": "proved",
   "theorems": [
    "C52_spaces",
    "C52_at_refuted",
    "C52_literal_refuted"
   ],
   "note": "The two exceptions are refuted by examples."
  },
  {
   "property": "C53",
   "status": "proved",
   "theorems": [
    "C53_referent",
    "C53_referrer",
    "C53_value",
    "C53_arguments_refuted"
   ],
   "note": "Full for no argument or one; the claim about several arguments is false of the code."
  },
  {
   "property": "C54",
   "status": "partial",
   "theorems": [
    "C54_readable_partial",
    "C54_header_refuted",
    "C54_tag_refuted",
    "C54_ids_refuted",
    "C54_return_refuted"
   ],
   "note": "Proved when header lines and attributes are legal XML, there are no carriage returns and the ids are distinct; refuted in each of the other cases."
  },
  {
   "property": "C55",
   "status": "proved",
   "theorems": [
    "C55_metadata"
   ],
   "note": "For all blocks and options."
  },
  {
   "property": "C56",
   "status": "partial",
   "theorems": [
    "C56_tiles_partial",
    "C56_resolves_partial",
    "C56_fails",
    "C56_hyphen_refuted",
    "C56_single_refuted"
   ],
   "note": "Morphemes that spell a word without hyphens tile it and their references resolve to them; the first failure as documented. Refuted by the documentation's own example of a word with hyphens and for one morpheme."
  },
  {
   "property": "C57",
   "status": "partial",
   "theorems": [
    "C57_records",
    "C57_goes_on_partial",
    "C57_key_refuted"
   ],
   "note": "The igts are those of the records kept, in order. Refuted: a key that begins with a letter outside ASCII stops the whole import."
  },
  {
   "property": "C58",
   "status": "proved",
   "theorems": [
    "C58_anchored"
   ],
   "note": "For all options and fields."
  },
  {
   "property": "C59",
   "status": "proved",
   "theorems": [
    "C59_numbered"
   ],
   "note": "For all corpora and configurations."
  },
  {
   "property": "C60",
   "status": "partial",
   "theorems": [
    "C60_own_partial",
    "C60_last",
    "C60_succeeds",
    "C60_again",
    "C60_own_refuted",
    "C60_again_refuted"
   ],
   "note": "Holds if all cells have the same expression. In general every cell holds the value of the last expression (refuted as stated), and a configuration cannot be used again."
  },
  {
   "property": "C61",
   "status": "partial",
   "theorems": [
    "C61_words_partial",
    "C61_neither",
    "C61_phrase",
    "C61_no_phrase",
    "C61_phrase_refuted",
    "C61_empty_refuted",
    "C61_cell"
   ],
   "note": "Proved for igts without a phrases tier. With one, the item is exported instead of its text, and an empty phrases tier raises IndexError (refuted)."
  },
  {
   "property": "C62",
   "status": "partial",
   "theorems": [
    "C62_reload_partial",
    "C62_settles_partial",
    "C62_default_namespace_refuted",
    "C62_xml_element_refuted",
    "C62_brace_refuted"
   ],
   "note": "Proved, however far ahead the parser reads, for every document that binds namespaces to prefixes without closing braces, has no xml: elements, and no element named igt or xigt-corpus inside a meta. The exclusions on namespaces and xml: are refuted; for igt and xigt-corpus inside a meta see C63."
  },
  {
   "property": "C63",
   "status": "partial",
   "theorems": [
    "C63_agree",
    "C63_smaller",
    "C63_chunks_partial",
    "C63_late_metadata_refuted",
    "C63_corpus_in_meta_refuted",
    "C63_igt_in_meta"
   ],
   "note": "Two successful loads always agree and smaller blocks never fail where larger ones succeed (no hypotheses). The same outcome, errors included, is proved for documents with the metadata in front; refuted for metadata after an igt (dropped or AttributeError) and for xigt-corpus inside a meta."
  },
  {
   "property": "C64",
   "status": "partial",
   "theorems": [
    "C64_agrees",
    "C64_separators",
    "C64_spans",
    "C64_missing",
    "C64_aligned_tier",
    "C64_no_aligned_tier",
    "C64_run_refuted",
    "C64_no_value_refuted",
    "C64_inner_separators_refuted"
   ],
   "note": "Agreement, spans, other separators between selections, missing items and the aligned tier are proved for the documented syntax. Refuted: runs of delimiters, items without a value (TypeError), custom separators inside brackets; a missing item or attribute raises NameError (the module lacks the imports) instead of the warning or error it names."
  },
  {
   "property": "C65",
   "status": "partial",
   "theorems": [
    "C65_replaces",
    "C65_succeeds_iff",
    "C65_metadata_replaces",
    "C65_copy",
    "C65_augmented",
    "C65_self_erases",
    "C65_self_refuted",
    "C65_metadata_self_erases",
    "C65_metadata_augmented_erases",
    "C65_metadata_augmented_refuted",
    "C65_metadata_none",
    "C65_metadata_object",
    "C65_extend_self"
   ],
   "note": "Proved for every source that does not read the container assigned to. Refuted otherwise: igt.tiers = igt.select(...) and igt.tiers = igt succeed and leave nothing (C65_self_erases), x.metadata = x.metadata and x.metadata += [m] erase all metadata (C65_metadata_*_erases), metadata = None raises after erasing, c.extend(c) raises or never ends (C65_extend_self)."
  },
  {
   "property": "C66",
   "status": "partial",
   "theorems": [
    "C66_description",
    "C66_output",
    "C66_plain",
    "C66_plain_runs",
    "C66_brace_refuted",
    "C66_brace_match_refuted",
    "C66_escape_refuted",
    "C66_unknown_refuted",
    "C66_nothing_refuted",
    "C66_nested_refuted"
   ],
   "note": "holds where what the first pass fills in has no braces, for text with braces written four times; paths with braces and braces written twice are refuted"
  },
  {
   "property": "C67",
   "status": "proved",
   "theorems": [
    "C67_lines",
    "C67_proper",
    "C67_mirrors",
    "C67_corpus",
    "C67_igt",
    "C67_tier",
    "C67_item",
    "C67_run",
    "C67_failed",
    "C67_verdict",
    "C67_silent"
   ],
   "note": "references of items: C34 gives their records under its hypotheses"
  },
  {
   "property": "C68",
   "status": "partial",
   "theorems": [
    "C68_document",
    "C68_stops",
    "C68_comment",
    "C68_comment_partial",
    "C68_comment_refuted",
    "C68_nameless_refuted",
    "C68_empty_refuted"
   ],
   "note": "Document, text left by a failing export and comment proved for all inputs. That the comment is one fails for an id with a line feed (C68_comment_refuted); that every igt with two tiers of the types is exported fails for tiers without id and an empty first tier (C68_nameless_refuted, C68_empty_refuted)."
  },
  {
   "property": "C69",
   "status": "partial",
   "theorems": [
    "C69_alignments_partial",
    "C69_shared_refuted",
    "C69_total",
    "C69_error"
   ],
   "note": "Failure proved for all options. The dict is characterised if no two markers share a tier; with a shared tier a marker is lost (C69_shared_refuted)."
  },
  {
   "property": "C70",
   "status": "partial",
   "theorems": [
    "C70_readable_partial",
    "C70_texts_refuted",
    "C70_keys_refuted",
    "C70_character_refuted"
   ],
   "note": "Proved if the ids of the igts are distinct and all characters are legal. Each condition is needed: C70_texts_refuted, C70_keys_refuted, C70_character_refuted."
  },
  {
   "property": "C71",
   "status": "partial",
   "theorems": [
    "C71_sorts",
    "C71_reordered",
    "C71_fails",
    "C71_options",
    "C71_finds",
    "C71_commas",
    "C71_again",
    "C71_own",
    "C71_item",
    "C71_again_refuted",
    "C71_succeeds",
    "C71_texts",
    "C71_by_id",
    "C71_succeeds_refuted",
    "C71_object_refuted",
    "C71_in_place"
   ],
   "note": "Proved for documents that are tidy in the sense of C62. Sorting again: for paths that do not depend on the order (C71_again_refuted), also with --tier-deps whatever ids the tiers have. Success: for one path per level that gives texts (C71_succeeds_refuted, C71_object_refuted)."
  },
  {
   "property": "C72",
   "status": "partial",
   "theorems": [
    "C72_files",
    "C72_frame",
    "C72_succeeds",
    "C72_kept",
    "C72_plain",
    "C72_keys",
    "C72_no_path",
    "C72_own",
    "C72_modes",
    "C72_modes_ids",
    "C72_again",
    "C72_namespace_refuted",
    "C72_inputs_refuted",
    "C72_exact_refuted",
    "C72_inherited_refuted",
    "C72_mkdir",
    "C72_open",
    "C72_dirs"
   ],
   "note": "Proved for inputs that are tidy in the sense of C62 and keys whose files are not inputs and are distinct (C72_inputs_refuted, C35_colon_refuted); exact up to prefixes of namespaces unless they agree (C72_exact_refuted); inherited attributes are lost (C72_inherited_refuted). Again: for paths of plain steps down from the igt. Missing: paths that climb to the corpus, which in Python would consume the igts that follow."
  },
  {
   "property": "C73",
   "status": "partial",
   "theorems": [
    "C73_reads",
    "C73_read_as",
    "C73_written",
    "C73_written_only",
    "C73_stays",
    "C73_sort",
    "C73_partition",
    "C73_ids",
    "C73_expr",
    "C73_expr_valid",
    "C73_expr_read",
    "C73_id_refuted",
    "C73_reads_refuted",
    "C73_lost_refuted",
    "C73_written_refuted",
    "C73_reads_exactly",
    "C73_fails"
   ],
   "note": "A valid document is read exactly if ids are distinct and names in metadata are Python names (C73_reads_exactly, witnesses in C73_reads_refuted), and the error tells which failed (C73_fails); corpus_read leaves out ids, types and tails below a meta (C73_lost_refuted); ids with + are taken for two (C73_id_refuted). C73_written and C73_written_only agree but for text before elements of a meta that Python takes for white space and XML does not."
  },
  {
   "property": "C74",
   "status": "proved",
   "theorems": [
    "C74_layout",
    "C74_order",
    "C74_order_unique",
    "C74_order_kept",
    "C74_comparison"
   ],
   "note": "C74_layout for the writer of CPython 3.9 and later; the order of attributes matters to Python before 3.8 only."
  },
  {
   "property": "C75",
   "status": "partial",
   "theorems": [
    "C75_written",
    "C75_dumped",
    "C75_round_trip",
    "C75_kept",
    "C75_as_elem",
    "C75_reload_partial",
    "C75_reload_refuted"
   ],
   "note": "C75_written to C75_as_elem are complete. C75_reload_partial needs a tidy document (as C62) without carriage returns in its text (C75_reload_refuted). Document type declarations are taken for errors, encodings are not modelled."
  },
  {
   "property": "C76",
   "status": "partial",
   "theorems": [
    "C76_written",
    "C76_ascii",
    "C76_text",
    "C76_round_trip_partial",
    "C76_round_trip_refuted",
    "C76_read",
    "C76_read_strings",
    "C76_reload",
    "C76_second"
   ],
   "note": "All but C76_round_trip_partial are complete; that needs the corpora of C25 and strings without surrogate pairs (C76_round_trip_refuted). Numbers, true, false and null are taken for errors by the reader; encodings are not modelled."
  },
  {
   "property": "C77",
   "status": "proved",
   "theorems": [
    "C77_directory",
    "C77_directory_all",
    "C77_file",
    "C77_neither",
    "C77_reads",
    "C77_raises",
    "C77_ends",
    "C77_itself",
    "C77_itself_refuted",
    "C77_same_directory_refuted",
    "C77_is_dir",
    "C77_has_dir",
    "C77_make_dir",
    "C77_write"
   ],
   "note": "For inputs apart from outputs; the two _refuted theorems show what happens otherwise. Links, permissions, encodings and special characters of glob and re in paths and suffix are not modelled (Files.v, ImportRun.v)."
  },
  {
   "property": "C78",
   "status": "proved",
   "theorems": [
    "C78_load",
    "C78_twice",
    "C78_same_value",
    "C78_same",
    "C78_whole",
    "C78_cut",
    "C78_fails",
    "C78_run",
    "C78_loaded",
    "C78_saved"
   ],
   "note": "For an output that is not the input. Where a text stops being well formed, the igts given before that are a parameter (before)."
  },
  {
   "property": "C79",
   "status": "proved",
   "theorems": [
    "C79_same",
    "C79_saved",
    "C79_passes",
    "C79_critical_refuted"
   ],
   "note": "C79_critical_refuted: with errors not counted, a document that cannot be loaded passes."
  },
  {
   "property": "C80",
   "status": "proved",
   "theorems": [
    "C80_parent",
    "C80_text",
    "C80_value",
    "C80_refs",
    "C80_absolute",
    "C80_unclosed",
    "C80_tag_unclosed",
    "C80_tag_other",
    "C80_xml_id",
    "C80_xml_cleared",
    "C80_xml_name",
    "C80_json_not_object",
    "C80_json_id",
    "C80_json_child",
    "C80_refs_unknown",
    "C80_dereference",
    "C80_igt_item",
    "C80_getitem",
    "C80_setitem",
    "C80_set_id",
    "C80_iadd",
    "C80_item_attributes"
   ],
   "note": "JSON fields of an unexpected kind are left out (a simplification of Json.v)."
  },
  {
   "property": "C81",
   "status": "partial",
   "theorems": [
    "C81_paths",
    "C81_star_refuted",
    "C81_prefix_refuted",
    "C81_order",
    "C81_arguments",
    "C81_unreadable",
    "C81_reads",
    "C81_file",
    "C81_heading",
    "C81_basename",
    "C81_count",
    "C81_find",
    "C81_saved",
    "C81_missing",
    "C81_until"
   ],
   "note": "C81_saved needs plain paths and finds that give strings: objects print their address. C81_star_refuted and C81_prefix_refuted show that @* and prefixes tell equal corpora apart."
  },
  {
   "property": "C82",
   "status": "partial",
   "theorems": [
    "C82_sort",
    "C82_sort_fails",
    "C82_sort_run",
    "C82_sort_missing",
    "C82_sort_frame",
    "C82_sort_again",
    "C82_carriage_return_refuted",
    "C82_partition",
    "C82_partition_frame",
    "C82_partition_succeeds",
    "C82_partition_dirs",
    "C82_modes",
    "C82_partition_again",
    "C82_partition_broken"
   ],
   "note": "The texts have to be tidy as in C69 and without carriage returns (C82_carriage_return_refuted shows that these are lost); C82_sort_again and C82_partition_again have the conditions of C71_again and C72_again."
  },
  {
   "property": "C83",
   "status": "partial",
   "theorems": [
    "C83_imports_partial",
    "C83_file",
    "C83_sound",
    "C83_undecodable",
    "C83_raises",
    "C83_ends",
    "C83_text",
    "C83_lines",
    "C83_defaults",
    "C83_unmarked",
    "C83_missing",
    "C83_no_config",
    "C83_bad_config",
    "C83_keys_refuted",
    "C83_itself",
    "C83_itself_refuted"
   ],
   "note": "C83_imports_partial has the conditions of C70 (clean records, different keys); C83_keys_refuted shows that keys have to differ, C83_itself_refuted that input and output have to."
  },
  {
   "property": "C84",
   "status": "proved",
   "theorems": [
    "C84_scan",
    "C84_template",
    "C84_fails",
    "C84_text",
    "C84_char",
    "C84_quoted",
    "C84_plain",
    "C84_group",
    "C84_same",
    "C84_nowhere",
    "C84_order",
    "C84_patterns",
    "C84_nothing",
    "C84_other",
    "C84_these",
    "C84_one",
    "C84_function",
    "C84_neither",
    "C84_order_refuted",
    "C84_type_refuted",
    "C84_says",
    "C84_bad",
    "C84_expand",
    "C84_raises"
   ],
   "note": "Compiling regular expressions and evaluating lambdas are parameters; re.error is represented by ValueError. C84_order_refuted and C84_type_refuted show what does not hold."
  },
  {
   "property": "C85",
   "status": "partial",
   "theorems": [
    "C85_made",
    "C85_rows",
    "C85_some_rows",
    "C85_one",
    "C85_loaded",
    "C85_saved",
    "C85_silent",
    "C85_unread",
    "C85_unconfigured",
    "C85_fallback_refuted"
   ],
   "note": "The theorems hold as stated, but a run that ends without error need not have written anything (C85_fallback_refuted). delphin's make_skeleton, json.load and cell expressions are parameters."
  },
  {
   "property": "C86",
   "status": "partial",
   "theorems": [
    "C86_total",
    "C86_item",
    "C86_value",
    "C86_shows",
    "C86_count",
    "C86_apart",
    "C86_total_refuted",
    "C86_label_refuted",
    "C86_tier"
   ],
   "note": "Printing an item fails if its value does (C86_item, C86_total_refuted); ids with ) or ; can be mistaken (C86_label_refuted)."
  },
  {
   "property": "C87",
   "status": "partial",
   "theorems": [
    "C87_says",
    "C87_text",
    "C87_total",
    "C87_strict",
    "C87_transitive",
    "C87_swapped",
    "C87_mixed_refuted",
    "C87_hash",
    "C87_cmp",
    "C87_other",
    "C87_other_refuted",
    "C87_made",
    "C87_plain"
   ],
   "note": "Holds for names of one kind. Mixed names are not ordered (C87_mixed_refuted), and == of a name with sort key and an object that is no text raises AttributeError (C87_other_refuted)."
  }
 ]
}
