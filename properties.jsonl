{"id": "C01", "title": "Accepted ids never collide with positions", "statement": "Any string accepted as an id by the id setter of a Xigt object fails to parse as an integer, so container[id] / container.get(id) with an id string can never silently fall through to positional indexing: an absent id gives KeyError / the default, a present id gives the member.", "quantifier": "all strings accepted as ids, all containers", "why_tests_cant": "there are infinitely many id strings and int() accepts signs, spaces, underscores and Unicode digits", "anchors": ["xigt/mixins.py:XigtContainerMixin.__getitem__", "xigt/mixins.py:XigtAttributeMixin.id", "xigt/ref.py:id_re"]}
{"id": "C02", "title": "Accepted ids can be referred to", "statement": "Every id accepted by the id setter can be written in a reference attribute: ref.ids(id) == [id].", "quantifier": "all strings accepted as ids", "why_tests_cant": "the setter uses a prefix match, so it depends on every possible suffix", "anchors": ["xigt/mixins.py:XigtAttributeMixin.id", "xigt/ref.py:ids", "xigt/ref.py:id_re"]}
{"id": "C03", "title": "Id index coherent after any history", "statement": "After any sequence of append, insert, extend, remove, clear, item assignment, item deletion, refresh_index, sort and reverse calls on a container, c[id] returns exactly the one member of the list whose id is that id, raises KeyError if no member has it, and no two members share an id.", "quantifier": "all finite histories of container operations, including failing ones", "why_tests_cant": "state invariant over unbounded histories; two structures (list and dict) must stay in step", "anchors": ["xigt/mixins.py:XigtContainerMixin"]}
{"id": "C04", "title": "Failed container operations have no effect", "statement": "If append, insert, remove, item assignment or item deletion raises, the container's list and id index are unchanged.", "quantifier": "all containers, all failing calls", "why_tests_cant": "depends on the order of side effects on every failing path", "anchors": ["xigt/mixins.py:XigtContainerMixin.append", "xigt/mixins.py:XigtContainerMixin.insert", "xigt/mixins.py:XigtContainerMixin.remove", "xigt/mixins.py:XigtContainerMixin.__setitem__"]}
{"id": "C05", "title": "Members know their container", "statement": "After any history of successful container operations, the parent (tier/igt/corpus property) of every member is the container that holds it.", "quantifier": "all histories of container operations", "why_tests_cant": "invariant over histories", "anchors": ["xigt/mixins.py:XigtContainerMixin.append", "xigt/mixins.py:XigtContainerMixin.insert", "xigt/mixins.py:XigtContainerMixin.__setitem__"]}
{"id": "C06", "title": "Container operations act as list operations on the member sequence", "statement": "When they succeed, append adds at the end, insert(i, x) places x at Python position i (clamped, negatives from the end), c[i]=x replaces exactly position i, remove deletes exactly one equal member, clear empties; every other member keeps its relative order.", "quantifier": "all containers, all indices (including negative and out of range), all objects", "why_tests_cant": "unbounded sizes and indices", "anchors": ["xigt/mixins.py:XigtContainerMixin"]}
{"id": "C07", "title": "Equality is an equivalence and != is its negation", "statement": "== on XigtCorpus, Igt, Tier, Item, Metadata, Meta and MetaChild is reflexive, symmetric and transitive, and a != b is not (a == b).", "quantifier": "all pairs and triples of model objects", "why_tests_cant": "quantifies over all object trees of any depth", "anchors": ["xigt/model.py:__eq__", "xigt/mixins.py:XigtContainerMixin.__eq__", "xigt/mixins.py:XigtAttributeMixin.__eq__", "xigt/metadata.py:__eq__"]}
{"id": "C08", "title": "ids() returns the ids of an alignment expression in order", "statement": "For every well-formed alignment expression, ref.ids returns exactly the ids of its selections in order, one per selection; and on any string each returned token is a maximal, non-overlapping id-shaped piece of the string, in order.", "quantifier": "all alignment expressions (any number of selections and spans), all strings", "why_tests_cant": "unbounded grammar; regex findall over arbitrary input", "anchors": ["xigt/ref.py:ids", "xigt/ref.py:id_re"]}
{"id": "C09", "title": "selections() loses nothing", "statement": "For every string without line breaks, concatenating ref.selections(s) gives back s; on well-formed expressions it returns the selections interleaved with their delimiters, and with keep_delimiters=False just the selections.", "quantifier": "all strings; all well-formed expressions", "why_tests_cant": "backtracking regex over arbitrary strings", "anchors": ["xigt/ref.py:selections", "xigt/ref.py:robust_ref_re"]}
{"id": "C10", "title": "expand() and compress() are inverse normal forms", "statement": "On well-formed expressions expand yields one span per selection, compress merges neighbouring spans of the same id, both are idempotent, and compress(expand(e)) == compress(e), expand(compress(e)) == expand(e).", "quantifier": "all well-formed alignment expressions", "why_tests_cant": "unbounded grammar, two-way laws", "anchors": ["xigt/ref.py:expand", "xigt/ref.py:compress", "xigt/ref.py:spans"]}
{"id": "C11", "title": "expand() and compress() preserve meaning", "statement": "For every container and well-formed expression e, resolve(c, expand(e)) == resolve(c, compress(e)) == resolve(c, e) (same text or same error).", "quantifier": "all expressions and containers", "why_tests_cant": "product of two unbounded domains", "anchors": ["xigt/ref.py:resolve", "xigt/ref.py:expand", "xigt/ref.py:compress"]}
{"id": "C12", "title": "resolve() implements alignment-expression semantics", "statement": "For every well-formed expression, resolve concatenates, in order, the selected (Python-sliced) substrings of the referred items' values, joined by '' for '+' and ' ' for ',', and raises a structure error iff some referred id does not exist.", "quantifier": "all expressions, spans (any integers), containers", "why_tests_cant": "unbounded expressions and slice bounds", "anchors": ["xigt/ref.py:resolve", "xigt/ref.py:selection_re", "xigt/ref.py:span_re"]}
{"id": "C13", "title": "Item.value() follows the documented precedence and terminates on acyclic references", "statement": "value() returns the explicit text if there is one; otherwise the resolution of the content reference, otherwise of the segmentation reference, otherwise None; it terminates whenever the reference relation it follows is acyclic.", "quantifier": "all items in all Igts, reference chains of any length", "why_tests_cant": "recursion of unbounded depth", "anchors": ["xigt/model.py:Item.value", "xigt/model.py:Item.resolve_ref"]}
{"id": "C14", "title": "Nested segmentation composes", "statement": "Selecting [c:d] of an item that is itself the selection [a:b] of a base text gives the base text's [a+c : min(a+d,b)] (for non-negative offsets), at any nesting depth.", "quantifier": "all texts and all non-negative offsets; all depths", "why_tests_cant": "arithmetic over unbounded integers", "anchors": ["xigt/model.py:Item.value", "xigt/ref.py:resolve"]}
{"id": "C15", "title": "referrers is the inverse of referents", "statement": "For objects with ids in the same Igt, y's id is listed in referrers(x)[ra] exactly when x's id is listed in referents(y)[ra], for tiers among tiers and items among items.", "quantifier": "all Igts, all pairs of objects, all reference attributes", "why_tests_cant": "relation over all pairs in unbounded structures", "anchors": ["xigt/ref.py:referents", "xigt/ref.py:referrers"]}
{"id": "C16", "title": "Cached reference index agrees with direct computation", "statement": "After construction (or refresh_indices) the cached Igt.referents/referrers tables give, for each id and reference attribute, the same ids as a direct scan.", "quantifier": "all Igts", "why_tests_cant": "cache consistency over all structures", "anchors": ["xigt/model.py:Igt.refresh_indices", "xigt/model.py:Igt.referents", "xigt/model.py:Igt.referrers"]}
{"id": "C17", "title": "Igt item lookup is exact after refresh", "statement": "After construction get_item(id) returns an item of the Igt with that id, or None iff there is none; after any structural edits followed by refresh_indices the same holds.", "quantifier": "all Igts and edit histories", "why_tests_cant": "history-dependent cache", "anchors": ["xigt/model.py:Igt.refresh_indices", "xigt/model.py:Igt.get_item", "xigt/model.py:Igt.get_any"]}
{"id": "C18", "title": "ancestors() yields the reference chain and terminates", "statement": "query.ancestors follows the first available reference attribute from tier to tier, yields for each hop exactly the referred items, and stops after the chain ends or at the first revisited tier, on every Igt including cyclic ones.", "quantifier": "all Igts, all start objects, all reference graphs", "why_tests_cant": "termination over arbitrary graphs", "anchors": ["xigt/query.py:ancestors"]}
{"id": "C19", "title": "descendants() terminates and is sound and complete over tiers", "statement": "query.descendants terminates on every Igt (cycles included), yields only genuine reference hops with exactly the items that refer to the source items, and with follow='all' reaches every tier transitively referring to the start tier.", "quantifier": "all Igts, all reference graphs", "why_tests_cant": "worklist algorithm over arbitrary graphs", "anchors": ["xigt/query.py:descendants"]}
{"id": "C20", "title": "sort_tiers() is a dependency order", "statement": "On an Igt whose prioritized tier references are acyclic and resolvable, sort_tiers permutes the tiers so that each tier comes after the tier it refers to, and each tier together with all its transitive dependents forms a contiguous block.", "quantifier": "all Igts with acyclic references", "why_tests_cant": "ordering law over arbitrary forests", "anchors": ["xigt/model.py:Igt.sort_tiers"]}
{"id": "C21", "title": "sort_tiers() terminates", "statement": "sort_tiers returns on every Igt whose tier references name existing tiers.", "quantifier": "all Igts", "why_tests_cant": "termination over arbitrary reference graphs", "anchors": ["xigt/model.py:Igt.sort_tiers"]}
{"id": "C22", "title": "get_attribute resolves prefixes and inherits", "statement": "get_attribute(k) returns the object's own value if present, else with inherit=True the nearest ancestor's value, else the default; 'pre:name' and (name, namespace=pre) name the same attribute, including when inherited.", "quantifier": "all parent chains, all keys, namespaces", "why_tests_cant": "recursion along unbounded chains with key rewriting", "anchors": ["xigt/mixins.py:XigtAttributeMixin.get_attribute", "xigt/mixins.py:XigtAttributeMixin.nsmap"]}
{"id": "C23", "title": "XML round trip", "statement": "For every corpus meeting the documented structure, decoding the element tree built for it yields an equal corpus (ids, types, attributes, texts, metadata, order), whatever the indentation.", "quantifier": "all corpora of any size/depth, all indent values", "why_tests_cant": "round trip over unbounded nested data", "anchors": ["xigt/codecs/xigtxml.py"]}
{"id": "C24", "title": "XML encoding declares every prefix it uses", "statement": "In the element tree built for any corpus whose namespaces are all in its objects' nsmaps, every prefix used in a tag or attribute is bound in scope to the right URI, whatever mixture of own and inherited nsmaps the objects have.", "quantifier": "all corpora, all nsmap placements", "why_tests_cant": "scoping invariant over arbitrary trees", "anchors": ["xigt/codecs/xigtxml.py:_build_elem"]}
{"id": "C25", "title": "JSON round trip", "statement": "For every corpus meeting the documented structure, xigtjson.decode(xigtjson.encode(xc)) equals xc.", "quantifier": "all corpora", "why_tests_cant": "round trip over unbounded nested data", "anchors": ["xigt/codecs/xigtjson.py"]}
{"id": "C26", "title": "Loading modes deliver the same igts", "statement": "Full, incremental and transient corpora deliver the same igts in the same order; an incremental corpus equals the full one after complete iteration and delivers each igt exactly once over any sequence of partial iterations; a transient one retains nothing.", "quantifier": "all igt sequences, all schedules of partial iterations", "why_tests_cant": "state machine over unbounded schedules", "anchors": ["xigt/model.py:XigtCorpus.__iter__"]}
{"id": "C27", "title": "find() is the first result of findall()", "statement": "xigtpath.find(o, p) is the first element of findall(o, p) when findall succeeds and is non-empty, and None when it is empty.", "quantifier": "all objects and paths", "why_tests_cant": "unbounded path grammar", "anchors": ["xigt/xigtpath.py:find", "xigt/xigtpath.py:findall", "xigt/xigtpath.py:iterfind"]}
{"id": "C28", "title": "'//name' finds all and only the matching descendants in document order", "statement": "findall(o, './/name') lists exactly the object and its descendants (metadata included) with that element name, in document order, each once; a namespace prefix restricts the result to that namespace.", "quantifier": "all corpora, all names", "why_tests_cant": "tree recursion of unbounded depth", "anchors": ["xigt/xigtpath.py:_find_descendant_or_self", "xigt/xigtpath.py:_find_child"]}
{"id": "C29", "title": "Path steps compose", "statement": "findall(o, 'p/q') is the concatenation of findall(x, 'q') over x in findall(o, 'p'); predicates filter; (a | b) concatenates the alternatives' results per context object.", "quantifier": "all paths of the grammar and all corpora", "why_tests_cant": "compositional semantics over unbounded grammar with a shared mutable token queue", "anchors": ["xigt/xigtpath.py:_step", "xigt/xigtpath.py:_expr", "xigt/xigtpath.py:_disjunction", "xigt/xigtpath.py:_make_predicate_test"]}
{"id": "C30", "title": "Existence predicates work", "statement": "A predicate [path] keeps exactly the objects for which path selects something.", "quantifier": "all corpora and sub-paths", "why_tests_cant": "holds for every object or none", "anchors": ["xigt/xigtpath.py:_make_predicate_test"]}
{"id": "C31", "title": "The path tokenizer loses nothing", "statement": "Tokenizing drops only white space and recognised separators: names containing no special character are returned as one token.", "quantifier": "all path strings", "why_tests_cant": "regex over arbitrary strings", "anchors": ["xigt/xigtpath.py:tokenize", "xigt/xigtpath.py:xp_tokenizer_re"]}
{"id": "C32", "title": "validate reports duplicate ids exactly", "statement": "validate records an id-uniqueness error on an element exactly when an earlier element at the same scope has the same id.", "quantifier": "all corpora", "why_tests_cant": "holds for any number and position of duplicates", "anchors": ["xigt/scripts/xigt_validate.py:id_is_unique", "xigt/scripts/xigt_validate.py:validate_igt", "xigt/scripts/xigt_validate.py:validate_corpus"]}
{"id": "C33", "title": "validate's verdict reflects the records", "statement": "After filtering at a minimum level, a report counts as empty exactly when no record at that level or above occurs anywhere in the report tree; exit status 0 means every file was checked and is clean.", "quantifier": "all report trees, levels, file lists", "why_tests_cant": "unbounded nesting", "anchors": ["xigt/scripts/xigt_validate.py:filter_empty_reports", "xigt/scripts/xigt_validate.py:report_is_empty", "xigt/scripts/xigt_validate.py:run"]}
{"id": "C34", "title": "validate finds broken references", "statement": "validate reports an item whose reference names an id missing from the referred tier, and a tier whose reference names a missing tier, and overlapping spans.", "quantifier": "all corpora and expressions", "why_tests_cant": "must hold for every structure", "anchors": ["xigt/scripts/xigt_validate.py:algnexpr_ids_in_referred_tier", "xigt/scripts/xigt_validate.py:reference_id_in_igt", "xigt/scripts/xigt_validate.py:algnexpr_spans_do_not_overlap"]}
{"id": "C35", "title": "partition neither loses nor duplicates igts", "statement": "Every igt of every input file ends up in exactly one output file, the one of its key, in input order.", "quantifier": "all input collections and key functions", "why_tests_cant": "unbounded collections; key collisions", "anchors": ["xigt/scripts/xigt_partition.py:run", "xigt/scripts/xigt_partition.py:index", "xigt/scripts/xigt_partition.py:write", "xigt/scripts/xigt_partition.py:normalize_key"]}
{"id": "C36", "title": "sort keys are comparable", "statement": "The natural-order keys that xigt sort builds for any two objects can always be compared (no TypeError), and order embedded numbers numerically.", "quantifier": "all key strings", "why_tests_cant": "all pairs of strings", "anchors": ["xigt/scripts/xigt_sort.py:make_sortkey"]}
{"id": "C37", "title": "xigt sort is a stable permutation", "statement": "Sorting igts, tiers or items by key keeps exactly the same members, orders them by key, keeps ties in input order, and does not disturb id lookup.", "quantifier": "all containers and key functions", "why_tests_cant": "unbounded lists", "anchors": ["xigt/scripts/xigt_sort.py:run"]}
{"id": "C38", "title": "LaTeX escaping is character-wise and injective", "statement": "escape maps each special character to its own escape, leaves others alone, never re-escapes its own output, and no two different strings have the same escape.", "quantifier": "all strings", "why_tests_cant": "chain of replacements over arbitrary strings", "anchors": ["xigt/exporters/latex.py:escape"]}
{"id": "C39", "title": "LaTeX alignment table keeps every item", "statement": "The column table built for aligned tiers contains every item of every tier exactly once, in its tier's row, in order, and all columns have equal depth.", "quantifier": "all tier stacks with ordered alignments", "why_tests_cant": "iterative table surgery over unbounded tiers", "anchors": ["xigt/exporters/latex.py:group_alignments", "xigt/exporters/latex.py:align_tier", "xigt/exporters/latex.py:merge_columns"]}
{"id": "C40", "title": "ODIN import emits only XML-legal characters", "statement": "replace_invalid_xml_chars leaves legal characters alone, replaces each illegal one, keeps the length, and is idempotent.", "quantifier": "all strings", "why_tests_cant": "all code points and lengths", "anchors": ["xigt/importers/odin.py:replace_invalid_xml_chars", "xigt/importers/odin.py:invalid_char_re"]}
{"id": "C41", "title": "ODIN raw tier mirrors the lines", "statement": "The raw tier has one item per line, in order, with ids r1, r2, ... all distinct.", "quantifier": "all blocks with any number of lines", "why_tests_cant": "unbounded number of lines", "anchors": ["xigt/importers/odin.py:make_igt_raw_tier"]}
{"id": "C42", "title": "Toolbox respacing preserves columns", "statement": "Decoding a line keeps every token at the character column equal to its byte column, and the line length in characters equals its length in bytes.", "quantifier": "all byte lines and any encoding whose decoding never lengthens a token", "why_tests_cant": "all byte strings", "anchors": ["xigt/importers/toolbox.py:_respace_decode"]}
{"id": "C43", "title": "Toolbox word segmentation selects the word", "statement": "For the words tier built over the generated phrase tier, each word item's segmentation expression resolves to exactly that word.", "quantifier": "all token lists", "why_tests_cant": "arithmetic over all token lengths", "anchors": ["xigt/importers/toolbox.py:make_tier", "xigt/importers/toolbox.py:align_word", "xigt/importers/toolbox.py:make_phrase_tier"]}
{"id": "C44", "title": "Toolbox morpheme spans stay within the word", "statement": "align_word for morphemes returns 0 <= beg <= end <= length of the target word.", "quantifier": "all words and morpheme lists", "why_tests_cant": "loop over unbounded lists", "anchors": ["xigt/importers/toolbox.py:align_word"]}
{"id": "C45", "title": "Toolbox tiers number their items", "statement": "make_tier creates one item per source token, in order, with ids tier1, tier2, ... all distinct, keeping the token text.", "quantifier": "all aligned token lists", "why_tests_cant": "unbounded lists", "anchors": ["xigt/importers/toolbox.py:make_tier"]}
{"id": "C46", "title": "get_meta finds the nearest metadata", "statement": "get_meta(key) returns, in order, all matching Meta of the object's xigt-meta Metadata if any; otherwise those of the nearest ancestor that has any; otherwise the default.", "quantifier": "all parent chains and metadata", "why_tests_cant": "recursion along chains", "anchors": ["xigt/metadata.py:XigtMetadataMixin.get_meta"]}
{"id": "C47", "title": "tally counts every match once", "statement": "The counts printed by xigt query --tally add up to the number of matches, each group once, in descending order.", "quantifier": "all match lists", "why_tests_cant": "unbounded lists", "anchors": ["xigt/scripts/xigt_query.py:tally_pattern"]}
{"id": "C48", "title": "segmentation excludes alignment and content", "statement": "No Tier or Item can be constructed through its reference arguments with a segmentation together with a content or alignment; otherwise the attributes read back as given.", "quantifier": "all argument combinations", "why_tests_cant": "all strings", "anchors": ["xigt/mixins.py:XigtReferenceAttributeMixin"]}
{"id": "C49", "title": "select() is an exact filter", "statement": "container.select(**criteria) yields exactly the members matching all criteria, in order, with a namespace prefix replaced by its URI when mapped.", "quantifier": "all containers and criteria", "why_tests_cant": "unbounded containers", "anchors": ["xigt/mixins.py:XigtContainerMixin.select"]}
{"id": "C50", "title": "dereference follows the first id", "statement": "dereference(o, ra) is the object named by the first id of o's ra attribute and dereference_all the objects named by all ids in order.", "quantifier": "all objects and expressions", "why_tests_cant": "unbounded expressions", "anchors": ["xigt/ref.py:dereference", "xigt/ref.py:dereference_all"]}
{"id": "C51", "title": "Loading rejects duplicate and malformed ids", "statement": "Whatever document the XML or JSON codec accepts, in the corpus it returns the ids of the members of each container (igts, tiers, items, metadata, metas) are distinct and begin with an ASCII letter, and MetaChild names begin with a letter or underscore.", "quantifier": "all parsed documents", "why_tests_cant": "unbounded documents, at every level of nesting", "anchors": ["xigt/codecs/xigtxml.py:default_decode", "xigt/codecs/xigtjson.py:decode", "xigt/mixins.py:XigtContainerMixin._create_id_mapping", "xigt/ref.py:id_re"]}
{"id": "C52", "title": "White space in paths is insignificant", "statement": "Writing a path with white space before, between or behind its tokens does not change what findall() returns; white space directly before '@' or before a string literal with special characters does change it.", "quantifier": "all paths of the grammar, all placements of white space, all objects", "why_tests_cant": "unbounded grammar and placements", "anchors": ["xigt/xigtpath.py:tokenize", "xigt/xigtpath.py:iterfind"]}
{"id": "C53", "title": "referent() and referrer() follow exactly the references", "statement": "In an igt with distinct ids, the path step referent(\"a\") selects the objects whose ids the attribute a mentions, in order (None where there is none), and referrer(\"a\") selects exactly the tiers (of a tier) or items (of an item) whose attribute a mentions it, in document order; without argument the attributes alignment, content and segmentation are taken in turn; several arguments are all heeded.", "quantifier": "all igts with distinct ids, all tiers and items with an id, all attribute names", "why_tests_cant": "unbounded reference graphs", "anchors": ["xigt/xigtpath.py:_find_referent", "xigt/xigtpath.py:_find_referrer", "xigt/xigtpath.py:_function", "xigt/ref.py:referents", "xigt/ref.py:referrers"]}
{"id": "C54", "title": "What the ODIN importer writes can be read", "statement": "The file that the ODIN importer writes loads again, with one igt per block in order, each with the lines of its block.", "quantifier": "all sequences of blocks, all options", "why_tests_cant": "all texts, attributes and ids the blocks may hold", "anchors": ["xigt/importers/odin.py:_xigt_import", "xigt/importers/odin.py:odin_igts", "xigt/codecs/xigtxml.py:dump", "xigt/codecs/xigtxml.py:load"]}
{"id": "C55", "title": "ODIN import records language and headers", "statement": "Every imported igt carries exactly one metadata with the stripped language code (und if unknown) and name, and the header lines exactly if they are to be kept, with distinct meta ids.", "quantifier": "all blocks and options", "why_tests_cant": "all combinations of missing keys and options", "anchors": ["xigt/importers/odin.py:make_igt_metadata"]}
{"id": "C56", "title": "Toolbox morpheme segmentation follows the documented rules", "statement": "A morpheme item of an imported record refers to the part of its word that xigt/importers/readme.txt promises: one morpheme gets the full word; morphemes that spell the word get adjacent parts, with the hyphens of the word left out, so that resolving the reference gives the morpheme; after the first that does not match, all get the remainder, marked imprecise.", "quantifier": "all words and lists of morphemes", "why_tests_cant": "all words, marks and hyphens", "anchors": ["xigt/importers/toolbox.py:align_word", "xigt/importers/toolbox.py:make_tier", "xigt/importers/readme.txt"]}
{"id": "C57", "title": "Toolbox import keeps the good records", "statement": "The igts are those of the records that have the primary key and whose tiers can be made, in order, with ids and attributes from the markers; a record that cannot be imported is left out and does not stop the import.", "quantifier": "all sequences of records, all options", "why_tests_cant": "all combinations of bad records", "anchors": ["xigt/importers/toolbox.py:toolbox_igts", "xigt/importers/toolbox.py:make_igt"]}
{"id": "C58", "title": "References of imported Toolbox tiers lead to items", "statement": "If an imported tier refers to another, that tier comes before it in the igt, and the reference of each of its items names an item of that tier, whole or a part of it.", "quantifier": "all aligned records, all options", "why_tests_cant": "all records and all tier maps", "anchors": ["xigt/importers/toolbox.py:make_all_tiers", "xigt/importers/toolbox.py:make_tier"]}
{"id": "C59", "title": "itsdb export numbers the rows", "statement": "The [incr tsdb()] export gives one row per igt, in order, with i-id = start + position * skip (0 and 10 by default) and one entry per configured cell.", "quantifier": "all corpora and configurations whose cells are not named i-id", "why_tests_cant": "all corpora, starts and skips", "anchors": ["xigt/exporters/itsdb.py:export_corpus", "xigt/exporters/itsdb.py:export_igt"]}
{"id": "C60", "title": "itsdb cells hold the value of their expression", "statement": "Each cell of an exported row holds the value of the expression configured for it, for the igt of the row, and a configuration can be used for more than one export.", "quantifier": "all configurations, corpora and evaluations of expressions", "why_tests_cant": "all lists of cells; depends on when variables are bound", "anchors": ["xigt/exporters/itsdb.py:prepare_config", "xigt/exporters/itsdb.py:export_igt"]}
{"id": "C61", "title": "itsdb input is the sentence", "statement": "With the default configuration i-input is a string: the first phrase if there is one, otherwise the words with a space between.", "quantifier": "all igts", "why_tests_cant": "all igts", "anchors": ["xigt/exporters/itsdb.py:DEFAULT_CELLS"]}
{"id": "C62", "title": "Saving a loaded file and loading it again changes nothing", "statement": "If loads(s) returns a corpus, dumps of it succeeds, loads of the result returns an equal corpus (same data, same order, same prefixes), and saving that again writes the same file.", "quantifier": "all XML documents that load, all indents", "why_tests_cant": "all documents, including unknown elements, nested and re-bound prefixes, and metadata of any depth", "anchors": ["xigt/codecs/xigtxml.py:default_decode", "xigt/codecs/xigtxml.py:_build_elem", "xigt/codecs/xigtxml.py:ns_iterparse"]}
{"id": "C63", "title": "Loading does not depend on how the file is cut into blocks", "statement": "Loading the same XML document gives the same outcome however many events the incremental parser had read when the metadata of the corpus was decoded; in particular a document that loads from a file loads as an equal corpus from any other stream.", "quantifier": "all XML documents, all amounts of look-ahead", "why_tests_cant": "test documents are smaller than one block of the parser, so everything is read before the first event is handled; real files are not", "anchors": ["xigt/codecs/xigtxml.py:default_decode", "xigt/codecs/xigtxml.py:iter_elements", "xigt/codecs/xigtxml.py:ns_iterparse", "xigt/codecs/xigtxml.py:decode_metadata"]}
{"id": "C64", "title": "The deprecated reference functions agree with the new ones", "statement": "For expressions in the documented syntax (ids, integer ranges, single '+' and ',') over items that have values, resolve_alignment_expression returns what resolve returns, get_alignment_expression_spans lists every id, span and delimiter in order, get_alignment_expression_ids is ids, and get_aligned_tier returns the tier that resolving the same attribute uses.", "quantifier": "all expressions, all environments of items, all separators", "why_tests_cant": "unbounded expressions over any ids and values; the deprecated functions use other patterns than the new ones", "anchors": ["xigt/ref.py:resolve_alignment_expression", "xigt/ref.py:resolve_alignment", "xigt/ref.py:get_alignment_expression_spans", "xigt/ref.py:get_aligned_tier"]}
{"id": "C65", "title": "Assigning members puts exactly the given ones in their place", "statement": "After x.tiers = v (igts, items, metas, children, metadata alike) the members are what v held before, in that order, every lookup is exact and no other container changes; x.tiers = x.tiers changes nothing, x.tiers += l and x.metadata += l add l at the end; extend adds what its argument held.", "quantifier": "all reachable states, all sources: lists, other containers, selections, the container itself", "why_tests_cant": "the argument is read while the container changes; all aliasing patterns and all member sequences", "anchors": ["xigt/mixins.py:XigtContainerMixin.extend", "xigt/mixins.py:XigtContainerMixin.select", "xigt/model.py:Igt.tiers", "xigt/model.py:XigtCorpus.igts", "xigt/metadata.py:XigtMetadataMixin.metadata"]}
{"id": "C66", "title": "xigt query shows each result with its description", "statement": "Every match of a find, and every count of a tally, unique or count, is printed with the description given for it (or the default one), every {query}, {subquery} and {match} replaced by its value and everything else as written; the counts stand in a right-aligned column after the found matches. With plain fields and brace-free paths only a path that cannot be evaluated stops the run.", "quantifier": "all agendas, all descriptions of text and fields (with attributes, subscripts, conversions, format specs), all results of the paths", "why_tests_cant": "format strings are parsed and rewritten twice; all descriptions and all values, including braces in queries", "anchors": ["xigt/scripts/xigt_query.py:SafeFormatter.vformat", "xigt/scripts/xigt_query.py:make_job", "xigt/scripts/xigt_query.py:process_agenda", "xigt/scripts/xigt_query.py:print_results"]}
{"id": "C67", "title": "xigt validate shows exactly the failing records, where they are", "statement": "The report has one place per corpus, igt, tier and item, with its id and position; its records are exactly the failed conditions in order; for each place a heading is printed if a record at or below it reaches the level, followed by its own records of that level, indented by depth, coloured by level; a run shows this file by file, names the files that cannot be parsed, and is silent exactly if all files load and pass.", "quantifier": "all lists of files, all corpora, all verbosity levels, with and without colour", "why_tests_cant": "all nestings of empty and non-empty reports and all positions of failures at every level", "anchors": ["xigt/scripts/xigt_validate.py:print_report", "xigt/scripts/xigt_validate.py:format_heading", "xigt/scripts/xigt_validate.py:format_message", "xigt/scripts/xigt_validate.py:filter_empty_reports", "xigt/scripts/xigt_validate.py:run", "xigt/scripts/xigt_validate.py:validate_tier"]}
{"id": "C68", "title": "The LaTeX document holds the blocks of the igts in order", "statement": "If nothing is raised the exported file is the preamble, the block of each igt in order followed by a blank line, and the end of the document; an igt that cannot be exported ends the file after the blocks before it; an igt without two tiers of the types asked for is only mentioned in a TeX comment; an igt with two such tiers is exported.", "quantifier": "all corpora, all tier types, all substitutions", "why_tests_cant": "all corpora, all positions of an igt that fails, all ids", "anchors": ["xigt/exporters/latex.py:xigt_export", "xigt/exporters/latex.py:export_corpus", "xigt/exporters/latex.py:export_igt", "xigt/exporters/latex.py:prepare_config"]}
{"id": "C69", "title": "The Toolbox importer hands on the alignments between markers that its options give", "statement": "The alignments handed to the package toolbox map a marker to another exactly if the options align the interlinear tiers they stand for; building them fails, with KeyError, exactly if a tier of such an alignment has no marker.", "quantifier": "all options", "why_tests_cant": "all tier maps, types and alignments, in any order", "anchors": ["xigt/importers/toolbox.py:_make_tb_alignments"]}
{"id": "C70", "title": "What was imported from Toolbox can be written and read again", "statement": "The corpus made of the records of a Toolbox file is written as XML, can be read again in each mode and is then the same corpus up to what XML does not keep.", "quantifier": "all options, all records, any look-ahead of the parser", "why_tests_cant": "all options, all sequences of records, all texts", "anchors": ["xigt/importers/toolbox.py:xigt_import", "xigt/importers/toolbox.py:toolbox_igts", "xigt/importers/toolbox.py:make_igt", "xigt/codecs/xigtxml.py:dump"]}
{"id": "C71", "title": "xigt sort writes the corpus in the order asked for, and nothing else changes", "statement": "What xigt sort writes can be read again and is then the corpus that was read, with igts, tiers and items sorted as the options say; sorting again changes nothing; with one path per level it succeeds; a file sorted in place is never lost.", "quantifier": "all tidy documents, all options, all paths, any look-ahead of the parser", "why_tests_cant": "all documents, all combinations of options and all paths", "anchors": ["xigt/scripts/xigt_sort.py:run", "xigt/scripts/xigt_sort.py:make_sortkey", "xigt/codecs/xigtxml.py:dump", "xigt/xigtpath.py:find"]}
{"id": "C72", "title": "xigt partition writes each igt to the file of its key, and nothing else changes", "statement": "xigt partition creates the directory and one file per key; each can be read again in any mode and holds exactly the igts whose key it is, in input order; no other file changes; it succeeds exactly if the directory can be created, the inputs can be read and have keys, and ids are distinct per key; partitioning the result again gives the same documents.", "quantifier": "all tidy documents, directories and files, all paths and keys, any look-ahead of the parser", "why_tests_cant": "all sets of input files and all keys, including those that name files elsewhere", "anchors": ["xigt/scripts/xigt_partition.py:run", "xigt/scripts/xigt_partition.py:create_outdir", "xigt/scripts/xigt_partition.py:index", "xigt/scripts/xigt_partition.py:write", "xigt/codecs/xigtxml.py:load", "xigt/xigtpath.py:find"]}
{"id": "C73", "title": "Documents, code and schema agree", "statement": "A document that is valid for schema/xigt-structure.rnc can be read if ids are distinct among siblings and metadata has Python names, and what is read is what is written; exactly the corpora whose ids, types and references are as the schema asks are written as valid documents; loading and saving, xigt sort and xigt partition keep validity; the pattern of alignment expressions describes well-formed expressions of xigt/ref.py.", "quantifier": "all documents, all corpora, all alignment expressions", "why_tests_cant": "two independent descriptions of the same set of documents, an infinite one", "anchors": ["schema/xigt-structure.rnc", "xigt/codecs/xigtxml.py:decode", "xigt/codecs/xigtxml.py:encode", "xigt/ref.py:ids", "xigt/scripts/xigt_sort.py:sort_corpus", "xigt/scripts/xigt_partition.py:run"]}
{"id": "C74", "title": "Layout of saved documents", "statement": "With indent=n a corpus is saved as the same elements as without, each child on a line of its own n spaces further in than its parent, text that is not white space left alone; the comparisons of attribute names put namespace declarations first, then id, type, alignment, content, segmentation, then other attributes in code point order, whatever the order of insertion.", "quantifier": "all corpora, all indentations, all elements", "why_tests_cant": "depth and width of documents are unbounded; the order is a property of all pairs of names", "anchors": ["xigt/codecs/xigtxml.py:dump", "xigt/codecs/xigtxml.py:dumps", "xigt/codecs/xigtxml.py:_indent", "xigt/codecs/xigtxml.py:xigt_attrsort", "xigt/codecs/xigtxml.py:_QName"]}
{"id": "C75", "title": "Documents as texts", "statement": "What dumps writes is well formed and loads reads from it the elements that were written, so a corpus with legal names and characters is loaded from its text as the corpus it was (C24 for texts); any text, whatever its quotes, references, CDATA sections, comments and white space, is read as its elements are, and what was loaded is saved as a text that is loaded as the same corpus.", "quantifier": "all corpora, all indentations, all texts", "why_tests_cant": "texts are unbounded; escaping must be right for every character in every position", "anchors": ["xigt/codecs/xigtxml.py:loads", "xigt/codecs/xigtxml.py:dumps", "xigt/codecs/xigtxml.py:ns_iterparse"]}
{"id": "C76", "title": "Corpora as JSON texts", "statement": "What xigtjson.dumps writes, with any indentation, is printable ASCII that json reads as the value written, so loads of it is decode of encode and a corpus of C25 is loaded as it was; the strings of a corpus loaded from any text survive saving; and what a first saving loses is lost once: the corpus loaded from it is saved and loaded without change.", "quantifier": "all JSON values, all corpora, all indentations, all texts", "why_tests_cant": "escaping must be right for every character next to every other; a bug in the pairing of surrogates shows only for some neighbours", "anchors": ["xigt/codecs/xigtjson.py:loads", "xigt/codecs/xigtjson.py:dumps", "xigt/codecs/xigtjson.py:encode", "xigt/codecs/xigtjson.py:decode"]}
{"id": "C77", "title": "Importing ODIN files and directories", "statement": "Importing a directory writes, in whatever order it is listed, exactly one output per visible entry with the suffix, under the same stem with .xml, and changes no other file; if an entry cannot be imported its error is raised, its output is left empty (or untouched if it could not be opened), and every other output is either complete or as it was. A file is imported likewise. What is written for clean blocks is loaded again as the igts of the blocks. Mixed kinds of paths change nothing. An import onto its own input loses the input.", "quantifier": "all disks, paths, suffixes, listing orders and texts, any behaviour of odintxt", "why_tests_cant": "which files are lost when an import fails midway depends on the order in which a directory is listed; tests see one order and one disk", "anchors": ["xigt/importers/odin.py:xigt_import", "xigt/importers/odin.py:_xigt_import", "xigt/importers/odin.py:prepare_outdir"]}
{"id": "C78", "title": "Exporting a document to LaTeX igt by igt", "statement": "A text is loaded as a corpus exactly if it is read igt by igt without error and no two igts have the same id. Equal corpora give equal values and equal LaTeX, so exporting the file a corpus was saved to writes what exporting the corpus in memory writes. A run writes only the output: all of the document, or all but its end if reading fails midway, or the part before the igt that cannot be exported; if the input is missing or cannot be loaded, or the output cannot be opened, nothing is changed.", "quantifier": "all disks, paths, texts, corpora, tier types and substitutions", "why_tests_cant": "what is left in the output when reading fails depends on where in the document the error is; tests read whole valid documents", "anchors": ["xigt/scripts/xigt_export.py:run", "xigt/exporters/latex.py:xigt_export", "xigt/exporters/latex.py:export_corpus", "xigt/codecs/xigtxml.py:iter_elements", "xigt/codecs/xigtxml.py:default_decode"]}
{"id": "C79", "title": "Validating files", "statement": "Equal corpora have the same validation report, so what validation of files writes and its verdict are those of the corpora that were saved to the files. If errors count, a run passes exactly if every file is there and is either not XML or is loaded as a corpus whose report has no record at the level: a document that passes can be loaded. If only critical records count, this is false.", "quantifier": "all disks, lists of paths, texts, levels and corpora", "why_tests_cant": "validation reads in another mode than loading; that both accept the same documents is a statement about all documents", "anchors": ["xigt/scripts/xigt_validate.py:run", "xigt/scripts/xigt_validate.py:validate_corpus", "xigt/codecs/xigtxml.py:default_decode"]}
{"id": "C80", "title": "Which exceptions are raised", "statement": "Each failing situation of the readers, of paths, of reference lookups and of containers raises the exception documented by its name: values without the requested attribute an AttributeError, elements of another name an AssertionError, ids and names that are not accepted a ValueError, unknown ids an XigtLookupError, missing attributes a KeyError, positions out of range an IndexError. Assigning an id or an item with such arguments changes nothing.", "quantifier": "all objects, elements, JSON values, igts, containers, ids and paths of the named shapes", "why_tests_cant": "callers catch KeyError and IndexError by class; a test checks single bad inputs, not that every bad input of a kind raises the class that is caught", "anchors": ["xigt/xigtpath.py:_step", "xigt/xigtpath.py:_find_referent", "xigt/codecs/xigtxml.py:_qname_split", "xigt/codecs/xigtxml.py:default_decode_item", "xigt/codecs/xigtjson.py:decode_metachild", "xigt/mixins.py:XigtContainerMixin.__getitem__", "xigt/mixins.py:XigtAttributeMixin.id", "xigt/ref.py:referents", "xigt/ref.py:dereference"]}
{"id": "C81", "title": "xigt query over files prints what the corpora hold", "statement": "xigt query prints the heading and the results of each file in order; what was printed before an exception stays, and a file that cannot be read still has its heading; descriptions that cannot be formatted raise before a file is read. --count prints the number of results of its path and --find prints each of them. Paths without prefixes and without @* give equal results on equal objects, so saved files give the same output as the corpora in memory.", "quantifier": "all options, queries, files and corpora; all plain paths and equal objects", "why_tests_cant": "equal objects differ in the order of attributes and in prefixes, and every construct of the path language has to be indifferent to them; failing files can come anywhere in the list", "anchors": ["xigt/scripts/xigt_query.py:run", "xigt/scripts/xigt_query.py:make_job", "xigt/scripts/xigt_query.py:process_agenda", "xigt/scripts/xigt_query.py:find_pattern", "xigt/scripts/xigt_query.py:tally_pattern", "xigt/scripts/xigt_query.py:print_results", "xigt/xigtpath.py:findall"]}
{"id": "C82", "title": "xigt sort and xigt partition do to text files what they say", "statement": "Over files of text, xigt sort prints or writes a text that loads as the corpus that was read, sorted as asked, touches no other file, and leaves the file alone if it fails; sorting in place again leaves the text as it is to the letter. xigt partition writes for each key a text that loads as the igts of that key, in order, and nothing else; other files stay; partitioning its output again gives the same texts to the letter.", "quantifier": "all texts, disks, options, keys and paths; well-formed texts without carriage returns where something has to be saved", "why_tests_cant": "the texts combine parsing, decoding, paths, sorting, encoding and layout; that a second run changes no character depends on all of them for every input", "anchors": ["xigt/scripts/xigt_sort.py:run", "xigt/scripts/xigt_partition.py:run", "xigt/scripts/xigt_partition.py:create_outdir", "xigt/scripts/xigt_partition.py:index", "xigt/scripts/xigt_partition.py:write", "xigt/codecs/xigtxml.py:load", "xigt/codecs/xigtxml.py:dump", "xigt/codecs/xigtxml.py:dumps"]}
{"id": "C83", "title": "Importing a Toolbox file writes the igts of its records, and nothing else", "statement": "xigt import takes the bytes of the input line by line, decodes them, and writes to the output, and to no other file, a text that loads as the igts of the records, with the options that are given and the documented defaults for the others. An error leaves the output empty; errors in the options, a missing input or an output that cannot be written change nothing.", "quantifier": "all disks, bytes, decodings, options, record readers and configuration readers; clean records with different keys where the output has to load", "why_tests_cant": "the space of files, options and configurations is infinite, and what is left behind by a failure depends on the order in which files are opened, read and written", "anchors": ["xigt/importers/toolbox.py:xigt_import", "xigt/importers/toolbox.py:toolbox_igts", "xigt/importers/toolbox.py:_make_tb_alignments", "xigt/importers/toolbox.py:_respace_decode", "xigt/scripts/xigt_import.py:run", "xigt/codecs/xigtxml.py:dump"]}
{"id": "C84", "title": "Substitutions of the exporters replace what they say, for the types they say", "statement": "A substitution scans the text once from left to right and replaces each match by what the template or function gives for it; a template stands for its text and groups and is refused if it is bad, match or not; a text for a text is str.replace. Substitutions are done in order, those whose expression matches the type of the tier, on the result of the ones before.", "quantifier": "all texts, types, regular expressions of the engine, templates, functions and lists of substitutions", "why_tests_cant": "expressions, templates and texts are unbounded, and the corner cases (empty matches next to others, adjacent matches, escapes in templates) multiply", "anchors": ["xigt/exporters/util.py:sub"]}
{"id": "C85", "title": "Exporting to [incr tsdb()] makes a profile of the corpus in the file", "statement": "If a Relations file is configured and there, or none is configured and the one of LOGONROOT is there, the profile is made with it of the rows of the igts in the input file, and the rows end with the first error of the input or of a cell. Otherwise nothing is written, whether there is an error or not.", "quantifier": "all files, configurations, environments, cell expressions and profile writers", "why_tests_cant": "corpora, configurations and the places of errors in a file are unbounded", "anchors": ["xigt/exporters/itsdb.py:xigt_export", "xigt/exporters/itsdb.py:prepare_config", "xigt/exporters/itsdb.py:export_corpus", "xigt/scripts/xigt_export.py:run"]}
{"id": "C86", "title": "What is printed of an object identifies it", "statement": "Every object has a printed form that names its class, id (or name), the number of its members or its value, and its address. Objects that are printed the same are the same object, of one class and with one id. Printing never fails.", "quantifier": "all corpora, igts, tiers, items, metadata and addresses", "why_tests_cant": "ids, texts, structures and references are unbounded, and the failures need items that refer", "anchors": ["xigt/model.py:XigtCorpus.__repr__", "xigt/model.py:Igt.__repr__", "xigt/model.py:Tier.__repr__", "xigt/model.py:Item.__repr__", "xigt/metadata.py:Metadata.__repr__", "xigt/metadata.py:Meta.__repr__", "xigt/metadata.py:MetaChild.__repr__"]}
{"id": "C87", "title": "Names are compared by one total order", "statement": "The six comparisons of qualified names, and the three-way one, agree with one strict total order: code point order, or with the sort key the order of attributes. The sides can be swapped, equal names have equal hashes, and a name and its text compare alike. Comparing with anything else does not fail for == and !=.", "quantifier": "all pairs of names, texts and other objects, with and without sort key", "why_tests_cant": "names are unbounded, and agreement of six operators on all pairs cannot be enumerated", "anchors": ["xigt/codecs/xigtxml.py:_QName", "xigt/codecs/xigtxml.py:xigt_attrsort"]}
