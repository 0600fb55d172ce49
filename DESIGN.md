# Design: a Rocq model of xigt/xigt

## Layout

* `rocq/theories/PyStr.v` – Python strings (lists of code points), slices, `int()`, `strip`, dicts, exceptions.
* `rocq/theories/Regex.v` – a backtracking regex engine with Python's ordered-choice semantics (greedy and lazy
  repetition, groups, `^`, `$`), and `findall` / `match` / `search`. The patterns of the repo are written as syntax trees of this
  engine, so what is modelled is the pattern, not a paraphrase of it.
* one model file per source module (`Ref.v`, `Container.v`, `Model.v`, `Query.v`, ...): executable Gallina only.
* `Spec*.v` – small specifications, independent of the model's helpers.
* `*Proofs.v` – lemmas.
* `Prop*.v` – only the property theorems, each closed by `exact`, with `Print Assumptions`.

## Modelling decisions

* A Python `str` is `list N` (code points). Unicode character classes (`\w`, `\s`, `\d`) are concrete for ASCII; for code points
  >= 128 they are an arbitrary table, passed as an argument to every definition, so theorems hold for every Unicode version.
* Exceptions are values (`res A := Ok a | Err e`). Where the code mutates before raising, the new state is returned beside the exception.
* A generator is the list of what it yields together with how it ends (normally, exception, out of fuel = still running).
* Loops and recursions that the code does not bound run on fuel; out-of-fuel is its own outcome (`RecursionError` / still running),
  never a normal-looking value. Termination theorems state that a finite fuel suffices, divergence theorems that none does.
* Dicts are association lists in insertion order with unique keys.
* Object identity is modelled only where it is observable (containers): a heap of addresses.
* If the full property is false of the faithful model, a theorem `..._refuted` gives the witness, and `..._partial` the part that holds.

## Trusted base

* The Coq 8.16.1 kernel (and `vm_compute`, which is part of it, in the examples).
* The reading of the Python code recorded in the comments of the model files; each definition cites its lines.
* The semantics of the Python built-ins as written in `PyStr.v`, `PySort.v` and `Regex.v`, and of ElementTree and expat as written in
  `XmlStd.v` and `XmlText.v` (which C75 shows to agree), and of json as written in `JsonText.v`.
* No axioms are declared and none are used: `Print Assumptions` says "Closed under the global context" for every theorem of every
  `Prop*.v` file (it is printed when the file is built). The only axioms in loaded libraries are those of the standard library
  (`Coq.ssr.ssrunder.Under_rel.*`, loaded with `Lia`); no theorem depends on them.

### What is modelled

| source | model | remarks |
|---|---|---|
| `xigt/ref.py` | `Ref.v`, `Index.v` | all functions |
| `xigt/mixins.py` (`XigtContainerMixin`, attribute, metadata and reference mixins) | `Container.v`, `Live.v`, `Attr.v`, `Index.v` | containers as a heap with identity |
| `xigt/model.py` | `Model.v`, `Value.v`, `SortTiers.v`, `Repr.v` | text handling, values, content, sorting of tiers, printed forms |
| `xigt/metadata.py` | `Model.v`, `Repr.v` | |
| `xigt/ref.py`, deprecated functions | `RefOld.v` | |
| `xigt/query.py` | `Query.v` | generators as lists with an ending |
| `xigt/xigtpath.py` | `Path.v` | all functions; corpora in mode FULL; the indices of an igt are a parameter |
| `xigt/codecs/xigtxml.py` | `Xml.v`, `Iter.v` (loading modes) | from element tree to element tree, `XmlText.v` from text to text, `AttrOrder.v` for the order of attributes, `QName.v` for comparisons of names; CPython's `iterparse` with the C accelerator, how far it reads ahead is a parameter |
| `xigt/codecs/xigtjson.py` | `Json.v` | from JSON value to JSON value, `JsonText.v` from text to text |
| `xigt/scripts/xigt_validate.py` | `Validate.v`, `Report.v`, `ValidateRun.v` | reports, what is printed, exit status |
| `xigt/exporters/latex.py` | `Latex.v`, `ExportRun.v` | all functions; `sub` (in `Substitute.v`) and `str.lower` are parameters |
| `xigt/exporters/util.py` | `Substitute.v` | `sub` and `re.sub`; compiling expressions and evaluating lambdas are parameters |
| `xigt/scripts/xigt_export.py` | `ExportRun.v`, `ItsdbRun.v` | run, to LaTeX and to [incr tsdb()] |
| `xigt/importers/odin.py` | `Odin.v`, `ImportRun.v`, `Files.v` | from the blocks of `odintxt` to the corpus; `str.title` is a parameter; files and directories |
| `xigt/exporters/itsdb.py` | `Itsdb.v`, `ItsdbRun.v` | the rows, the Relations file; the value of a cell expression is a parameter, except for the default one; `make_skeleton` reads the rows in order |
| `xigt/importers/toolbox.py`, `xigt/scripts/xigt_import.py` | `Toolbox.v`, `ToolboxRun.v` (the whole import, from bytes to the output file) | what the module `toolbox` gives for a record (context, data, aligned fields) is the input; `str.lower`, `str.isalpha` are parameters; UTF-8 decoding is modelled |
| `xigt/scripts/xigt_sort.py`, `xigt_partition.py`, `xigt_query.py` | `Scripts.v`, `Format.v` (descriptions and output of query), `Command.v` (sort as a whole), `PartitionRun.v` (partition as a whole), `QueryRun.v` (query over files), `CommandText.v` (sort and partition over text files) | what paths give is a parameter in `Scripts.v` |
| `schema/xigt-structure.rnc` | `Schema.v` | as a predicate on parsed elements; `\w` of XML Schema beyond ASCII is a parameter |

Not modelled: numbers and other constants of JSON (which the codec does not use), document type declarations, encodings, links and permissions of files, command line handling,
logging and warnings, the third-party modules `toolbox`, `odintxt`, `delphin`.

## Plan per property

* **C01** Accepted ids never collide with positions: PyStr.int() model vs id_re match: prefix letter makes int() fail; induction-free case analysis on strip.
* **C02** Accepted ids can be referred to: Full statement is expected to be false (prefix match); refutation witness plus the iff: it holds exactly for full matches.
* **C03** Id index coherent after any history: Heap model of XigtContainerMixin; invariant 'dict is the inverse of the id map of the list'; induction over op list.
* **C04** Failed container operations have no effect: Same model; per-operation frame theorem; refutation for remove and item assignment.
* **C05** Members know their container: Same model; parent invariant for append/insert/extend; refutation for item assignment.
* **C06** Container operations act as list operations on the member sequence: Same model; refinement to list operations defined by firstn/skipn.
* **C07** Equality is an equivalence and != is its negation: Tree model of all classes with the code's ==; equivalence by nested induction; refutation of != (list.__ne__ is inherited).
* **C08** ids() returns the ids of an alignment expression in order: Regex engine on id_re; scanner equivalence; AST of expressions with renderer.
* **C09** selections() loses nothing: Engine soundness (match text = concatenation of groups) for all strings; AST theorem for well-formed ones.
* **C10** expand() and compress() are inverse normal forms: AST-level functions, commutation with render, then algebra.
* **C11** expand() and compress() preserve meaning: Denotation of the AST, expand/compress preserve it.
* **C12** resolve() implements alignment-expression semantics: Regex-level model of resolve vs denotation on AST.
* **C13** Item.value() follows the documented precedence and terminates on acyclic references: Fuelled mutual recursion value/resolve; rank-function termination theorem; self-reference diverges.
* **C14** Nested segmentation composes: Slice arithmetic, lifted through Item.value on a chain of segmentation tiers.
* **C15** referrers is the inverse of referents: Membership equivalence over the model of referents/referrers.
* **C16** Cached reference index agrees with direct computation: Model of refresh_indices tables; per-id, per-attribute equality with the scan; refuted where the code differs.
* **C17** Igt item lookup is exact after refresh: get_item as a fold; exactness after construction; staleness refutation after removal.
* **C18** ancestors() yields the reference chain and terminates: Generator with fuel; hop soundness for all fuel; termination under stated id condition; divergence witness.
* **C19** descendants() terminates and is sound and complete over tiers: Worklist with measure; termination; soundness; completeness by reachability.
* **C20** sort_tiers() is a dependency order: Key construction and stable sort; lexicographic key order; contiguity of blocks; the spec determines the order (`SortTiersUnique.v`), hence sorting again is the identity. For shared or missing ids (`SortTiersAny.v`): tiers of one id stay together and are represented by one of them, so that the case of distinct ids applies.
* **C21** sort_tiers() terminates: Divergence on cycles (refuted), termination on acyclic; exactly when it returns (`SortTiersUnique.v`).
* **C22** get_attribute resolves prefixes and inherits: Chain of objects; refuted for namespace argument with inheritance.
* **C23** XML round trip: Raw element tree with prefixes and xmlns attributes -> namespace resolution (as expat does) -> decode; nested induction.
* **C24** XML encoding declares every prefix it uses: Scoping invariant over the raw tree.
* **C25** JSON round trip: JSON value tree; nested induction; refuted for prefixed attributes, corpus type, empty text. What is decoded from what was encoded meets the conditions (C25_settles), so a second saving changes nothing; refuted for prefixes that begin with a brace.
* **C26** Loading modes deliver the same igts: State machine for __iter__ with generator or list source.
* **C27** find() is the first result of findall(): Lazy result lists (values then optional exception).
* **C28** '//name' finds all and only the matching descendants in document order: Tree recursion vs document-order spec; refuted for namespace prefixes below the root.
* **C29** Path steps compose: Token-queue evaluator as state-passing; syntax trees and their text (`SpecPath.v`), a denotation of the trees, then the laws; refuted for leading and nested groups, nested predicates, superfluous brackets.
* **C30** Existence predicates work: Refuted: any(bool(..)) raises TypeError.
* **C31** The path tokenizer loses nothing: Regex engine on the tokenizer pattern; refuted for names starting with function names.
* **C32** validate reports duplicate ids exactly: Counter model; index-wise characterisation.
* **C33** validate's verdict reflects the records: Report tree induction; refuted for unloadable files.
* **C34** validate finds broken references: Regex-level model of the condition functions; refuted for overlap and empty tiers.
* **C35** partition neither loses nor duplicates igts: Finite map of keys to indices; multiset preservation; refuted by key collision after normalisation.
* **C36** sort keys are comparable: re.split model; position-wise type alternation; refuted for several sort keys.
* **C37** xigt sort is a stable permutation: Stable sort spec (permutation, sorted, stable).
* **C38** LaTeX escaping is character-wise and injective: Equality with a character-wise map; unique decodability.
* **C39** LaTeX alignment table keeps every item: Trellis as list of list of list; invariants over the agenda loop.
* **C40** ODIN import emits only XML-legal characters: Character class; map; refuted for legal characters beyond the basic plane.
* **C41** ODIN raw tier mirrors the lines: Enumerated ids, decimal printing injective.
* **C42** Toolbox respacing preserves columns: Scanner for \s*\S+\s*, decoder as parameter.
* **C43** Toolbox word segmentation selects the word: Prefix sums; slice of join.
* **C44** Toolbox morpheme spans stay within the word: Loop invariant |prev_toks| <= |tgt|.
* **C45** Toolbox tiers number their items: Counter threading through nested loops.
* **C46** get_meta finds the nearest metadata: Recursion along the chain.
* **C47** tally counts every match once: Counter sum.
* **C48** segmentation excludes alignment and content: Case analysis over arguments.
* **C49** select() is an exact filter: filter spec.
* **C50** dereference follows the first id: Direct from ids.
* **C51** Loading accepts only well-formed corpora: every successful XML or JSON load gives accepted ids, unique per container; induction over the decoders.
* **C52** White space in paths is insignificant: token lists with gaps (`spaced` in `SpecPath.v`); scanning by cases on the kind of token; refuted before `@` and before literals with special characters.
* **C53** referent() and referrer() follow exactly the references: the C15/C16 lemmas on the indices, carried through the path step; refuted for several arguments.
* **C54** What the ODIN importer writes can be read: the C23 theorem applied to the corpus made of the blocks; refuted for illegal characters in headers and attributes, carriage returns and repeated ids.
* **C55** ODIN import records language and headers: case analysis over the options and the missing keys.
* **C56** Toolbox morpheme segmentation follows the documented rules: for morphemes without hyphens the segments tile the word (induction over the morphemes already matched) and resolving gives the morpheme; first failure; refuted for hyphens, by the documentation's own example, and for one morpheme.
* **C57** Toolbox import keeps the good records: induction over the records; total if keys are acceptable; refuted for keys that begin with a letter outside ASCII.
* **C58** References of imported Toolbox tiers lead to items: invariant over the fields, every tier remembered was made before.
* **C59** itsdb export numbers the rows: induction over the corpus.
* **C60** itsdb cells hold the value of their expression: closures of the comprehension share one variable, so every cell has the last expression; refuted as stated, and for a second export.
* **C61** itsdb input is the sentence: case analysis over the first tiers of a type; refuted where there is a phrase (the item is exported) and where the phrases tier is empty.
* **C62** Saving a loaded file and loading it again changes nothing: whatever the reader delivers satisfies the hypotheses of C23, the prefixes of an element extend those above it, so reading the saved file rebuilds each scope exactly; refuted for default namespaces, xml: elements, and braces in namespaces.
* **C63** Loading does not depend on how the file is cut into blocks: elements as they are seen after some events were taken and some more were read; what is seen grows with the reading; refuted for metadata after the first igt.
* **C64** The deprecated reference functions agree with the new ones: second pair of patterns run on rendered expressions, token by token; both functions reduced to the denotation of C12; refuted for runs of delimiters, items without value, and separators inside brackets.
* **C65** Assigning members puts exactly the given ones in their place: extend as a loop that re-reads the source by position in every round, sources as values; a source apart from the container equals its list (C06), one that reads the container is followed by induction on the rounds; refuted for the container itself, its selections, and for += on metadata, whose getter gives the live container.
* **C66** xigt query shows each result with its description: Format.v models Python's format string grammar (names, conversions, nested specs, escapes), string.Formatter.vformat, str.format, SafeFormatter, the agenda and the output; SpecFormat.v has descriptions as lists of parts, how they are written and what they stand for. The two passes agree with the one-pass meaning by induction over the parts (parse relation for the written form). Attributes, subscripts, !r/!a and format specs of values are a parameter. Refuted: braces in a path, escaped braces in a description, unknown names are refused only when there is a match, an empty agenda.
* **C67** xigt validate shows exactly the failing records, where they are: `Report.v` models the printing as a list of lines (print to stdout, log to stderr, in the order they are written). `places` lists the nodes of a report in preorder; `shown` gives the lines of each independently of filtering; `print_report` after `filter_empty_reports` is proved to give exactly these by induction on the report. The exact records of each level (`exactly P x l`: l is [x] if P, else empty) come from the conditions one by one; those about the references of an item are C34. `ran` says what a list of files shows. Not modelled: interleaving of stdout and stderr on a terminal.
* **C68** The LaTeX document holds the blocks of the igts in order: `Latex.v` models what has been written when `xigt_export` ends, normally or by an exception, as text and exception. `SpecLatexDoc.v` states the document as lines. Proved: the document of an export that ends normally, the text left by one that does not, the comment for an igt without two tiers of the types asked for (a comment if the id has no line feed). Refuted: the comment is a comment for every id accepted; an igt with a tier without id, or whose first tier of the types is empty, stops the export.
* **C69** The Toolbox importer hands on the alignments between markers that its options give: `Toolbox.v` models `_make_tb_alignments` (`tb_alignments`); `SpecToolboxDoc.v` states when a marker stands for a tier and when options align two tiers, as relations on the dicts. Proved: the dict as a relation if no two markers share a tier, when it fails and with what. Refuted: two markers that share a tier, of which one is lost.
* **C70** What was imported from Toolbox can be written and read again: Combines the model of the importer (`Toolbox.v`) with that of the XML codec (`Xml.v`): `ToolboxXml.v` shows that an imported igt meets the conditions of the round trip theorem. Proved if the igts have distinct ids and options and records are made of legal characters. Refuted without: records of two texts with the same number, keys `1` and `igt1`, a control character.
* **C71** xigt sort writes the corpus in the order asked for, and nothing else changes: `Command.v` models the whole run: options, keys found by `Path.v`, `Scripts.sort_corpus`, `Xml.v` before and after. Saving does not depend on the order of igts, tiers and items, so the round trip of C62 carries over to the sorted corpus. Sorting again is the identity if the paths are blind to the order, which is proved by simulation for paths to attributes and metadata, and for paths down from items. Refuted without: igts sorted by their first item while items are sorted too; two paths whose texts have different numbers of runs; a path to objects.
* **C72** xigt partition writes each igt to the file of its key, and nothing else changes: `PartitionRun.v` models the whole run over directories and files: mkdir, reading in mode transient, keys found by `Path.v`, `Scripts.partition`'s index and selection, saving by `Xml.v`. Files are documents by path. The proof combines the index of C35 with the round trip of C62 for a corpus made of igts that were read; the key of an igt does not depend on its corpus (simulation of C71) so the result is a fixed point. Keys without slash cannot touch existing files, if files and directories lie in directories. Refuted: keys that name an input; prefixes that differ between inputs; attributes inherited from the corpus; the path of the help text, which ignores namespaces.
* **C73** Documents, code and schema agree: `Schema.v` is the schema as a predicate on what the parser delivers, with the patterns of XML Schema as inductive regular expressions; `\w` beyond ASCII is a parameter (`XsdWord`). Reading: each decode function returns on a valid element whose ids are distinct, and any result is related to the element by a relation that does not mention the decoder (`corpus_read`); conversely a result shows distinct ids and Python names, and each error is traced to one or the other (`SchemaErrProofs.v`). Writing: `mirrors` (C24) relates the tree of a corpus to what is re-read; it now also says that text after elements is layout only. Expressions: the pattern is inverted constructor by constructor into the abstract syntax of `SpecRef.v`. Sort and partition use C71 and C72. Refuted: ids with `+`, which XML Schema counts among word characters; valid documents with ids twice, names with U+00B7, igts in metadata; text and ids below a meta are lost; igts without id are written.
* **C74** Layout of saved documents: `XmlText.v` has the writer of ElementTree. The specification (`SpecXmlText.v`) lays a tree out recursively by joining the children with line starts; the code sets texts and tails in place. Induction over trees: writing the indented tree is laying out the tree. `AttrOrder.v` has xigt_attrsort and the comparison of tuples, used by ElementTree until Python 3.7; the order is characterised by places, shown total, and sorting with respect to it unique.
* **C75** Documents as texts: `XmlText.v`: the writer with its escapes, and a reader (ends of lines, XML declaration, tokens, references, CDATA, comments, processing instructions, tree builder, namespaces). The reader is run on what the writer writes by induction over trees with a stack of open elements; this replaces the assumption of C24 that writing and reading are inverse up to `reread`. Refuted: carriage returns written as references do not survive saving.
* **C76** Corpora as JSON texts: `JsonText.v`: writer and reader of the json module for strings, arrays and objects. Induction over values with the fuel of the reader bounded by the length of the text; strings by induction with the next character in view, since two escapes may be read as one character. Refuted for the two halves of a character (surrogates), which come back as one.
* **C77** Importing ODIN files and directories: `Files.v`: directories and files as paths with texts; `ImportRun.v`: the run over them, with `odin_blocks` and the listing order as parameters. Induction over the list of entries with the disk generalised; inputs and outputs are apart because directories or suffixes differ, outputs of different entries because the suffix is cut from both. Readability from C54 and C75. Refuted: inputs survive an import onto themselves or, with suffix .xml, into their own directory.
* **C78** Exporting a document to LaTeX igt by igt: `Stream.v`: mode transient as the igts that are given before the first error, and that error; `ExportRun.v`: the run over a disk. `SameProofs.v`: every function of Value.v and Latex.v is a function of what same_igt keeps (group_nat: the table functions commute with maps of cells). Then C75 gives the round trip.
* **C79** Validating files: `ValidateRun.v`: what opening and loading a file gives, over `Stream.v`, and the run of `Report.v` over it. Each condition is a function of what same_igt keeps (C78_same_value for the values). What passes has no repeated igt id (C32), which is all that separates reading igt by igt from loading (C78_load).
* **C80** Which exceptions are raised: No new model: the exceptions of `Path.v`, `Xml.v`, `Json.v`, `Index.v` and `Container.v`. Vocabulary in `SpecErrors.v`; proofs by evaluating the decoders under the hypotheses, paths over `show_tokens` and the equations of `PathFuel.v`.
* **C81** xigt query over files prints what the corpora hold: Model in `QueryRun.v` (run over the disk of `Files.v`, what was printed kept when an exception ends the run), using `Path.v` for paths and `Format.v` for descriptions. Spec in `SpecPathSame.v` (equal values of paths, plain paths) and `SpecQueryRun.v`. The congruence of the evaluator (`PathSameProofs.v`) is proved construct by construct and then by induction on its fuel, with the invariant that no token holds a colon, nor both @ and *; `QueryRunProofs.v` lifts it to tally, unique, count and find. C81_file links the run to C66.
* **C82** xigt sort and xigt partition do to text files what they say: Model in `CommandText.v`: the runs of C71 and C72 over the disk of `Files.v`, reading with `loads` (or igt by igt) and writing with `dumps` of `XmlText.v`. Spec in `SpecCommandText.v` (texts that hold igts, a file replaced). Proof: a text without carriage returns is read as the element it parses to, and what dump built is read from its text as from the element (`TextRunProofs.v`), so that C71 carries over; for partition the loop over the index is proved anew over texts with the facts about the index of C72. C82_modes compares the two ways of reading. Both runs are shown on whole texts in `CommandTextExamples.v`.
* **C83** Importing a Toolbox file writes the igts of its records, and nothing else: Model in `ToolboxRun.v` over the disk of `Files.v`: options with their defaults, lines of bytes, decoding (C42), records of the package `toolbox` as a parameter, igts (C57), `dumps` of `XmlText.v`. Spec in `SpecToolboxRun.v`: an inductive relation for lines, options chosen from what is given and the defaults written out from the documentation. Lines: existence and uniqueness by induction over the bytes. Readability from C70 and `dumps_load`; the disk as in C77. Refuted: records with the same key give an output that cannot be loaded; a file imported onto itself is lost.
* **C84** Substitutions of the exporters replace what they say, for the types they say: Model in `Substitute.v`: templates as CPython's `parse_template` reads them, `Pattern.sub` over `finditer` of `Regex.v`, and `sub`; compiling expressions and evaluating lambdas are parameters. Spec in `SpecSubstitute.v`: scanning as an inductive relation over the match at a position, replacing a text as a relation without regular expressions, how a text is quoted, and what a template says token by token (numbers, octal escapes, names). The equivalence with scanning is by induction on the measure that bounds `finditer`; the rest follows from it. Refuted: that the order does not matter, and that an expression for a type concerns that type only.
* **C85** Exporting to [incr tsdb()] makes a profile of the corpus in the file: Model in `ItsdbRun.v` over the disks of `Files.v` and the streams of `Stream.v`; `make_skeleton`, `json.load` and evaluating cells are parameters. Spec in `SpecItsdbRun.v`: which Relations file is found, and which rows are exported of what could be read, in terms of C59's `export_corpus` on a prefix. Proved by induction on the igts; loaded and saved corpora through C78. Refuted: that a run without error has exported something, and that the default Relations file makes up for a missing one.
* **C86** What is printed of an object identifies it: Model in `Repr.v`, one case per `__repr__`, with the address as a parameter; an item is shown with its value (`Value.v`). Spec in `SpecRepr.v`: class, label and address at fixed places of the text. Unambiguity by splitting the text at its last blanks (digits have none) and at the first closing bracket or semicolon. Refuted: that items can always be shown (those that refer and are in no tier, or refer in a circle), and that any id can be read off.
* **C87** Names are compared by one total order: Model in `QName.v`: the six operators over texts, truth values and tuples, as in Python; the key is that of `AttrOrder.v`. Spec in `SpecQName.v`: the orders of `SpecAttrOrder.v` and `SpecScripts.v`, and what each operator says of an order. By reducing every operator to `<` of tuples, for which trichotomy is proved for C74. Refuted: names with and without sort key can each be before the other; a name with sort key cannot be compared with None even by ==.
