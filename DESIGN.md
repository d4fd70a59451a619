# Formal model of Capitains/MyCapytain in Coq

The source under verification is `/repo/MyCapytain` (Python). The model lives in
`rocq/theories`. Nothing in `/repo` is run: the model is a transcription of the
text of the code.

## Method

* Python functions become total Gallina functions, branch by branch. A Python
  exception is a value (`Err e` in the `result` type, one constructor of `exn`
  per exception class), never a partial function.
* Strings are lists of Unicode code points (`list N`); string literals of the
  code are written `#"..."`.
* Mutable objects are records threaded through operations; shared objects
  (collections, citations) live in an explicit heap; histories are lists of
  operations and properties of histories are proved by induction on them.
* Loops are structural recursion or folds. Where recursion is on a data
  structure reached through an index (`passageLoop`) or over an unbounded
  protocol (DTS paging), fuel is explicit and running out is a distinguished
  error that the theorems exclude.
* Libraries outside MyCapytain (lxml, rdflib, requests, `re`) are not verified.
  Where their behaviour matters it is modelled by an explicit definition
  (XPath subset, the three regular expressions, graph as a list of triples), or
  taken as a universally quantified argument of the theorem (server replies,
  word-character predicate, value equality of objectified leaves, graph
  iteration order, filters).
* A claim that the code does not satisfy is recorded as a theorem
  `..._refuted` with a concrete witness evaluated by the kernel, and the
  largest true restriction is proved beside it.

## Layout

| file | content |
|---|---|
| `PyStr.v` | Python `str` operations on code-point lists |
| `*Model.v`, `InvExport.v` | transcription of the code, one file per source area |
| `*Spec.v` | small independent specifications used in statements |
| `*Proofs.v`, `InvTrace.v`, `InvTree.v`, `InvDone.v`, `CopyFence.v`, `CopyDone.v`, `NavMemory.v`, `InvExport{Tree,Doc,Copy,Back}.v`, `Load{Dict,Tree,Enter,Fold,Bridge,Cite,Read,All,Leaf,More}.v` | lemmas |
| `Props_*.v` | the property theorems, nothing else, each with `Print Assumptions` and non-vacuity examples |

## Plan per property

| id | modelled | proof |
|---|---|---|
| C01-C02 | `CtsReference.__new__`, `str.split`, truthiness of `str` and of passage ids | induction on strings, case analysis |
| C03-C05 | `CtsSinglePassageId`, `parent`, `highest`, `depth` | split/join inversion lemmas |
| C06 | `SUBREFERENCE` as a greedy scanner, `int()` of decimal digits; word predicate is an argument | induction on word, decimal round trip |
| C07-C09, C11 | `URN.__parse__`, `__str__`, `upTo`, `__len__`, comparisons | split/join inversion |
| C10 | `URN` as a record with cache, setters as state transitions | induction on histories |
| C12 | `REFERENCE_REPLACER.sub` as a scanner with group and {3,6} semantics; the templates of `re.sub` with their escapes (FillModel) | induction on pattern segments and on the passage |
| C13 | `REFSDECL_SPLITTER`, `REFSDECL_REPLACER`, numbering loop | induction on strings |
| C14-C15 | citations as heap objects with children and root pointers | induction on the scheme, heap invariants |
| C16-C17 | citation trees as rose trees | tree induction |
| C18-C19, C22, C25 | XML trees, XPath subset, `getValidReff` | induction on levels |
| C20-C21 | `passageLoop`, `performXpath`, `copyNode` over trees, element comparison as parameter | fuel induction, refinement to a document-order filter |
| C23-C24 | both `siblingsId` over an arbitrary reference list | list index reasoning |
| C26 | URN building of passages | reuse of URN lemmas, induction over navigation chains |
| C27-C28 | triples as a duplicate-free list in arbitrary order | induction on histories, permutation invariance |
| C29-C33 | collections heap with ordered dictionaries | heap invariants, tree induction |
| C34 | dispatcher with arbitrary filters, that receive the collection and the path | induction on the filter list |
| C35 | `pagination` on integers, for every page number (none, 0, negative, existing, beyond) | `lia`/`nia`, list slicing lemmas |
| C36-C37 | `LocalModel.v`: listing, metadata rebuilt in a new inventory on the store of collections, text lookup | invariant over the texts processed; URN injectivity |
| C38 | `getReffs` on expanded JSON-LD, the server being any function of the request; specification: a chain of pages described by what their JSON says | induction on the chain; endless chains by induction on fuel |
| C39 | the lazily loaded collection as a state machine (dictionary, set, flags, last page, requests sent), the server depending on the requests made before | invariant over histories of accesses: what was received is a prefix of the chain |
| C56 | `DtsCollection.parse` with metadata and nested members, and `HttpResolverDtsCollection.parse`, on expanded JSON-LD | induction on descriptions |
| C57 | `InvModel.v`: `parse` of inventories, textgroups, works and texts as actions on the store of collections, with the citations of texts; objectify's typing of leaves is an argument | every action yields success exactly under its condition and an effect on objects, citations and graph; loops by induction on traces, with frame lemmas for what later elements leave alone |
| C58 | `InvExport.v`: the `Mimetypes.XML.CTS` export of texts, works, textgroups and inventories as a string, rdflib's `compute_qname` being an argument; specification: a reader of XML with namespaces (`XmlReadSpec.v`) and copies of inventories (`InvExportSpec.v`) | the exported string prints a tree and the reader reads every printed tree; what C57 says of that tree is compared with the original |
| C59 | `LoadModel.v`: `CtsCapitainsLocalResolver.parse` and the resolver made without dispatcher: textgroup files, work files, the citations and paths of texts, dispatching; the file system is an argument (metadata documents in the order of glob, a function from paths to texts); specification: dictionaries put together by key (`LoadSpec.v`) | what C57 says of each file; an invariant on the store (inventories, textgroups, works, texts with parents and keys in order) kept by every entering of a textgroup; induction on the files |
| C60 | `ServeModel.v`: `__getText__`, `getTextualNode`, `getSiblings` and `getReffs` of the local resolver, and the citation scheme a TEI document declares; the files are a function from paths to parsed documents (`ServeSpec.v`: which declaration counts and which file a text has) | the path kept by C59 is the expected one; C15 for the declared scheme; then C18 to C25 for the document found |
| C61 | `TextMetaModel.v`: `set_metadata_from_collection` and the getters of texts and passages, `getTextualNode` of the local resolver with the metadata, the reading of labels, requests and passages of endpoint replies, `reffs` of remote texts; a text is its blank node in the graph (`TextMetaSpec.v`: what collections and replies tell, which element of a reply counts) | membership of statements through every loop; C28 for the getters; first elements of document order for the replies |
| C62 | `ApiModel.v`: `getMetadata` of the CTS API resolver after the reply has come (`ApiSpec.v`: what a document lists) | what C57 says of the inventory read, and the descendants of C29 |
| C63 | `CiteTeiModel.v`: the TEI branch of `Citation.export` (`CiteTeiSpec.v`: what an element says, groups and slots); the reader of XML of C58 and the reading of declarations of C60 | the exported string prints a tree; C15 for reading it |
| C64 | `DtsOutModel.v`: `export_base_dts` and the DTS branch of `Collection.__export__`, `literal_to_dict` (rdflib's orders, qualified names and Python values are arguments); `JsonLdSpec.v`: the expansion of JSON-LD for one context of prefixes; `DtsOutSpec.v`: which collections are ready and what is found again | the graph is the statements of the node; grouping keeps the statements up to order; every name the document uses expands to itself; C56 for the reading, C17 for the scheme |
| C65 | `InvExport.v` with `cpt` set: the `Mimetypes.XML.CapiTainS.CTS` export, that is the same elements with `Metadata.__export__` in a `cpt:structured-metadata` element, the order of `predicate_objects` and `compute_qname` being arguments; specification (`InvExportSpec.v`): which statements are carried, which can be written, the object each comes back with | the printed tree of C58 with the metadata elements; C57 for what is read from them |
| C66 | `DtsRefModel.v`: `BaseReference`/`DtsReference`/`DtsReferenceSet` as Python tuples with attributes: making, `==`, `!=`, `in`, copying (`__getnewargs__` of tuples then `__new__`); specification in `Props_DtsRef.v`: a reference as start, end and type | structural decision procedure for `==` shown to be equality of values; membership and set equality from it; types are texts and a reference has no other metadata |
| C67 | `DtsDocModel.v`: `DtsResolverDocument` with what it inherits from `InteractiveTextualNode`; the resolver is an argument whose answers may depend on all calls before, `http_resolver` the instance for an endpoint; documents are positions in a list, a history a list of questions; specification (`DtsDocSpec.v`): a text as list of passages whose headers name neighbours, the journey of a reader, which collection is known | invariant over single questions (calls about the text only, documents kept), composed over histories; the travelling reader by induction on the questions; depth by an invariant of reachable sessions; members of listings are texts |
| C68 | `CopyModel.v`: `loads` makes the objects and graphs of a saved store anew in any later store (pickle, deepcopy; `CollModel.deepcopy` is the instance used by the merge of C33); specification (`CopySpec.v`): the list of all questions (`answers_alike`), and programs that hold some objects, look at what they refer to and do any of thirteen deeds, among them arbitrary changes of graphs | every question is preserved by renaming a part of the store that nothing leaves; independence by an invariant with two sides that no deed connects, extended to what deeds make (also the copies made inside a merge), and induction over programs |
| C69 | `NavModel.v`: remote texts and passages as objects with what they remember, every navigation property, and the calls in order; the endpoint is an argument whose replies may depend on the number of calls before; specification (`NavSpec.v`): contents as lists of references, the endpoints that serve them, in terms of the trails of their documents, and the outcome of each move at each place | simulation: an object fits its place, each move keeps this and answers the expected outcome, composed over histories; walking as an instance; what was told stays, by a relation (known values never change) that every step respects for any endpoint |
| C70 | `FieldModel.v`: the getters and setters of version, type, model, lang, labels, CTS properties and links, and the Dublin Core getters of texts, on the store of `CollModel.v`; specification (`FieldSpec.v`): what a write says and takes back of a place (graph and node), and what stands after a history | the effect of each write on membership in the graphs, then induction on the history; a write that leaves a field alone leaves the enumeration of its values alone |
| C71 | `InvExport.v` (`exported_answer`) and `InvsModel.v`: the exports of collections of inventories, and DTS exports of objects of the store; specification (`InvsSpec.v`): one inventory with copies of the textgroups of all inventories | the store in which the collection is an inventory that has adopted all textgroups exports the same text and is portable, then C58; C64 on the source that an object of the store makes |
| C72 | `AnswerModel.v`: `getMetadata` and `__getTextMetadata__` over stores, with citations and paths; specification (`AnswerSpec.v`): what a text of an answer stands for, what stays | projection to the graph model of C36 for the tree of the answer; an invariant of the rebuilding for what is kept and for the citations; statements by predicate; histories by induction over questions and loadings, with C59 for the loadings |
| C73 | No new model: `load` (LoadModel.v) with the readers of InvModel.v and the merges of CollModel.v; specification (`SaidSpec.v`): what the files say of a URN, which predicates, the language of every URN | every reading step adds to the shared graph what its element says and nothing else, and makes objects of that graph (`SaidLoad.v`); dispatching and merging leaves every statement but the parent links as it was, and gives every copied object a graph with the statements of the old one (`SaidProofs.v`: `settles`); languages by induction over the files; order of the languages of the shelves by induction over the merges |
| C74 | `WalkModel.v`: the objects a session makes, what they remember, every question of texts, passages and simple passages as a step on them; specification (`WalkSpec.v`): where an object stands and what is answered there, in terms of `cites` and document order | every step is a function of the objects without what they remember (`WalkProofs.v`: `does`, `settled`); the answers of an object that stands at a place follow from C18-C23; the tree rebuilt for a passage cites what overlaps with the passage (`WalkWithin.v`), which gives the answers of the passages that `next` and `prev` give; induction over the session; the specification has one answer to every question |
| C75 | `AuditModel.v`: `getValidReff` with `_debug` as a pair of warnings and result, `test`; specification (`AuditSpec.v`): references one of whose prefixes cites two elements, references with an empty last identifier, counted as listed | listing as in C18/C19 for identifiers that may be empty; the set loop by induction; `count_occ` of the list; `test` through the splitter of patterns (C16) and the meaning of steps |
| C76 | `InvPartModel.v`: the default export to a tree, and the `parse` of each class without parent; specification (`InvPartSpec.v`): the same textgroup, work or text without a parent, and what reading it says | the lemmas of C58 and C65 for the printed elements and of C57 for reading them, applied to the element of the part; identifiers are all different, so that what the elements of the part say of an identifier is what its own element says |
| C77 | `CiteLifeModel.v`: citations as objects with attributes, their lists of children as objects of their own, the setters, `add_child`, the constructors, `copy.copy`, pickles; specification (`CiteLifeSpec.v`): programs that hold citations, what it means to answer alike, what hangs below a citation | a fence between what a program can reach and the rest is kept by every step; two worlds that look alike give the same answers by induction on the fuel; a chain longer than the number of citations repeats one, so that reading ends exactly without circles; for shared lists, an invariant on the list objects |
| C78 | `DtsMetaModel.v`: getMetadata, one page of members, and `retrieve`, statement by statement into the graph all collections share, with the replies of an endpoint that may change its mind; size, type, readable, labels, values, citations read back; specification (`DtsMetaSpec.v`): what a reply mentions of which identifier, histories of requests | each statement written is a mention and each mention is written, by induction over the loops; a relation between the worlds before and after an action (what was there stays, what is new was told, other nodes and objects are untouched) is kept by every action and composed over histories |
| C79 | `SessionModel.v`: a process with any number of graphs, the one that is set, metadata, collections and texts made in it, and all their setters and getters, with the blank nodes of rdflib as names never used before; specification (`SessionSpec.v`): deeds, what each says and takes back and where, what stands after a history, the graph set last, which graph a deed concerns | one change of one graph per deed; a step lemma (in the graph after = said, or there before and not taken back) composed over histories; objects stay alike; invariants for blank nodes (every node in a graph or an object was made) and for dts:implements |
| C80 | `CrawlModel.v`: a tree of lazily loaded collections, each with its dictionary, flag and last page, any number of questions asked of any of them, the endpoint depending on all requests made before; specification (`CrawlSpec.v`): a catalogue of pages of members, the ways down it, what each question should be answered | invariant over histories: every object holds a prefix of what the catalogue lists for it, in its order, and all of it once loaded; every request is for a page that the catalogue has of something below the collection; a loaded tree sends nothing, and `len` and `==` are right of it; a cycle gives ways of every length |
| C81 | `TextUrnModel.v`: a heap of URN objects, texts and passages that hold places in it, names of the program, and the deeds that make, assign, change and ask; specification (`TextUrnSpec.v`): told from the trace alone, which deed made the URN object that a place holds, what was done to it since, and how such a URN is written | invariant over histories: objects and the deeds that made them correspond one to one, places hold what the trace says, each object is its first text run through the operations of the trace (up to `str`, which only caches); the specification has one answer after every history; direct theorems for assigning, sharing and refusing |
| C82 | `DtsWriteModel.v`: the dictionaries as objects, which of them the proxy holds and which one has replaced it, on top of the loading of `DtsModel.v`; specification (`DtsWriteSpec.v`): what was written so far, and a dictionary with the members and what was written | a load writes the same members into whatever dictionary it is given, so that the dictionary with the caller's entries is the one without them (for which C39 holds) with the entries put over it; invariant over histories; direct induction over the pages for `set`; for the parents the invariant of C39 with what was added in place of what was known |
| C40, C48-C49 | the request dictionaries of both retrievers, the routes of a DTS retriever and when the entry point is asked, `parse_uri` with urljoin as argument, `urlparse` written out, `parse_qs` with its percent-decoding as argument; replies as lists of links | list reasoning, induction over fields |
| C41-C42 | `normalize` (its regular expression), nested dictionaries as trees with default factories, histories of `nested_set` | induction over strings, paths and histories |
| C43 | `Subgraph.graphiter` with both kinds of marks, depths and the recursion limit; str() of terms and the order of enumeration are arguments | depth-first-search invariant; the extraction is two searches |
| C51 | `Citation.attribute`: search of the reference pattern and `split` on the slot | scanner inversion |
| C52 | `DtsCitation.__eq__` on the object graph built by `ingest` | tree induction |
| C53 | `childIds`, `firstId`, `lastId`, `parent` of local passages | reuse of the C18 lemmas |
| C54 | creation of texts and works, `lang`, siblings, `==` | graph lemmas of C27, case analysis on classes |
| C44 | `Exportable` over an arbitrary class hierarchy; a table of the 45 exportable classes of the library with C3 linearisation, itself stated as a relation in `Props_Mro.v` | induction over the linearisation; computation over the table; the computed order of each class is the only one in the C3 relation |
| C45 | `make_xml_node`, read back by a small XML reader written in the specification | induction over texts and attributes |
| C46 | reference sets | induction |
| C47 | addresses asked by remote texts and passages, XPaths of replies over element trees, sibling cache as a state machine against an arbitrary endpoint | URN lemmas, tree induction, induction on histories |
| C50, C42 (export) | text nodes with the tags above them; the XPath predicate is formatted as in the code and read back by a small reader; the nested dictionary goes through `getReffs` and `getTextualNode` of the passage model | tree induction; a passage is a spine of bare tags above the cited element, so its text nodes have the ancestors they have in the text |
| C55 | `expand_namespace` | induction over the map |

No property is dropped as inexpressible. Concurrency and crash points do not
occur in this code base (it is single-threaded and keeps no persistent state),
so "schedules" reduce to operation histories.

## What local texts are modelled on

* A document is a tree of elements with tag (Clark name), attributes, text and
  tail (`XmlModel.v`). Comments, processing instructions and entities are not
  modelled.
* XPath is modelled for the expressions that citation patterns use: absolute
  paths of child and descendant steps, each with attribute tests
  (`XPathModel.v`). The parser of these expressions is a model of the syntax and
  not of libxml2; anything else is an `XPathEvalError`.
* Theorems about texts take a scheme in structured form (`level`s, see
  `TemplateSpec.v`) and quantify over all of them. `write_scheme` writes the
  patterns that the code then handles as strings, through the modelled regular
  expressions.
* Element comparison is the argument `same`: `identity_only` for documents made
  with `etree`, `objectified eqv` for documents made with `objectify`, where
  leaves compare by the value relation `eqv`, which is arbitrary.
* `objectify.Element` also adds `py:pytype` annotations to the copied nodes.
  These attributes are not modelled.

## Findings

Each is a `..._refuted` theorem, or a theorem about the failing case.

| id | behaviour of the code |
|---|---|
| C08 | What follows the third component of a URN is printed as long as nothing is assigned, but no component and no truncation holds it (`C08_further_components_lost`) |
| C09 | The scheme is not checked, and every truncation begins with `urn:`; it is a prefix of the URN exactly if that begins so too (`C09_scheme`) |
| C10 | For a URN that is not canonical, writing back a component changes what is printed. With the textgroup set to None, `upTo(URN.WORK)` is a TypeError, while `upTo(URN.NO_PASSAGE)` gives a text without it (`C10_history_upto`, `C10_upto_sample`) |
| C12 | A fixed test such as `[@n='1']` is taken for a slot; `$10` is filled as slot 1 followed by 0; filling with a string goes by characters; with `xpath=True` a backslash in the passage is read as an escape of `re.sub`, so that it is changed or raises `re.error` |
| C13 | A dash in a step loses the rest of the step when a refsDecl is read from an xpath |
| C15 | A citation nested by hand keeps its own root; ingesting a refsDecl without cRefPattern raises IndexError |
| C16 | Negative indices are accepted; the declared depth of a citation set can differ from the real one |
| C17 | JSON without a root makes every node a root |
| C18 | An element with an empty identifier is listed as None (excluded by `plain_units`) |
| C19 | Repeated identifiers multiply: two poems 1 with one line 1 each give four times 1.1 |
| C20 | Tails at the cut levels are dropped; a range whose end contains its start raises IndexError; the root element is never compared with the first step of the pattern; patterns that begin with `//` lose their axis (excluded by `rooted`) |
| C21 | With objectified documents an element with the same value as an end of the range replaces it |
| C23, C74 | `p.next.next` fails in every text, because the passage given by `next` has `p` for its text: at the last level with CitationDepthError, above it with ValueError when `p` has children and KeyError otherwise |
| C24 | A window of one reference is written `x-x`, and asking that passage for its siblings raises CitationDepthError; simple passages of ranges name the second reference of the range as next |
| C25 | Level 0 on a text lists `[None]`; a range whose end contains its start has no reference list |
| C26 | A text whose URN has no version cannot be read at all |
| C27 | A predicate named by a plain string in `only` is not exported; the JSON export gives title-cased texts, and none for a value that is no literal; `add` ignores the language given with a literal; the list given as `only` grows with every export, which matters for a later one only where a predicate is the namespace of another (`C27_only_shared`, `C27_only_shared_refuted`) |
| C28 | A label whose value is not a literal raises AttributeError |
| C29 | On a tree deeper than the recursion limit a direct member is found by `[]` while `in` fails |
| C30 | Moving a collection leaves it among the members of its former parent and the graph then states two parents; assigning None raises AttributeError after the parent was cleared; collections with the same identifier share their metadata, and the second is never a member; a cycle makes `parents` endless |
| C31 | Deletion erases the metadata of the container itself, keeps the metadata of what was below the deleted collection, and deleting a collection by its own key leaves the key found |
| C32 | A collection reached through two parents is listed twice |
| C33 | Works merged into a textgroup are deep copies with a graph of their own: statements about them are not seen from the shared graph |
| C35 | Exactly one page after a full last page an empty page is given (`C35_after_full_refuted`); of an empty list every page after the first is page 0 with the count of a full page (`C35_none_refuted`); the page `-k` gives up to a page of the texts before the last `k` pages and counts a full page (`C35_from_end_refuted`). With `C35_first`, `C35_page` and `C35_beyond` every page number is covered. |
| C36 | Metadata of a namespace are never given although its texts are found; asking for the metadata of an edition resets its language in the shared graph to that of the rebuilt work, which has none |
| C37 | A work URN is compared as a string, so an edition of `tg.w10` is given for `tg.w1`; translations and commentaries are not considered; a version URN with a reference finds nothing |
| C38 | A listing of exactly one reference is the pair of its halves, not a set with that reference |
| C38 | The page number is taken from the first `page=` in the next address, also the end of another field name (`perpage=10&page=2` asks for page 10) |
| C38 | An empty reply raises AttributeError (`self.id` in the error message), not PaginationBrowsingError |
| C39 | Both proxies test the parents' flag: after the parents were read, children on later pages are never loaded |
| C39 | An object obtained from `children` before loading repeats the request on every read |
| C39 | The parents of a member, once loaded, hold two objects for the collection it was listed by |
| C39 | Page 1 is asked for without a number: with a server that counts from 0 the loop does not end |
| C56 | `HttpResolverDtsCollection.parse_member` hands its own parameter `metadata_parsed` on to the members of a member and then gives it twice: a reply in which a member lists members raises TypeError, in `getMetadata` and on every page |
| C56 | A Dublin Core or extension field whose value is a resource (`@id`) raises KeyError |
| C57 | The language attribute of an edition is ignored; a second object for a repeated URN has a parent whose member it is not; an empty title or label reads `None`, one without language is lost; a structured `dc:language` makes the language depend on iteration order; a second document changes what is said of the objects of the first |
| C58 | An inventory without a statement in the CTS vocabulary is exported without the CTS namespace, and reading it raises IndexError; texts of no known type are written as `text` and not read; the language of an edition that differs from its work's is lost; a title without language comes back in the language `None`; attribute values (identifiers, languages, labels of citations) are not escaped; a citation level without name comes back with an empty one, double quotes in its pattern as single ones, and a level without pattern loses all levels below |
| C59 | With `RAISE_ON_GENERIC_PARSING_ERROR` off, a file that cannot be parsed still stops the loading, with a TypeError; the pattern of a citation with a single step is lost when the file of the text is read; the texts of a work that has its own file are lost when the textgroup file announces the work; a filter that looks at the path is not asked for a textgroup that some inventory has already, and what it receives is the path of the file, not the directory the docstring promises; textgroups without a place are passed over silently by default |
| C60 | A text described in the textgroup file itself (not in the file of a work) is in the inventory but cannot be read: its path is never set and every question raises a TypeError; a text whose file is missing raises an AttributeError on None |
| C61 | What an endpoint says in any language is kept as English (`node.get("xml:lang")` never finds the attribute lxml keeps in the XML namespace); a citation that is not below the label makes `getLabel` raise TypeError |
| C62 | An identifier the endpoint does not know raises IndexError where the local resolver raises UnknownCollection |
| C63 | Names and patterns are not escaped, so a pattern with double quotes gives no XML; a level without name comes back with an empty one |
| C64 | A missing label is exported as the text None; the prefix of a type is declared only if a statement uses it, so the type of an inventory loses its namespace; an address as value of any exported statement makes the whole document unreadable (KeyError; `C64_readable`: exactly then, `C64_one_link_refuted`: one suffices); of several descriptions and labels one remains, the label without its language; a CTS scheme of one level counts as empty and is left out |
| C65 | The datatype is written as `rdf:type` where the reader looks for `rdf:datatype`, and lost; text like a number or an address comes back as one, a language notwithstanding; a URI that is no address (the name of the inventory as parent of a textgroup) comes back as text; what is said of the inventory itself is written and never read; an edition in another language than its work has both after reading |
| C66 | `!=` is that of tuples and ignores the type: two references can be neither equal nor different. A copy (or a pickle) of a `DtsReference` is a tuple of one pair, without end; so are the members of a deep copy of a set. Members with a type are not found by their text. A set of one reference is made of its halves. Comparing a set with a tuple of the same members or with anything that is no tuple raises AttributeError. |
| C67 | `getReffs` of a document passes no level on; `parent` of a document whose header names no parent (in the way C49 describes) is the whole text; with a single child `last` is None and `children` gives the child and the whole text; a `collection` link that carries a reference is taken for the collection, and `depth` raises AttributeError. |
| C68 | A collection made for a copy (`__init__` takes `get_graph()`) is described in the graph of the process and not in that of the copy: an original with the same identifier gets another type, and `del` on the copy, which cleans the graph of the copy, leaves the statements behind. The copy of a plain `Collection`, which has no `__eq__`, is not equal to it. |
| C69 | If no reply tells siblings, `prevId` and `nextId` are False and not None, so that `prev` and `next` are the passage itself. `parentId` of a passage of the first level is the word None, and `parent` asks the endpoint for a passage of that name. `lastId` of a passage without children raises IndexError where `firstId` is None. `parentId` of a text raises AttributeError, because `NodeId.__init__` is not called. |
| C70 | `get_creator` and `get_title` of a CTS text always raise AttributeError: they call `metadata.get_label`, and `Metadata` has no such method (`Collection` has). Fields belong to the identifier and not to the object: making a second collection with the same identifier sets the type and model of the first back, and its language is shared. A link whose property is the RDF type is a second type. |
| C71 | A textgroup that is in two inventories of a collection is written twice, and only the works of the first are read. `CtsTextInventoryCollection` lists CapiTainS among its exports, and the export gives None. The DTS export of a collection of one inventory is the one of the inventory, without inventories it raises IndexError. |
| C71 | The DTS export of a commentary that says what it is about (`resources/collections/cts.py` line 179) cannot be read by the reader of DTS collections: KeyError (`C71_dts_link_refuted`). |
| C72 | A text without citation is not in any answer; a URN with only such texts below it is unknown. The texts of an answer have the citation and not the path of the text they stand for. |
| C73 | A title given in a later loading to a work that was merged (deep-copied) in an earlier one is in the graph of the process and never in the one the work reads. The labels of a description that was replaced stay with the new one. |
| C74 | A simple passage whose `reference` is assigned goes on with the neighbours it answered before. `getReffs(level)` of a rebuilt passage counts levels from the text, that of a simple passage from the passage. The passage `q` that `next` or `prev` of a rebuilt passage `p` gives holds the right content, but looks for everything else in the tree rebuilt for `p`: above the last level its children are refused with KeyError (`p.next.children`, `p.next.first`), and it reads what contains `p` or lies in `p`, but neither itself nor anything in itself (IndexError). (Nothing is claimed about what is got from `q`.) `parent` of any passage gives a passage without a reference, with the children of the whole text and no neighbours; it holds what the passage holds when that was rebuilt, and the whole text otherwise. |
| C75 | The duplicates are found among the references as they are listed, and an identifier that names two elements multiplies everything below it (C19), so references that name one element are reported as duplicates. The check for empty references looks at the last character of a reference only: a unit without identifier is not noticed at the levels below it, and an identifier that ends in a dot is counted as empty. |
| C76 | `XmlCtsEditionMetadata.parse` does not look at `xml:lang`: an edition gets its language from the work it is put into. Read on its own it has none, and `lang` is the string None; only the structured metadata of the CapiTainS export brings it back. |
| C77 | `copy.copy` of a citation copies the dictionary of attributes only (`_base.py` lines 136-145): the copy has the same list object, and a child added to one shows in the other until children are assigned. |
| C77 | The setter of `children` assigns roots while it looks at the values: when it then raises TypeError, the citations that came before have a root they do not belong to. |
| C77 | `add_child` does not set the root: a citation that was added is its own root, so that `match` looks references up in it alone. |
| C77 | `BaseCitation(children=..., root=r)` assigns the children before the root: the children are told that the new citation is their root, not `r`. |
| C77 | `c[-1]` of a citation (`_base.py` lines 109-126) is always empty: its depth counts the citation itself (lines 299-312), its levels do not. `s[-1]` of a citation set is the last level, as one expects (`C77_last_level`). |
| C77 | `c.child = c` is accepted, and iterating, the depth and the length then end in RecursionError. |
| C78 | `retrieve` (`_resolver.py` lines 175-184) never marks the metadata as parsed: every call sends the request again. |
| C78 | `retrieve` does not check the status of the reply: an error page in JSON-LD is read as the metadata of the collection. |
| C78 | A request that fails leaves what it has read: a page that lists a known collection without `@type` raises KeyError, and the object that the caller already had, of the same identifier, has become of type dts:collection and is no longer readable. |
| C78 | `totalItems` is added and never replaced: when the number at the endpoint changes, both are kept and `size` can remain the old one. |
| C78 | `retrieve` takes the reply to be about the object, whatever `@id` the reply has. |
| C79 | `Metadata.getOr` does not tie the node it makes to the subject: asked again for the same subject and predicate it makes another node, and what was said of the first is not found. |
| C79 | A text made with the metadata of an object of another graph is described in that graph; its own graph only says what it implements. |
| C79 | A parent in another graph is stated in the graph of the child only; the graph of the parent does not mention it. |
| C79 | `set_creator`, `set_title`, `set_subject` and `set_description` add a value: the getters can still give the old one. |
| C79 | Assigning a parent that is not a collection raises AttributeError after the statement was made and the attribute set. |
| C80 | Collections that lead back to themselves are never searched to the end: `descendants`, `readableDescendants` and `in` recurse until Python stops them, `in` even for an identifier that is a member. |
| C80 | A collection that is a member of two others is two objects, listed twice and loaded twice. |
| C80 | When a collection is loaded, its members are replaced: what was loaded of a member that was reached before is lost and requested again. |
| C80 | `len(collection.children)` raises TypeError as long as the children are not loaded: the proxy has no `__len__`. |
| C80 | The children of a member that has not been loaded equal the empty dictionary, whatever members it has: the proxy compares without loading. |
| C80 | A collection that is listed with size 0 is never asked for its members: `in` says False of them and `[]` raises UnknownCollection. |
| C81 | The `id` of a text stays what was given when it was made: assigning another `urn` does not change it. |
| C81 | A text made without URN has the identifier `None` as a word; asked for a passage it requests `None:1.1`, and its `depth` raises AttributeError. |
| C81 | URN objects are not copied: texts made of one URN object, or of `text.urn`, change together when a part of it is assigned, while their identifiers stay. |
| C82 | `children[k] = c` is a TypeError until the members are read, and works after (`C82_assign_refuted`). A member taken out with `pop` comes back if it is on the last page and the object given before is read again (`C82_pop_refuted`). |
| C82 | What is written under the identifier of a member before the members are read is lost when they are; after that, if the object given before is read again and the member is on the last page. |
| C82 | `set` through an object given before, after the members were read, replaces them: the collection has none of them any more and requests none. If the collection was read once more before, it keeps them, and the object is detached: it gives the other dictionary, and what it loads goes into the collection (`C82_detached_refuted`); not if that reading was answered without a document (`C82_no_document_refuted`). A dictionary that was set is itself written into when the members are loaded. |
| C42 | Keys set again later keep their first place, so ungrouped references change order; the nested export of a passage asks for the level `len(citation)` counted from the top, so in a scheme of four levels that of a second-level passage stops at level three, and that of a deepest passage raises CitationDepthError |
| C43 | With three levels or more statements are missed, depending on the order of enumeration; a literal spelled like a resource hides the resource; long chains exceed the recursion limit; the JSON-LD and RDF exports of a collection call `items` on rdflib's namespace manager, which has none, and so always fail |
| C44 | `Metadata.export(XML.RDFa)` and `CtsTextInventoryCollection.export(XML.CapiTainS.CTS)` are announced and return None; `export_capacities` repeats inherited mimetypes |
| C45 | Attribute values are not escaped, so a quote in one makes the node unreadable or adds attributes to it; every line end of a text is read back as one line feed (`C45_line_ends`), so a text comes back as it was exactly if it has no carriage return |
| C40 | A parameter in the route's own address replaces the one given; the host in a route's address is lost (`urlparse(uri).path`), so that routes on another host are asked of the host of the entry point, and so is what follows a semicolon in its last part; level 0 is not combined with the depth of the subreference; a missing level with a subreference is a TypeError |
| C47 | From a passage, a reference object is appended after the passage's own reference; a text asks for the siblings of `:None`; the level does not take account of the subreference while `HttpCtsRetriever.getReffs` does; the resolver asks level -1 as 1; a reply without prevnext makes every access ask again and answer False |
| C48 | A page that is the first field of a link's query is missed, and such a link is a TypeError |
| C49 | The parent and the last passage are read only if there is a link called parent, and then both `up` and `last` must be present |
| C50 | Pieces are joined with a space, so `<hi>A</hi>rma` reads `A rma`; a separator set on a text is not used in its nested export |
| C55 | The prefix is replaced inside the local name too |
| C54 | A text below a work without language is said to be in the language `None`; all inventories compare equal |
| C51 | An attribute name with a digit raises IndexError; a fixed value with a `$` breaks the count of slots |
| C52 | Comparing citations nested by hand exhausts the recursion limit; separately ingested citations are never equal |
| C53 | `parent` of a local passage is the passage itself |

## Trusted base

* Coq 8.16.1's kernel, including its virtual machine: `vm_compute` is used in
  examples and in refutations by a witness. No native compilation, no plugin
  written for this development, no kernel check switched off.
* Axioms: none. `Print Assumptions` answers "Closed under the global context"
  for every theorem of the `Props_*.v` files; the command stands below each of
  them. Files that load mathcomp-style rewriting load Coq's `ssrunder`, whose
  module type is the only thing a checker over the whole library context
  reports: `Coq.ssr.ssrunder.Under_rel.{Under_rel, Under_relE,
  Under_rel_from_rel, Over_rel, over_rel, over_rel_done, under_rel_done}`. They
  belong to the standard library; no theorem here depends on them.
* The transcription. That the definitions of the `*Model.v` files do what the
  Python text does is checked by reading only; each carries the lines it
  transcribes. Python's own semantics (dictionary order, truthiness, `%`
  formatting, slices, attribute lookup along the MRO) enters through those
  definitions.
* The library models: `re` for the three patterns of the code (`PyRe.v`,
  `CiteModel.v`, `FillModel.v`, `UtilModel.v`), lxml trees and the XPath subset (`XmlModel.v`,
  `XPathModel.v`), rdflib graphs as duplicate-free lists with arbitrary
  enumeration order (`MetaModel.v`), JSON values (`Json.v`), URL joining and
  query strings (`HttpModel.v`), XML readers in `UtilSpec.v` and `XmlReadSpec.v`, the expansion of JSON-LD (`JsonLdSpec.v`). Everything else
  that comes from outside (server replies, word characters, objectify's value
  comparison, XSLT, `str.title`, page contents) is a universally quantified
  argument of the theorems.

### Modelled and not modelled, file by file

| file of /repo/MyCapytain | modelled in | left out |
|---|---|---|
| common/base.py | UtilModel, ExportModel | nothing |
| common/constants.py | SessionModel (`set_graph`, `get_graph`, `bind_graph`); the tables used, where they are used | the prefixes graphs are bound to; pickling hooks of the graph |
| common/metadata.py | MetaModel, GraphModel, InvExport (lines 214-226), CopyModel (pickling), SessionModel (`getOr`, several graphs) | the serializations of rdflib (lines 204-212) |
| common/reference/_base.py | RefModel, SchemeModel, TreeModel, DtsModel, DtsRefModel, CiteLifeModel | docstrings only |
| common/reference/_capitains_cts.py | RefModel, UrnModel, CiteModel, FillModel, SchemeModel, TreeModel, InvExport, CiteTeiModel, CiteLifeModel | nothing |
| common/reference/_dts_1.py | TreeModel, DtsModel, DtsRefModel | `__repr__`, hashing (there is none) |
| common/utils/* | UtilModel, GraphModel, HttpModel, XmlModel, XPathModel | `xmlparser` on files and addresses |
| errors.py | the `exn` type of PyStr | messages |
| resolvers/cts/api.py, resolvers/dts/api_v1.py | RemoteModel, ApiModel, DtsModel | nothing |
| resolvers/cts/local.py | LocalModel, LoadModel, ServeModel, AnswerModel | `glob` and `xmlparser` (their results are arguments), logging |
| resolvers/prototypes.py, retrievers/prototypes.py | abstract methods: nothing to model | all |
| resolvers/utils.py | LocalModel | logging |
| resources/collections/cts.py | InvModel, ServeModel (`path`) | `xmlparser` |
| resources/collections/dts/* | DtsModel (members and pages), CrawlModel (members that load their own members), DtsMetaModel (the metadata they share, `retrieve`), DtsWriteModel (`update`, `set`, item assignment and `pop` by callers; `update` and `add` on the parents) | of `PaginatedProxy`: comparison with a non-empty dictionary, `set` on the parents and taking parents out |
| resources/prototypes/metadata.py | MetaModel, CollModel, CrawlModel (on collections of an HTTP resolver), GraphModel, DtsOutModel, CopyModel, FieldModel | the serialisers of rdflib (JSON-LD, RDF/XML) |
| resources/prototypes/cts/inventory.py | CollModel, MetaModel, InvExport, InvPartModel, InvsModel, FieldModel | nothing |
| resources/prototypes/text.py, prototypes/cts/text.py | PassageModel, WalkModel, RemoteModel, ExportModel, TextMetaModel, NavModel, SessionModel, TextUrnModel | `__repr__` |
| resources/texts/base/tei.py | TeiModel, ExportModel | the XSLT run |
| resources/texts/local/capitains/cts.py | PassageModel, AuditModel, WalkModel, XmlModel, TeiModel, ExportModel, ServeModel | nothing else |
| resources/texts/remote/* | RemoteModel, TextMetaModel, NavModel, DtsModel, DtsDocModel | nothing |
| retrievers/cts5.py, retrievers/dts/__init__.py | HttpModel, RemoteModel | the transport |
