{"id": "C01", "title": "CTS reference parsing is lossless and total up to one hyphen", "statement": "CtsReference(s) for a string s: it is None exactly when s is empty; it raises ValueError exactly when s holds two or more '-'; otherwise str() of the result is s itself, .start is the text before the hyphen, .end is the text after it (None when there is no hyphen), and is_range() holds exactly when s contains a hyphen.", "quantifier": "every string of Unicode code points", "why_tests_cant": "the set of strings is infinite; tests pin a dozen literals", "anchors": ["MyCapytain/common/reference/_capitains_cts.py:CtsReference.__new__", "MyCapytain/common/reference/_capitains_cts.py:CtsReference.__str__", "MyCapytain/common/reference/_base.py:BaseReference"]}
{"id": "C02", "title": "CTS reference equality is string equality and all constructors agree", "statement": "Two references built from strings are equal exactly when the strings are equal; CtsReference(a, b), CtsReference((a, b)) and CtsReference(a + '-' + b) denote the same start, end and string for hyphen-free non-empty a and b; rebuilding a reference from its own tuple (what pickling does) gives an equal reference.", "quantifier": "every pair of strings", "why_tests_cant": "needs injectivity over all strings", "anchors": ["MyCapytain/common/reference/_capitains_cts.py:CtsReference.__new__", "MyCapytain/common/reference/_base.py:BaseReference.__new__"]}
{"id": "C03", "title": "A single passage id decomposes into levels and subreference without loss", "statement": "For a passage id with at most one '@', '.'.join(id.list) followed by id.subreference (if any) is the id; len(id.list) >= 1, and id.depth equals len(id.list) whenever the subreference contains no dot (with a dotted subreference depth is larger than the list: finding).", "quantifier": "every string", "why_tests_cant": "infinite domain; the tests never put a dot behind '@'", "anchors": ["MyCapytain/common/reference/_capitains_cts.py:CtsSinglePassageId"]}
{"id": "C04", "title": "parent climbs exactly one level", "statement": "For a non-range reference whose subreference has no dot, .parent is None exactly at depth 1, and otherwise is the reference whose list is the original list without its last component and whose subreference is unchanged; following parent from a depth-n reference gives None after exactly n steps. For a range with both ends deeper than one level the parent is the range of the two parents, collapsed to a single reference when both are equal and bare; a range with exactly one end at depth 1 has parent None.", "quantifier": "every reference (single or range), every depth", "why_tests_cant": "recursive over unbounded depth", "anchors": ["MyCapytain/common/reference/_capitains_cts.py:CtsReference.parent"]}
{"id": "C05", "title": "highest and depth report the shallowest end", "statement": "highest is the end with fewer levels, the start on ties; depth is the number of levels of highest; for single references both describe the start.", "quantifier": "every reference", "why_tests_cant": "all combinations of depths of both ends", "anchors": ["MyCapytain/common/reference/_capitains_cts.py:CtsReference.highest", "MyCapytain/common/reference/_capitains_cts.py:CtsReference.depth"]}
{"id": "C06", "title": "Word subreference parsing", "statement": "For a word w made of word characters and a decimal counter n, the subreference '@w[n]' has word w and counter n; '@w' has counter 0; '@[n]' has the empty word; str() of the subreference is the original text.", "quantifier": "every word over every Unicode word-character predicate, every natural counter", "why_tests_cant": "infinite words and counters, greedy regular-expression semantics", "anchors": ["MyCapytain/common/reference/_capitains_cts.py:CtsWordReference", "MyCapytain/common/reference/_capitains_cts.py:SUBREFERENCE"]}
{"id": "C07", "title": "URN parsing is lossless and rejects exactly too-short URNs", "statement": "URN(s) raises ValueError exactly when the part of s before '#' has fewer than three ':' separated parts or its fifth part is an invalid reference; otherwise str(URN(s)) is s up to the first '#'.", "quantifier": "every string", "why_tests_cant": "infinite domain", "anchors": ["MyCapytain/common/reference/_capitains_cts.py:URN.__init__", "MyCapytain/common/reference/_capitains_cts.py:URN.__parse__", "MyCapytain/common/reference/_capitains_cts.py:URN.__str__"]}
{"id": "C08", "title": "URN components read back what was written", "statement": "Composing 'urn:' + ns + ':' + cts + [':' + tg ['.' + wk ['.' + vs]]] [':' + ref] from separator-free components and parsing it returns exactly those components, None for the absent ones; len() is 2 + number of present textgroup/work/version components and ignores the reference.", "quantifier": "every tuple of separator-free components", "why_tests_cant": "infinite domain of components", "anchors": ["MyCapytain/common/reference/_capitains_cts.py:URN.__parse__", "MyCapytain/common/reference/_capitains_cts.py:URN.__len__"]}
{"id": "C09", "title": "upTo truncates", "statement": "For a URN with all needed components, upTo(k) is a prefix of str(urn) for NAMESPACE, TEXTGROUP, WORK, VERSION, NO_PASSAGE, PASSAGE_START and PASSAGE; URN(u.upTo(k)) has the components of u up to k and no others, so upTo(k) of it is the same string; asking for an absent component raises KeyError.", "quantifier": "every URN and every constant", "why_tests_cant": "infinite domain of URNs, eight constants each", "anchors": ["MyCapytain/common/reference/_capitains_cts.py:URN.upTo"]}
{"id": "C10", "title": "URN setters keep str() in step with the components for every history", "statement": "After any sequence of component assignments and str() calls, str(urn) is either the originally parsed text (no assignment yet) or the canonical rendering of the current components; reading a component returns the last value assigned to it and assignments to different components do not interfere; for a canonical URN re-assigning the current values leaves str() and equality unchanged. upTo() of every kind is written with the components assigned last; it is a KeyError without the component it ends at, and never a text when a namespace is missing.", "quantifier": "every finite history of setter and str() calls", "why_tests_cant": "caching bug would need a specific interleaving; histories are unbounded", "anchors": ["MyCapytain/common/reference/_capitains_cts.py:URN setters", "MyCapytain/common/reference/_capitains_cts.py:URN.__str__"]}
{"id": "C11", "title": "URN comparison laws", "statement": "== is an equivalence that coincides with equality of the printed URNs; a < b iff b > a, both are strict (irreflexive, transitive) and compare only the number of components.", "quantifier": "every pair and triple of URNs", "why_tests_cant": "algebraic law over all inputs", "anchors": ["MyCapytain/common/reference/_capitains_cts.py:URN.__eq__", "MyCapytain/common/reference/_capitains_cts.py:URN.__lt__", "MyCapytain/common/reference/_capitains_cts.py:URN.__gt__"]}
{"id": "C12", "title": "Filling a citation pattern puts each reference component in its own slot", "statement": "For a refsDecl made of arbitrary '@'-free text interleaved with slots @attr='$k' (or ?, double quotes), fill(list) replaces the i-th slot by @attr='<i-th component>' or by bare @attr when that component is None, changes nothing else, ignores surplus components, and raises StopIteration exactly when there are fewer components than slots; fill(None) empties every slot. fill(passage, xpath=True) does the same with the last step of the pattern, one passage for all its slots, provided that every backslash of the passage is doubled. Finding: a backslash that is not doubled is read as an escape of re.sub, so that the passage is changed or refused.", "quantifier": "every number of slots, every literal text, every list of components", "why_tests_cant": "regular-expression substitution over all patterns", "anchors": ["MyCapytain/common/reference/_capitains_cts.py:Citation.fill", "MyCapytain/common/reference/_capitains_cts.py:_ref_replacer", "MyCapytain/common/reference/_capitains_cts.py:REFERENCE_REPLACER"]}
{"id": "C13", "title": "refsDecl and scope/xpath are two views of the same pattern", "statement": "Setting a citation from scope and xpath numbers the '?' slots $1..$n in order; splitting a refsDecl whose characters are all in the recognised set and whose slots are numbered 1..n in order into scope and xpath and recombining gives the same refsDecl. A character outside the recognised set (such as '-' in [@type='text-part']) is silently lost together with the rest of its step (finding).", "quantifier": "every refsDecl string", "why_tests_cant": "string transformation over all patterns", "anchors": ["MyCapytain/common/reference/_capitains_cts.py:Citation._parseXpathScope", "MyCapytain/common/reference/_capitains_cts.py:Citation._fromScopeXpathToRefsDecl", "MyCapytain/common/reference/_capitains_cts.py:REFSDECL_SPLITTER"]}
{"id": "C14", "title": "A citation scheme is the list of its levels", "statement": "For a scheme built of n nested citations: len() and depth are n, iteration yields the citations from outermost to innermost, citation[i] is the i-th for 0<=i<n, citation[-i] counts from the end, any i>=n raises KeyError; match(ref) on any citation of the scheme is the citation at ref.depth-1 of the whole scheme, whatever citation of the scheme it is called on.", "quantifier": "every scheme depth and index", "why_tests_cant": "unbounded nesting", "anchors": ["MyCapytain/common/reference/_capitains_cts.py:Citation.__len__", "MyCapytain/common/reference/_capitains_cts.py:Citation.__getitem__", "MyCapytain/common/reference/_capitains_cts.py:Citation.match", "MyCapytain/common/reference/_base.py:BaseCitation.__iter__"]}
{"id": "C15", "title": "All citations of an ingested scheme share one root", "statement": "After Citation.ingest of n cRefPattern elements, in deepest-first order, the result is the last one, its descendants are the others in reverse order, and .root of every citation of the scheme is the outermost citation. Schemes assembled by nesting Citation(child=...) more than two levels deep do not have this property: an inner citation's .root is its immediate parent (finding).", "quantifier": "every n and every list of patterns; every construction history", "why_tests_cant": "object-graph invariant over construction histories", "anchors": ["MyCapytain/common/reference/_capitains_cts.py:Citation.ingest", "MyCapytain/common/reference/_base.py:BaseCitationSet.children", "MyCapytain/common/reference/_base.py:BaseCitation.root"]}
{"id": "C16", "title": "Citation trees: iteration, size, depth and levels agree", "statement": "For a citation set over arbitrary citation trees: iteration is the pre-order listing; len() is the number of listed citations; depth is the length of the longest chain; set[k] lists exactly the citations at depth k in document order, the levels partition the iteration, set[-k] is set[depth-k], and too negative an index raises CitationDepthError.", "quantifier": "every finite forest of citations, every integer index", "why_tests_cant": "unbounded trees", "anchors": ["MyCapytain/common/reference/_base.py:BaseCitationSet.__iter__", "MyCapytain/common/reference/_base.py:BaseCitationSet.__len__", "MyCapytain/common/reference/_base.py:BaseCitationSet.depth", "MyCapytain/common/reference/_base.py:BaseCitationSet.__getitem__"]}
{"id": "C17", "title": "DTS citation structure survives export and ingest", "statement": "Ingesting the JSON exported for a DTS citation set gives a set with the same names and nesting, and exporting an ingested structure gives the structure back.", "quantifier": "every finite forest of named citations", "why_tests_cant": "unbounded trees", "anchors": ["MyCapytain/common/reference/_dts_1.py:DtsCitation.ingest", "MyCapytain/common/reference/_dts_1.py:DtsCitationSet.ingest", "MyCapytain/common/reference/_base.py:BaseCitation.__export__"]}
{"id": "C18", "title": "Local getReffs is sound and complete", "statement": "For a local text whose level-k pattern extends its level-(k-1) pattern, getReffs(level=k) (and with a single reference r as subreference) contains a reference exactly when the citation pattern filled with its components selects at least one element of the document (and r is a prefix of it); it raises CitationDepthError exactly when the level exceeds the scheme and KeyError exactly when nothing is found.", "quantifier": "every XML tree, every citation scheme, every level and subreference", "why_tests_cant": "infinite documents and schemes", "anchors": ["MyCapytain/resources/texts/local/capitains/cts.py:_SharedMethods.getReffs", "MyCapytain/resources/texts/local/capitains/cts.py:_SharedMethods.getValidReff"]}
{"id": "C19", "title": "Local getReffs lists references once, in document order", "statement": "If within each citable unit the children's identifiers are distinct, getReffs lists each reference once, in the order in which the elements occur in the document. When an identifier is repeated at level j, deeper levels list every reference below it once per pair of occurrences (finding).", "quantifier": "every XML tree and scheme", "why_tests_cant": "infinite documents", "anchors": ["MyCapytain/resources/texts/local/capitains/cts.py:_SharedMethods.getValidReff"]}
{"id": "C20", "title": "A retrieved passage holds exactly the requested part of the document", "statement": "getTextualNode(ref) for a reference (single or range) whose ends each select one element, start before end: the elements of the returned tree are, in document order and with tag, attributes and nesting kept, exactly the ancestors of the two ends plus every element from the start element to the last descendant of the end element; text is kept for every element strictly inside, never invented. Text following an element (tail) at the cut levels is dropped (finding).", "quantifier": "every XML tree, every pair of element paths, child and descendant steps", "why_tests_cant": "unbounded recursion over documents; every cut position", "anchors": ["MyCapytain/common/utils/xml.py:passageLoop", "MyCapytain/common/utils/xml.py:performXpath", "MyCapytain/common/utils/xml.py:copyNode", "MyCapytain/resources/texts/local/capitains/cts.py:_SharedMethods.getTextualNode"]}
{"id": "C21", "title": "Passages of objectified documents are only right when sibling texts differ", "statement": "With the default (objectified) parser, element comparison is by text value for leaves: range extraction equals the plain-tree extraction when no other leaf at the cut level compares equal to an end of the range, and is wrong in general: two distinct lines with the same text make the passage start early, stop early or repeat (finding).", "quantifier": "every XML tree and value-equality relation", "why_tests_cant": "depends on coincidental equality of texts", "anchors": ["MyCapytain/common/utils/xml.py:passageLoop", "MyCapytain/common/utils/xml.py:xmlparser"]}
{"id": "C22", "title": "Every listed reference can be read", "statement": "Every reference listed by getReffs on a text with distinct sibling identifiers is accepted by getTextualNode in both modes, and the passage contains the element the reference names, with its full content.", "quantifier": "every document and scheme", "why_tests_cant": "cross-function law over all documents", "anchors": ["MyCapytain/resources/texts/local/capitains/cts.py:_SharedMethods.getReffs", "MyCapytain/resources/texts/local/capitains/cts.py:_SharedMethods.getTextualNode", "MyCapytain/resources/texts/local/capitains/cts.py:_SharedMethods._getSimplePassage"]}
{"id": "C23", "title": "prev and next are inverse", "statement": "For a non-range passage of a local text whose references at its level are distinct: nextId of the i-th reference is the (i+1)-th and prevId the (i-1)-th, None exactly at the ends; hence prevId of next is the passage, and following next from the first reference visits all references in order and stops.", "quantifier": "every reference list and position", "why_tests_cant": "unbounded lists; boundary conditions at both ends", "anchors": ["MyCapytain/resources/texts/local/capitains/cts.py:_SimplePassage.siblingsId", "MyCapytain/resources/texts/local/capitains/cts.py:CapitainsCtsPassage.siblingsId"]}
{"id": "C24", "title": "Siblings of a range are the adjacent windows of the same size", "statement": "For a range from position i to position j (i<j) in the level's reference list, prevId covers the min(i, j-i+1) references just before i and nextId the min(j-i+1, n-1-j) references just after j, None when there are none. The simplified passage returns instead the reference after the start, which lies inside the range (finding).", "quantifier": "every reference list, every 0<=i<j<n", "why_tests_cant": "all boundary combinations", "anchors": ["MyCapytain/resources/texts/local/capitains/cts.py:CapitainsCtsPassage.siblingsId", "MyCapytain/resources/texts/local/capitains/cts.py:_SimplePassage.siblingsId"]}
{"id": "C25", "title": "Level arithmetic of getReffs", "statement": "The level used by getReffs is: the requested one for whole texts, at least depth+1 below a single reference, start depth + 1 (level 1) or start depth (level 0) for ranges; it never returns references shallower than the subreference, and the range prefix computation returns the longest common prefix of both ends, except that it raises IndexError when the end is a proper ancestor of the start (finding).", "quantifier": "every level and reference", "why_tests_cant": "arithmetic over all levels and depths", "anchors": ["MyCapytain/resources/texts/local/capitains/cts.py:_SharedMethods.getValidReff"]}
{"id": "C26", "title": "Passage URN is the text URN plus the reference", "statement": "The passage obtained from a text or from another passage of it (any chain of getTextualNode calls) has URN = text URN up to version + ':' + reference; a text whose URN has no version cannot yield passages (KeyError, finding).", "quantifier": "every chain of navigations, every URN", "why_tests_cant": "history of navigations", "anchors": ["MyCapytain/resources/texts/local/capitains/cts.py:_make_passage_kwargs", "MyCapytain/resources/texts/local/capitains/cts.py:_SharedMethods.getTextualNode"]}
{"id": "C27", "title": "Metadata behaves as a multi-valued map over one node", "statement": "After any history of add/set/remove: get(key) returns exactly the values stored under key since the last set or remove, set replaces all previous values, add keeps them, operations on one key or one node never affect another key or node; export with only/exclude returns exactly the matching predicates, also when several exports are given the same list, as long as no predicate is the namespace of another.", "quantifier": "every finite history of operations", "why_tests_cant": "unbounded histories over a shared graph", "anchors": ["MyCapytain/common/metadata.py:Metadata"]}
{"id": "C28", "title": "Language selection of single values", "statement": "get_single(key, lang) returns a value in that language when one exists, otherwise some value of the key, and None exactly when the key has no value, whatever the storage order of the graph.", "quantifier": "every value set, every iteration order of the graph", "why_tests_cant": "result depends on hash ordering", "anchors": ["MyCapytain/common/metadata.py:Metadata.get_single", "MyCapytain/resources/prototypes/metadata.py:Collection.get_label"]}
{"id": "C29", "title": "Collection membership and lookup agree", "statement": "key in collection holds exactly when collection[key] returns; the returned collection has that id; it finds the collection itself, every member and every descendant; UnknownCollection is raised exactly when no object of the tree has the id.", "quantifier": "every collection tree and key", "why_tests_cant": "unbounded trees", "anchors": ["MyCapytain/resources/prototypes/metadata.py:Collection.__getitem__", "MyCapytain/resources/prototypes/metadata.py:Collection.__contains__"]}
{"id": "C30", "title": "Parent and child links under any history", "statement": "After any sequence of creations and parent assignments, a collection whose parent is p is listed among the members of p unless p already had a different member with the same id; parents lists the chain up to the root; the first member registered under an id is never displaced.", "quantifier": "every finite history", "why_tests_cant": "object-graph invariant over histories", "anchors": ["MyCapytain/resources/prototypes/metadata.py:Collection.parent", "MyCapytain/resources/prototypes/metadata.py:Collection._add_member", "MyCapytain/resources/prototypes/metadata.py:Collection.parents"]}
{"id": "C31", "title": "Deleting a member", "statement": "After del collection[key] on a tree with distinct ids, key is no longer found, every collection outside the deleted subtree is still found. The metadata of the container itself is erased by the deletion (finding).", "quantifier": "every tree and key", "why_tests_cant": "unbounded trees", "anchors": ["MyCapytain/resources/prototypes/metadata.py:Collection.__delitem__"]}
{"id": "C32", "title": "Descendants and counts", "statement": "descendants lists every place strictly below once, the members first and then what is below each member in turn, readableDescendants exactly the readable ones among them; len(inventory), len(textgroup) and len(work) count the texts below.", "quantifier": "every collection tree", "why_tests_cant": "unbounded trees", "anchors": ["MyCapytain/resources/prototypes/metadata.py:Collection.descendants", "MyCapytain/resources/prototypes/metadata.py:Collection.readableDescendants", "MyCapytain/resources/prototypes/cts/inventory.py"]}
{"id": "C33", "title": "Merging works and textgroups", "statement": "update(other) keeps every member of both sides, other's member winning on equal ids (works being merged recursively), makes the receiver the parent of every incoming member, leaves the receiver's other members untouched, and raises TypeError / InvalidURN without any change for other types or URNs; merging is idempotent on ids.", "quantifier": "every pair of works/textgroups", "why_tests_cant": "unbounded member sets", "anchors": ["MyCapytain/resources/prototypes/cts/inventory.py:CtsWorkMetadata.update", "MyCapytain/resources/prototypes/cts/inventory.py:CtsTextgroupMetadata.update"]}
{"id": "C34", "title": "Dispatch picks the most recently registered matching inventory", "statement": "dispatch sends a collection to the inventory of the last registered filter that returns True, or to the default one (the first inventory unless named) when none does; exactly one inventory receives it and nothing else changes; a filter that raises passes its error on; an inventory name that is unknown is a KeyError; UndispatchedTextError cannot occur by itself.", "quantifier": "every list of filters and every collection", "why_tests_cant": "filters are arbitrary predicates", "anchors": ["MyCapytain/resolvers/utils.py:CollectionDispatcher"]}
{"id": "C35", "title": "Pagination partitions the result", "statement": "For a limit of 1 to 100 (10 otherwise) and page 1..ceil(n/limit), the slices of the paginated text listing are consecutive, non-empty, full except the last, and concatenate to the full list; the reported page and count are those of the slice; a page whose start lies beyond the list gives the last page. Exactly one page after a full last page an empty page is given, an empty list with page>=2 reports a negative start and a non-zero count, and a negative page slices from the end (findings).", "quantifier": "every page, limit and length", "why_tests_cant": "arithmetic over all integers", "anchors": ["MyCapytain/resolvers/cts/local.py:CtsCapitainsLocalResolver.pagination", "MyCapytain/resolvers/cts/local.py:CtsCapitainsLocalResolver.__getTextMetadata__"]}
{"id": "C36", "title": "Metadata search by URN is exact", "statement": "getMetadata(urn) for a textgroup, work or version URN gives a collection of that kind and identifier which holds exactly the texts with a citation whose URN has the same components up to that level (never those merely sharing a string prefix), in an inventory named after theirs if there is only one; it raises UnknownCollection exactly when none is found, and leaves the existing collections as they were. The listing behind it also filters exactly by language and category. A namespace URN is always unknown, and rebuilding an edition resets its language (findings).", "quantifier": "every library of inventories and URN", "why_tests_cant": "all pairs of URNs, prefix coincidences", "anchors": ["MyCapytain/resolvers/cts/local.py:CtsCapitainsLocalResolver.__getTextMetadata__", "MyCapytain/resolvers/cts/local.py:CtsCapitainsLocalResolver.getMetadata"]}
{"id": "C37", "title": "Text lookup by URN", "statement": "Asking the local resolver for a version URN gives the collection with exactly that identifier or UnknownCollection; asking for a work URN gives the first edition, in the order of the texts, whose URN has the same textgroup and a work beginning with the same characters, or UnknownObjectError; shorter URNs are InvalidURN. So an edition of another work may be given, a work with only translations or commentaries has no text, and a version URN with a reference finds nothing (findings).", "quantifier": "every library of inventories and URN", "why_tests_cant": "prefix coincidences over all inventories", "anchors": ["MyCapytain/resolvers/cts/local.py:CtsCapitainsLocalResolver.__getText__"]}
{"id": "C38", "title": "DTS reference listing follows every page", "statement": "HttpDtsResolver.getReffs returns the members of all pages reached by following the next links from the first, in order and without loss, each with its own type or that of its page; the level and citation are those of the last page. A failed request, an empty reply, a member that is no reference or a next link without a number, after any number of pages, is an error; a chain of next links that never ends makes it endless. With exactly one member in total the result is not a one-element set (finding); the page number is read from the first field whose name ends in page (finding).", "quantifier": "every server (function from page to response) and chain length", "why_tests_cant": "unbounded chain of pages, arbitrary server", "anchors": ["MyCapytain/resolvers/dts/api_v1.py:HttpDtsResolver.getReffs", "MyCapytain/common/reference/_base.py:BaseReferenceSet.__new__"]}
{"id": "C39", "title": "Lazy DTS collections are complete for every access history", "statement": "Reading children of a lazily loaded DTS collection, whose members are listed without members of their own, gives all members over all pages and nothing else, or fails because a request failed, in every history of accesses (by iteration or by key, through the property or an object it gave before, with failed requests in between) that has not loaded the parents; afterwards it does in every history, and sends no further request. Loading the parents gives those of every page and those known before, in every history. Children not loaded before the parents are lost (finding); an object obtained before loading asks again each time (finding); a member lists its collection twice (finding); a server that counts pages from 0 is asked for ever (finding).", "quantifier": "every history of accesses, every server and every pattern of failing requests", "why_tests_cant": "history dependent cache flags", "anchors": ["MyCapytain/resources/collections/dts/_resolver.py:HttpResolverDtsCollection", "MyCapytain/resources/collections/dts/_resolver.py:PaginatedProxy"]}
{"id": "C40", "title": "HTTP requests carry exactly the given parameters", "statement": "The retrievers send every parameter that was given and is neither None nor equal to its default, with its value, nothing else (plus the inventory and the endpoint's own query); the CTS depth and reference parameters are combined as specified. A DTS retriever asks the entry point until it tells the three routes and then never again; each request goes to the path of the route of its kind, with the fields of that route's address. Findings: a field of the route's address replaces the given parameter; the host of a route's address is lost, so that routes on another host are asked of the host of the entry point.", "quantifier": "every parameter assignment", "why_tests_cant": "all subsets of optional parameters", "anchors": ["MyCapytain/retrievers/cts5.py:HttpCtsRetriever", "MyCapytain/retrievers/dts/__init__.py:HttpDtsRetriever", "MyCapytain/common/utils/_http.py:parse_uri"]}
{"id": "C41", "title": "Whitespace normalisation", "statement": "normalize never leaves two adjacent spaces, never removes or reorders a non-space character, leaves strings without double spaces unchanged, and is idempotent.", "quantifier": "every string", "why_tests_cant": "infinite domain", "anchors": ["MyCapytain/common/utils/_generic.py:normalize"]}
{"id": "C42", "title": "Nested dictionaries behave like paths", "statement": "After nested_set(d, path, v), nested_get(d, path) is v, every path that is not a prefix or extension of it is unchanged, for every history of sets; the nested-dict export of a text maps exactly the deepest references to their readable text, in document order; that of a passage stops at a level that depends on its own depth, and fails on the deepest passages (finding).", "quantifier": "every path and history", "why_tests_cant": "unbounded nesting and histories", "anchors": ["MyCapytain/common/utils/_generic.py:nested_get", "MyCapytain/common/utils/_generic.py:nested_set", "MyCapytain/resources/texts/base/tei.py:TeiResource.__export__"]}
{"id": "C43", "title": "Subgraph extraction is reachability", "statement": "With unlimited descendants the extracted graph holds exactly the triples whose subject is reachable from the target, and extraction terminates on cyclic graphs; with a finite depth it is contained in the triples at that distance but may miss some of them because of the visited marks (finding), and a literal spelled like a resource hides that resource (finding).", "quantifier": "every finite graph, every target, every depth", "why_tests_cant": "cyclic graphs and every iteration order", "anchors": ["MyCapytain/common/utils/_graph.py:Subgraph.graphiter"]}
{"id": "C44", "title": "Export dispatch", "statement": "export(mimetype) uses the most derived class that declares the mimetype; NotImplementedError exactly when no class of the hierarchy declares it; export_capacities lists exactly the mimetypes that some class of the hierarchy declares. Every class of the library has a branch for each mimetype it lists, save two (finding).", "quantifier": "every class hierarchy", "why_tests_cant": "all linearised hierarchies", "anchors": ["MyCapytain/common/base.py:Exportable"]}
{"id": "C45", "title": "Exported XML text is escaped", "statement": "Text placed in an exported node contains no raw '<', '>' and its escaping can be undone exactly; attribute values are inserted verbatim, so a quote in one produces ill-formed XML (finding).", "quantifier": "every text and attribute value", "why_tests_cant": "injection arguments over all strings", "anchors": ["MyCapytain/common/utils/xml.py:make_xml_node"]}
{"id": "C46", "title": "Reference sets: membership and position", "statement": "For a set of references, a string s (or reference) is in the set exactly when the reference it spells is, and index returns the first position of it or raises ValueError; negative and out-of-range positions never occur.", "quantifier": "every reference list and string", "why_tests_cant": "infinite domain", "anchors": ["MyCapytain/common/reference/_capitains_cts.py:CtsReferenceSet"]}
{"id": "C47", "title": "Remote CTS navigation builds well-formed URNs", "statement": "From a remote text, the URN requested for a reference is text URN + ':' + reference; previous/next identifiers read from a reply are the last ':' component of the URNs given, None when empty or missing; from a remote passage, asking by CtsReference appends a second reference (finding).", "quantifier": "every URN and reference", "why_tests_cant": "infinite domain", "anchors": ["MyCapytain/resources/texts/remote/cts.py"]}
{"id": "C48", "title": "Pagination links", "statement": "parse_pagination returns the page parameter of the previous and next links; it returns None only when the link is absent. It misses a page parameter that is the first of the query string and fails with TypeError on a link without page (finding).", "quantifier": "every Link header", "why_tests_cant": "infinite domain", "anchors": ["MyCapytain/common/utils/_http.py:parse_pagination"]}
{"id": "C49", "title": "DTS documents expose their navigation links", "statement": "The previous, next identifiers of a remote DTS document are exactly those announced in its Link header. The parent is only exposed when a link 'parent' is present, and then requires 'up' (finding).", "quantifier": "every Link header", "why_tests_cant": "all subsets of links", "anchors": ["MyCapytain/resources/texts/remote/dts/_resolver_v1.py:DtsResolverDocument.parse"]}
{"id": "C50", "title": "Readable text excludes exactly the excluded elements", "statement": "Plain-text export with exclude=[tags] is made of the non-empty text pieces that have no excluded ancestor, all of them, in document order, joined by the separator with runs of spaces reduced to one; with the default separator a word that is partly marked up is broken (finding).", "quantifier": "every XML tree and tag list", "why_tests_cant": "unbounded trees", "anchors": ["MyCapytain/resources/texts/base/tei.py:TeiResource"]}
{"id": "C51", "title": "The reference attribute of a citation is that of its last slot", "statement": "For a refsDecl whose highest-numbered slot $n is the last attribute test of the pattern, with n the number of '$' in it, attribute is the name written in that slot, whatever precedes it. An attribute name with a digit raises IndexError (finding).", "quantifier": "every refsDecl text", "why_tests_cant": "regular-expression search over all strings", "anchors": ["MyCapytain/common/reference/_capitains_cts.py:Citation.attribute"]}
{"id": "C52", "title": "Equality of DTS citations", "statement": "Two DTS citations ingested from JSON are equal exactly when they belong to the same citation set object and have the same names and nesting; in particular citations of two separately ingested sets are never equal. Comparing two equal citations nested by hand with children= never terminates normally: it exhausts the recursion limit (finding).", "quantifier": "every pair of ingested citation trees", "why_tests_cant": "unbounded trees and a cyclic object graph", "anchors": ["MyCapytain/common/reference/_dts_1.py:DtsCitation.__eq__"]}
{"id": "C53", "title": "Children of a passage", "statement": "childIds of a passage read by a single reference lists exactly the references one level below it, in the text, and is empty at the deepest level; firstId and lastId are the ends of that list. The parent property does not give the passage above: it gives the passage itself without its reference (finding).", "quantifier": "every document, scheme and reference", "why_tests_cant": "unbounded trees and schemes", "anchors": ["MyCapytain/resources/texts/local/capitains/cts.py:CapitainsCtsPassage.childIds", "MyCapytain/resources/prototypes/text.py:InteractiveTextualNode"]}
{"id": "C54", "title": "Languages, siblings and equality of CTS collections", "statement": "A text created with a language has it; without one it takes the language its parent has at that moment (the text None when the parent has none, a finding) and creation fails with AttributeError under anything but a work or text. get_translation_in, translations and editions list exactly the translations (in the language asked) and editions of the work, in order. Two collections are equal exactly when they are the same object or have the same class and URN; all inventories are therefore equal (finding).", "quantifier": "every inventory and every parent", "why_tests_cant": "object graph over unbounded inventories", "anchors": ["MyCapytain/resources/prototypes/cts/inventory.py:CtsTextMetadata", "MyCapytain/resources/prototypes/cts/inventory.py:CtsWorkMetadata.get_translation_in", "MyCapytain/resources/prototypes/cts/inventory.py:PrototypeCtsCollection.__eq__"]}
{"id": "C55", "title": "Prefixed names are expanded", "statement": "Expanding a name with a map of prefixes replaces the first prefix of the map that it starts with by its namespace, and leaves a name without a known prefix unchanged. The text of the prefix is replaced wherever else it stands in the name too (finding).", "quantifier": "every map of prefixes and every name", "why_tests_cant": "infinite domain", "anchors": ["MyCapytain/common/utils/_graph.py:expand_namespace"]}
{"id": "C56", "title": "DTS collection descriptions are read as they are written", "statement": "Reading the expanded JSON-LD of a collection gives exactly what it says: identifier, labels, types, citation, number of items, descriptions, Dublin Core and extension statements, and its members with theirs, at every depth; the collections of an HTTP resolver read it in the same way as long as the members list no members, and otherwise raise TypeError (finding). A missing identifier, title, type or item count, in it or in any member, is a KeyError; so is a Dublin Core field that points to a resource (finding).", "quantifier": "every collection description, of any depth and key order", "why_tests_cant": "unbounded nesting, every key order and subset", "anchors": ["MyCapytain/resources/collections/dts/_base.py:DtsCollection.parse", "MyCapytain/resources/collections/dts/_resolver.py:HttpResolverDtsCollection.parse_member", "MyCapytain/common/utils/dts.py:parse_metadata"]}
{"id": "C57", "title": "Reading a CTS inventory builds exactly what the document lists", "statement": "XmlCtsTextInventoryMetadata.parse(document) succeeds exactly when the document has a TextInventory element, every textgroup, work, edition, translation and commentary element in place has a URN that can be read, and every about link names a URN; otherwise an exception is raised. On success the inventory has one textgroup per textgroup element of the document, each with one work per work child, each with its editions, translations and commentaries in this order, every object with its URN, its parent and its class (the first object of a repeated URN is the member); the citation scheme of a text is the chain of first citation children under online/citationMapping; the statements added to the graph are exactly the titles, labels and descriptions that carry a language, the about links, the parent links and the structured metadata with the value and datatype the document gives; existing objects and statements about other nodes do not change; works and texts are in the language the document gives, texts without one in that of the work. The same holds for a textgroup or a work read from a file of its own. Findings: an edition's own language is ignored; a repeated URN leaves an object that has a parent but is not its member; an empty title reads None; a dc:language field with another language makes the language depend on iteration order; documents share one graph.", "quantifier": "every inventory document, of any size and nesting, every store of collections read before, every iteration order of the graph, every typing of leaves by objectify", "why_tests_cant": "tests read one inventory file; documents, previous contents of the process-wide graph and set iteration orders are unbounded", "anchors": ["MyCapytain/resources/collections/cts.py:XmlCtsTextInventoryMetadata.parse", "MyCapytain/resources/collections/cts.py:XmlCtsTextgroupMetadata.parse", "MyCapytain/resources/collections/cts.py:XmlCtsWorkMetadata.parse", "MyCapytain/resources/collections/cts.py:XmlCtsTextMetadata.parse_metadata", "MyCapytain/resources/collections/cts.py:XmlCtsCitation.ingest", "MyCapytain/resources/collections/cts.py:_parse_structured_metadata"]}
{"id": "C58", "title": "Exporting an inventory to CTS XML and reading it back gives it back", "statement": "For an inventory whose texts are editions, translations and commentaries with writable identifiers, titles in a language, and citation patterns of at least two steps, export(Mimetypes.XML.CTS) gives a well-formed document, and parse of it gives an inventory with the same identifier, the same textgroups in the same order, the same works, and the same texts (editions first, then translations, then commentaries), all with the same URN, class, titles, labels, descriptions, about links, language and citation scheme. Reading it into the same process leaves the original as it was. Findings: without any CTS statement the document has no namespace and cannot be read; texts of unknown type and the languages of editions are lost; attribute values are not escaped; titles without language come back in the language None.", "quantifier": "every such inventory, of any size, every iteration order of the graph while writing and while reading, every store read into that does not contradict it", "why_tests_cant": "unbounded inventories and texts with any character; set iteration orders", "anchors": ["MyCapytain/resources/prototypes/cts/inventory.py:PrototypeCtsCollection.__xml_export_generic__", "MyCapytain/resources/prototypes/cts/inventory.py:CtsTextMetadata.__export__", "MyCapytain/common/reference/_capitains_cts.py:Citation.__export__", "MyCapytain/resources/prototypes/metadata.py:Collection.__namespaces_header__", "MyCapytain/resources/collections/cts.py:XmlCtsTextInventoryMetadata.parse"]}
{"id": "C59", "title": "Loading directories shows exactly what their files describe", "statement": "After CtsCapitainsLocalResolver(folders) every text some metadata file describes is found by its URN, with its class, under its work, textgroup and inventory, and no other text is: nothing is lost, repeated or made up. A textgroup an inventory has already is merged there; a new one goes to the inventory the dispatcher chooses: that of the last filter that accepts the URN and the path of the textgroup file. When several files describe a text, the last one counts; textgroups and works are put together. The citation of a text is that of its file in the folder of its work, or the one of the metadata when there is no file, or it cannot be read or has no pattern. Without a dispatcher everything is in one inventory called default. A textgroup without a place is left out, or, with RAISE_ON_UNDISPATCHED, raises UndispatchedTextError after those before it were entered. A textgroup file that cannot be parsed stops the loading before anything is entered. Findings: turning RAISE_ON_GENERIC_PARSING_ERROR off does not skip such files but turns the error into TypeError; one-step citation patterns are lost; a work announced in the textgroup file loses the texts of its own file; the texts of a file are not in the inventory the filters choose for its path when the textgroup is in another inventory already.", "quantifier": "every list of folders and files, of any size, whose URNs fit together; every set of text files; every dispatcher by name; every resolver loaded before; every iteration order of the graph", "why_tests_cant": "tests load two folders; the files, their order and the number of merges are unbounded", "anchors": ["MyCapytain/resolvers/cts/local.py:CtsCapitainsLocalResolver.parse", "MyCapytain/resolvers/cts/local.py:CtsCapitainsLocalResolver.__init__", "MyCapytain/resolvers/cts/local.py:CtsCapitainsLocalResolver._parse_text", "MyCapytain/resolvers/cts/local.py:CtsCapitainsLocalResolver._dispatch", "MyCapytain/resolvers/cts/local.py:CtsCapitainsLocalResolver._dispatch_container", "MyCapytain/resources/prototypes/cts/inventory.py:CtsTextgroupMetadata.update"]}
{"id": "C60", "title": "The local resolver answers from the file of the text", "statement": "After loading folders, getReffs, getTextualNode and getSiblings of a text URN answer from the document that lies in the folder of the last description of the text under the name made of its URN, with the citation scheme its first refsDecl for CTS declares: getReffs lists the references of a level, or those below a listed reference; getTextualNode gives exactly the element a listed reference names (or the stretch of a range, or the whole document), with the URN asked; getSiblings the references before and after in the list. References may be given as objects or as strings. The URN of a work stands for the edition C37 speaks of. A reference to nothing raises IndexError; a document without declaration for CTS raises MissingRefsDecl, one that cannot be parsed its own error. Findings: a text whose file is missing raises AttributeError, and one described in the textgroup file itself can never be read (TypeError).", "quantifier": "every list of folders and documents, of any size; every scheme of patterns; every reference and level", "why_tests_cant": "tests read a few passages of a few files; documents, schemes, references and loading orders are unbounded", "anchors": ["MyCapytain/resolvers/cts/local.py:CtsCapitainsLocalResolver.__getText__", "MyCapytain/resolvers/cts/local.py:CtsCapitainsLocalResolver.getTextualNode", "MyCapytain/resolvers/cts/local.py:CtsCapitainsLocalResolver.getSiblings", "MyCapytain/resolvers/cts/local.py:CtsCapitainsLocalResolver.getReffs", "MyCapytain/resolvers/cts/local.py:CtsCapitainsLocalResolver.parse", "MyCapytain/resources/texts/local/capitains/cts.py:CapitainsCtsText._findCRefPattern"]}
{"id": "C61", "title": "Texts and passages carry the metadata of their collections", "statement": "A passage given by the local resolver knows the group name, titles, labels and descriptions of its textgroup, work and text: get_creator, get_title, get_subject, get_description and get_cts_metadata answer with the value in the language asked if there is one, else with one of the values there are, and with nothing only when there are none; its citation scheme is its own, or that of the collection when it had none. From a CTS endpoint, the label of a text and the request repeated in a reply are told in the same way, the first citation below the label becomes the scheme if there was none, and reffs lists the references of every level of that scheme in turn, each in the order of the replies. A text without work or textgroup raises ValueError. Findings: the language an endpoint declares is lost, everything is kept as English; a citation elsewhere in the reply makes the reading of the label a TypeError.", "quantifier": "every inventory, passage, language, iteration order of the graph and reply document", "why_tests_cant": "unbounded inventories and replies; the answers depend on set iteration orders", "anchors": ["MyCapytain/resources/prototypes/cts/text.py:PrototypeCtsNode.set_metadata_from_collection", "MyCapytain/resources/prototypes/text.py:TextualNode", "MyCapytain/resources/texts/remote/cts.py:_SharedMethod.getLabel", "MyCapytain/resources/texts/remote/cts.py:CtsText.reffs", "MyCapytain/resolvers/cts/local.py:CtsCapitainsLocalResolver.getTextualNode"]}
{"id": "C62", "title": "Collections from a CTS endpoint are those the reply lists", "statement": "getMetadata(objectId) of the CTS API resolver returns the collection whose identifier is objectId, made for an element of the reply with that URN and in the class of that element, whenever the reply is a readable inventory that lists one or is called so itself; without objectId, or with an empty one, the inventory. A reply that is not a readable inventory is refused with an exception. An inventory that does not list objectId raises IndexError, not UnknownCollection (finding).", "quantifier": "every reply document of any size, every identifier, every store of collections read before, every iteration order of the graph", "why_tests_cant": "documents are unbounded", "anchors": ["MyCapytain/resolvers/cts/api.py:HttpCtsResolver.getMetadata", "MyCapytain/resources/collections/cts.py:XmlCtsTextInventoryMetadata.parse", "MyCapytain/resources/prototypes/metadata.py:Collection.descendants"]}
{"id": "C63", "title": "The TEI form of a citation scheme can be read again", "statement": "For a scheme whose names and patterns need no escaping, the texts Citation.export(Mimetypes.XML.TEI) gives for its levels, put from the innermost to the outermost into a refsDecl for CTS, make a well-formed document; each cRefPattern has the name, the pattern as #xpath(...) and a matchPattern with one group per slot, and reading the document gives a citation with the same levels, names and patterns. A citation that is not set gives the empty string. Findings: nothing is escaped, so a pattern with double quotes cannot be read back; a level without name comes back with an empty one.", "quantifier": "every scheme of any depth, every name and pattern", "why_tests_cant": "unbounded schemes, infinite strings", "anchors": ["MyCapytain/common/reference/_capitains_cts.py:Citation.__export__", "MyCapytain/common/reference/_capitains_cts.py:Citation.export", "MyCapytain/common/reference/_capitains_cts.py:Citation.ingest", "MyCapytain/resources/texts/local/capitains/cts.py:CapitainsCtsText._findCRefPattern"]}
{"id": "C64", "title": "The DTS export of a collection can be read again", "statement": "For a collection that has a type, a label and values that are texts or numbers, export(Mimetypes.JSON.DTS.Std) gives a JSON-LD document whose expansion is one object, and reading it as a DTS collection gives the same identifier, one of its labels, its type, its size, a description if it has any, exactly its statements outside of the namespaces of the library with the same values and languages, its members with their identifiers, labels, types, sizes and descriptions, and the same citation scheme with its depth, whatever the order in which the graph is enumerated. Findings: a missing label is read as the text None; a type whose namespace no statement uses (an inventory) loses its namespace; an address as value (the about link of a commentary) makes the document unreadable; of several descriptions one remains; a CTS citation scheme of one level is lost.", "quantifier": "every such collection, of any number of statements and members, every citation tree, every enumeration order of the graph, every assignment of prefixes", "why_tests_cant": "graphs are unbounded and the orders of sets of statements are not specified", "anchors": ["MyCapytain/resources/prototypes/metadata.py:Collection.__export__", "MyCapytain/resources/prototypes/metadata.py:Collection.export_base_dts", "MyCapytain/common/utils/_json_ld.py:literal_to_dict", "MyCapytain/resources/collections/dts/_base.py:DtsCollection.parse", "MyCapytain/common/utils/_graph.py:Subgraph.graphiter"]}
{"id": "C65", "title": "The CapiTainS export of an inventory keeps its structured metadata", "statement": "For an inventory as in the property about the CTS export, whose statements outside of the CTS, DTS and RDF vocabularies have predicates that make element names and objects that make text of elements, export(Mimetypes.XML.CapiTainS.CTS) gives a document that is read back as the same inventory, and the statements read about each of its textgroups, works and texts outside of these vocabularies are exactly: those that were in the receiving graph, the exported ones with the object their text is read as, the titles as labels and the parent. Objects that are addresses, texts in a language, untyped texts that look like neither an address nor a number, and numbers come back as they are, so that nothing is lost or added. Findings: the datatype is lost; text that looks like a number or an address becomes one; the name of the inventory as parent of a textgroup comes back also as text; what is said of the inventory itself is never read; an edition in another language than its work gets two languages.", "quantifier": "every such inventory, of any size, every graph, every iteration order of the graph when writing and reading, every assignment of prefixes, every typing of texts by objectify", "why_tests_cant": "documents and graphs are unbounded and the orders of sets of statements are not specified", "anchors": ["MyCapytain/common/metadata.py:Metadata.__export__", "MyCapytain/resources/prototypes/cts/inventory.py:CtsTextInventoryMetadata.__export__", "MyCapytain/resources/prototypes/cts/inventory.py:CtsTextMetadata.__export__", "MyCapytain/common/utils/xml.py:make_xml_node", "MyCapytain/resources/collections/cts.py:_parse_structured_metadata"]}
{"id": "C66", "title": "DTS references compare by start, end and type, and sets of them by their members", "statement": "A DtsReference gives back its start, its end and whether it is a range; two are equal exactly when start, end and type are, and none is equal to a text or a plain pair. A DtsReferenceSet of several references, or of none, has its references in order with level and citation; a reference is in it exactly when it was put in, a text exactly when the reference of that text without end and type was; two sets are equal exactly when references, order, level and citation are, and the copy of a set is equal to it. Findings: != ignores the type, so that two references can be neither equal nor different; the copy of a reference is broken (its start is the pair, it has no end), hence the deep copy or pickle of a set is not equal to it; in a set of typed references none is found by its text; a set of one reference is made of its halves; comparing a set with an equal tuple, or with what is no tuple, raises AttributeError.", "quantifier": "every start, end and type; every list of references, level and citation", "why_tests_cant": "texts and lists are unbounded", "anchors": ["MyCapytain/common/reference/_dts_1.py:DtsReference", "MyCapytain/common/reference/_dts_1.py:DtsReferenceSet", "MyCapytain/common/reference/_base.py:BaseReference", "MyCapytain/common/reference/_base.py:BaseReferenceSet"]}
{"id": "C67", "title": "Reading a text from a DTS endpoint passage by passage stays on the text", "statement": "A document of the DTS resolver asked for a passage makes one request to the document endpoint, with the identifier of the text and the reference, and gives a document with that identifier, reference and body, the neighbours the Link header names, and the collection the first one knows. If the headers of the passages of a text name their neighbours, then after any sequence of next and prev, with any other questions in between, one is at the passage one should be at; beyond the ends there is nothing. Whatever is asked in whatever order, every call is about the text and a document keeps its reference, body, neighbours, collection and children. The collection is asked for at the first question for it, for metadata or for depth, and never again by that document or those obtained from it. The children, their first and last are those of the listing, which is asked for once. Findings: getReffs ignores the level; parent without a parent gives the whole text; with a single child, last is nothing and children has the whole text as well; a collection link with a reference makes depth an AttributeError.", "quantifier": "every resolver (whatever it answers, also depending on what it was asked before), every text of any number of passages, every history of questions to any of the documents obtained", "why_tests_cant": "histories of navigation and texts are unbounded; tests follow one or two links", "anchors": ["MyCapytain/resources/texts/remote/dts/_resolver_v1.py:DtsResolverDocument", "MyCapytain/resources/texts/remote/dts/_resolver_v1.py:DtsResolverDocument.getTextualNode", "MyCapytain/resources/texts/remote/dts/_resolver_v1.py:DtsResolverDocument.getReffs", "MyCapytain/resources/texts/remote/dts/_resolver_v1.py:DtsResolverDocument.parse", "MyCapytain/resources/texts/remote/dts/_resolver_v1.py:DtsResolverDocument.collection", "MyCapytain/resources/prototypes/text.py:InteractiveTextualNode", "MyCapytain/resolvers/dts/api_v1.py:HttpDtsResolver.getTextualNode"]}
{"id": "C68", "title": "A pickled or deeply copied collection answers like the original and is independent of it", "statement": "The collection that pickle.loads gives back, in the same process or another and whatever that process holds, answers every question as the saved one did when it was saved: kind, identifier, parent, members, parents, descendants, items, membership, length, language, editions and translations, statements, citation, path, CTS, CapiTainS and DTS exports; so does a deep copy. Loading leaves the other collections alone. A program that holds the originals and the graph of the process, and not the copy, cannot change any answer of the copy, whatever it does; one that holds the copy and makes no new collection cannot change any answer of the originals. CTS copies are equal to their originals, and to each other as the originals are. Findings: a collection added to a copy is described in the graph of the process, so that it changes the statements of an original with its identifier, and deleting it from the copy again leaves its statements behind; the copy of a plain Collection is not equal to it.", "quantifier": "every store of collections a program can make, every process it is loaded in, every sequence of creations, parent assignments, deletions, updates, copies and arbitrary changes of graphs afterwards", "why_tests_cant": "object graphs and histories are unbounded; the tests pickle one inventory and compare one export", "anchors": ["MyCapytain/resources/prototypes/metadata.py:Collection.__init__", "MyCapytain/resources/prototypes/metadata.py:Collection.parent", "MyCapytain/resources/prototypes/metadata.py:Collection.__delitem__", "MyCapytain/common/metadata.py:Metadata", "MyCapytain/resources/prototypes/cts/inventory.py:CtsTextgroupMetadata.update", "MyCapytain/common/reference/_base.py:BaseCitationSet.__getstate__"]}
{"id": "C69", "title": "Walking through a remote text meets the passages of the text", "statement": "If a CTS endpoint serves some contents (references of each level, their passages, neighbours and first children) under the URN of a text, then any sequence of questions asked from the text and from every passage met on the way - children, first, last, previous, next, siblings and parent, as identifiers or as passages, references below at any depth, a passage by its reference, the passage itself - is answered as the contents say, and each passage has the URN of its reference and the TEI element the endpoint sent for it. Reading on with next from the first reference of a level meets each of its references once, in order, and then stops; so does reading back with prev. Whatever the endpoint replies, identifiers once told by an object are told again without a call. Findings: where the replies tell no siblings, prevId and nextId are False and prev and next are the passage itself; the parent of a passage of the first level is the word None, which is asked of the endpoint; lastId of a passage without children raises IndexError where firstId is None; parentId of a text raises AttributeError.", "quantifier": "every contents of any depth and size, every endpoint that serves them (its replies may differ from call to call), every history of questions to any of the objects obtained", "why_tests_cant": "texts and histories of navigation are unbounded; tests follow single steps against recorded replies", "anchors": ["MyCapytain/resources/texts/remote/cts.py:_SharedMethod", "MyCapytain/resources/texts/remote/cts.py:CtsPassage", "MyCapytain/resources/prototypes/text.py:InteractiveTextualNode"]}
{"id": "C70", "title": "The fields of a collection read as they were last assigned", "statement": "After any sequence of creations, parent assignments and assignments of versions, types, models, languages, labels, CTS properties, links and removals on any number of collections, the version, type, model, language and links of a collection are exactly what was stated of its identifier and not taken back since; a field assigned and left alone afterwards reads as assigned (made a literal or a URI), and one left alone reads as before. The description and subject of a text are a description and a label of it, in the language asked for if there is one.", "quantifier": "every store, every history of creations and assignments on any collections of it, every value, every order of enumeration", "why_tests_cant": "histories are unbounded and all collections share a graph; tests assign one field once", "anchors": ["MyCapytain/resources/prototypes/metadata.py:Collection.version", "MyCapytain/resources/prototypes/metadata.py:Collection.type", "MyCapytain/resources/prototypes/metadata.py:Collection.model", "MyCapytain/resources/prototypes/metadata.py:ResourceCollection.lang", "MyCapytain/resources/prototypes/cts/inventory.py:PrototypeCtsCollection.set_link", "MyCapytain/resources/prototypes/cts/inventory.py:PrototypeCtsCollection.get_link", "MyCapytain/resources/prototypes/cts/inventory.py:CtsTextMetadata.get_creator", "MyCapytain/resources/prototypes/cts/inventory.py:CtsTextMetadata.get_title"]}
{"id": "C71", "title": "A collection of inventories is exported as one inventory that holds them all", "statement": "For a collection of inventories that XML can carry, export(Mimetypes.XML.CTS) gives a document that is read back as one inventory with the identifier of the collection and copies of the textgroups of all its inventories, in order, with their works, texts, titles, labels, links, languages and citations. The DTS export of a collection of several inventories, and of any other CTS collection, is found again as the property about DTS exports says, with the size, members and citation of the collection. Findings: a textgroup that is in two inventories is written twice, and only the works of the first are read; the CapiTainS export, which is announced, gives None; the DTS export of a collection of one inventory describes the inventory and not the collection, and that of one without inventories raises IndexError.", "quantifier": "every collection of any number of inventories of any size, every graph and iteration order, every assignment of prefixes, every store that the document is read into", "why_tests_cant": "documents and graphs are unbounded; the tests export single inventories", "anchors": ["MyCapytain/resources/prototypes/cts/inventory.py:CtsTextInventoryCollection.__export__", "MyCapytain/resources/prototypes/cts/inventory.py:PrototypeCtsCollection.__xml_export_generic__", "MyCapytain/common/base.py:Exportable.export", "MyCapytain/resources/collections/cts.py:XmlCtsTextInventoryMetadata.parse"]}
{"id": "C72", "title": "The metadata a local resolver answers show its texts with their citations, and asking changes nothing", "statement": "getMetadata of a textgroup, work or text answers a tree that holds, for every text of the resolver below that URN which has a citation, one text with the same URN, class and citation, and no other text. Whatever is asked, of whatever resolver, and whatever comes out, every object there was keeps its class, names, place, members, citation and file, and statements that are not about class, model, parent and language stay; those about languages stay when every edition has the language of its work. Questions and loadings in any order leave the resolver showing what the loadings alone would show. Findings: a text without citation is left out, and if nothing else is below the URN it is unknown; the texts of an answer do not know their file.", "quantifier": "every library a resolver can hold, every URN, every history of questions and loadings, every order of enumeration", "why_tests_cant": "libraries and histories are unbounded; tests ask a few URNs of one library", "anchors": ["MyCapytain/resolvers/cts/local.py:CtsCapitainsLocalResolver.getMetadata", "MyCapytain/resolvers/cts/local.py:CtsCapitainsLocalResolver.__getTextMetadata__", "MyCapytain/resolvers/cts/local.py:CtsCapitainsLocalResolver.__getText__"]}
{"id": "C73", "title": "A loaded resolver says of its textgroups, works and texts what the files say", "statement": "After loading files, the statements about any URN - titles, group names, labels, descriptions, links, structured metadata - are exactly those made before and those some file makes of that URN; none is lost and none invented, and this holds wherever the files are dispatched. A textgroup, work or text of the resolver knows these statements, also when it was merged into a textgroup of an earlier file of the same loading, unless it was merged in an earlier loading; then it knows those of that time. If the files are in order about languages, every text is found by its URN with its language, every edition has the language of its work, and asking the resolver leaves the languages as they are, after any number of loadings. Findings: a title that a later loading gives a work merged in an earlier one is never shown by that work; a text described again keeps the labels of its first description.", "quantifier": "every list of files of any size, every dispatcher whose loading succeeds, every process with any collections in it, every order of enumeration", "why_tests_cant": "repositories are unbounded and all collections share a graph; tests look at a few titles of one repository", "anchors": ["MyCapytain/resolvers/cts/local.py:CtsCapitainsLocalResolver.parse", "MyCapytain/resources/collections/cts.py:XmlCtsTextgroupMetadata.parse_metadata", "MyCapytain/resources/collections/cts.py:XmlCtsWorkMetadata.parse_metadata", "MyCapytain/resources/prototypes/cts/inventory.py:CtsTextgroupMetadata.update", "MyCapytain/resources/prototypes/metadata.py:Collection.__init__"]}
{"id": "C74", "title": "Walking through a local text meets what the document holds, however one walks", "statement": "Whatever has been asked before, an object got from a local text - the text, a passage, a simple passage - answers as one that is asked for the first time: what it remembers never changes an answer. In a text with clear references, every question of every session - references at a level or below a reference, children, first, last, previous, next and siblings, as identifiers or as passages, parent, all references, a passage by its reference - is answered as the document says: lists hold the citable identifiers asked for, each once and in document order, neighbours are those in the list of the level, unknown and too deep references are refused, and every passage holds the element its reference names. All references of a text can be read. Findings: a passage got with next or prev of a passage is always refused its own neighbours, so that walking on stops after one step; parent never leads upwards: what it gives has no reference, holds what the passage holds or the whole text, and has the children of the whole text and no neighbours; a simple passage whose reference is assigned keeps the neighbours of the old one; simple passages count levels from themselves, others from the text.", "quantifier": "every document of any size, every citation scheme of any depth, every URN of a version, every history of questions to any of the objects obtained", "why_tests_cant": "documents and histories of navigation are unbounded; tests follow single steps in a few files", "anchors": ["MyCapytain/resources/texts/local/capitains/cts.py:_SharedMethods", "MyCapytain/resources/texts/local/capitains/cts.py:_SimplePassage", "MyCapytain/resources/texts/local/capitains/cts.py:CapitainsCtsPassage", "MyCapytain/resources/prototypes/text.py:InteractiveTextualNode", "MyCapytain/resources/prototypes/cts/text.py:PrototypeCtsText.reffs"]}
{"id": "C75", "title": "Checking a local text reports its repeated and its empty references, and changes nothing", "statement": "getValidReff(_debug=True) of a local text returns or raises what getValidReff does, and warns, for the level asked for: about level 0 with a reference, once about the references one of whose identifiers, below the reference asked for, names two elements, naming each of them once, and once about those whose last identifier is empty, with their number (each counted as often as it is listed) and the level. Nothing is warned about a text whose identifiers are usable and name one element each. test() passes exactly if the part of the first pattern above its units selects something, and raises RefsDeclError otherwise. Findings: references below a repeated identifier are reported although each names one element; a unit without identifier is not noticed at the levels below it; an identifier that ends in a dot is counted as empty.", "quantifier": "every document of any size, every citation scheme of any depth, every level and reference, every order in which a set is enumerated", "why_tests_cant": "documents are unbounded; the tests look at the warnings of two files", "anchors": ["MyCapytain/resources/texts/local/capitains/cts.py:_SharedMethods.getValidReff", "MyCapytain/resources/texts/local/capitains/cts.py:CapitainsCtsText.test", "MyCapytain/common/reference/_capitains_cts.py:Citation._parseXpathScope"]}
{"id": "C76", "title": "Textgroups, works and texts can be exported and read on their own", "statement": "In an inventory that XML can carry, export(Mimetypes.XML.CTS) of any textgroup, work or text gives a document, and the default export the tree of that document. Reading either with the class of its kind, without a parent, gives the same textgroup, work or text with its identifier, titles, labels, descriptions, links, languages and citations and copies of all that is below it, in the same order, and changes no object there was. With the CapiTainS export, what is said of it and of what is in it outside of the CTS, DTS and RDF vocabularies is exactly what was said before, the exported statements, the titles as labels, and, of what is in it only, what it is in. The default export of the inventory is such a tree too. Finding: an edition that is read on its own from the CTS export has no language.", "quantifier": "every inventory of any size, every textgroup, work and text in it, every graph and iteration order, every assignment of prefixes, every store that the document is read into", "why_tests_cant": "documents and graphs are unbounded; the tests export whole inventories of a few texts", "anchors": ["MyCapytain/resources/prototypes/cts/inventory.py:PrototypeCtsCollection.__export__", "MyCapytain/resources/prototypes/cts/inventory.py:PrototypeCtsCollection.__xml_export_generic__", "MyCapytain/resources/collections/cts.py:XmlCtsTextgroupMetadata.parse", "MyCapytain/resources/collections/cts.py:XmlCtsWorkMetadata.parse", "MyCapytain/resources/collections/cts.py:XmlCtsEditionMetadata.parse", "MyCapytain/resources/collections/cts.py:XmlCtsTranslationMetadata.parse", "MyCapytain/resources/collections/cts.py:XmlCtsCommentaryMetadata.parse"]}
{"id": "C77", "title": "Citations can be changed and copied without surprises for other citations", "statement": "Whatever a program does with citations - building citations and sets, assigning children or a child, adding one, assigning names, patterns and roots, copying - the following holds. Assigning children makes them the children, in order and without the None among them, tells each of them the root of the citation they are given to, and changes nothing else; something that is not a citation is a TypeError and no list of children changes. Adding a child puts it last. Where no citation hangs below itself the listing, the depth, the length and the levels of a citation end, and are those of the tree below it. A citation that was pickled and loaded, or copied deeply, answers every question as the one saved did, and nothing that is done with the originals changes what the copy answers, nor the other way round. Findings: copy.copy shares the list of children, so that a child added to one shows in the other; an assignment that fails has already told the first children a new root; a child that is added is not told its root; a citation can be made its own child, and reading it then never ends.", "quantifier": "every history of operations on any number of citations and sets, every process that loads a pickle", "why_tests_cant": "histories are unbounded and citations refer to each other; tests build one scheme and pickle it once", "anchors": ["MyCapytain/common/reference/_base.py:BaseCitationSet.children", "MyCapytain/common/reference/_base.py:BaseCitationSet.add_child", "MyCapytain/common/reference/_base.py:BaseCitationSet.__getstate__", "MyCapytain/common/reference/_base.py:BaseCitationSet.__setstate__", "MyCapytain/common/reference/_base.py:BaseCitation.root", "MyCapytain/common/reference/_capitains_cts.py:Citation.child"]}
{"id": "C78", "title": "Collections of a DTS endpoint report what its replies said of them, all of it and nothing else", "statement": "Whatever is asked of an endpoint through getMetadata, by reading pages of members or parents, and by retrieve, and whatever the endpoint answers: every label, description, number of items and Dublin Core or extension value that a collection reports was said of its identifier by a reply, and when the requests succeed everything that was said is reported, with its language; nothing that was reported is lost, and collections that no reply speaks of do not change. Objects of one identifier report the same. The object that getMetadata returns has the identifier and the citation structure of the reply, and one object for each member. After a request that succeeded the type of each collection it spoke of is the last one the reply gives; readable is true exactly for resources; size is a number that was given for the collection, 0 if none was. Objects keep their identifier, and their citations unless they are retrieved. retrieve sends one request for the object if its metadata are not complete and none otherwise. Findings: retrieve asks again each time, does not look at the status of the reply nor at the identifier in it; a request that fails leaves what it read, so that objects the caller had can change their type; when the number of items changes, size can stay the old one.", "quantifier": "every endpoint whose answers may depend on all that was asked before, every history of requests, every JSON-LD document, every iteration order of the graph", "why_tests_cant": "replies and histories are unbounded and all objects share one graph; the tests read single documents", "anchors": ["MyCapytain/resources/collections/dts/_base.py:DtsCollection._parse_metadata", "MyCapytain/resources/collections/dts/_base.py:DtsCollection.size", "MyCapytain/resources/collections/dts/_base.py:DtsCollection.readable", "MyCapytain/resources/collections/dts/_resolver.py:HttpResolverDtsCollection.retrieve", "MyCapytain/resources/collections/dts/_resolver.py:HttpResolverDtsCollection.parse_member", "MyCapytain/common/utils/dts.py:parse_metadata", "MyCapytain/resolvers/dts/api_v1.py:HttpDtsResolver.getMetadata"]}
{"id": "C79", "title": "Programs can work with several graphs and keep them apart", "statement": "A program may set another graph at any time. Every collection, text and metadata object is made in the graph that was set last and stays there, with its identifier, its node and its metadata, whatever graph is set later. After any history each graph holds exactly what was stated in it and not taken back since, and each object reports what stands in the graph of its metadata. A graph that nothing is done to does not change, and neither does anything that objects described in it report; setting, making and looking up change no graph at all. Metadata.getOr gives the node that the graph set last has for the subject and predicate, or else the node given or a new one. New nodes are new in every graph: a new text says nothing of itself, no two texts have the same node, and a graph says that a node implements an identifier exactly if a text of that identifier with that node was made in it. What fails changes nothing, except a parent that is not a collection. Findings: getOr does not tie the node it makes to the subject, so that asking again makes another; a text with the metadata of an object of another graph is described there and not in its own graph; a parent in another graph is not told in its own graph; the setters of texts add, so that the old value can still be read; a parent that is refused has already been stated.", "quantifier": "every number of graphs, every history of making, setting, looking up, assigning and removing on any number of objects, every order of enumeration", "why_tests_cant": "histories are unbounded and the graph in use is a global variable; tests use one graph", "anchors": ["MyCapytain/common/constants.py:set_graph", "MyCapytain/common/constants.py:get_graph", "MyCapytain/common/constants.py:bind_graph", "MyCapytain/common/metadata.py:Metadata.getOr", "MyCapytain/common/metadata.py:Metadata.__init__", "MyCapytain/resources/prototypes/text.py:TextualElement.__init__", "MyCapytain/resources/prototypes/text.py:TextualElement.set_title", "MyCapytain/resources/prototypes/metadata.py:Collection.parent"]}
{"id": "C80", "title": "Collections of a DTS endpoint can be searched in depth", "statement": "Whatever is asked of the collection that getMetadata returned and of anything below it - members, descendants, readableDescendants, in, and [], and in, len and == of children - in any order and however often requests fail: each answer is right for what the endpoint lists, or is the error of a request that failed. Members come in the order of the pages, descendants are the members and then those of each member in turn, each way down once; the readable descendants are those whose last type is Resource; in tells whether there is a way to the identifier; [] gives the collection itself, else a member, else the first descendant of that identifier, else UnknownCollection. If there are more levels than the recursion allows these are RecursionErrors, and only then. Once descendants, readableDescendants or in was answered nothing that is asked of the collection or below it sends a request, len of the children is their number and they equal the empty dictionary just if there are none. Only pages that the endpoint has of the collection or of something below it are ever asked for. Findings: until the children are loaded len is a TypeError and == {} can be true although there are children; collections that contain themselves are never searched to the end, not even for a member; what is in two collections is loaded twice; what was loaded of a member is lost when its collection is loaded; members of a collection listed with size 0 are not found.", "quantifier": "every catalogue of any depth and number of pages, every endpoint that answers from it and fails at any time, every history of questions", "why_tests_cant": "catalogues and histories are unbounded and what was loaded depends on all that was asked; the tests follow one path of a mocked endpoint", "anchors": ["MyCapytain/resources/prototypes/metadata.py:Collection.__getitem__", "MyCapytain/resources/prototypes/metadata.py:Collection.__contains__", "MyCapytain/resources/prototypes/metadata.py:Collection.members", "MyCapytain/resources/prototypes/metadata.py:Collection.descendants", "MyCapytain/resources/prototypes/metadata.py:Collection.readableDescendants", "MyCapytain/resources/collections/dts/_resolver.py:HttpResolverDtsCollection.children", "MyCapytain/resources/collections/dts/_resolver.py:PaginatedProxy"]}
{"id": "C81", "title": "A text has the URN it was given last, and URN objects that were given are shared", "statement": "Whatever a program does with texts, passages of a remote service and URN objects - making them, assigning a URN that is written out, a URN object, the urn of another text or something else, changing URN objects from wherever they were got - the following holds. A text that was given a written URN has a URN of its own, made of that; one that was given a URN object has that object, so that what is done to the object shows in all texts that have it and nowhere else. The URN reads as its first text if no part of it was assigned and as its parts otherwise. A written URN that cannot be read is the error of reading it, anything that is no URN a TypeError, and what is refused changes nothing. Passages are requested with the URN the text has at that time; the identifier of a remote passage is the reference of the URN it has now, and the depth the depth of that reference. Findings: the identifier of a text stays what was given when it was made, whatever URN is assigned later, and is the word None for a text made without URN, which is also sent as URN when such a text is asked for a passage; the depth of a text without URN is an AttributeError; texts made of one URN object, or of the urn of another text, change together.", "quantifier": "every history of making, assigning, changing and asking on any number of texts and URN objects", "why_tests_cant": "histories are unbounded and URN objects are shared between texts; the tests assign one URN to one text", "anchors": ["MyCapytain/resources/prototypes/cts/text.py:PrototypeCtsNode.__init__", "MyCapytain/resources/prototypes/cts/text.py:PrototypeCtsNode.urn", "MyCapytain/resources/texts/remote/cts.py:CtsPassage.__init__", "MyCapytain/resources/texts/remote/cts.py:CtsPassage.id", "MyCapytain/resources/texts/remote/cts.py:_SharedMethod.depth", "MyCapytain/resources/texts/remote/cts.py:_SharedMethod.getTextualNode"]}
{"id": "C82", "title": "What a program writes into the members of a DTS collection stays with the members", "statement": "A program may call update on the children of a lazily loaded DTS collection, and, as long as they are not loaded, set another dictionary in their place; it may assign a member and take one out. Whatever is read, updated and assigned, in any order, through the collection or through the object that children gave before, and however often requests fail: what is read has all the members of all pages, all that was written, and nothing else, or a request failed; what was written under an identifier that is no member's is what was written last. Once all was read, what is written through the collection replaces what was there, what is taken out is gone, the rest stays, and no request is sent. A dictionary that is set before anything was read gets all the members itself, before what it had under their identifiers, and keeps the rest; afterwards the collection refuses another one. What is added to the parents stays with those of all pages, and once they were read nothing is requested any more. What is written under the identifier of a member before the members are read is lost when they are, and also later if the object given before is read again and the member is on the last page; through that object another dictionary can be set after the members were read, and then they are gone; a member taken out comes back if it is on the last page and that object is read again; assigning a member is an error until the members are read (findings).", "quantifier": "every endpoint that answers each page in one way or fails, every number of pages, every history of reading, updating, assigning, taking out and setting", "why_tests_cant": "histories and pages are unbounded and what is overwritten depends on what was loaded when; tests only read", "anchors": ["MyCapytain/resources/collections/dts/_resolver.py:PaginatedProxy.__getattr__", "MyCapytain/resources/collections/dts/_resolver.py:PaginatedProxy.set", "MyCapytain/resources/collections/dts/_resolver.py:PaginatedProxy._run", "MyCapytain/resources/collections/dts/_resolver.py:HttpResolverDtsCollection.children", "MyCapytain/resources/collections/dts/_resolver.py:HttpResolverDtsCollection._parse_paginated_members"]}
