# Formal model of dissemia/disseminate in Rocq

## Layout

* `rocq/theories/Base`  - Python built-ins used by the code (strings as lists of code points, insertion-ordered dicts, stable sort).
* `rocq/theories/Model` - the model of the code, function by function. Every definition cites the file and lines it models. No proofs.
* `rocq/theories/Spec`  - small specifications, independent of the model's helpers.
* `rocq/theories/Proof` - lemmas.
* `rocq/theories/Props` - the property theorems only, each followed by `Print Assumptions` and by `Example`s showing its hypotheses are met by concrete cases.

## Method

Python functions become total Gallina functions. Exceptions are values of a result type. Python recursion or loops
with no structural measure take a fuel argument with an explicit out-of-fuel result; theorems about them either
quantify over all sufficient fuel or prove that no fuel suffices (non-termination).
Where the code violates the property a user would expect, the failing statement is refuted by a theorem with suffix
`_refuted` (a concrete witness) and the part that holds is proved with suffix `_partial`.

## Trusted base

* Coq 8.16.1's kernel. `Print Assumptions` is run for every theorem in `Props`; expected answer: "Closed under the global context".
* The reading of the Python code and of CPython built-ins (dict order, `sorted` stability, `str` methods, `pathlib`) written in `Base` and `Model`.
* Externals are never axioms: hash functions, file systems, Unicode word classes, sub-process outcomes are universally quantified parameters of the theorems.

## Plan per property

* **C01 Target-specific attributes win over general ones** - modelled in `Model/Attributes.v`; model find_item/get over insertion-ordered dicts with string keys; case analysis on first match.
* **C02 Filtering attributes keeps exactly the requested ones, in order** - modelled in `Model/Attributes.v`; model filter as written (uniq, sort by dict order, remove_attrs, find_item, strip); induction over request list.
* **C03 Attribute strings survive a parse/print round trip** - modelled in `Model/Attributes.v`; model the regex scanner re_attrs as a deterministic scanner; round-trip by induction on the entries.
* **C04 Deduplication keeps first occurrences in order** - modelled in `Model/ListUtils.v`; structural induction.
* **C05 List reshaping loses nothing** - modelled in `Model/ListUtils.v`; structural induction, strong induction for chunks.
* **C06 Format-string lookup finds the most specific entry** - modelled in `Model/DictUtils.v`; induction over key prefixes.
* **C07 Common base string is the longest common prefix** - modelled in `Model/StringUtils.v`; loop invariant: every common prefix of the strings is a prefix of the current base.
* **C08 Header lists are split on the strongest separator** - modelled in `Model/StringUtils.v`; split/join lemmas.
* **C09 Headers parse back to the entries that were written** - modelled in `Model/StrToDict.v`; line based parser; induction over entry lists.
* **C10 Grouping strings preserves text and tags** - modelled in `Model/StringUtils.v`; induction over the content list.
* **C11 Macro substitution terminates and leaves no known macro** - modelled in `Model/Macros.v`; fuelled loop; refutation by invariants for the self-growing macro, conditional theorem for macros without macros in their values.
* **C12 Signal receivers run in ascending order, exactly once** - modelled in `Model/Signals.v`; state machine, invariant over histories.
* **C13 Labels are unique per document** - modelled in `Model/Labels.v`; state machine, invariant over histories.
* **C14 A reference resolves to the label it names** - modelled in `Model/Labels.v`; first-match characterisation.
* **C15 Label numbers count labels of the same kind since the last reset** - modelled in `Model/Labels.v`; fold invariant: counter = count since last reset.
* **C16 Registration orders labels by document order and drops stale documents** - modelled in `Model/Labels.v`; filter + stable sort characterisation.
* **C17 Registering labels is repeatable** - modelled in `Model/Labels.v`; idempotence of sort/filter/fold.
* **C18 Section numbers show the enclosing headings** - modelled in `Model/Labels.v`; fold invariant against a declarative 'closest enclosing heading' spec; stale links refuted.
* **C19 Listing labels by kind returns each label once** - modelled in `Model/Labels.v`; membership characterisation; duplicate listing refuted.
* **C20 Parsing tags preserves the text** - modelled in `Model/TagParser.v`; fuelled parser; text-preservation by induction on fuel.
* **C21 A tag's content is delimited by its matching brace** - modelled in `Model/TagParser.v`; brace counter invariant; depth limit refuted.
* **C22 Paragraph grouping preserves content** - modelled in `Model/Paragraphs.v`; content as list of text pieces/tags; preservation by induction.
* **C23 Flattening a tag tree visits every tag once** - modelled in `Model/TagTree.v`; mutual induction on trees; nested-list omission refuted.
* **C24 Percentage widths always map to a width class** - modelled in `Model/Width.v`; integer percentages; window analysis, gap refuted.
* **C25 Resetting a context restores inherited and initial values** - modelled in `Model/Context.v`; nested values; induction on depth.
* **C26 Context updates keep types and never lose inherited values** - modelled in `Model/Context.v`; induction on nesting depth.
* **C27 Changes to a document's context do not leak** - modelled in `Model/ContextHeap.v`; heap model with references for mutable values.
* **C28 A finished build stays done until something changes** - modelled in `Model/Decider.v`; file system + decider db state machine; hash abstract and injective on the inputs considered.
* **C29 Input hashes do not depend on order** - modelled in `Model/Hash.v`; permutation invariance of sort; chunk independence by induction.
* **C30 PDF hashes ignore only the time stamps** - modelled in `Model/Hash.v`; line filter.
* **C31 A composite build is done exactly when all its parts are** - modelled in `Model/Builders.v`; induction on builder trees.
* **C32 Sequential builds run in order** - modelled in `Model/Builders.v`; small-step scheduler, invariants over all schedules.
* **C33 The best available converter is chosen** - modelled in `Model/FindBuilder.v`; argmax over candidate list.
* **C34 Different sources get different output files** - modelled in `Model/Paths.v`; injectivity where it holds; refuted for absolute paths and media prefixes.
* **C35 Every included document is loaded exactly once** - modelled in `Model/DocTree.v`; fuelled loader over an include graph.
* **C36 Loading a document tree terminates** - modelled in `Model/DocTree.v`; divergence: out of fuel for every fuel on a cyclic graph; termination for acyclic graphs.
* **C37 A document is reloaded exactly when it changed** - modelled in `Model/DocTree.v`; state machine over mtimes.
* **C38 Renaming a path changes only what was asked** - modelled in `Model/Paths.v`; path component lists.
* **C39 Relative links lead to the linked file** - modelled in `Model/Paths.v`; relpath/normalisation lemma.
* **C40 File search respects the search order** - modelled in `Model/Paths.v`; first-match characterisation over an abstract file system.
* **C41 Previous/next links follow the document order** - modelled in `Model/Navigation.v`; index arithmetic; last-document-targets defect refuted.
* **C42 The abbreviated table of contents keeps the current document in full** - modelled in `Model/Toc.v`; fold characterisation.
* **C43 List items keep their text and nesting** - modelled in `Model/ListTag.v`; scanner for bullets; arithmetic for levels.
* **C44 Nested html lists have the shape of their levels** - modelled in `Model/XhtmlList.v`; mutual recursion on forests.
* **C45 Tables keep all cells** - modelled in `Model/Table.v`: the csv reader as a state machine over characters, the columns, html and tex output; induction over rows and characters; `_refuted` theorems for equal headers, single columns and blank lines.
* **C46 Verbatim text is reproduced literally** - modelled in `Model/Formats.v`; case analysis over the delimiters; first occurrence of the end of an environment; fallbacks refuted.
* **C47 Only allowed tex commands and html tags are emitted** - modelled in `Model/Formats.v` for all tables and for those of the settings; inversion of the filters of C02: equal lengths imply that each answer is for its request.
* **C48 Project roots are the topmost source directories** - modelled in `Model/Environment.v`; paths as component lists.
* **C49 Dependency checks report exactly what is missing** - modelled in `Model/Checkers.v`; induction on dependency trees.
* **C50 Dependency scanning finds referenced files** - modelled in `Model/Scanner.v`; abstract file system; the two regular expressions as lists of candidates in the order tried, of which at most one succeeds; missing-file with raise_error=False refuted.
* **C51 Typography substitution only touches the documented characters** - modelled in `Model/Typography.v`; each regex substitution as a scanner (dashes) or a function of both neighbours (quotes); proved by induction on the text against the relation `with_dashes` and the table `becomes`.
* **C52 Author lists read naturally** - modelled in `Model/Authors.v` and `Model/StringUtils.v`; list induction against the relation `reads_as`, with injectivity.
* **C53 Verbatim contents are not interpreted** - modelled in `Model/TagParser.v`; induction on the text for a first parse; refuted for a second pass.
* **C54 The plain text of a tag is its text without markup** - modelled in `Model/TagTree.v`; induction on the tree.
* **C55 Replacing tags leaves everything else alone** - modelled in `Model/TagTree.v`; induction on the tree.
* **C56 A builder that cannot run says so** - Model/Builders.v, Props/Builders.v: the status function, with the answer of the class as a field of the builder. Refuted: the code tests the bound method.
* **C57 Copying and saving write exactly the asked contents** - Model/Builders.v, Props/Builders.v: the build methods on a file system as a dictionary; total correctness by the decider's register lemma.
* **C58 The process of a builder is started at most once** - Model/Builders.v, Props/Builders.v: a potential (number of starts plus one if there is no process yet) does not grow in any step.
* **C59 Header values win over template values, nearest template first** - Model/Headers.v over the heap model of contexts. Loop invariants say that the header context and the template context hold exactly the first value in order of precedence; C26's update specification then gives each entry. The regular expression for 'extends' is proved to find the leftmost match.
* **C60 A page is rendered again when any of its templates changes** - Model/Render.v models the choice of the template, the recursion over references with a depth of calls, context files and parameters; Spec/Render.v defines reachability. Proved by induction on the depth. The parsing of templates by jinja2 is a parameter.
* **C61 Generated files with different contents have different names** - Model/Render.v models the names of generated files and the parameters of equations; proved from C29 (hashes) and C34 (paths of outputs).
* **C62 What the context of a document says about its targets, its sub-documents and its place** - Model/DocContext.v on the heap model of contexts (Model/Context.v). C62_targets, C62_periods, C62_includes, C62_absolute, C62_no_includes state both properties against the values the context reads as (Spec/Context.v holds); C62_reset composes the reset of C25 with the entries written by the document, C62_level and C62_root give the depth. C62_own_targets_refuted: 'target' is inherited and beats a document's own 'targets'.
* **C63 Where references lead and what they show** - Model/Ref.v models the label of a reference, the document of a label (by the documents of the root document), the url with its anchor, and which label the text shows (format_string asks again, by the id alone). Spec/Ref.v says how a browser reads a link (path before ? and #, anchor after #) and where it leads. C63_reference is proved from the theorems on labels (C14) and on relative links (C39). Findings are refuted theorems: the number shown may be that of another document, an id with a document gives a wrong anchor, a document without the target stops the build, and an entry doc_id hides labels.
* **C64 Titles and automatic labels of headings and figures** - Model/AutoLabels.v models titlelize, the ids of headings and captions with the counter in the context, and adding the labels of a document one after the other to the label manager of Model/Labels.v. slugify and hashtxt are parameters. Spec/AutoLabels.v says what the visible characters, words and ends of sentences of a text are, and which headings have no text. Findings: two headings of a kind with the same title (or first sentence) in a document, or two figures with the same caption, stop the build.
* **C65 The steps of a conversion feed each other** - Model/Chain.v models builders as trees with their parameters and outputs, the property outfilepath (which caches), the loop of chain_subbuilders, the pointing of the copy and the chaining of nested builders. Spec/Chain.v lists the steps with what they read and write and composes programs. Proved by induction on the nesting with an invariant on lists of linked sub-builders. Finding: options do not change the name of the output.
* **C66 Converters are run with the files and options that were asked for** - Model/Commands.v models the formatter, the split of the formatted action on white space, the lookup and validation of options and the command line of each converter. Spec/Commands.v says when a path is plain and what the value of an option is. Proved with lemmas on splitting joined words. Findings: names with white space are split (and can add options), dashes at the ends of directories are lost, crop given as a text (as all attributes of tags are) is a TypeError, crop 0, one offset and page are ignored.
* **C67 A tree of documents has the builders its targets need** - Model/TargetBuilders.v models the entries of builders in the contexts, with an identity for each builder, the loops over documents and targets and the making of pdf and epub builders. Spec/TargetBuilders.v says which targets are wanted. Proved by an invariant kept by each step (soundness, unique identities, parts) and monotonicity. Findings: no file can be added for an epub, and an epub that only a sub-document asks for is silently not built.
* **C68 An epub has all its files, each once, and lists them** - Model/Epub.v models files as a directory and a path in it, the list that is built, its order, the list of contents and the entries. Spec/Epub.v walks paths on its own and says what a file is. Proved with a lemma that the normal form of a path that stays in its directory is where it leads. Findings: png files are not listed; a table of contents of the project is not recognised and a second one with the same name is added; two files called toc.xhtml have the same id.
* **C69 Rendering of tags in tex** - Model/TexFmt.v has the table of the classes with their names, tag_class and tex_fmt of the text classes, equations and boxes; the other classes are a parameter.  A scan of braces shows by induction on the tree that each tag gives a neutral text (C69_balanced), and the parser gives trees for which this holds (C69_source).  C69_text shows by induction that the visible text is a subsequence of the rendering.  C69_tables holds of every table of classes.
* **C70 Rendering of tags in html and xhtml** - Model/HtmlFmt.v has html_fmt and xhtml_fmt of the base class, text classes, boxes, figures, panels and headings without labels over the elements of lxml; the other classes and the serialization are not modelled.  Spec/HtmlFmt.v has the text of a tree, the permitted elements and the contents with a rendering; all theorems are by induction on the tree.
* **C71 Copies of project starters** - Model/Starters.v has a file system as a finite map of paths, mkdir and copy2 of CPython, and the functions of init.py; the result of a copy is the file system at its end or at its error.  An invariant over the files that are still to be copied gives C71_copied and C71_only; C71_total and C71_again follow from it.
* **C72 The preview server and the list of dependencies** - Model/Server.v has the routes, the file handlers (with tornado's check of roots and CPython's abspath), the store of projects over a sequence of requests, and the trees of items and rows.  Paths are lists of parts; the proofs are inductions over parts, requests and trees.
* **C73 Images in tex and html** - Model/Images.v has the image with its cache of paths; the state of the file system, the answer of the signal add_file and the addresses are a parameter of each rendering.  Cache: induction over the sequence of renderings.  The formats use C02, C24, C40 and C47.
* **C74 The tags of code** - Model/Images.v has the content, the choice of the lexer and the inline formats; pygments (lexers and highlighting) is a parameter.  Lists of attributes: induction; the verbatim text uses C46.
* **C75 Headings, captions and references show the number and title of their label** - Model/LabelTags.v composes the models of the label manager (Labels.v), of find_entry (DictUtils.v), of macros (Macros.v), of the parser, of typography and of the formats of tags. Props/LabelTags.v follows the text of the default formats through them; the numbers are those of Spec/Labels.v (C15, C18).
* **C76 References and links are written as links that lead to their targets** - Model/Links.v renders references with the models of C63, C75, C70 and C47, and has the links to other files with os.path.relpath (Model/Paths.v) and markupsafe.escape.  C76_html inverts the element, C76_tex follows the url through the reader of attributes (C03), C76_other uses C39.
* **C77 From the text of a document to its tags** - Model/TagCreation.v: the receivers of tag_created in their order, recursively for the tags in a content (items_with takes the function that makes a tag) and for paragraphs, with fuel. Proved by showing that creation is a structural function of the parsed text (finish): parsing again changes nothing (nesting of braces bounds the depth), typography is set once (stable under splitting at breaks). Spec/TagCreation.v: the events of a content. The constructors of subclasses, hashes and roles of paragraphs are left out; macros are an identity (C77_no_macros: contexts without macros).
* **C78 Tables of contents, authors and title pages as they are shown** - Model/TocFmt.v: the items, the nested lists as elements (over Model/XhtmlList.v) and the easylist, with the references of Model/Links.v. Proved by composing C42 (labels and levels), C44 (nesting), C76 (references) and C63 (where links lead). An item is written and read again as xml before it is put into a list; what cannot be read again is modelled, white space of pretty printing is not. The heading of a title page is a parameter.
* **C79 Titles and labels of documents** - Model/DocLabels.v models the properties title and short, the label of a document and the receivers that make labels when a document is loaded, in their order, with the label manager of Model/Labels.v and a table of the titles of labels. Proved by an invariant over histories (Spec/DocLabels.v: events Load and Query): the labels of a current document start with its own label. Composes with C16 (order), C54 (text of tags) and C62 (what a context inherits: Props/DocTitles.v). The slug function is a parameter.
* **C80 A page is out of date after a label it refers to has changed** - modelled in `Model/RefDeps.v` on top of `Model/TagTree.v`, `Model/Labels.v`, `Model/Render.v`, `Model/Decider.v` and `Model/Builders.v`; `Spec/RefDeps.v` says what it is to refer to a label; the theorems compose C23 (flatten), C13 (uniqueness of labels) and C28 (decider).
* **C81 Paths written in templates lead to the files of the target** - Model/RewritePath.v models the filter on top of the model of paths and of the search of files (C39, C40), with the paths that the search really uses: the parent of a path of a target has lost its root, target and subpath. Spec/RewritePath.v says what a text without its slashes is and where the files are. C81_leads is proved from C39_relative, C81_beside by following the text part by part, and C81_raises says when the filter fails. Refuted: the filter fails when the working directory has a file with the path (C81_hidden_refuted), the file beside the page does not come first (C81_precedence_refuted), and the link is that of the directory of the document and not of the page (C81_elsewhere_refuted). Not modelled: the message in the log, base urls (the context of a template is not a dict, so the code does not use them) and pathlib of Python 3.12 and later.
* **C82 Settings of classes are those of the class and of all its parents** - Model/Classes.v has classes as trees of bases with their dicts. Spec/Classes.v has what is above a class, the order of resolution of Python as any order with the class first and all that are above, and the nearest class with an entry. Proofs are by induction on the tree; C82_do_not_inherit is by an invariant of the stored values over sequences of calls. Refuted: object is among the parents (C82_object_refuted), with several bases an entry of a parent may replace that of a subclass (C82_precedence_refuted), and changes of the setting after the first call are not noticed (C82_stale_refuted). Not modelled: classes that are made while the program runs, and values of settings that are not sets.
* **C83 Attributes with weak references give what was assigned last, while it exists** - Model/WeakAttr.v has the state of all descriptors and objects, and events. Spec/WeakAttr.v defines what an attribute holds directly from the history. The proof is a refinement: an invariant relates the state after any history to the history. Hypothesis: the class of an object has the descriptor under one name, the same in all classes it is used for, as it is with subclasses. Refuted: assigning None has no effect (C83_none_refuted). Not modelled: access by the class instead of an object, objects that cannot have weak references, and when the garbage collector removes objects (deaths happen at any time).
* **C84 Linking or copying a file is complete, and safe when it stops on the way** - Model/LinkCopy.v has file systems with names, devices, inodes and contents, and the function as the sequence of states on the way. Spec/LinkCopy.v says what reading a file gives. C84_crash is proved for every state of the sequence and C84_done for the last. Refuted: inode numbers are compared without devices, so a file of another device may be taken for the source (C84_device_refuted), and after a hard link a program that writes the destination in place changes the source (C84_shared_refuted). Not modelled: symbolic links, permissions, full disks and messages in the log.
* **C85 Building projects from the command line and the table of progress** - Model/CliBuild.v models the tables and the loop of the command over an arbitrary builder. Spec/CliBuild.v says where a value is in a line, what the state is after n rounds and what an unfinished status is. C85_columns is by induction on the columns, C85_aligned applies it to the table of progress, C85_ends and C85_finishes are by induction on the rounds (the builder gives the status it has after a build, and the flat list of builders has the root builder), C85_all by induction on the projects, C85_refused and C85_row by cases. Not modelled: click, the creation of environments, the text of a percentage and time.
* **C86 Captions of figures and tables inside of each other** - Model/Captions.v models the creation of a tree of tags, inner tags first, with the transfer of ids to captions and the labels added. Spec/Captions.v says what is inside of what, which captions were written and what links can lead to. C86_captions, C86_anchors and C86_own are by induction on the tree (captions in a list of tags at any depth), C86_given and C86_loads follow with the lemmas of C64, C86_nested from the labels of the parts of a tree. Refuted: labels without a caption (C86_stale_refuted), lost ids (C86_own_refuted) and documents that cannot be loaded (C86_nested_refuted).
* **C87 Lists of signals and their receivers** - Model/SignalList.v models stub (with its regular expression as a scan over runs of white space), the entries of the page and the texts of the command; signals are those of C12. Spec/SignalList.v says which characters are no white space and what is before the first empty line. C87_stub, C87_stub_same and C87_stub_lines are by induction on the text, C87_listed and C87_run use the history of C12 and that sorted lists with the same elements are equal, C87_page, C87_command and C87_marks by induction and cases. Not modelled: styles, the breaking of lines and the template of the page.
* **C88 Equal tags, the contents of tables and lists for tex** - Model/TagEq.v models the equality over trees of texts, tags and lists, the loop over the contents of a table and the tex of items. Spec/TagEq.v defines when tags are the same, what is inside of a tag and texts without the sign of items, independently. C88_same is by induction on trees with a lemma on equal dicts, C88_inside by the size of trees, C88_table and C88_table_one follow, C88_list is by induction on lists. Not modelled: values of attributes that are no texts, and how single elements are formatted (a parameter).
* **C89 Panels of figures in tex** - Model/Panel.v composes the models of attributes, widths, environments and newlines as Panel.tex_fmt does. Spec/Panel.v says what a text without its empty lines is. C89_lines is by induction on the lines, C89_side_by_side follows from the first and last characters, C89_width and C89_needs_width by the lookup of positional attributes.
* **C90 Labels have one order** - Model/LabelOrder.v has each comparison as the comparison of a pair of texts, with Python's rule for pairs. Spec/LabelOrder.v says what it means that a text is before another. Induction on the texts, and on sorted lists for C90_sorted_unique.
