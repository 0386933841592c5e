{"id": "C01", "title": "Target-specific attributes win over general ones", "statement": "Looking up an attribute for a target returns the target-specific entry's value if the tag has one, otherwise the general entry's value, otherwise the default; an entry written for a different target is never returned for a plain attribute name. A positional value for a target is the first of its kind whose name ends with the target, otherwise the first of its kind.", "quantifier": "every attribute dict, attribute name, target and default", "why_tests_cant": "precedence depends on which of the unboundedly many combinations of general/target-specific keys are present and in which order; tests check a few dicts", "anchors": ["src/disseminate/attributes/attributes.py: Attributes.find_item, Attributes.get, strip_attr, is_target_specific"]}
{"id": "C02", "title": "Filtering attributes keeps exactly the requested ones, in order", "statement": "Filtering a tag's attributes by a list of names and a target returns only entries that were requested and present, in the order of the tag's attributes (or of the request when asked), each once, with the target suffix removed, and with the target-specific value shadowing the general one.", "quantifier": "every attribute dict, request list, target and sort option", "why_tests_cant": "needs all interleavings of general/target/other-target entries and duplicate requests", "anchors": ["src/disseminate/attributes/attributes.py: Attributes.filter, Attributes.strip, Attributes.find_item"]}
{"id": "C03", "title": "Attribute strings survive a parse/print round trip", "statement": "Printing attributes in html form and loading the string back yields the same attributes in the same order, for all keys and values free of quoting and separator characters; the tex printers emit every entry once, in order.", "quantifier": "every attribute dict with well-formed keys and values", "why_tests_cant": "round trip over an infinite string domain", "anchors": ["src/disseminate/attributes/attributes.py: Attributes.load, Attributes.html, Attributes.tex_arguments, Attributes.tex_optionals, re_attrs"]}
{"id": "C04", "title": "Deduplication keeps first occurrences in order", "statement": "uniq returns a list with no duplicates, with exactly the members of its input, ordered by first occurrence, and is idempotent; dupes returns exactly the members that occur at least twice.", "quantifier": "every list, with every key function", "why_tests_cant": "unbounded lists", "anchors": ["src/disseminate/utils/list.py: uniq, unique_everseen, dupes"]}
{"id": "C05", "title": "List reshaping loses nothing", "statement": "chunks splits a list into consecutive pieces that concatenate back to it, all of the requested size except possibly the last; flatten keeps every leaf in order; transposing a rectangular table twice gives it back.", "quantifier": "every list, nesting and chunk size", "why_tests_cant": "unbounded sizes and nestings", "anchors": ["src/disseminate/utils/list.py: chunks, flatten, transpose, unwrap"]}
{"id": "C06", "title": "Format-string lookup finds the most specific entry", "statement": "find_entry returns the entry for the longest prefix of the keys that is present, preferring the suffixed key over the plain one and earlier dictionaries over later ones, and raises KeyError exactly when no prefix is present in any dictionary.", "quantifier": "every list of dictionaries, key tuple and suffix", "why_tests_cant": "precedence over all subsets of present keys", "anchors": ["src/disseminate/utils/dict.py: find_entry"]}
{"id": "C07", "title": "Common base string is the longest common prefix", "statement": "find_basestring returns a prefix of every given string and no longer string is a prefix of all of them.", "quantifier": "every non-empty list of strings", "why_tests_cant": "unbounded strings", "anchors": ["src/disseminate/utils/string.py: find_basestring"]}
{"id": "C08", "title": "Header lists are split on the strongest separator", "statement": "A header value is split on ';' if it has one, otherwise on newlines, otherwise on ','; the items are stripped and rejoining clean items with the separator and splitting again gives the same items.", "quantifier": "every string", "why_tests_cant": "infinite string domain", "anchors": ["src/disseminate/utils/string.py: str_to_list"]}
{"id": "C09", "title": "Headers parse back to the entries that were written", "statement": "A header made of 'key: value' entries with indented sub-entries parses to the nested dictionary that was written, with no entry lost or moved to another key.", "quantifier": "every nested dictionary with well-formed keys and values", "why_tests_cant": "nesting depth and string domain are unbounded", "anchors": ["src/disseminate/utils/string.py: str_to_dict", "src/disseminate/context/utils.py: load_from_string, find_header_entries"]}
{"id": "C10", "title": "Grouping strings preserves text and tags", "statement": "Grouping the contents of a tag merges neighbouring strings only: the concatenated text and the sequence of tags are unchanged, no empty string and no two neighbouring strings remain, and grouping again changes nothing.", "quantifier": "every content list", "why_tests_cant": "unbounded content lists", "anchors": ["src/disseminate/utils/string.py: group_strings"]}
{"id": "C11", "title": "Macro substitution terminates and leaves no known macro", "statement": "Substituting macros in a text finishes for every text and every set of macro definitions, leaves text without macros unchanged, and leaves no reference to a defined macro in the result.", "quantifier": "every text and every macro dictionary", "why_tests_cant": "termination and completeness over arbitrary (also self-referencing) macro definitions", "anchors": ["src/disseminate/utils/string.py: replace_macros", "src/disseminate/tags/receivers/macros.py: process_macros"]}
{"id": "C12", "title": "Signal receivers run in ascending order, exactly once", "statement": "Emitting a signal calls each connected receiver exactly once, in strictly ascending order number; connecting a second receiver under an order in use is refused and changes nothing.", "quantifier": "every history of connect, reset and emit", "why_tests_cant": "all connection histories", "anchors": ["src/disseminate/signals/signals.py: Signal.connect, Signal.emit, Signal.receivers_dict"]}
{"id": "C13", "title": "Labels are unique per document", "statement": "After any history of adding, resetting and registering labels, no two labels have the same document and label id; adding a duplicate is refused and leaves the labels as they were.", "quantifier": "every history of label manager operations", "why_tests_cant": "all operation histories", "anchors": ["src/disseminate/label_manager/label_manager.py: LabelManager.add_label, reset, register"]}
{"id": "C14", "title": "A reference resolves to the label it names", "statement": "Looking up 'doc::label' returns that document's label; looking up 'label' from a document returns the label of that document if it has one, otherwise the first one registered under that id in any document; LabelNotFound is raised exactly when there is none.", "quantifier": "every label collection and identifier string", "why_tests_cant": "all label collections and identifiers", "anchors": ["src/disseminate/label_manager/label_manager.py: LabelManager.get_label, parse_id"]}
{"id": "C15", "title": "Label numbers count labels of the same kind since the last reset", "statement": "After registration the number of a label for a kind is the number of labels with that kind from the last label that resets the kind up to and including it; labels of the same kind between resets are numbered 1,2,3,... without gaps.", "quantifier": "every sequence of labels and every reset table", "why_tests_cant": "unbounded label sequences and arbitrary reset tables", "anchors": ["src/disseminate/label_manager/register_orders.py: register_orders"]}
{"id": "C16", "title": "Registration orders labels by document order and drops stale documents", "statement": "After registration labels are grouped in the order of the documents in the tree, labels of one document keep their relative order, and labels of documents no longer in the tree are gone; none of the others is lost.", "quantifier": "every label list and document list", "why_tests_cant": "all permutations", "anchors": ["src/disseminate/label_manager/register_orders.py: reorder_and_purge_labels"]}
{"id": "C17", "title": "Registering labels is repeatable", "statement": "Asking for labels repeatedly without changes gives the same labels with the same numbers; registering twice is the same as registering once.", "quantifier": "every label manager state", "why_tests_cant": "all states", "anchors": ["src/disseminate/label_manager/label_manager.py: LabelManager.register", "src/disseminate/label_manager/register_orders.py", "src/disseminate/label_manager/register_content_labels.py"]}
{"id": "C18", "title": "Section numbers show the enclosing headings", "statement": "After registration each heading or caption is linked to the closest preceding part, chapter, section, ... that encloses it, and its tree number is the dotted list of their numbers.", "quantifier": "every sequence of labels, also after labels have been reordered or removed and registered again", "why_tests_cant": "all heading sequences and edit histories", "anchors": ["src/disseminate/label_manager/register_content_labels.py: register_content_labels", "src/disseminate/label_manager/types/content_label.py"]}
{"id": "C19", "title": "Listing labels by kind returns each label once", "statement": "Listing the labels of some kinds returns every label that has one of the kinds, once, and nothing else.", "quantifier": "every label list, kind list and document", "why_tests_cant": "all label collections", "anchors": ["src/disseminate/label_manager/label_manager.py: get_labels_by_kind, get_labels_by_id"]}
{"id": "C20", "title": "Parsing tags preserves the text", "statement": "Parsing a text into tags keeps every character outside tag markup, in order; a text with no tag parses to itself.", "quantifier": "every text", "why_tests_cant": "infinite text domain", "anchors": ["src/disseminate/tags/receivers/content.py: parse_tags, process_content"]}
{"id": "C21", "title": "A tag's content is delimited by its matching brace", "statement": "The content of a tag is the text up to the brace that balances its opening brace, at any nesting depth, and an error is raised exactly when there is none.", "quantifier": "every text and nesting depth", "why_tests_cant": "unbounded nesting", "anchors": ["src/disseminate/tags/receivers/content.py: parse_tags, re_brace"]}
{"id": "C22", "title": "Paragraph grouping preserves content", "statement": "Grouping a body's content into paragraphs keeps all text and tags in order, puts no paragraph inside a paragraph, and is idempotent.", "quantifier": "every content list", "why_tests_cant": "unbounded content", "anchors": ["src/disseminate/tags/receivers/paragraphs.py: group_paragraphs, clean_paragraphs, assign_paragraph_roles"]}
{"id": "C23", "title": "Flattening a tag tree visits every tag once", "statement": "Flattening a tag yields the tag and all tags nested in its content, each once, parents before children, in document order.", "quantifier": "every tag tree", "why_tests_cant": "unbounded trees", "anchors": ["src/disseminate/tags/tag.py: Tag.flatten", "src/disseminate/tags/utils.py: replace_context"]}
{"id": "C24", "title": "Percentage widths always map to a width class", "statement": "Every width between 1% and 100% is assigned exactly one width class, and wider requests never get a narrower class.", "quantifier": "every percentage", "why_tests_cant": "boundaries over a continuous range", "anchors": ["src/disseminate/tags/utils.py: percentage, tex_percentwidth, xhtml_percentwidth"]}
{"id": "C25", "title": "Resetting a context restores inherited and initial values", "statement": "After any sequence of changes, resetting a document context gives the same values as a fresh context with the same parent and initial values, except for the entries protected from resets; resetting twice is the same as once.", "quantifier": "every context, parent and history of changes", "why_tests_cant": "all histories", "anchors": ["src/disseminate/context/context.py: BaseContext.reset, BaseContext.__init__"]}
{"id": "C26", "title": "Context updates keep types and never lose inherited values", "statement": "Updating a context with header entries keeps the type of each existing entry, prepends list items, unions sets, merges dictionaries recursively and leaves other entries unchanged.", "quantifier": "every pair of nested contexts", "why_tests_cant": "unbounded nesting and all type combinations", "anchors": ["src/disseminate/context/context.py: BaseContext.match_update"]}
{"id": "C27", "title": "Changes to a document's context do not leak", "statement": "Changing entries in a document's context after creation does not change its parent's or siblings' contexts.", "quantifier": "every context tree and history of changes", "why_tests_cant": "aliasing over all histories", "anchors": ["src/disseminate/context/context.py: BaseContext.reset, match_update", "src/disseminate/document/document_context.py"]}
{"id": "C28", "title": "A finished build stays done until something changes", "statement": "After a successful build the builder reports that no build is needed until the content of an input or the output changes; when an input's content changes, or the output is missing or changed, a build is needed again.", "quantifier": "every set of inputs, file contents and history of builds and edits", "why_tests_cant": "all histories of edits and builds", "anchors": ["src/disseminate/builders/deciders/md5decider.py: Md5Decision.build_needed", "src/disseminate/builders/deciders/decider.py", "src/disseminate/builders/builder.py: Builder.build_needed"]}
{"id": "C29", "title": "Input hashes do not depend on order", "statement": "The hash of a builder's inputs is the same for every permutation of them and does not depend on how the file is chunked when read.", "quantifier": "every list of inputs, file content and chunk size", "why_tests_cant": "all permutations and chunkings", "anchors": ["src/disseminate/builders/deciders/utils_hash.py: hash_items, hash_file, line_splitter, hash_pdf"]}
{"id": "C30", "title": "PDF hashes ignore only the time stamps", "statement": "Two pdf files that differ only in creation date, modification date and id lines have the same hash; other differences in content lines are hashed.", "quantifier": "every file content", "why_tests_cant": "infinite content domain", "anchors": ["src/disseminate/builders/deciders/utils_hash.py: hash_pdf, line_splitter"]}
{"id": "C31", "title": "A composite build is done exactly when all its parts are", "statement": "A composite builder reports 'done' exactly when every nested sub-builder is done, and otherwise reports the status of a sub-builder that is not done.", "quantifier": "every tree of builders and assignment of statuses", "why_tests_cant": "unbounded builder trees", "anchors": ["src/disseminate/builders/composite_builders/composite_builder.py: CompositeBuilder.status, flatten"]}
{"id": "C32", "title": "Sequential builds run in order", "statement": "A sequential builder never starts a sub-builder before all earlier ones are done, under every schedule of sub-builds finishing, and every builder that can finish is eventually finished.", "quantifier": "every list of sub-builders and every schedule of completions", "why_tests_cant": "all schedules", "anchors": ["src/disseminate/builders/composite_builders/sequential_builder.py", "src/disseminate/builders/composite_builders/composite_builder.py: build, run_build_once"]}
{"id": "C33", "title": "The best available converter is chosen", "statement": "Asked for a converter between two formats, the available and active builder with the highest priority is chosen, preferring the output formats listed first for the target, and copying is used when the file is already usable.", "quantifier": "every set of registered builders", "why_tests_cant": "all registries", "anchors": ["src/disseminate/builders/builder.py: Builder.find_builder_cls"]}
{"id": "C34", "title": "Different sources get different output files", "statement": "Two different source files are never built to the same output path for a target.", "quantifier": "every pair of source paths and build options", "why_tests_cant": "all pairs of paths", "anchors": ["src/disseminate/builders/utils.py: generate_outfilepath", "src/disseminate/paths/utils.py: rename"]}
{"id": "C35", "title": "Every included document is loaded exactly once", "statement": "Loading a root document loads every document reachable through includes exactly once, for every include graph.", "quantifier": "every include graph, with sharing and cycles", "why_tests_cant": "all graphs", "anchors": ["src/disseminate/document/document.py: Document.load_subdocuments, documents_dict, documents_list"]}
{"id": "C36", "title": "Loading a document tree terminates", "statement": "Loading a root document finishes for every include graph, also when documents include each other.", "quantifier": "every include graph", "why_tests_cant": "cycles of every length", "anchors": ["src/disseminate/document/document.py: Document.load_subdocuments"]}
{"id": "C37", "title": "A document is reloaded exactly when it changed", "statement": "A document is reloaded exactly when its source file, or one of the documents/templates it depends on, is newer than at its last load.", "quantifier": "every history of loads and file changes", "why_tests_cant": "all histories", "anchors": ["src/disseminate/document/document.py: Document.load_required, load, _update_mtime"]}
{"id": "C38", "title": "Renaming a path changes only what was asked", "statement": "Renaming a path with a new filename, appended text or new extension changes only the last component, the directory is unchanged, and the result has the requested extension.", "quantifier": "every path", "why_tests_cant": "all paths", "anchors": ["src/disseminate/paths/utils.py: rename"]}
{"id": "C39", "title": "Relative links lead to the linked file", "statement": "The relative url between two target files, resolved from the linking file's directory, is the path of the linked file.", "quantifier": "every pair of target paths", "why_tests_cant": "all pairs of paths", "anchors": ["src/disseminate/paths/paths.py: TargetPath.get_url"]}
{"id": "C40", "title": "File search respects the search order", "statement": "Searching for a file in the context's paths returns the match in the first path that has one and raises FileNotFoundError exactly when no path has one.", "quantifier": "every file system and path list", "why_tests_cant": "all file systems", "anchors": ["src/disseminate/paths/utils.py: find_file, find_files"]}
{"id": "C41", "title": "Previous/next links follow the document order", "statement": "After the tree is updated each document's previous and next entries for each of its targets are the neighbouring documents that have the target and a heading, and stale entries are removed.", "quantifier": "every document tree and assignment of targets and headings", "why_tests_cant": "all trees and target assignments", "anchors": ["src/disseminate/tags/navigation.py: set_navigation_labels"]}
{"id": "C42", "title": "The abbreviated table of contents keeps the current document in full", "statement": "An abbreviated table of contents lists all headings of the current document and exactly the first heading of each other document, in order.", "quantifier": "every label list grouped by document", "why_tests_cant": "unbounded label lists", "anchors": ["src/disseminate/tags/toc.py: Toc.get_labels, Toc.reference_tags"]}
{"id": "C43", "title": "List items keep their text and nesting", "statement": "Parsing a bullet list gives one item per bullet, in order, with the text between bullets; normalized nesting starts at zero and preserves the relative indentation. A list written with two spaces for each level, from level zero, has these levels and texts.", "quantifier": "every list text", "why_tests_cant": "infinite text domain", "anchors": ["src/disseminate/tags/list.py: parse_string_list, clean_string_list, normalize_levels"]}
{"id": "C44", "title": "Nested html lists have the shape of their levels", "statement": "Rendering a list of (level, item) pairs puts each item at the nesting depth of its level and keeps the order of the items. The items of a list that is written with two spaces for each level are at these depths in html.", "quantifier": "every list of levels", "why_tests_cant": "unbounded level sequences", "anchors": ["src/disseminate/formats/xhtml.py: xhtml_list"]}
{"id": "C45", "title": "Tables keep all cells", "statement": "Loading delimited data keeps every cell of a rectangular table in its row and column and the header names in order. Each row of the body has as many cells as the table has column types.", "quantifier": "every rectangular table", "why_tests_cant": "unbounded tables", "anchors": ["src/disseminate/tags/data.py: DelimData.load, Data.rows_transpose", "src/disseminate/utils/list.py: transpose"]}
{"id": "C46", "title": "Verbatim text is reproduced literally", "statement": "The tex form of a verbatim text uses a delimiter that does not occur in the text.", "quantifier": "every text", "why_tests_cant": "infinite text domain", "anchors": ["src/disseminate/formats/tex.py: tex_verb"]}
{"id": "C47", "title": "Only allowed tex commands and html tags are emitted", "statement": "Commands, environments and html tags outside the allowed tables are refused (tex) or replaced by a neutral element (html), and required arguments are checked.", "quantifier": "every command or tag name and attributes", "why_tests_cant": "all names and attribute dicts", "anchors": ["src/disseminate/formats/tex.py: tex_cmd, tex_env", "src/disseminate/formats/xhtml.py: xhtml_tag"]}
{"id": "C48", "title": "Project roots are the topmost source directories", "statement": "The root documents found under a directory are exactly the source files in directories with no ancestor directory containing source files.", "quantifier": "every directory tree", "why_tests_cant": "all trees", "anchors": ["src/disseminate/builders/environment.py: Environment._get_src_filepaths"]}
{"id": "C49", "title": "Dependency checks report exactly what is missing", "statement": "A dependency group is reported available exactly when its all/any/optional condition holds for its nested members; executables already checked are not checked again.", "quantifier": "every nested dependency listing", "why_tests_cant": "unbounded nesting", "anchors": ["src/disseminate/checkers/types.py: All, Any, Optional, flatten", "src/disseminate/checkers/checker.py"]}
{"id": "C50", "title": "Dependency scanning finds referenced files", "statement": "Scanning a rendered file returns, for each referenced file, the file next to it if present, otherwise the one under the root; missing files raise an error, or are skipped when errors are disabled.", "quantifier": "every file system and reference list", "why_tests_cant": "all file systems", "anchors": ["src/disseminate/builders/scanners/scanner.py: Scanner.scan"]}
{"id": "C51", "title": "Typography substitution only touches the documented characters", "statement": "Typographic substitution leaves text without dashes and quotes unchanged, replaces dashes by their longest match, and applying it again changes nothing.", "quantifier": "every text", "why_tests_cant": "infinite text domain", "anchors": ["src/disseminate/tags/receivers/typography.py"]}
{"id": "C52", "title": "Author lists read naturally", "statement": "A list of authors is joined with commas and a single 'and' before the last one, mentioning each author once and in order.", "quantifier": "every list of authors", "why_tests_cant": "unbounded lists", "anchors": ["src/disseminate/tags/preamble.py: Authors.author_string", "src/disseminate/utils/string.py: nicejoin"]}
{"id": "C53", "title": "Verbatim contents are not interpreted", "statement": "The content of a verbatim tag (code, verb, equations with their own syntax, data) is kept literally: markup inside it is not turned into tags, at whatever depth the verbatim tag is and however often the content around it is processed.", "quantifier": "every text, every set of verbatim tag names", "why_tests_cant": "infinite text domain and arbitrary nesting", "anchors": ["src/disseminate/tags/receivers/content.py: process_content, parse_tags", "src/disseminate/tags/tag.py: Tag.process_content"]}
{"id": "C54", "title": "The plain text of a tag is its text without markup", "statement": "Converting a tag to plain text gives the text of its content in order, with the markup of tags removed.", "quantifier": "every text and every tag tree", "why_tests_cant": "unbounded nesting", "anchors": ["src/disseminate/tags/tag.py: Tag.default_fmt", "src/disseminate/tags/utils.py: format_content"]}
{"id": "C55", "title": "Replacing tags leaves everything else alone", "statement": "Replacing all tags of a class by a text removes all of them, and changes nothing else.", "quantifier": "every tag tree, every class, every text", "why_tests_cant": "unbounded nesting", "anchors": ["src/disseminate/tags/utils.py: repl_tags"]}
{"id": "C56", "title": "A builder that cannot run says so", "statement": "The status of a builder whose class is not active (no priority, or an executable that cannot be found) is 'inactive'.", "quantifier": "every builder and state", "why_tests_cant": "the status is documented to be 'inactive', but no test runs without the executables", "anchors": ["src/disseminate/builders/builder.py: Builder.active, Builder.status"]}
{"id": "C57", "title": "Copying and saving write exactly the asked contents", "statement": "Building a copy that is ready makes the output file equal to the input file, and building a saved text makes the output file contain the text; no other file changes, and the builder is done afterwards.", "quantifier": "every builder, file system and database state", "why_tests_cant": "holds for all contents and all states of the decider's database", "anchors": ["src/disseminate/builders/copy.py: Copy", "src/disseminate/builders/save_temp.py: SaveTempFile"]}
{"id": "C58", "title": "The process of a builder is started at most once", "statement": "However often a builder tree is polled and built, and whatever happens to processes and files meanwhile, the process of each builder is started at most once.", "quantifier": "every tree of builders, history of polls and schedule of events", "why_tests_cant": "ranges over interleavings of polls with processes that end", "anchors": ["src/disseminate/builders/builder.py: Builder.run_cmd, Builder.build", "src/disseminate/builders/composite_builders/composite_builder.py: CompositeBuilder.build"]}
{"id": "C59", "title": "Header values win over template values, nearest template first", "statement": "When a document is loaded, the header block is removed from the entry that has it, the directories of the template and of the templates it extends are put in front of the search paths (own ones first, each once), and each entry of the context is what it was, changed by the values of the context files of the templates and then by the values of the header: a text has the value in the header, or else the value of the nearest template that has one, or else the value from before. The template is the one named in the header, or else the one in the context.", "quantifier": "All contexts (heaps of entries of any type), headers, template names, directory trees, context files and template texts, and all orders in which entries with headers are visited", "why_tests_cant": "Precedence depends on the combination of header keys, template keys, entry types and the layout of template directories; tests load a few shipped templates.", "anchors": ["src/disseminate/document/receivers/process_headers.py: process_headers, find_template_paths, find_jinja2_parent_templates, find_additional_context_filepaths"]}
{"id": "C60", "title": "A page is rendered again when any of its templates changes", "statement": "The files that a rendered page depends on are the files of its template and of all templates that it extends, includes or imports, directly or through others, however many; the context files that belong to them; what the scanner finds in these; and the hashes of its tags. No dependency is listed twice, and a missing template is an error however far away it is. The template is the first that exists of name/target/template.target, the name with the extension of the target, and the name itself.", "quantifier": "all template names, targets, sets of template files and references between them (of any depth), all parameters, scanners and hashes", "why_tests_cant": "The references between templates form an arbitrary graph; tests follow a few short chains.", "anchors": ["src/disseminate/builders/jinja_render.py: JinjaRender.template, JinjaRender.parameters, template_filepaths, context_filepaths", "src/disseminate/utils/list.py: uniq"]}
{"id": "C61", "title": "Generated files with different contents have different names", "statement": "Two files that are generated from texts (diagrams, equations, rendered pages) in one environment, with the same options, have the same path only when they are made from the same inputs, unless the hash function collides; so that no generated file overwrites another one.", "quantifier": "all lists of inputs, source documents, environments, extensions and targets; all hash functions without a collision on the texts hashed", "why_tests_cant": "That no two of all possible inputs share a name cannot be tested; the exceptions found here were not.", "anchors": ["src/disseminate/builders/utils.py: generate_mock_parameters, generate_outfilepath", "src/disseminate/builders/builder.py: Builder.outfilepath", "src/disseminate/builders/jinja_render.py: JinjaRender.outfilepath", "src/disseminate/tags/eqs.py: Eq.html_fmt, Eq.tex_fmt"]}
{"id": "C62", "title": "What the context of a document says about its targets, its sub-documents and its place", "statement": "The targets of a document are exactly the extensions (with one leading period, each once) for the names in its entry 'target' or, without it, 'targets', and there are none if a name is 'none'. The documents it includes are exactly the non-blank lines of 'include' or 'includes', in order, trimmed, and relative to the directory of the document. After a reset - whatever happened to the context before - its level is one more than that of its parent (1 for the root), its root document is the parent's (or itself), its id, source file and time are its own, and its paths are its directory and the project root, once each.", "quantifier": "All contexts (any nesting of values, any history), parents, initial values, texts and lists of targets, include texts and source paths; all orders of sets.", "why_tests_cant": "Unit tests fix a few headers; levels and paths depend on every history of loads and resets and on what is inherited, and lists of targets and lines are unbounded.", "anchors": ["src/disseminate/document/document_context.py: DocumentContext.reset", "src/disseminate/document/document_context.py: DocumentContext.targets", "src/disseminate/document/document_context.py: DocumentContext.includes"]}
{"id": "C63", "title": "Where references lead and what they show", "statement": "A reference tag gives a link that, followed from the page of its document, leads to the file of the document that has the label, at the anchor of the label (for the label of a document, to the file itself); a reference to a label of its own document stays on the page; the text of the reference and of a heading show the number and title of that same label.", "quantifier": "every history of labels, every set of documents with different ids, every working directory, target, layout of target files and every label", "why_tests_cant": "the links depend on the relative position of two arbitrary files and on all labels of the project; tests use two documents in one directory with different labels", "anchors": ["src/disseminate/tags/ref.py: Ref.label, Ref.document, Ref.url, Ref.html_fmt, Ref.tex_fmt", "src/disseminate/tags/label.py: LabelMixin.create_label, LabelTag", "src/disseminate/label_manager/label_manager.py: format_string", "src/disseminate/document/document.py: documents_by_id", "src/disseminate/paths/paths.py: TargetPath.get_url"]}
{"id": "C64", "title": "Titles and automatic labels of headings and figures", "statement": "The title made from a text is one line with the words of its first sentence, with single spaces and no periods around it; a text that is such a title is kept. A heading gets the id that was given, or else one from its kind, its document and its (short) title, whatever the other headings are; headings without text are numbered, and no two of them get the same id; the id of a figure goes to its first caption. A document whose ids are all different can be loaded, and every heading and caption of a figure has its label, in order.", "quantifier": "every text, every document with any sequence of headings and figures, any slugify and hash function and any history of the label manager", "why_tests_cant": "the ids of all headings and captions of a document interact; tests use a few headings with different short titles", "anchors": ["src/disseminate/utils/string.py: titlelize", "src/disseminate/tags/label.py: generate_label_id, create_label, LabelMixin.create_label", "src/disseminate/tags/headings.py: Heading.generate_label_id, id_mappings", "src/disseminate/tags/caption.py: Caption.generate_label_id", "src/disseminate/tags/figs.py: BaseFigure.__init__"]}
{"id": "C65", "title": "The steps of a conversion feed each other", "statement": "When a conversion has several steps, the first step reads the files that the conversion is given, every other step reads exactly the file that the step before it wrote, and the last step writes the output of the conversion; every step is given the options of the conversion. Running the steps in order leaves in the output file the composition of what the steps make of the input files. An output path that was asked for is the one that is written.", "quantifier": "every tree of nested sequential builders in any prior state (parameters and outputs set before), every list of parameters, every environment, any hash functions and any programs", "why_tests_cant": "the paths are set by mutation over nested builders that were already chained when they were made; tests run two or three conversions with real programs", "anchors": ["src/disseminate/builders/composite_builders/sequential_builder.py: SequentialBuilder.chain_subbuilders, SequentialBuilder.outfilepath", "src/disseminate/builders/builder.py: Builder.outfilepath, Builder.parameters, Builder.infilepaths", "src/disseminate/builders/pdf2svg.py: Pdf2SvgCropScale", "src/disseminate/builders/asy_builders.py: SaveAsySvg"]}
{"id": "C66", "title": "Converters are run with the files and options that were asked for", "statement": "The program of a conversion is run with its fixed options, with the output file and with every input file, each as one argument, whatever the files are called, and no file name is taken as an option. The options crop, offset, scale and page of an image are given to the program that applies them: one crop for all margins, or four; an invalid value is an error. A conversion from pdf to svg crops if a crop was asked for, then converts, then scales if a scale was asked for.", "quantifier": "every action of the converters, all lists of input paths and output paths, all lists of parameters, any sanitizer and any parser of numbers", "why_tests_cant": "file names and options are arbitrary; tests use names without spaces and options that are already numbers", "anchors": ["src/disseminate/builders/builder.py: CustomFormatter, Builder.run_cmd_args, Builder.run_cmd, Builder.get_parameter", "src/disseminate/builders/pdf2svg.py: Pdf2svg, Pdf2SvgCropScale", "src/disseminate/builders/pdfcrop.py: PdfCrop", "src/disseminate/builders/scalesvg.py: ScaleSvg", "src/disseminate/builders/validators.py: validate_tuple", "src/disseminate/builders/pdflatex.py: Pdflatex"]}
{"id": "C67", "title": "A tree of documents has the builders its targets need", "statement": "When a tree of documents is loaded, every document has exactly one builder for each of its targets, with an epub built once for the root document, and for what these targets need: the tex of a pdf and the xhtml of every document for an epub. No other builders are left from earlier loads. What a document asked for is written to the output directory, and what is only needed for another target to the cache. A pdf is made from the tex builder of its document and an epub from the xhtml builders of all documents in the order of the tree; no builder is shared otherwise. The build of the tree has each of these builders once. An unknown target is an error, and nothing else is. Files of a target are given to the builder of that target.", "quantifier": "all trees of documents with any targets in any order, with or without periods; all earlier builders; with and without a converter from tex to pdf", "why_tests_cant": "builders for needed targets are made in the contexts of other documents while the tree is walked, so the outcome depends on the order of documents and targets; tests use one or two documents", "anchors": ["src/disseminate/builders/target_builders/receivers.py: add_target_builders, add_file, find_builder", "src/disseminate/builders/target_builders/target_builder.py: TargetBuilder", "src/disseminate/builders/target_builders/pdf_builder.py: PdfBuilder", "src/disseminate/builders/target_builders/epub_builder.py: EpubBuilder", "src/disseminate/builders/environment.py: Environment.collect_target_builders"]}
{"id": "C68", "title": "An epub has all its files, each once, and lists them", "statement": "The archive of an epub starts with its type and the fixed files. Every xhtml, css, svg and png file of the documents and of what they depend on is in it exactly once, under the path it had in its directory, and nothing else is. The list of contents has an item for each of them, with the right format, that leads to the entry, and one id for each item. The order of reading is titles first, then the table of contents, then the other pages in the order of the documents. There always is a table of contents.", "quantifier": "all lists of documents and dependencies with any paths, also with parts that lead to a parent directory, and files given more than once; all functions that make ids", "why_tests_cant": "entries, names and ids are made by three different functions from the same list; that they agree, and that names do not collide, depends on every pair of files, and tests make one epub of two files", "anchors": ["src/disseminate/builders/xhtml2epub.py: XHtml2Epub", "src/disseminate/builders/target_builders/epub_builder.py: EpubBuilder.xhtml_filepaths, has_toc_xhtml", "src/disseminate/templates/default/xhtml/content.opf"]}
{"id": "C69", "title": "Rendering of tags in tex", "statement": "For every text with tags, the tex of its tags has balanced braces if the text has, it keeps the visible text of the tags in their order, texts of the text classes always have a rendering, each class has its form, and a tag has the class that one of the names of the class selects unless that class is listed as inactive.", "quantifier": "all texts and trees of tags, attributes, lists of inactive tags, modes and renderings of the other classes", "why_tests_cant": "The rendering is recursive over a tree of any depth, and braces, attributes and names are any texts of the author; tests render a few trees and compare strings.", "anchors": ["src/disseminate/tags/tag.py: Tag.tex_fmt, TagFactory.tag_class, TagFactory.tag_classes", "src/disseminate/tags/text.py", "src/disseminate/tags/eqs.py: Eq.tex_fmt", "src/disseminate/tags/headings.py", "src/disseminate/tags/featurebox.py", "src/disseminate/tags/notes.py", "src/disseminate/tags/utils.py: format_content"]}
{"id": "C70", "title": "Rendering of tags in html and xhtml", "statement": "For every tree of tags, the elements of its rendering in html and xhtml hold the text of the tags in their order, all elements and attributes are those that the settings permit, tags of texts of xml always have a rendering, each class has its element and class attribute, attributes of the author are kept, and html and xhtml have the same elements except for symbols and panels.", "quantifier": "all trees of tags of any depth, attributes, characters, tables of entities and renderings of the other classes", "why_tests_cant": "The rendering is recursive over a tree of any depth with any names and attributes of the author; tests compare strings for a few trees.", "anchors": ["src/disseminate/tags/tag.py: Tag.html_fmt, Tag.xhtml_fmt", "src/disseminate/tags/text.py", "src/disseminate/tags/featurebox.py", "src/disseminate/tags/figs.py", "src/disseminate/tags/notes.py", "src/disseminate/tags/headings.py: Heading.html_fmt", "src/disseminate/formats/xhtml.py: xhtml_tag, xhtml_entity"]}
{"id": "C71", "title": "Copies of project starters", "statement": "When the command init is done, each file of the named starter is in the output directory with the same content and all other files are as they were; whatever it ends with, no other file has changed; listings, information, unknown names and a refusal of the user change nothing; it is done if the descriptions are complete and there is place; a second copy changes nothing; and the list has each starter once in the order of names.", "quantifier": "all file systems, starters, directories, names, flags, answers and failures in the middle of the copy", "why_tests_cant": "The state before the command is any file system, the copy can fail after any file, and paths may coincide; tests copy a few packaged starters into empty directories.", "anchors": ["src/disseminate/cli/init.py: init, generate_starters_dict, starter_filepaths, starter_path_to_name, starter_path_template_name, print_starters_list, is_empty, clone_starter", "src/disseminate/settings.py: template_starter_dir, template_starter_desc_filename"]}
{"id": "C72", "title": "The preview server and the list of dependencies", "statement": "Every file below the directory of the server is shown at its address and every file of the media below /media/; what does not exist is an error; no file elsewhere is sent. The projects are loaded until it works and stay the same. The tree of documents shows each document once, before its sub-documents, numbered among its siblings. The page of dependencies tells of each whether it was found and of lists whether they are sufficient, and the command setup --check prints the same rows as lines of a fixed width.", "quantifier": "all addresses, file systems and directories; all sequences of requests; all trees of documents and dependencies", "why_tests_cant": "Addresses come from outside, and the trees have any depth; tests ask for a few pages of one project.", "anchors": ["src/disseminate/server/urls.py: url_handlers", "src/disseminate/server/handlers/pygmentize.py: PygmentizeHandler", "src/disseminate/server/handlers/static.py: StaticFileHandler", "src/disseminate/server/handlers/projects.py: load_projects", "src/disseminate/server/handlers/tree.py: tree_to_dict", "src/disseminate/server/handlers/checkers.py: checkers_to_dict", "src/disseminate/cli/setup/checkers.py: print_checkers, print_dependencies, print_single_check", "src/disseminate/cli/term.py: fill_string"]}
{"id": "C73", "title": "Images in tex and html", "statement": "An image tag asks for the conversion of the first file that is named in its content, or of the content itself, with the attributes for the target; for each target it asks once, and later renderings show the same file. In tex the command includegraphics names exactly the path of the file, detokenized if it is not in ascii, with the width and height of the attributes and a width in percent as part of the text width; in html the element img has the address of the file, the attributes alt, class and style, and a class for the width.", "quantifier": "all contents, attributes, paths and file systems; all sequences of renderings for the targets, with files that change in between", "why_tests_cant": "The path, the attributes and the order of renderings are free; tests render a few images once.", "anchors": ["src/disseminate/tags/img.py: Img.content_as_filepath, Img.add_file, Img.tex_fmt, Img.html_fmt", "src/disseminate/tags/asy.py: Asy"]}
{"id": "C74", "title": "The tags of code", "statement": "Code is shown as it was written, or, when lines of it name files, as the contents of these files in order. It is highlighted with the lexer of the first attribute that names one, which for the tag of a language is that language, and otherwise with a guessed one. Inline code is the text of an element in html, and a verbatim text in tex.", "quantifier": "all contents, attributes, lexers and file systems", "why_tests_cant": "The code may contain anything; tests show a few lines of python.", "anchors": ["src/disseminate/tags/code.py: Code, Python, Html, Ruby, Java, Javascript, Dm"]}
{"id": "C75", "title": "Headings, captions and references show the number and title of their label", "statement": "With the default formats, a heading with a label shows its title: alone for @title, after 'Part n. ' or 'Chapter n. ' for parts and chapters, and after the numbers of the headings around it and its own ('2.1. ') for sections and below. In tex it is preceded by \\setcounter with its number less one, so that LaTeX counts the same number, and followed by \\label with its id; in html its element has the id. A caption of a figure or table shows 'Fig. n' or 'Table n' in bold before its text in every target; a reference shows the title of a heading (with the number of a part or chapter), or the same bold name and number of a caption. A reference to a document shows the title of the document.", "quantifier": "all histories of loaded labels, all labels with unique ids, all titles without '@', all attributes, contents and targets", "why_tests_cant": "The numbers come from all the documents of the project and the history of loading them, and the texts go through macros, parsing, typography and rendering.", "anchors": ["src/disseminate/tags/label.py: LabelTag, LabelAnchor", "src/disseminate/tags/headings.py: Heading", "src/disseminate/tags/caption.py: Caption", "src/disseminate/tags/ref.py: Ref", "src/disseminate/label_manager/label_manager.py: format_string", "src/disseminate/settings.py: label_fmts"]}
{"id": "C76", "title": "References and links are written as links that lead to their targets", "statement": "In html, a reference is an element a of the class ref whose href is the url of the reference (which leads to the label), with the text of the reference. In tex it is \\href with the url of the pdf file and the text. @next and @prev are such links to the labels of the next and previous documents, and nothing if there are none. @srclink, @txtlink, @texlink, @pdflink and @epublink give the relative path from the file of the document to the other file, escaped for html; nothing if it is the same file or is not made.", "quantifier": "all labels and histories, urls, attributes, working directories, paths and sets of targets", "why_tests_cant": "The paths, ids and texts are free, and the link passes through the reader of attributes and the escaping of html.", "anchors": ["src/disseminate/tags/ref.py: Ref.tex_fmt, Ref.html_fmt, Ref.default_fmt", "src/disseminate/tags/navigation.py: Next, Prev, OtherLink, Srclink, Txtlink, Texlink, Pdflink, Epublink"]}
{"id": "C77", "title": "From the text of a document to its tags", "statement": "A document becomes tags whenever its text can be read. The result has the tags, attributes, letters and literal texts that the text says, each once and in order, at any depth; paragraphs are put around them but take nothing away. Without paragraphs it is exactly what the text says with the typography set once. Text without tags becomes one paragraph for each text between blank lines. A text with an unclosed tag makes no tag. The entries of a context that are to be tags become tags in whatever order they are visited, and the others stay.", "quantifier": "all texts, all classes of tags, all contexts without macros, all orders of the context's entries", "why_tests_cant": "The receivers of a new tag work one after the other, again for every tag in it and for every paragraph made around these; tests look at one receiver at a time.", "anchors": ["src/disseminate/tags/tag.py: Tag.__init__", "src/disseminate/tags/signals.py: emit", "src/disseminate/tags/receivers: process_macros, process_content, process_typography, process_paragraphs", "src/disseminate/document/receivers/process_tags.py: process_tags"]}
{"id": "C78", "title": "Tables of contents, authors and title pages as they are shown", "statement": "In html and xhtml a table of contents is a list with exactly one item for each label of the table, in their order, nested by the levels of their headings. Each item is a link that shows the text of a reference to the label and leads to the file of the label's document, at the label's anchor. In tex it is an easylist with a line for each label, with as many marks as the level of the label. The table is made whenever the references to its labels are. Authors are shown as the list of their names is read, and a title page shows the title and then the authors of the context.", "quantifier": "all histories of the label manager, all projects, all words of the table, all labels and formats of labels, all lists of names", "why_tests_cant": "The items depend on the labels of all documents and their order, on the kinds of the labels before, on the paths of two documents and on the formats of references; tests have a few headings.", "anchors": ["src/disseminate/tags/toc.py: TocRef, Toc.html_fmt, Toc.tex_fmt", "src/disseminate/tags/preamble.py: Authors, Titlepage", "src/disseminate/formats/xhtml.py: xhtml_list, xhtml_tag"]}
{"id": "C79", "title": "Titles and labels of documents", "statement": "The title of a document is what its entry 'title' says (a text as it is, a tag by its text without the white space around it), or else the path of its file without the extension; the short title is what the entry 'short' says, or else the title. After any history of loading documents and looking up labels, a document of the project has exactly one label of kind 'document', before the labels of its tags, with its level and the short title it had when it was last loaded; listing the labels of kind 'document' gives those of the documents of the project, each once and in order; and a reference with the id of the document and of this label finds it.", "quantifier": "all contexts, paths and tags; all histories of loads (also ones that fail half way) and queries, with any documents, levels, titles and labels made by tags, also for other documents; all slug functions", "why_tests_cant": "Tests load one or two small documents once; the claim is about every order of loading, reloading, failing and looking up, and about labels that other documents add.", "anchors": ["src/disseminate/document/document.py:Document.title", "src/disseminate/document/document.py:Document.short", "src/disseminate/document/receivers/process_document_label.py:process_document_label", "src/disseminate/label_manager/receivers.py:reset_label_manager", "src/disseminate/label_manager/label_manager.py:LabelManager.add_document_label"]}
{"id": "C80", "title": "A page is out of date after a label it refers to has changed", "statement": "The labels that a page depends on are exactly those that the references in its tags stand for, at any depth and wherever they are in the project; they are listed once and in order, and a reference to a label that does not exist is an error. Asking whether a build of a document is needed gives yes after the number of one of these labels, or the title of a heading or caption, has changed, and the page is then rendered again.", "quantifier": "every tree of tags, every history of labels, every history of files and finished builds", "why_tests_cant": "Quantifies over all trees of tags, all label histories and all histories of builds; the tests build one page with one reference.", "anchors": ["src/disseminate/tags/ref.py: add_ref_labels", "src/disseminate/builders/builder.py: Builder.parameters, get_parameters_from_signals, scan_parameters", "src/disseminate/builders/target_builders/target_builder.py: TargetBuilder", "src/disseminate/label_manager/types/label.py: Label.__repr__, __lt__, __eq__, __hash__", "src/disseminate/label_manager/types/content_label.py: ContentLabel.__repr__"]}
{"id": "C81", "title": "Paths written in templates lead to the files of the target", "statement": "A path that a template passes through the filter 'rewrite_path' (a style sheet, for example) becomes a link which, followed from the directory of the page that is rendered, leads to the file with this path in the directory of the target; without relative links it is '/target/path'. Slashes at the ends of the text do not matter. If the file is not found the text is left, without these slashes, and so leads to the file beside the page. The filter does not fail.", "quantifier": "all texts of templates that are paths, all file systems, working directories, directories of targets, pages and documents", "why_tests_cant": "Whether a link is right depends on the directory of the page, of the document and of the targets, on which files exist and on the working directory; the tests try one page of a project with one style sheet.", "anchors": ["src/disseminate/builders/jinja_render.py: rewrite_path", "src/disseminate/paths/paths.py: TargetPath.get_url, TargetPath.use_subpath", "src/disseminate/paths/utils.py: find_file"]}
{"id": "C82", "title": "Settings of classes are those of the class and of all its parents", "statement": "The entries that contexts of a class do not inherit, and those that a reset leaves, are the union of what the class and all classes above it list, whatever the shape of the hierarchy and in whatever order classes are asked. The entries of all dicts of a class have the entries of the class itself first, then those of its parents, with those of subclasses before those of their parents.", "quantifier": "all hierarchies of classes with any number of bases, all orders of resolution, all attributes, and all sequences of calls", "why_tests_cant": "The tests ask for the hierarchy of three classes with one base; several bases, settings missing on the way, and values stored for subclasses and parents in different orders are combinations that examples do not cover.", "anchors": ["src/disseminate/utils/classes.py: all_parent_classes, all_attributes_values, all_dicts", "src/disseminate/context/context.py: BaseContext.find_do_not_inherit, BaseContext.reset"]}
{"id": "C83", "title": "Attributes with weak references give what was assigned last, while it exists", "statement": "An attribute that stores a weak reference (the context of a tag, the labels above a label, the environment of a decider) gives the object that was assigned last, as long as this object exists and the attribute was not deleted, and None otherwise. Attributes with different names and different objects do not affect each other. Reading never fails for an object whose class has the attribute; deleting fails with KeyError exactly if nothing was assigned.", "quantifier": "all histories of reads, assignments, deletions and deaths of objects, over any number of objects, classes and attributes", "why_tests_cant": "Descriptors share state: each stores its name at its first use, for all classes, and objects have one dict for all their weak references. Whether one attribute can disturb another depends on the history, and tests try single assignments.", "anchors": ["src/disseminate/utils/classes.py: weakattr"]}
{"id": "C84", "title": "Linking or copying a file is complete, and safe when it stops on the way", "statement": "After link_or_copy(src, dst) the destination has the contents of the source, and the source and every other file are as before, whether or not the destination existed and whether or not hard links are possible. If the program stops at any point on the way, the source and all other files are as before, and the destination is as before, absent, or has a beginning of the source. It fails only with FileNotFoundError, when the source or the directory of the destination does not exist; without the source nothing is changed.", "quantifier": "all file systems with hard links and several devices, all pairs of names (also of the same file), all points at which the program may stop, and all ways to write contents in pieces", "why_tests_cant": "Points of interruption, hard links between other names and the choice between link and copy are states of the file system that a test on one temporary directory does not reach.", "anchors": ["src/disseminate/utils/file.py: link_or_copy"]}
{"id": "C85", "title": "Building projects from the command line and the table of progress", "statement": "The build command calls the root builder of a project exactly as often as its status is 'ready' or 'building', ends when the builder is finished, and prints as its last line the status at the end. All projects are built, in order. With an output directory and more than one project, nothing is built. In the table of progress every value is below its header, with two spaces at least between the columns, and the row gives the number of builders done and of all builders.", "quantifier": "every root builder (any status function and any effect of a build), every number of projects, every name of a project, number of documents and list of builders", "why_tests_cant": "names, counts of documents and sequences of statuses are unbounded, and a build may take any number of rounds", "anchors": ["src/disseminate/cli/build.py:build", "src/disseminate/cli/options.py:check_out_dir", "src/disseminate/cli/utils/progressbar.py:SimpleTable,ProgressTable,progress_builders"]}
{"id": "C86", "title": "Captions of figures and tables inside of each other", "statement": "All captions of a document stay in order. Every caption in a figure or table has exactly one label, with the id and the kind (figure or table) that the caption shows, so that links to the label lead to the caption. The id of a figure or table is that of its first caption; captions of figures and tables without an id keep the id the author gave. A document whose captions have different ids is loaded.", "quantifier": "every tree of tags with captions, figures and tables at any depth, with or without ids, every hash of texts and every history of the label manager", "why_tests_cant": "figures, tables and panels can be nested to any depth and each level changes the captions again; unit tests have one figure with one caption", "anchors": ["src/disseminate/tags/figs.py:BaseFigure.__init__", "src/disseminate/tags/table.py:BaseTable.__init__", "src/disseminate/tags/caption.py:Caption.generate_label_id", "src/disseminate/tags/label.py:LabelMixin.create_label", "src/disseminate/label_manager/label_manager.py:LabelManager.add_label"]}
{"id": "C87", "title": "Lists of signals and their receivers", "statement": "The page of the server and the command that list signals show every signal once, in order, with a description on one line that has all the text of the docstring before its first empty line, and every receiver that exists, each once with its order, in the order in which the receivers are run when the signal is sent. In the command no two receivers of a signal have the same mark.", "quantifier": "every history of connections and resets of a signal, with any receivers gone, every namespace of signals and every docstring", "why_tests_cant": "the receivers come from any sequence of connections with any orders, and docstrings are arbitrary texts; tests look at the signals of the package", "anchors": ["src/disseminate/server/handlers/signals.py:SignalHandler.signals_to_dict", "src/disseminate/cli/setup/signals.py:print_signals", "src/disseminate/utils/string.py:stub", "src/disseminate/signals/signals.py:Signal.receivers_dict"]}
{"id": "C88", "title": "Equal tags, the contents of tables and lists for tex", "statement": "Two tags are equal exactly if they have the same class, name, content and context and the same attributes in any order; this is an equivalence, and nothing inside of a tag is equal to it. All contents of a table are rendered, in order, and the class of its kind comes after the classes of the author. The elements of a tag with a list can be gone through by position. From the tex of a list the levels and texts of its items can be read back.", "quantifier": "all trees of tags, all contents of tables, all attributes and all lists with any levels and texts", "why_tests_cant": "the equality is recursive over trees of any depth and dictionaries in any order; that no item is dropped from a table depends on it for all trees", "anchors": ["src/disseminate/tags/tag.py:Tag.__eq__,__getitem__,__len__", "src/disseminate/tags/table.py:BaseTable.tex_fmt,BaseTable.html_fmt", "src/disseminate/tags/list.py:ListItem.tex_fmt,List.tex_fmt"]}
{"id": "C89", "title": "Panels of figures in tex", "statement": "The tex of a panel is its environment without empty lines: every other line of the content is there, in order. Panels that follow each other are in one paragraph. The width in percent is the argument of the environment. A panel without a width is an error.", "quantifier": "all attributes and contents of panels, and all pairs of panels that follow each other", "why_tests_cant": "the lines of a content are arbitrary, and an empty line anywhere in or between panels puts them below each other; tests have a few contents", "anchors": ["src/disseminate/tags/figs.py:Panel.tex_fmt", "src/disseminate/utils/string.py:strip_multi_newlines", "src/disseminate/tags/utils.py:tex_percentwidth"]}
{"id": "C90", "title": "Labels have one order", "statement": "The comparisons of labels agree with each other and are a total order by document and then by id: of any two labels exactly one is before the other or they are equal. Sorting a collection of labels gives the same documents and ids in the same order, whatever the order before. Equal labels have equal hashes. The number of a label is the last number of its order.", "quantifier": "all labels with text documents and ids, all lists of labels and all orders of them", "why_tests_cant": "that six comparisons agree, are transitive and make sorting independent of the order before concerns all pairs, triples and lists of labels; tests compare a few", "anchors": ["src/disseminate/label_manager/types/label.py:Label", "src/disseminate/tags/ref.py:add_ref_labels"]}
