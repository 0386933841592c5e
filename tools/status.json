{
 "C01": {
  "note": "find_item precedence proved in full; get() returns the entry's value only if the value does not itself end in a target suffix (refuted with witness), and for positional kinds an entry of another target may be returned (refuted)."
 },
 "C02": {
  "note": "Exact result proved for requests by plain names and for all attributes; soundness for arbitrary requests. Refuted: order of names that only have a target-specific entry; attribute named 'self' raises TypeError."
 },
 "C03": {
  "note": "Round trip proved for entries without quotes/separators as stated; values with a single quote are refuted (outside the claim).",
  "status": "proved"
 },
 "C08": {
  "note": "Exact splitting and round trip proved for ';', newline and ','. Refuted: a single item is returned with surrounding white space."
 },
 "C10": {
  "note": "Preservation of text, tags and objects proved for contents in which no tag has an empty list as content (refuted otherwise: such a tag is dropped); absence of neighbouring/empty strings proved for all contents. Idempotence proved for contents without a list directly inside a list; refuted in general (an inner list that becomes empty is removed only by the next call)."
 },
 "C09": {
  "note": "Round trip of nested headers, exact entries for block values, quoted values and the document header proved for well-formed headers. Refuted: text of an outdented continuation line is lost; entries with the same key overwrite each other."
 },
 "C11": {
  "note": "Exact result for values without '@' and for two levels of definitions, unknown references and literal text unchanged, resolution of dotted names, termination when no value has an '@'. Refuted: termination in general ('@a' defined as '@a @a'), and complete expansion of chains of three definitions."
 },
 "C14": {
  "note": "Lookup by document and label id, and by label id alone (first match), proved for every history. Refuted: a label of the own document is not preferred for ids without document, and an id that contains the separator twice finds another label."
 },
 "C18": {
  "note": "Links to the enclosing headings and dotted numbers proved exactly for the first registration; for later registrations proved when there is an enclosing heading. Refuted: a stale link survives when documents change places."
 },
 "C19": {
  "note": "Exact membership proved when all labels have a kind. Listed once: proved when no label has two of the requested kinds; refuted in general."
 },
 "C21": {
  "note": "Proved with at most 8 braces open inside a tag, and rejection of unclosed tags for every depth; uniqueness of the closing brace. Refuted for nine or more nested braces (a closed tag is refused)."
 },
 "C53": {
  "note": "Proved for parsing a text. Refuted for processing a content that is already parsed, as when a paragraph is created around a verbatim tag."
 },
 "C23": {
  "note": "Proved for trees in which no list is directly inside a list (as the parser makes them). Refuted otherwise: tags in a list inside a list are overlooked, and keep their old context in a copy."
 },
 "C24": {
  "note": "Exact windows, uniqueness and monotonicity proved. Refuted: widths above 33% up to 34% get no class; an infinite width is an uncaught error."
 },
 "C54": {
  "note": "Proved for parsed texts and for all trees without lists directly inside lists and without None; refuted otherwise (TypeError)."
 },
 "C25": {
  "note": "A reset is proved to give what parent and initial values determine, for any history, when their entries are flat (C25_reset has no such restriction; C25_history_partial has). Findings: C25_twice_refuted (nested lists: the first reset adds to the list of the parent, the second adds again); C25_protected_refuted (a list protected from reset that has an initial value grows with each reset)."
 },
 "C26": {
  "note": "match_update is proved for dictionaries of any size and for nesting down to the depth limit: which keys appear, kinds of values kept, the value unique. Finding C26_bool_refuted: updating a boolean entry with a boolean raises AttributeError (str method called on it)."
 },
 "C27": {
  "note": "Proved for flat parents and initial values (C27_isolated_partial). Finding C27_isolated_refuted: sets inside a dictionary of the parent (label_resets in settings.py) are shared, so that the header of a subdocument changes the entries of its parent."
 },
 "C28": {
  "note": "Proved for the decider over all histories of edits and registered builds: missing files, total answers, stays not needed while contents are the same (C28_stays_partial: if no other build with the same input hash registers another output; unconditional for edits), not needed only if the same bytes were registered before. Findings: C28_swapped_refuted (exchanging the contents of two inputs goes unnoticed, whatever the hash function); C28_shared_refuted (builds with the same input bytes share one database entry). For builders: C28_stale_refuted: after its process has ended once, a builder reports done (and registers the old output) although an input changed.",
  "status": "partial"
 },
 "C30": {
  "note": "C30_other_partial: different texts of the lines that are not stamps give different hashes unless the hash function collides. Finding C30_lines_refuted: the ends of lines are not hashed."
 },
 "C32": {
  "note": "Order and completion are proved for all trees and schedules (C32_order, C32_finished), and that a ready builder is never left idle in a settled state. That everything that can be built is built in the end is refuted: a part with missing files hides the later ones of a parallel builder (C32_progress_refuted).",
  "status": "partial"
 },
 "C56": {
  "note": "Refuted: Builder.status tests the bound method 'active' instead of calling it, so 'inactive' is never reported.",
  "status": "partial"
 },
 "C33": {
  "note": "The class found is the available one of highest score (C33_best, C33_none). With a target, the asked output format is ignored: C33_output_refuted."
 },
 "C34": {
  "note": "Refuted as stated: inputs that differ in their extension only (C34_extension_refuted), a file in the media directory and one beside it (C34_media_refuted), absolute paths (C34_absolute_refuted). C34_distinct_partial gives the conditions under which outputs differ."
 },
 "C38": {
  "note": "C38_extension, C38_keeps and C38_same give the property; a name without an extension gets a trailing dot when no extension is asked: C38_dot_refuted."
 },
 "C39": {
  "note": "C39_relative proves the property for the text of the link. '?' and '#' are not escaped (C39_escape_refuted); links without a document lose leading dots (C39_dot_refuted, C39_absolute_partial)."
 },
 "C40": {
  "note": "C40_first proves the property with the working directory as first place; a file there hides those of the paths of the context: C40_cwd_refuted."
 },
 "C35": {
  "note": "C35_complete: the documents of the root are those reached by includes, each once; C35_loaded: the files read are those reached. Proved when no document lists an include twice. Read exactly once is proved when no document has two includers (C35_once_partial) and refuted otherwise (C35_once_refuted: a document included by the root after another one that includes it is read twice). C35_twice_refuted: a document that lists an include twice loses the includes of that include. Paths are compared as text, as pathlib does."
 },
 "C36": {
  "note": "C36_terminates_partial: loading ends when the includes have no cycles but for those through the root and documents that include themselves. C36_cycle_refuted: other cycles end in RecursionError whatever the recursion limit."
 },
 "C37": {
  "note": "C37_fresh: after any history with a clock that goes on, a successful load leaves every document with the contents of its file. C37_older_refuted: a file replaced by an older one is missed. C37_idle_refuted: a document may be reloaded at every load with nothing changed. C37_inherit_refuted: when a document changes, the documents included by its includes are not reloaded though they inherit from it. Missing: templates, and reload only if changed for the remaining histories."
 },
 "C41": {
  "note": "C41_links_partial: for the targets of the last document, the links are the first headings of the neighbouring documents with the target, and other entries for these targets are removed. C41_frame: nothing else changes. C41_targets_refuted and C41_stale_refuted: for targets that the last document does not have there are no links, and old entries stay. C41_skip_refuted: links do not go past a document without headings. The labels are taken to come document by document, as C16_order proves of the label manager."
 },
 "C42": {
  "note": "C42_abbreviate and C42_headings: the abbreviated table has all headings of the current document and the first heading of each other one, in the order of the tree. C42_own: the table of one document. C42_items: levels of the items. C42_html_partial: items link to their labels if ids are distinct; C42_html_refuted: with the same id in two documents both items link to the second. C42_both_refuted: with headings and documents in one abbreviated table, other documents are listed twice."
 },
 "C43": {
  "note": "The texts of the items, the joining of their lines and the normalized levels are proved for all texts. Found: the level of an item counts spaces of the blank lines before its bullet; the first item need not be at level 0; indentations that differ by one can get the same level (C43_..._refuted)."
 },
 "C44": {
  "note": "The order of the items and their depth (that of the open list of their level) are proved for all lists; the depth is the level when levels go up by one at a time and never below the first. Found: after a step of two levels an item of the level between is nested deeper than the item before; an item of a lower level than the first is nested in the first."
 },
 "C45": {
  "note": "Python's csv reader (excel dialect, skipinitialspace) is modelled with its states. Proved: every table, however its cells are written, keeps its headers and cells; columns of rows in tex. Found: columns with equal headers are lost; the headers of a table without rows are lost; without headers a single row is lost; an empty line, as in the example of the documentation, loses all cells; an ampersand that is escaped already gives a further column in tex."
 },
 "C46": {
  "note": "C46_verb_partial: a text on one line lacking one of the three delimiters is read back unchanged from the verb command; C46_verb_refuted: a text with all of | ! ^ is emitted raw; C46_lines_refuted: a text with a newline cannot be in a verb command; C46_block_partial / C46_block_refuted: the verbatim environment is read back unless the text contains its end."
 },
 "C47": {
  "note": "C47_tex_refused, C47_cmd, C47_env, C47_tex_plain, C47_cmd_options, C47_indent: commands and environments for all tables and attributes; each required argument answers its own request, in order. C47_html, C47_html_refused, C47_html_made: elements. Findings: C47_html_value_refuted (an attribute without value is a TypeError), C47_html_tag_refuted (html_tag never returns). The content of elements and their serialization (lxml) are not modelled."
 },
 "C48": {
  "note": "C48_roots, C48_once, C48_apart, C48_covered: for all directory trees and set orders, with entries matching the glob (files and directories); C48_target_root. Finding C48_files_refuted: a directory named like a source is taken for a root document. Symbolic links and wildcards in the extension are not modelled."
 },
 "C49": {
  "note": "Proved: a list counts as available exactly if its requirement is met (all/any/optional), the search for executables answers each unanswered member and leaves answered ones, the image, pdf and python checkers report success exactly if the needs are met by what the machine has, the report has one line per item with the right status, pip packages without and (for versions with as many numbers and no other installed package whose name starts like it) with a version. Findings: dependencies nested deeper than 16 lists cannot be flattened; checking again keeps earlier answers; click is found if only click-plugins is installed; 6.1 does not satisfy >=6.1.0; an installed version such as 2018.1.post1 raises ValueError; a package not found is reported as unknown; the report shows failures of optional parts."
 },
 "C50": {
  "note": "Proved: in html text made of well-formed link and image elements the references found are exactly their local values, links first; in any text each reference found is the quoted value of such an attribute; scanning returns, for each reference of each existing html file in order, the file next to it or else the one below the root, and FileNotFoundError is raised exactly for a reference without file. Findings: with raise_error=False a missing file raises IndexError; data: urls are searched as files; after an empty href another attribute is taken as the reference; unquoted references are missed."
 },
 "C51": {
  "note": "Proved for every text: unchanged without dashes and quotes; every text with any number of dashes between texts becomes the same text with the dash meant and no spaces around it; no two hyphens and no space beside a dash are left; other characters keep their order; quotes are determined by both neighbours; runs of hyphens of every length; idempotent on texts and trees. Two findings: texts are set one by one, so a quote beside a tag is not set by its visible neighbour; a dash removes the blank line beside it and so joins two paragraphs."
 },
 "C52": {
  "note": "Proved for every list of names: the text read is determined by the list, the names can be told from the text (names without commas and without the word and), names written in the tag with any of the separators are read in order, blank tags take the entry of the context. nicejoin agrees. Two findings: a text that ends in a separator gives an empty last name ('Ann, Bob and '); a name with a tag in it raises TypeError."
 },
 "C59": {
  "note": "C59_first_wins is the property for one header and templates with different context files. Refuted in general: the context file shared by two templates loses its precedence (C59_nearest_refuted), templates extended by parents are ignored (C59_grandparents_refuted), and an unknown template name gives the directory of all templates (C59_unknown_refuted)."
 },
 "C60": {
  "note": "Proved: the files are exactly those of the reachable templates (C60_templates), totality for references without cycles (C60_total), errors (C60_errors), the choice (C60_choice), context files (C60_contexts, C60_own_context) and parameters (C60_parameters). Refuted: the context file of the directory above a template, which the headers use, is not a dependency (C60_context_refuted); templates that include themselves cannot be used (C60_recursive_refuted)."
 },
 "C61": {
  "note": "C61_texts_partial and C61_pages_partial: for source files whose name has one dot only and that do not start with the media directory. Refuted otherwise: all diagrams of ch.1.dm have one file (C61_dotted_refuted); a bold and a plain term share an image (C61_bold_refuted), and so do equations that differ in the environment for tex (C61_env_refuted)."
 },
 "C62": {
  "note": "Targets, includes and reset proved for all contexts; refuted: a document's own 'targets' are not used when a document above it has 'target', since that entry is inherited."
 },
 "C63": {
  "note": "C63_reference proves the links for every project. What is shown and the anchors hold only if no other label has the id and if the id has no document (_partial); refuted in general: format_string asks for the label by its id alone and finds the first document with it; the anchor of a heading is the id as written, the link has only the part after the separator; a label of a document without the target raises; an entry doc_id in a header hides the labels of the document. Absolute links (relative_links: false) and the texts of the formats are not modelled."
 },
 "C64": {
  "note": "C64_loaded_partial needs that the ids of the document are different. C64_same_title_fails and C64_same_caption_fails prove that a document with two headings of the same kind with the same title, or two figures with the same caption, cannot be loaded; also refuted for different texts with the same first sentence and for a heading without text next to one whose text is its number. A title may end with a space (refuted). slugify and hashtxt are arbitrary functions. Figures inside of figures and the text of contents (content_to_str) are not modelled."
 },
 "C65": {
  "note": "C65_options_refuted: two conversions of the same file with different options (for example two @img tags with different scale) write the same output file. The order in which the steps run is C32; parameters from signals and the creation of directories are not modelled; tuples of options are texts."
 },
 "C66": {
  "note": "The _partial theorems ask for paths without white space that neither the sanitizer nor the stripping of dashes changes. C66_space_refuted: a file with a space in its name becomes two arguments; C66_injection_refuted: its second part may be an option of the program; C66_dash_refuted: an output directory whose name ends with a dash is changed; C66_page_refuted and C66_page_fails: a page is never given to pdf2svg, and directly it makes the run fail; C66_crop_zero_refuted, C66_offset_one_refuted: these options are ignored; C66_crop_text_fails: @img[crop=20] always fails, as attributes are texts. Not modelled: booleans as numbers, what the programs do."
 },
 "C67": {
  "note": "C67_epub_files_refuted: add_file for the target .epub of the root is an AttributeError (the epub builder has no builder for dependencies); C67_add_file_partial covers all other targets. C67_epub_sub_refuted: an epub asked for by a sub-document only is not built and nothing is reported. Not modelled: the paths of outputs (C34, C38), the copies of style sheets, the builder for toc.xhtml."
 },
 "C68": {
  "note": "C68_listed_refuted: png files are in the archive but not in the list of contents (C68_listed covers the listed formats). C68_distinct_refuted: a toc.xhtml of the project is not recognised (a path is compared with a text), so a second entry with the same name is made; C68_distinct_partial: files in one directory have different names. C68_ids_refuted: two files called toc.xhtml in different directories both have the id toc; C68_ids_partial: different ids for different slugs and one toc. Paths that leave the directory are outside C68_name, C68_items. Not modelled: symbolic links, the text of the template, the zip format."
 },
 "C69": {
  "note": "C69_nolabel_refuted: a title, part, chapter or section with the attribute nolabel is rendered without its text in tex. C69_inactive_refuted: inactive_tags only works with names of classes, so that the entry 'marginfig' of the template books/novel has no effect. The renderings of other classes (headings with labels, images, references, tables, lists, code) are a parameter of which C69_balanced and C69_text assume what they show."
 },
 "C70": {
  "note": "C70_figure_class_refuted: the class that an author gives a figure is replaced by that of the figure with a leading space. C70_verbatim_refuted: the class 'block' of verbatim tags is set on a copy that is not used. C70_footnote_refuted: the epub type of figures in margins is not a permitted attribute, so it is not written. C70_target_refuted: an attribute for the target (class.html=x) is not used. C70_total_refuted: a tag that is named as an element with required attributes (@a{b}) is an error in html. C70_total has the conditions for a rendering. Renderings of other classes are a parameter."
 },
 "C71": {
  "note": "C71_names_refuted: two starters may have the same name, and only one can then be copied. C71_all_refuted: a file of a project that is named description.yaml is not copied. C71_directory_refuted: where a directory has the name of a file, the file is put into it and the command is done, so C71_copied assumes that there is none (and that the output is not in the starter). C71_description_refuted: one description without a description is an error for all starters, and an empty one is an error of the list. Links, permissions and times are not modelled."
 },
 "C72": {
  "note": "C72_sources_refuted, C72_above_refuted: sources (.dm, .tex) are read without a check of the directory, so //path and /../path show files elsewhere; C72_sources_partial is for relative paths without '..'. C72_served_refuted: a directory media of the project itself cannot be reached. C72_missing_refuted: a missing source is an error 500. C72_projects_refuted: projects made later are not shown. Templates, the page of signals and tornado itself are not modelled."
 },
 "C73": {
  "note": "C73_tex_width_refuted: a width in percent that is given for tex alone ([width.tex=50%]) is written as it is, and the rest of the line is a comment. C73_given: equations give their own content, so they ask for a build at each rendering. The exception ImgFileNotFound is never raised: a content that is not a file is converted as text. Converters are those of C33 and C57."
 },
 "C74": {
  "note": "C74_literal_partial, C74_literal_refuted: a line of code that is the name of a file in the project replaces the whole code by the content of the file. C74_inline_tex_partial: see C46 for texts with newlines or all delimiters. Highlighting is not modelled."
 },
 "C75": {
  "note": "Proved for labels with unique ids and titles and ids without '@' (C75_heading_text, C75_heading, C75_caption, C75_refs). Findings: a heading shows only the first sentence of its content without markup, or its attribute short instead of its own text (C75_content_refuted, C75_short_refuted); the title is read again as source text (C75_reread_refuted); the anchor in tex passes through typography, so \\label differs from the id of references for ids with quotes or dashes (C75_anchor_refuted)."
 },
 "C76": {
  "note": "C76_html, C76_html_made, C76_leads, C76_tex, C76_step, C76_other. Findings: a url with a space, a comma, quotes, brackets or an equal sign is cut by the reader of attributes in tex (C76_tex_refuted); the default format of references always raises an AttributeError (C76_default_refuted); @next and @prev write html in tex and raise NotImplementedError in xhtml (C76_step_tex_refuted, C76_step_xhtml_refuted); links to other files within elements are escaped twice (C76_other_text_refuted)."
 },
 "C77": {
  "note": "C77_dash_refuted: a paragraph that begins with a dash is joined to the one before, since typography takes the blank line. C77_verbatim_refuted: the text of a verbatim tag in a paragraph is read as markup, so the theorems assume that it has no beginnings of tags. Documents with macros are not covered here (see C11)."
 },
 "C78": {
  "note": "C78_marks_refuted: the line of a title has no mark in tex, so it is no item. C78_symbol_refuted: a symbol in the title of a heading makes the table in html fail, since the item is read as xml. Labels with the same id in different documents: items link to the last of them (C42_html_refuted)."
 },
 "C79": {
  "note": "Proved: titles, short titles, the one label of each document after any history, listing and references. Findings: the id of the label of a document is not unique in a project (a/b.dm and a-b.dm), so a reference without the id of the document may lead to another document (C79_short_reference_refuted, C79_short_reference_partial); a single colon as label_sep takes the label away from the document (C79_separator_refuted); a sub-document without a title shows the title of the document it is in (C79_inherited)."
 },
 "C80": {
  "note": "Proved: C80_found (exactly the labels referred to, in order), C80_missing (error exactly when a label is missing), C80_parameters (these labels, each once, and the source file are the parameters of a target builder made in the present state), C80_texts (the text that is hashed tells the numbers and the titles of headings and captions), C80_noticed (if no build is needed, a build with all these texts was finished before, unless hashes collide). Findings: C80_rendered_refuted and C80_unaffected - JinjaRender overrides 'parameters' and does not ask for parameters from signals, and the status of a composite builder does not use its own parameters, so the page is not rendered again although a build is known to be needed; C80_title_refuted - the text of the label of a document does not have its title, so a change of the title of a document is not noticed. The labels kept from the time the builder was made are those of the present state, as builders are made anew when the tree of documents is updated."
 },
 "C81": {
  "note": "Proved where the working directory has no file with the path and the page is in the directory of its document. Three findings: find_file looks first in the working directory and gives a path of pathlib, which has no get_url, so the filter raises AttributeError (C81_hidden_refuted, C81_raises says exactly when); outfilepath.parent has no target_root, target and subpath, so the search looks in 'None/None' instead of beside the page (C81_precedence_refuted); the link is relative to the document and not to the page that is rendered (C81_elsewhere_refuted)."
 },
 "C82": {
  "note": "The union is proved for all hierarchies and all sequences of calls; the precedence of entries is proved for the class itself and for classes with one base. Findings: object is listed as a parent of the classes directly below it (C82_object_refuted); with several bases all_dicts may give the entry of a parent although a subclass replaces it, unlike Python (C82_precedence_refuted); a later change of do_not_inherit is not noticed (C82_stale_refuted)."
 },
 "C83": {
  "note": "Proved for all histories. Finding: assigning None to such an attribute does nothing, so the attribute still gives the object that it had (C83_none_refuted)."
 },
 "C84": {
  "note": "Proved where source and destination are not inodes with the same number on different devices. Findings: the devices are not compared, so such a destination keeps its old contents (C84_device_refuted); with a hard link later writes to the destination in place change the source (C84_shared_refuted)."
 },
 "C85": {
  "note": "The percentage is any function of the two counts. The hypotheses on the builder (it gives the status it has after a build; its flat list is not empty) are facts of composite builders and are met by the example."
 },
 "C86": {
  "note": "Without figures or tables inside of each other the labels are exactly the ids of the captions (C86_anchors, C86_loads). Findings: a figure or table without an id in which there is another with a caption always makes the document fail with DuplicateLabel, because the label of the inner caption is created a second time with the same id (C86_nested, C86_nested_refuted); with an id, the label of the inner one remains although no caption has its id any more (C86_stale_refuted); the id of the first caption of a figure that has an id itself is lost (C86_own_refuted).",
  "status": "partial"
 },
 "C87": {
  "note": "Finding: a line with white space only does not end the description, so that the text after it is shown too (C87_stub_blank_refuted); the other theorems hold without conditions.",
  "status": "partial"
 },
 "C88": {
  "note": "Findings: a text with the sign of items in it makes further items in tex (C88_list_refuted; C88_list is for texts without it); a tag with one element has the length 1, but getting the element fails (C88_items_refuted).",
  "status": "partial"
 },
 "C89": {
  "note": "Findings: a positional attribute of the author is taken for the width (C89_width_refuted; C89_width is for named attributes); a line with white space only stays and ends the paragraph (C89_blank_lines_refuted).",
  "status": "partial"
 },
 "C90": {
  "note": "Finding: labels of different classes with the same document and id are equal but hashed with the names of their classes, so their hashes may differ (C90_hash_refuted; C90_hash is for labels of one class).",
  "status": "partial"
 }
}