{
 "claims": [
  {
   "property": "C01",
   "status": "partial",
   "theorems": [
    "C01_find_item_precedence",
    "C01_find_item_no_target",
    "C01_get_precedence_partial",
    "C01_other_target_never",
    "C01_get_value_refuted",
    "C01_positional_target",
    "C01_positional_general",
    "C01_positional_no_target",
    "C01_positional_none",
    "C01_positional_other_target_refuted",
    "C01_positional_separator_refuted"
   ],
   "note": "find_item precedence proved in full; get() returns the entry's value only if the value does not itself end in a target suffix (refuted with witness), and for positional kinds an entry of another target may be returned (refuted)."
  },
  {
   "property": "C02",
   "status": "partial",
   "theorems": [
    "C02_filter_by_names",
    "C02_filter_entries",
    "C02_filter_all",
    "C02_filter_sound",
    "C02_attribute_order_refuted",
    "C02_self_attribute_refuted"
   ],
   "note": "Exact result proved for requests by plain names and for all attributes; soundness for arbitrary requests. Refuted: order of names that only have a target-specific entry; attribute named 'self' raises TypeError."
  },
  {
   "property": "C03",
   "status": "proved",
   "theorems": [
    "C03_html_round_trip",
    "C03_load_wf",
    "C03_tex_arguments",
    "C03_tex_optionals",
    "C03_quote_refuted"
   ],
   "note": "Round trip proved for entries without quotes/separators as stated; values with a single quote are refuted (outside the claim)."
  },
  {
   "property": "C04",
   "status": "proved",
   "theorems": [
    "C04_uniq_first_occurrences",
    "C04_uniq_members",
    "C04_uniq_plain",
    "C04_uniq_idempotent",
    "C04_dupes",
    "C04_dupes_empty"
   ],
   "note": ""
  },
  {
   "property": "C05",
   "status": "proved",
   "theorems": [
    "C05_chunks_concat",
    "C05_chunks_sizes",
    "C05_chunks_other_sizes",
    "C05_flatten_leaves",
    "C05_flatten_flat",
    "C05_unwrap",
    "C05_transpose_cells",
    "C05_transpose_involutive"
   ],
   "note": ""
  },
  {
   "property": "C06",
   "status": "proved",
   "theorems": [
    "C06_find_entry_best",
    "C06_find_entry_error"
   ],
   "note": ""
  },
  {
   "property": "C07",
   "status": "proved",
   "theorems": [
    "C07_longest_common_prefix",
    "C07_empty_list"
   ],
   "note": ""
  },
  {
   "property": "C08",
   "status": "partial",
   "theorems": [
    "C08_semicolons",
    "C08_newlines",
    "C08_commas",
    "C08_round_trip",
    "C08_single_item_not_stripped_refuted"
   ],
   "note": "Exact splitting and round trip proved for ';', newline and ','. Refuted: a single item is returned with surrounding white space."
  },
  {
   "property": "C09",
   "status": "partial",
   "theorems": [
    "C09_nested_round_trip",
    "C09_entries",
    "C09_header_block",
    "C09_document_header",
    "C09_quoted_value",
    "C09_text_lost_refuted",
    "C09_duplicate_key_refuted",
    "C09_escaped_colon"
   ],
   "note": "Round trip of nested headers, exact entries for block values, quoted values and the document header proved for well-formed headers. Refuted: text of an outdented continuation line is lost; entries with the same key overwrite each other."
  },
  {
   "property": "C10",
   "status": "partial",
   "theorems": [
    "C10_content_preserved",
    "C10_content_preserved_refuted",
    "C10_grouped",
    "C10_idempotent_partial",
    "C10_idempotent_refuted"
   ],
   "note": "Preservation of text, tags and objects proved for contents in which no tag has an empty list as content (refuted otherwise: such a tag is dropped); absence of neighbouring/empty strings proved for all contents. Idempotence proved for contents without a list directly inside a list; refuted in general (an inner list that becomes empty is removed only by the next call)."
  },
  {
   "property": "C11",
   "status": "partial",
   "theorems": [
    "C11_no_macros",
    "C11_value_of_reference",
    "C11_plain_values",
    "C11_all_known",
    "C11_two_levels",
    "C11_unknown_unchanged",
    "C11_terminates_partial",
    "C11_terminates_refuted",
    "C11_leaves_macro_refuted"
   ],
   "note": "Exact result for values without '@' and for two levels of definitions, unknown references and literal text unchanged, resolution of dotted names, termination when no value has an '@'. Refuted: termination in general ('@a' defined as '@a @a'), and complete expansion of chains of three definitions."
  },
  {
   "property": "C12",
   "status": "proved",
   "theorems": [
    "C12_emit",
    "C12_emit_tag",
    "C12_duplicate_refused",
    "C12_signal_by_name"
   ],
   "note": ""
  },
  {
   "property": "C13",
   "status": "proved",
   "theorems": [
    "C13_unique",
    "C13_duplicate_refused",
    "C13_reset"
   ],
   "note": ""
  },
  {
   "property": "C14",
   "status": "partial",
   "theorems": [
    "C14_with_document",
    "C14_without_document",
    "C14_own_document_refuted",
    "C14_other_label_refuted",
    "C14_added_found"
   ],
   "note": "Lookup by document and label id, and by label id alone (first match), proved for every history. Refuted: a label of the own document is not preferred for ids without document, and an id that contains the separator twice finds another label."
  },
  {
   "property": "C15",
   "status": "proved",
   "theorems": [
    "C15_numbers",
    "C15_no_gaps"
   ],
   "note": ""
  },
  {
   "property": "C16",
   "status": "proved",
   "theorems": [
    "C16_order",
    "C16_order_without_root",
    "C16_kept"
   ],
   "note": ""
  },
  {
   "property": "C17",
   "status": "proved",
   "theorems": [
    "C17_register_twice",
    "C17_queries_repeatable",
    "C17_changes_seen"
   ],
   "note": ""
  },
  {
   "property": "C18",
   "status": "partial",
   "theorems": [
    "C18_links",
    "C18_links_partial",
    "C18_enclosing_unique",
    "C18_tree_number",
    "C18_links_refuted"
   ],
   "note": "Links to the enclosing headings and dotted numbers proved exactly for the first registration; for later registrations proved when there is an enclosing heading. Refuted: a stale link survives when documents change places."
  },
  {
   "property": "C19",
   "status": "partial",
   "theorems": [
    "C19_complete",
    "C19_once_partial",
    "C19_once_refuted"
   ],
   "note": "Exact membership proved when all labels have a kind. Listed once: proved when no label has two of the requested kinds; refuted in general."
  },
  {
   "property": "C20",
   "status": "proved",
   "theorems": [
    "C20_text_preserved",
    "C20_no_tag",
    "C20_all_tags_found",
    "C20_total",
    "C20_reparse"
   ],
   "note": ""
  },
  {
   "property": "C21",
   "status": "partial",
   "theorems": [
    "C21_unique",
    "C21_matching_brace_partial",
    "C21_not_closed",
    "C21_depth_refuted"
   ],
   "note": "Proved with at most 8 braces open inside a tag, and rejection of unclosed tags for every depth; uniqueness of the closing brace. Refuted for nine or more nested braces (a closed tag is refused)."
  },
  {
   "property": "C22",
   "status": "proved",
   "theorems": [
    "C22_layout",
    "C22_idempotent",
    "C22_texts",
    "C22_roles"
   ],
   "note": ""
  },
  {
   "property": "C23",
   "status": "partial",
   "theorems": [
    "C23_flatten",
    "C23_flatten_parsed",
    "C23_flatten_refuted",
    "C23_copy",
    "C23_copy_refuted"
   ],
   "note": "Proved for trees in which no list is directly inside a list (as the parser makes them). Refuted otherwise: tags in a list inside a list are overlooked, and keep their old context in a copy."
  },
  {
   "property": "C24",
   "status": "partial",
   "theorems": [
    "C24_html_class",
    "C24_tex_width",
    "C24_monotone",
    "C24_unique",
    "C24_every_width_partial",
    "C24_every_width_refuted",
    "C24_infinite_refuted"
   ],
   "note": "Exact windows, uniqueness and monotonicity proved. Refuted: widths above 33% up to 34% get no class; an infinite width is an uncaught error."
  },
  {
   "property": "C25",
   "status": "partial",
   "theorems": [
    "C25_reset",
    "C25_fresh",
    "C25_history_partial",
    "C25_twice_refuted",
    "C25_protected_refuted",
    "C25_tags"
   ],
   "note": "A reset is proved to give what parent and initial values determine, for any history, when their entries are flat (C25_reset has no such restriction; C25_history_partial has). Findings: C25_twice_refuted (nested lists: the first reset adds to the list of the parent, the second adds again); C25_protected_refuted (a list protected from reset that has an initial value grows with each reset)."
  },
  {
   "property": "C26",
   "status": "partial",
   "theorems": [
    "C26_update",
    "C26_keys",
    "C26_kinds",
    "C26_unique",
    "C26_bool_refuted",
    "C26_tags"
   ],
   "note": "match_update is proved for dictionaries of any size and for nesting down to the depth limit: which keys appear, kinds of values kept, the value unique. Finding C26_bool_refuted: updating a boolean entry with a boolean raises AttributeError (str method called on it)."
  },
  {
   "property": "C27",
   "status": "partial",
   "theorems": [
    "C27_isolated_partial",
    "C27_isolated_refuted"
   ],
   "note": "Proved for flat parents and initial values (C27_isolated_partial). Finding C27_isolated_refuted: sets inside a dictionary of the parent (label_resets in settings.py) are shared, so that the header of a subdocument changes the entries of its parent."
  },
  {
   "property": "C28",
   "status": "partial",
   "theorems": [
    "C28_total",
    "C28_missing",
    "C28_registers",
    "C28_stays_partial",
    "C28_stays_edits",
    "C28_changed",
    "C28_same_bytes",
    "C28_swapped_refuted",
    "C28_shared_refuted",
    "C28_stale_refuted"
   ],
   "note": "Proved for the decider over all histories of edits and registered builds: missing files, total answers, stays not needed while contents are the same (C28_stays_partial: if no other build with the same input hash registers another output; unconditional for edits), not needed only if the same bytes were registered before. Findings: C28_swapped_refuted (exchanging the contents of two inputs goes unnoticed, whatever the hash function); C28_shared_refuted (builds with the same input bytes share one database entry). For builders: C28_stale_refuted: after its process has ended once, a builder reports done (and registers the old output) although an input changed."
  },
  {
   "property": "C29",
   "status": "proved",
   "theorems": [
    "C29_chunks",
    "C29_order",
    "C29_inputs",
    "C29_whole",
    "C29_distinct"
   ],
   "note": ""
  },
  {
   "property": "C30",
   "status": "partial",
   "theorems": [
    "C30_text",
    "C30_stamps",
    "C30_other_partial",
    "C30_lines_refuted"
   ],
   "note": "C30_other_partial: different texts of the lines that are not stamps give different hashes unless the hash function collides. Finding C30_lines_refuted: the ends of lines are not hashed."
  },
  {
   "property": "C31",
   "status": "proved",
   "theorems": [
    "C31_status",
    "C31_done",
    "C31_flatten"
   ],
   "note": ""
  },
  {
   "property": "C32",
   "status": "partial",
   "theorems": [
    "C32_order",
    "C32_finished",
    "C32_starts_partial",
    "C32_progress_refuted"
   ],
   "note": "Order and completion are proved for all trees and schedules (C32_order, C32_finished), and that a ready builder is never left idle in a settled state. That everything that can be built is built in the end is refuted: a part with missing files hides the later ones of a parallel builder (C32_progress_refuted)."
  },
  {
   "property": "C33",
   "status": "partial",
   "theorems": [
    "C33_best",
    "C33_none",
    "C33_copy",
    "C33_target",
    "C33_target_none",
    "C33_unknown",
    "C33_tex",
    "C33_html",
    "C33_output_refuted",
    "C33_all"
   ],
   "note": "The class found is the available one of highest score (C33_best, C33_none). With a target, the asked output format is ignored: C33_output_refuted."
  },
  {
   "property": "C34",
   "status": "partial",
   "theorems": [
    "C34_distinct_partial",
    "C34_extension_refuted",
    "C34_media_refuted",
    "C34_absolute_refuted",
    "C34_place"
   ],
   "note": "Refuted as stated: inputs that differ in their extension only (C34_extension_refuted), a file in the media directory and one beside it (C34_media_refuted), absolute paths (C34_absolute_refuted). C34_distinct_partial gives the conditions under which outputs differ."
  },
  {
   "property": "C35",
   "status": "partial",
   "theorems": [
    "C35_complete",
    "C35_loaded",
    "C35_once_partial",
    "C35_once_refuted",
    "C35_twice_refuted"
   ],
   "note": "C35_complete: the documents of the root are those reached by includes, each once; C35_loaded: the files read are those reached. Proved when no document lists an include twice. Read exactly once is proved when no document has two includers (C35_once_partial) and refuted otherwise (C35_once_refuted: a document included by the root after another one that includes it is read twice). C35_twice_refuted: a document that lists an include twice loses the includes of that include. Paths are compared as text, as pathlib does."
  },
  {
   "property": "C36",
   "status": "partial",
   "theorems": [
    "C36_terminates_partial",
    "C36_cycle_refuted"
   ],
   "note": "C36_terminates_partial: loading ends when the includes have no cycles but for those through the root and documents that include themselves. C36_cycle_refuted: other cycles end in RecursionError whatever the recursion limit."
  },
  {
   "property": "C37",
   "status": "partial",
   "theorems": [
    "C37_fresh",
    "C37_older_refuted",
    "C37_idle_refuted",
    "C37_inherit_refuted"
   ],
   "note": "C37_fresh: after any history with a clock that goes on, a successful load leaves every document with the contents of its file. C37_older_refuted: a file replaced by an older one is missed. C37_idle_refuted: a document may be reloaded at every load with nothing changed. C37_inherit_refuted: when a document changes, the documents included by its includes are not reloaded though they inherit from it. Missing: templates, and reload only if changed for the remaining histories."
  },
  {
   "property": "C38",
   "status": "partial",
   "theorems": [
    "C38_extension",
    "C38_keeps",
    "C38_same",
    "C38_dot_refuted"
   ],
   "note": "C38_extension, C38_keeps and C38_same give the property; a name without an extension gets a trailing dot when no extension is asked: C38_dot_refuted."
  },
  {
   "property": "C39",
   "status": "partial",
   "theorems": [
    "C39_relative",
    "C39_escape_refuted",
    "C39_absolute_partial",
    "C39_dot_refuted"
   ],
   "note": "C39_relative proves the property for the text of the link. '?' and '#' are not escaped (C39_escape_refuted); links without a document lose leading dots (C39_dot_refuted, C39_absolute_partial)."
  },
  {
   "property": "C40",
   "status": "partial",
   "theorems": [
    "C40_first",
    "C40_kind",
    "C40_files",
    "C40_text",
    "C40_stream",
    "C40_cwd_refuted"
   ],
   "note": "C40_first proves the property with the working directory as first place; a file there hides those of the paths of the context: C40_cwd_refuted."
  },
  {
   "property": "C41",
   "status": "partial",
   "theorems": [
    "C41_links_partial",
    "C41_frame",
    "C41_targets_refuted",
    "C41_stale_refuted",
    "C41_skip_refuted"
   ],
   "note": "C41_links_partial: for the targets of the last document, the links are the first headings of the neighbouring documents with the target, and other entries for these targets are removed. C41_frame: nothing else changes. C41_targets_refuted and C41_stale_refuted: for targets that the last document does not have there are no links, and old entries stay. C41_skip_refuted: links do not go past a document without headings. The labels are taken to come document by document, as C16_order proves of the label manager."
  },
  {
   "property": "C42",
   "status": "partial",
   "theorems": [
    "C42_abbreviate",
    "C42_headings",
    "C42_own",
    "C42_items",
    "C42_html_partial",
    "C42_html_refuted",
    "C42_both_refuted"
   ],
   "note": "C42_abbreviate and C42_headings: the abbreviated table has all headings of the current document and the first heading of each other one, in the order of the tree. C42_own: the table of one document. C42_items: levels of the items. C42_html_partial: items link to their labels if ids are distinct; C42_html_refuted: with the same id in two documents both items link to the second. C42_both_refuted: with headings and documents in one abbreviated table, other documents are listed twice."
  },
  {
   "property": "C43",
   "status": "partial",
   "theorems": [
    "C43_layout",
    "C43_items",
    "C43_levels_partial",
    "C43_levels_refuted",
    "C43_clean",
    "C43_normalize",
    "C43_order",
    "C43_lowest",
    "C43_first_refuted",
    "C43_deeper_refuted",
    "C43_list",
    "C43_written"
   ],
   "note": "The texts of the items, the joining of their lines and the normalized levels are proved for all texts. Found: the level of an item counts spaces of the blank lines before its bullet; the first item need not be at level 0; indentations that differ by one can get the same level (C43_..._refuted)."
  },
  {
   "property": "C44",
   "status": "partial",
   "theorems": [
    "C44_order",
    "C44_depth",
    "C44_shape_partial",
    "C44_shape_refuted",
    "C44_lower_refuted",
    "C44_written"
   ],
   "note": "The order of the items and their depth (that of the open list of their level) are proved for all lists; the depth is the level when levels go up by one at a time and never below the first. Found: after a step of two levels an item of the level between is nested deeper than the item before; an item of a lower level than the first is nested in the first."
  },
  {
   "property": "C45",
   "status": "partial",
   "theorems": [
    "C45_reader",
    "C45_writable",
    "C45_cells_partial",
    "C45_noheader_partial",
    "C45_equal_refuted",
    "C45_empty_refuted",
    "C45_single_refuted",
    "C45_lines_refuted",
    "C45_tex_partial",
    "C45_tex_refuted",
    "C45_tex_lines",
    "C45_types",
    "C45_row_cells",
    "C45_tex_cell"
   ],
   "note": "Python's csv reader (excel dialect, skipinitialspace) is modelled with its states. Proved: every table, however its cells are written, keeps its headers and cells; columns of rows in tex. Found: columns with equal headers are lost; the headers of a table without rows are lost; without headers a single row is lost; an empty line, as in the example of the documentation, loses all cells; an ampersand that is escaped already gives a further column in tex."
  },
  {
   "property": "C46",
   "status": "partial",
   "theorems": [
    "C46_verb_partial",
    "C46_verb_refuted",
    "C46_lines_refuted",
    "C46_block_partial",
    "C46_block_refuted"
   ],
   "note": "C46_verb_partial: a text on one line lacking one of the three delimiters is read back unchanged from the verb command; C46_verb_refuted: a text with all of | ! ^ is emitted raw; C46_lines_refuted: a text with a newline cannot be in a verb command; C46_block_partial / C46_block_refuted: the verbatim environment is read back unless the text contains its end."
  },
  {
   "property": "C47",
   "status": "partial",
   "theorems": [
    "C47_tex_refused",
    "C47_cmd",
    "C47_env",
    "C47_tex_plain",
    "C47_cmd_options",
    "C47_indent",
    "C47_html",
    "C47_html_refused",
    "C47_html_made",
    "C47_html_value_refuted",
    "C47_html_tag_refuted"
   ],
   "note": "C47_tex_refused, C47_cmd, C47_env, C47_tex_plain, C47_cmd_options, C47_indent: commands and environments for all tables and attributes; each required argument answers its own request, in order. C47_html, C47_html_refused, C47_html_made: elements. Findings: C47_html_value_refuted (an attribute without value is a TypeError), C47_html_tag_refuted (html_tag never returns). The content of elements and their serialization (lxml) are not modelled."
  },
  {
   "property": "C48",
   "status": "partial",
   "theorems": [
    "C48_roots",
    "C48_projects",
    "C48_once",
    "C48_apart",
    "C48_covered",
    "C48_files_refuted",
    "C48_target_root"
   ],
   "note": "C48_roots, C48_once, C48_apart, C48_covered: for all directory trees and set orders, with entries matching the glob (files and directories); C48_target_root. Finding C48_files_refuted: a directory named like a source is taken for a root document. Symbolic links and wildcards in the extension are not modelled."
  },
  {
   "property": "C49",
   "status": "partial",
   "theorems": [
    "C49_available",
    "C49_executables",
    "C49_flatten_partial",
    "C49_flatten_deep",
    "C49_flatten_refuted",
    "C49_check_images",
    "C49_check_pdf",
    "C49_check_python",
    "C49_missing_handler",
    "C49_twice_refuted",
    "C49_pip_partial",
    "C49_pip_any",
    "C49_pip_prefix_refuted",
    "C49_pip_version_refuted",
    "C49_pip_error_refuted",
    "C49_pip_unknown_refuted",
    "C49_report",
    "C49_report_refuted"
   ],
   "note": "Proved: a list counts as available exactly if its requirement is met (all/any/optional), the search for executables answers each unanswered member and leaves answered ones, the image, pdf and python checkers report success exactly if the needs are met by what the machine has, the report has one line per item with the right status, pip packages without and (for versions with as many numbers and no other installed package whose name starts like it) with a version. Findings: dependencies nested deeper than 16 lists cannot be flattened; checking again keeps earlier answers; click is found if only click-plugins is installed; 6.1 does not satisfy >=6.1.0; an installed version such as 2018.1.post1 raises ValueError; a package not found is reported as unknown; the report shows failures of optional parts."
  },
  {
   "property": "C50",
   "status": "partial",
   "theorems": [
    "C50_references",
    "C50_references_only",
    "C50_scan",
    "C50_missing",
    "C50_disabled_refuted",
    "C50_data_refuted",
    "C50_empty_refuted",
    "C50_unquoted_refuted"
   ],
   "note": "Proved: in html text made of well-formed link and image elements the references found are exactly their local values, links first; in any text each reference found is the quoted value of such an attribute; scanning returns, for each reference of each existing html file in order, the file next to it or else the one below the root, and FileNotFoundError is raised exactly for a reference without file. Findings: with raise_error=False a missing file raises IndexError; data: urls are searched as files; after an empty href another attribute is taken as the reference; unquoted references are missed."
  },
  {
   "property": "C51",
   "status": "partial",
   "theorems": [
    "C51_unchanged",
    "C51_dashes",
    "C51_set",
    "C51_kept",
    "C51_quotes",
    "C51_quotes_unique",
    "C51_idempotent",
    "C51_tree",
    "C51_longest",
    "C51_neighbour_across_tags_refuted",
    "C51_paragraphs_refuted"
   ],
   "note": "Proved for every text: unchanged without dashes and quotes; every text with any number of dashes between texts becomes the same text with the dash meant and no spaces around it; no two hyphens and no space beside a dash are left; other characters keep their order; quotes are determined by both neighbours; runs of hyphens of every length; idempotent on texts and trees. Two findings: texts are set one by one, so a quote beside a tag is not set by its visible neighbour; a dash removes the blank line beside it and so joins two paragraphs."
  },
  {
   "property": "C52",
   "status": "partial",
   "theorems": [
    "C52_reads",
    "C52_reads_one",
    "C52_names_told",
    "C52_written",
    "C52_from_context",
    "C52_nobody_named_refuted",
    "C52_tags_refuted"
   ],
   "note": "Proved for every list of names: the text read is determined by the list, the names can be told from the text (names without commas and without the word and), names written in the tag with any of the separators are read in order, blank tags take the entry of the context. nicejoin agrees. Two findings: a text that ends in a separator gives an empty last name ('Ann, Bob and '); a name with a tag in it raises TypeError."
  },
  {
   "property": "C53",
   "status": "partial",
   "theorems": [
    "C53_literal_partial",
    "C53_literal_refuted"
   ],
   "note": "Proved for parsing a text. Refuted for processing a content that is already parsed, as when a paragraph is created around a verbatim tag."
  },
  {
   "property": "C54",
   "status": "partial",
   "theorems": [
    "C54_plain_text",
    "C54_plain_text_tree",
    "C54_plain_text_refuted"
   ],
   "note": "Proved for parsed texts and for all trees without lists directly inside lists and without None; refuted otherwise (TypeError)."
  },
  {
   "property": "C55",
   "status": "proved",
   "theorems": [
    "C55_replaced",
    "C55_others_kept",
    "C55_text"
   ],
   "note": ""
  },
  {
   "property": "C56",
   "status": "partial",
   "theorems": [
    "C56_inactive_refuted"
   ],
   "note": "Refuted: Builder.status tests the bound method 'active' instead of calling it, so 'inactive' is never reported."
  },
  {
   "property": "C57",
   "status": "proved",
   "theorems": [
    "C57_copy",
    "C57_copy_idle",
    "C57_copy_self",
    "C57_save"
   ],
   "note": ""
  },
  {
   "property": "C58",
   "status": "proved",
   "theorems": [
    "C58_once",
    "C58_running"
   ],
   "note": ""
  },
  {
   "property": "C59",
   "status": "partial",
   "theorems": [
    "C59_result",
    "C59_first_wins",
    "C59_extends",
    "C59_no_extends",
    "C59_directories",
    "C59_directory",
    "C59_own_first",
    "C59_grandparents_refuted",
    "C59_unknown_refuted",
    "C59_nearest_refuted",
    "C59_nearest"
   ],
   "note": "C59_first_wins is the property for one header and templates with different context files. Refuted in general: the context file shared by two templates loses its precedence (C59_nearest_refuted), templates extended by parents are ignored (C59_grandparents_refuted), and an unknown template name gives the directory of all templates (C59_unknown_refuted)."
  },
  {
   "property": "C60",
   "status": "partial",
   "theorems": [
    "C60_templates",
    "C60_total",
    "C60_errors",
    "C60_depth",
    "C60_choice",
    "C60_empty",
    "C60_contexts",
    "C60_parameters",
    "C60_context_refuted",
    "C60_own_context",
    "C60_recursive_refuted"
   ],
   "note": "Proved: the files are exactly those of the reachable templates (C60_templates), totality for references without cycles (C60_total), errors (C60_errors), the choice (C60_choice), context files (C60_contexts, C60_own_context) and parameters (C60_parameters). Refuted: the context file of the directory above a template, which the headers use, is not a dependency (C60_context_refuted); templates that include themselves cannot be used (C60_recursive_refuted)."
  },
  {
   "property": "C61",
   "status": "partial",
   "theorems": [
    "C61_texts_partial",
    "C61_pages_partial",
    "C61_dotted_refuted",
    "C61_bold_refuted",
    "C61_env_refuted"
   ],
   "note": "C61_texts_partial and C61_pages_partial: for source files whose name has one dot only and that do not start with the media directory. Refuted otherwise: all diagrams of ch.1.dm have one file (C61_dotted_refuted); a bold and a plain term share an image (C61_bold_refuted), and so do equations that differ in the environment for tex (C61_env_refuted)."
  },
  {
   "property": "C62",
   "status": "partial",
   "theorems": [
    "C62_targets",
    "C62_periods",
    "C62_includes",
    "C62_absolute",
    "C62_no_includes",
    "C62_reset",
    "C62_level",
    "C62_root",
    "C62_own_targets_refuted"
   ],
   "note": "Targets, includes and reset proved for all contexts; refuted: a document's own 'targets' are not used when a document above it has 'target', since that entry is inherited."
  },
  {
   "property": "C63",
   "status": "partial",
   "theorems": [
    "C63_reference",
    "C63_reference_partial",
    "C63_no_file_refuted",
    "C63_doc_id_refuted",
    "C63_shown_partial",
    "C63_shown_refuted",
    "C63_heading_partial",
    "C63_heading_refuted",
    "C63_anchor_partial",
    "C63_anchor_refuted"
   ],
   "note": "C63_reference proves the links for every project. What is shown and the anchors hold only if no other label has the id and if the id has no document (_partial); refuted in general: format_string asks for the label by its id alone and finds the first document with it; the anchor of a heading is the id as written, the link has only the part after the separator; a label of a document without the target raises; an entry doc_id in a header hides the labels of the document. Absolute links (relative_links: false) and the texts of the formats are not modelled."
  },
  {
   "property": "C64",
   "status": "partial",
   "theorems": [
    "C64_title",
    "C64_title_clean",
    "C64_title_same",
    "C64_title_space_refuted",
    "C64_given",
    "C64_titled",
    "C64_blank",
    "C64_blank_distinct",
    "C64_caption",
    "C64_loaded_partial",
    "C64_duplicate",
    "C64_same_title_fails",
    "C64_same_caption_fails",
    "C64_sentence_refuted",
    "C64_number_refuted"
   ],
   "note": "C64_loaded_partial needs that the ids of the document are different. C64_same_title_fails and C64_same_caption_fails prove that a document with two headings of the same kind with the same title, or two figures with the same caption, cannot be loaded; also refuted for different texts with the same first sentence and for a heading without text next to one whose text is its number. A title may end with a space (refuted). slugify and hashtxt are arbitrary functions. Figures inside of figures and the text of contents (content_to_str) are not modelled."
  },
  {
   "property": "C65",
   "status": "partial",
   "theorems": [
    "C65_flow",
    "C65_result",
    "C65_asked",
    "C65_any_depth",
    "C65_options_refuted"
   ],
   "note": "C65_options_refuted: two conversions of the same file with different options (for example two @img tags with different scale) write the same output file. The order in which the steps run is C32; parameters from signals and the creation of directories are not modelled; tuples of options are texts."
  },
  {
   "property": "C66",
   "status": "partial",
   "theorems": [
    "C66_pdf2svg_partial",
    "C66_convert_partial",
    "C66_pdfcrop_partial",
    "C66_scalesvg_partial",
    "C66_asy_partial",
    "C66_pdflatex_partial",
    "C66_program",
    "C66_no_option",
    "C66_space_refuted",
    "C66_injection_refuted",
    "C66_dash_refuted",
    "C66_number",
    "C66_crop_one_partial",
    "C66_crop_four",
    "C66_crop_offset",
    "C66_crop_length",
    "C66_crop_text_fails",
    "C66_scale",
    "C66_scale_invalid",
    "C66_page_fails",
    "C66_steps",
    "C66_default",
    "C66_no_parameters",
    "C66_page_refuted",
    "C66_crop_zero_refuted",
    "C66_offset_one_refuted"
   ],
   "note": "The _partial theorems ask for paths without white space that neither the sanitizer nor the stripping of dashes changes. C66_space_refuted: a file with a space in its name becomes two arguments; C66_injection_refuted: its second part may be an option of the program; C66_dash_refuted: an output directory whose name ends with a dash is changed; C66_page_refuted and C66_page_fails: a page is never given to pdf2svg, and directly it makes the run fail; C66_crop_zero_refuted, C66_offset_one_refuted: these options are ignored; C66_crop_text_fails: @img[crop=20] always fails, as attributes are texts. Not modelled: booleans as numbers, what the programs do."
  },
  {
   "property": "C67",
   "status": "partial",
   "theorems": [
    "C67_wanted",
    "C67_builder",
    "C67_unique",
    "C67_pdf",
    "C67_epub",
    "C67_known",
    "C67_collect",
    "C67_add_file_partial",
    "C67_add_file_missing",
    "C67_find",
    "C67_error",
    "C67_epub_files_refuted",
    "C67_epub_sub_refuted"
   ],
   "note": "C67_epub_files_refuted: add_file for the target .epub of the root is an AttributeError (the epub builder has no builder for dependencies); C67_add_file_partial covers all other targets. C67_epub_sub_refuted: an epub asked for by a sub-document only is not built and nothing is reported. Not modelled: the paths of outputs (C34, C38), the copies of style sheets, the builder for toc.xhtml."
  },
  {
   "property": "C68",
   "status": "partial",
   "theorems": [
    "C68_fixed",
    "C68_complete",
    "C68_once",
    "C68_only",
    "C68_name",
    "C68_items",
    "C68_listed",
    "C68_listed_refuted",
    "C68_reading",
    "C68_distinct_partial",
    "C68_ids_partial",
    "C68_ids_refuted",
    "C68_toc",
    "C68_distinct_refuted",
    "C68_all"
   ],
   "note": "C68_listed_refuted: png files are in the archive but not in the list of contents (C68_listed covers the listed formats). C68_distinct_refuted: a toc.xhtml of the project is not recognised (a path is compared with a text), so a second entry with the same name is made; C68_distinct_partial: files in one directory have different names. C68_ids_refuted: two files called toc.xhtml in different directories both have the id toc; C68_ids_partial: different ids for different slugs and one toc. Paths that leave the directory are outside C68_name, C68_items. Not modelled: symbolic links, the text of the template, the zip format."
  },
  {
   "property": "C69",
   "status": "partial",
   "theorems": [
    "C69_tables",
    "C69_names",
    "C69_class_total",
    "C69_inactive_refuted",
    "C69_balanced",
    "C69_source",
    "C69_text",
    "C69_total",
    "C69_supsub",
    "C69_forms",
    "C69_equations",
    "C69_nolabel_refuted"
   ],
   "note": "C69_nolabel_refuted: a title, part, chapter or section with the attribute nolabel is rendered without its text in tex. C69_inactive_refuted: inactive_tags only works with names of classes, so that the entry 'marginfig' of the template books/novel has no effect. The renderings of other classes (headings with labels, images, references, tables, lists, code) are a parameter of which C69_balanced and C69_text assume what they show."
  },
  {
   "property": "C70",
   "status": "partial",
   "theorems": [
    "C70_text",
    "C70_allowed",
    "C70_total",
    "C70_forms",
    "C70_symbol",
    "C70_supsub",
    "C70_headings",
    "C70_attributes",
    "C70_boxes",
    "C70_same",
    "C70_figure_class_refuted",
    "C70_verbatim_refuted",
    "C70_footnote_refuted",
    "C70_target_refuted",
    "C70_total_refuted"
   ],
   "note": "C70_figure_class_refuted: the class that an author gives a figure is replaced by that of the figure with a leading space. C70_verbatim_refuted: the class 'block' of verbatim tags is set on a copy that is not used. C70_footnote_refuted: the epub type of figures in margins is not a permitted attribute, so it is not written. C70_target_refuted: an attribute for the target (class.html=x) is not used. C70_total_refuted: a tag that is named as an element with required attributes (@a{b}) is an error in html. C70_total has the conditions for a rendering. Renderings of other classes are a parameter."
  },
  {
   "property": "C71",
   "status": "partial",
   "theorems": [
    "C71_copied",
    "C71_only",
    "C71_unchanged",
    "C71_total",
    "C71_again",
    "C71_list",
    "C71_names_refuted",
    "C71_all_refuted",
    "C71_directory_refuted",
    "C71_description_refuted"
   ],
   "note": "C71_names_refuted: two starters may have the same name, and only one can then be copied. C71_all_refuted: a file of a project that is named description.yaml is not copied. C71_directory_refuted: where a directory has the name of a file, the file is put into it and the command is done, so C71_copied assumes that there is none (and that the output is not in the starter). C71_description_refuted: one description without a description is an error for all starters, and an empty one is an error of the list. Links, permissions and times are not modelled."
  },
  {
   "property": "C72",
   "status": "partial",
   "theorems": [
    "C72_static",
    "C72_served",
    "C72_media",
    "C72_error",
    "C72_sources_partial",
    "C72_sources_refuted",
    "C72_above_refuted",
    "C72_served_refuted",
    "C72_missing_refuted",
    "C72_projects",
    "C72_projects_error",
    "C72_projects_refuted",
    "C72_tree",
    "C72_numbers",
    "C72_checkers",
    "C72_lines"
   ],
   "note": "C72_sources_refuted, C72_above_refuted: sources (.dm, .tex) are read without a check of the directory, so //path and /../path show files elsewhere; C72_sources_partial is for relative paths without '..'. C72_served_refuted: a directory media of the project itself cannot be reached. C72_missing_refuted: a missing source is an error 500. C72_projects_refuted: projects made later are not shown. Templates, the page of signals and tornado itself are not modelled."
  },
  {
   "property": "C73",
   "status": "partial",
   "theorems": [
    "C73_parameters",
    "C73_once",
    "C73_one",
    "C73_tex",
    "C73_html",
    "C73_given",
    "C73_tex_width_refuted"
   ],
   "note": "C73_tex_width_refuted: a width in percent that is given for tex alone ([width.tex=50%]) is written as it is, and the rest of the line is a comment. C73_given: equations give their own content, so they ask for a build at each rendering. The exception ImgFileNotFound is never raised: a content that is not a file is converted as text. Converters are those of C33 and C57."
  },
  {
   "property": "C74",
   "status": "partial",
   "theorems": [
    "C74_literal_partial",
    "C74_files",
    "C74_lexer",
    "C74_language",
    "C74_inline_html",
    "C74_inline_tex_partial",
    "C74_block",
    "C74_literal_refuted"
   ],
   "note": "C74_literal_partial, C74_literal_refuted: a line of code that is the name of a file in the project replaces the whole code by the content of the file. C74_inline_tex_partial: see C46 for texts with newlines or all delimiters. Highlighting is not modelled."
  },
  {
   "property": "C75",
   "status": "partial",
   "theorems": [
    "C75_heading_text",
    "C75_heading",
    "C75_caption",
    "C75_document_refs",
    "C75_refs",
    "C75_title",
    "C75_content_refuted",
    "C75_short_refuted",
    "C75_reread_refuted",
    "C75_anchor_refuted"
   ],
   "note": "Proved for labels with unique ids and titles and ids without '@' (C75_heading_text, C75_heading, C75_caption, C75_refs). Findings: a heading shows only the first sentence of its content without markup, or its attribute short instead of its own text (C75_content_refuted, C75_short_refuted); the title is read again as source text (C75_reread_refuted); the anchor in tex passes through typography, so \\label differs from the id of references for ids with quotes or dashes (C75_anchor_refuted)."
  },
  {
   "property": "C76",
   "status": "partial",
   "theorems": [
    "C76_html",
    "C76_html_made",
    "C76_tex",
    "C76_step",
    "C76_leads",
    "C76_other",
    "C76_tex_refuted",
    "C76_default_refuted",
    "C76_step_tex_refuted",
    "C76_step_xhtml_refuted",
    "C76_other_text_refuted"
   ],
   "note": "C76_html, C76_html_made, C76_leads, C76_tex, C76_step, C76_other. Findings: a url with a space, a comma, quotes, brackets or an equal sign is cut by the reader of attributes in tex (C76_tex_refuted); the default format of references always raises an AttributeError (C76_default_refuted); @next and @prev write html in tex and raise NotImplementedError in xhtml (C76_step_tex_refuted, C76_step_xhtml_refuted); links to other files within elements are escaped twice (C76_other_text_refuted)."
  },
  {
   "property": "C77",
   "status": "partial",
   "theorems": [
    "C77_document",
    "C77_text",
    "C77_exact",
    "C77_verbatim",
    "C77_unclosed",
    "C77_layout",
    "C77_paragraphs",
    "C77_context",
    "C77_context_order",
    "C77_no_macros",
    "C77_dash_refuted",
    "C77_verbatim_refuted"
   ],
   "note": "C77_dash_refuted: a paragraph that begins with a dash is joined to the one before, since typography takes the blank line. C77_verbatim_refuted: the text of a verbatim tag in a paragraph is read as markup, so the theorems assume that it has no beginnings of tags. Documents with macros are not covered here (see C11)."
  },
  {
   "property": "C78",
   "status": "partial",
   "theorems": [
    "C78_html",
    "C78_own",
    "C78_html_made",
    "C78_tex",
    "C78_tex_made",
    "C78_leads",
    "C78_authors",
    "C78_titlepage",
    "C78_marks_refuted",
    "C78_symbol_refuted"
   ],
   "note": "C78_marks_refuted: the line of a title has no mark in tex, so it is no item. C78_symbol_refuted: a symbol in the title of a heading makes the table in html fail, since the item is read as xml. Labels with the same id in different documents: items link to the last of them (C42_html_refuted)."
  },
  {
   "property": "C79",
   "status": "partial",
   "theorems": [
    "C79_title",
    "C79_name",
    "C79_short",
    "C79_label",
    "C79_loaded",
    "C79_listed",
    "C79_reference",
    "C79_short_reference_partial",
    "C79_usual",
    "C79_short_reference_refuted",
    "C79_separator_refuted",
    "C79_inherited"
   ],
   "note": "Proved: titles, short titles, the one label of each document after any history, listing and references. Findings: the id of the label of a document is not unique in a project (a/b.dm and a-b.dm), so a reference without the id of the document may lead to another document (C79_short_reference_refuted, C79_short_reference_partial); a single colon as label_sep takes the label away from the document (C79_separator_refuted); a sub-document without a title shows the title of the document it is in (C79_inherited)."
  },
  {
   "property": "C80",
   "status": "partial",
   "theorems": [
    "C80_found",
    "C80_missing",
    "C80_parameters",
    "C80_texts",
    "C80_title_refuted",
    "C80_noticed",
    "C80_unaffected",
    "C80_rendered_refuted"
   ],
   "note": "Proved: C80_found (exactly the labels referred to, in order), C80_missing (error exactly when a label is missing), C80_parameters (these labels, each once, and the source file are the parameters of a target builder made in the present state), C80_texts (the text that is hashed tells the numbers and the titles of headings and captions), C80_noticed (if no build is needed, a build with all these texts was finished before, unless hashes collide). Findings: C80_rendered_refuted and C80_unaffected - JinjaRender overrides 'parameters' and does not ask for parameters from signals, and the status of a composite builder does not use its own parameters, so the page is not rendered again although a build is known to be needed; C80_title_refuted - the text of the label of a document does not have its title, so a change of the title of a document is not noticed. The labels kept from the time the builder was made are those of the present state, as builders are made anew when the tree of documents is updated."
  },
  {
   "property": "C81",
   "status": "partial",
   "theorems": [
    "C81_leads",
    "C81_absolute",
    "C81_unchanged",
    "C81_beside",
    "C81_raises",
    "C81_hidden_refuted",
    "C81_precedence_refuted",
    "C81_elsewhere_refuted"
   ],
   "note": "Proved where the working directory has no file with the path and the page is in the directory of its document. Three findings: find_file looks first in the working directory and gives a path of pathlib, which has no get_url, so the filter raises AttributeError (C81_hidden_refuted, C81_raises says exactly when); outfilepath.parent has no target_root, target and subpath, so the search looks in 'None/None' instead of beside the page (C81_precedence_refuted); the link is relative to the document and not to the page that is rendered (C81_elsewhere_refuted)."
  },
  {
   "property": "C82",
   "status": "partial",
   "theorems": [
    "C82_parents",
    "C82_values",
    "C82_do_not_inherit",
    "C82_entries",
    "C82_own",
    "C82_nearest",
    "C82_object_refuted",
    "C82_precedence_refuted",
    "C82_stale_refuted"
   ],
   "note": "The union is proved for all hierarchies and all sequences of calls; the precedence of entries is proved for the class itself and for classes with one base. Findings: object is listed as a parent of the classes directly below it (C82_object_refuted); with several bases all_dicts may give the entry of a parent although a subclass replaces it, unlike Python (C82_precedence_refuted); a later change of do_not_inherit is not noticed (C82_stale_refuted)."
  },
  {
   "property": "C83",
   "status": "partial",
   "theorems": [
    "C83_reads",
    "C83_deletes",
    "C83_foreign",
    "C83_none_refuted"
   ],
   "note": "Proved for all histories. Finding: assigning None to such an attribute does nothing, so the attribute still gives the object that it had (C83_none_refuted)."
  },
  {
   "property": "C84",
   "status": "partial",
   "theorems": [
    "C84_crash",
    "C84_done",
    "C84_errors",
    "C84_device_refuted",
    "C84_shared_refuted"
   ],
   "note": "Proved where source and destination are not inodes with the same number on different devices. Findings: the devices are not compared, so such a destination keeps its old contents (C84_device_refuted); with a hard link later writes to the destination in place change the source (C84_shared_refuted)."
  },
  {
   "property": "C85",
   "status": "proved",
   "theorems": [
    "C85_columns",
    "C85_aligned",
    "C85_row",
    "C85_ends",
    "C85_finishes",
    "C85_all",
    "C85_refused"
   ],
   "note": "The percentage is any function of the two counts. The hypotheses on the builder (it gives the status it has after a build; its flat list is not empty) are facts of composite builders and are met by the example."
  },
  {
   "property": "C86",
   "status": "partial",
   "theorems": [
    "C86_captions",
    "C86_anchors",
    "C86_stale_refuted",
    "C86_given",
    "C86_own",
    "C86_own_refuted",
    "C86_loads",
    "C86_nested",
    "C86_nested_refuted"
   ],
   "note": "Without figures or tables inside of each other the labels are exactly the ids of the captions (C86_anchors, C86_loads). Findings: a figure or table without an id in which there is another with a caption always makes the document fail with DuplicateLabel, because the label of the inner caption is created a second time with the same id (C86_nested, C86_nested_refuted); with an id, the label of the inner one remains although no caption has its id any more (C86_stale_refuted); the id of the first caption of a figure that has an id itself is lost (C86_own_refuted)."
  },
  {
   "property": "C87",
   "status": "partial",
   "theorems": [
    "C87_stub",
    "C87_stub_same",
    "C87_stub_lines",
    "C87_stub_blank_refuted",
    "C87_listed",
    "C87_run",
    "C87_page",
    "C87_command",
    "C87_marks"
   ],
   "note": "Finding: a line with white space only does not end the description, so that the text after it is shown too (C87_stub_blank_refuted); the other theorems hold without conditions."
  },
  {
   "property": "C88",
   "status": "partial",
   "theorems": [
    "C88_same",
    "C88_equivalence",
    "C88_inside",
    "C88_table",
    "C88_table_one",
    "C88_class",
    "C88_items",
    "C88_items_refuted",
    "C88_list",
    "C88_list_refuted"
   ],
   "note": "Findings: a text with the sign of items in it makes further items in tex (C88_list_refuted; C88_list is for texts without it); a tag with one element has the length 1, but getting the element fails (C88_items_refuted)."
  },
  {
   "property": "C89",
   "status": "partial",
   "theorems": [
    "C89_lines",
    "C89_side_by_side",
    "C89_width",
    "C89_needs_width",
    "C89_width_refuted",
    "C89_blank_lines_refuted"
   ],
   "note": "Findings: a positional attribute of the author is taken for the width (C89_width_refuted; C89_width is for named attributes); a line with white space only stays and ends the paragraph (C89_blank_lines_refuted)."
  },
  {
   "property": "C90",
   "status": "partial",
   "theorems": [
    "C90_lt",
    "C90_eq",
    "C90_agree",
    "C90_total",
    "C90_trans",
    "C90_sorted",
    "C90_sorted_unique",
    "C90_hash",
    "C90_hash_refuted",
    "C90_number"
   ],
   "note": "Finding: labels of different classes with the same document and id are equal but hashed with the names of their classes, so their hashes may differ (C90_hash_refuted; C90_hash is for labels of one class)."
  }
 ]
}