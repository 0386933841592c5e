(** Generated by tools/update.py: the assumptions of every theorem. *)
From Verif.Props Require ListUtils.
From Verif.Props Require DictUtils.
From Verif.Props Require Attributes.
From Verif.Props Require StringUtils.
From Verif.Props Require StrToDict.
From Verif.Props Require Macros.
From Verif.Props Require Signals.
From Verif.Props Require Labels.
From Verif.Props Require TagParser.
From Verif.Props Require Paragraphs.
From Verif.Props Require TagTree.
From Verif.Props Require Width.
From Verif.Props Require Context.
From Verif.Props Require Hash.
From Verif.Props Require Decider.
From Verif.Props Require Builders.
From Verif.Props Require FindBuilder.
From Verif.Props Require Paths.
From Verif.Props Require DocTree.
From Verif.Props Require Navigation.
From Verif.Props Require Toc.
From Verif.Props Require ListTag.
From Verif.Props Require Table.
From Verif.Props Require Formats.
From Verif.Props Require Environment.
From Verif.Props Require Checkers.
From Verif.Props Require Scanner.
From Verif.Props Require Typography.
From Verif.Props Require Authors.
From Verif.Props Require Headers.
From Verif.Props Require Render.
From Verif.Props Require DocContext.
From Verif.Props Require Ref.
From Verif.Props Require AutoLabels.
From Verif.Props Require Chain.
From Verif.Props Require Commands.
From Verif.Props Require TargetBuilders.
From Verif.Props Require Epub.
From Verif.Props Require TexFmt.
From Verif.Props Require HtmlFmt.
From Verif.Props Require Starters.
From Verif.Props Require Server.
From Verif.Props Require Images.
From Verif.Props Require LabelTags.
From Verif.Props Require Links.
From Verif.Props Require TagCreation.
From Verif.Props Require TocFmt.
From Verif.Props Require DocLabels.
From Verif.Props Require DocTitles.
From Verif.Props Require RefDeps.
From Verif.Props Require RewritePath.
From Verif.Props Require Classes.
From Verif.Props Require WeakAttr.
From Verif.Props Require LinkCopy.
From Verif.Props Require CliBuild.
From Verif.Props Require Captions.
From Verif.Props Require SignalList.
From Verif.Props Require TagEq.
From Verif.Props Require Panel.
From Verif.Props Require LabelOrder.
Print Assumptions ListUtils.C04_uniq_first_occurrences.
Print Assumptions ListUtils.C04_uniq_members.
Print Assumptions ListUtils.C04_uniq_plain.
Print Assumptions ListUtils.C04_uniq_idempotent.
Print Assumptions ListUtils.C04_dupes.
Print Assumptions ListUtils.C04_dupes_empty.
Print Assumptions ListUtils.C05_chunks_concat.
Print Assumptions ListUtils.C05_chunks_sizes.
Print Assumptions ListUtils.C05_chunks_other_sizes.
Print Assumptions ListUtils.C05_flatten_leaves.
Print Assumptions ListUtils.C05_flatten_flat.
Print Assumptions ListUtils.C05_unwrap.
Print Assumptions ListUtils.C05_transpose_cells.
Print Assumptions ListUtils.C05_transpose_involutive.
Print Assumptions DictUtils.C06_find_entry_best.
Print Assumptions DictUtils.C06_find_entry_error.
Print Assumptions Attributes.C01_find_item_precedence.
Print Assumptions Attributes.C01_find_item_no_target.
Print Assumptions Attributes.C01_get_precedence_partial.
Print Assumptions Attributes.C01_other_target_never.
Print Assumptions Attributes.C01_get_value_refuted.
Print Assumptions Attributes.C01_positional_target.
Print Assumptions Attributes.C01_positional_general.
Print Assumptions Attributes.C01_positional_no_target.
Print Assumptions Attributes.C01_positional_none.
Print Assumptions Attributes.C01_positional_other_target_refuted.
Print Assumptions Attributes.C01_positional_separator_refuted.
Print Assumptions Attributes.C02_filter_by_names.
Print Assumptions Attributes.C02_filter_entries.
Print Assumptions Attributes.C02_filter_all.
Print Assumptions Attributes.C02_filter_sound.
Print Assumptions Attributes.C02_attribute_order_refuted.
Print Assumptions Attributes.C02_self_attribute_refuted.
Print Assumptions Attributes.C03_html_round_trip.
Print Assumptions Attributes.C03_load_wf.
Print Assumptions Attributes.C03_tex_arguments.
Print Assumptions Attributes.C03_tex_optionals.
Print Assumptions Attributes.C03_quote_refuted.
Print Assumptions StringUtils.C07_longest_common_prefix.
Print Assumptions StringUtils.C07_empty_list.
Print Assumptions StringUtils.C08_semicolons.
Print Assumptions StringUtils.C08_newlines.
Print Assumptions StringUtils.C08_commas.
Print Assumptions StringUtils.C08_round_trip.
Print Assumptions StringUtils.C08_single_item_not_stripped_refuted.
Print Assumptions StringUtils.C10_content_preserved.
Print Assumptions StringUtils.C10_content_preserved_refuted.
Print Assumptions StringUtils.C10_grouped.
Print Assumptions StringUtils.C10_idempotent_partial.
Print Assumptions StringUtils.C10_idempotent_refuted.
Print Assumptions StrToDict.C09_nested_round_trip.
Print Assumptions StrToDict.C09_entries.
Print Assumptions StrToDict.C09_header_block.
Print Assumptions StrToDict.C09_document_header.
Print Assumptions StrToDict.C09_quoted_value.
Print Assumptions StrToDict.C09_text_lost_refuted.
Print Assumptions StrToDict.C09_duplicate_key_refuted.
Print Assumptions StrToDict.C09_escaped_colon.
Print Assumptions Macros.C11_no_macros.
Print Assumptions Macros.C11_value_of_reference.
Print Assumptions Macros.C11_plain_values.
Print Assumptions Macros.C11_all_known.
Print Assumptions Macros.C11_two_levels.
Print Assumptions Macros.C11_unknown_unchanged.
Print Assumptions Macros.C11_terminates_partial.
Print Assumptions Macros.C11_terminates_refuted.
Print Assumptions Macros.C11_leaves_macro_refuted.
Print Assumptions Signals.C12_emit.
Print Assumptions Signals.C12_emit_tag.
Print Assumptions Signals.C12_duplicate_refused.
Print Assumptions Signals.C12_signal_by_name.
Print Assumptions Labels.C13_unique.
Print Assumptions Labels.C13_duplicate_refused.
Print Assumptions Labels.C13_reset.
Print Assumptions Labels.C14_with_document.
Print Assumptions Labels.C14_without_document.
Print Assumptions Labels.C14_own_document_refuted.
Print Assumptions Labels.C14_other_label_refuted.
Print Assumptions Labels.C15_numbers.
Print Assumptions Labels.C15_no_gaps.
Print Assumptions Labels.C16_order.
Print Assumptions Labels.C16_order_without_root.
Print Assumptions Labels.C16_kept.
Print Assumptions Labels.C17_register_twice.
Print Assumptions Labels.C17_queries_repeatable.
Print Assumptions Labels.C17_changes_seen.
Print Assumptions Labels.C14_added_found.
Print Assumptions Labels.C18_links.
Print Assumptions Labels.C18_links_partial.
Print Assumptions Labels.C18_enclosing_unique.
Print Assumptions Labels.C18_tree_number.
Print Assumptions Labels.C18_links_refuted.
Print Assumptions Labels.C19_complete.
Print Assumptions Labels.C19_once_partial.
Print Assumptions Labels.C19_once_refuted.
Print Assumptions TagParser.C20_text_preserved.
Print Assumptions TagParser.C20_no_tag.
Print Assumptions TagParser.C20_all_tags_found.
Print Assumptions TagParser.C20_total.
Print Assumptions TagParser.C20_reparse.
Print Assumptions TagParser.C53_literal_partial.
Print Assumptions TagParser.C53_literal_refuted.
Print Assumptions TagParser.C21_unique.
Print Assumptions TagParser.C21_matching_brace_partial.
Print Assumptions TagParser.C21_not_closed.
Print Assumptions TagParser.C21_depth_refuted.
Print Assumptions Paragraphs.C22_layout.
Print Assumptions Paragraphs.C22_idempotent.
Print Assumptions Paragraphs.C22_texts.
Print Assumptions Paragraphs.C22_roles.
Print Assumptions TagTree.C23_flatten.
Print Assumptions TagTree.C23_flatten_parsed.
Print Assumptions TagTree.C23_flatten_refuted.
Print Assumptions TagTree.C23_copy.
Print Assumptions TagTree.C23_copy_refuted.
Print Assumptions TagTree.C54_plain_text.
Print Assumptions TagTree.C54_plain_text_tree.
Print Assumptions TagTree.C54_plain_text_refuted.
Print Assumptions TagTree.C55_replaced.
Print Assumptions TagTree.C55_others_kept.
Print Assumptions TagTree.C55_text.
Print Assumptions Width.C24_html_class.
Print Assumptions Width.C24_tex_width.
Print Assumptions Width.C24_monotone.
Print Assumptions Width.C24_unique.
Print Assumptions Width.C24_every_width_partial.
Print Assumptions Width.C24_every_width_refuted.
Print Assumptions Width.C24_infinite_refuted.
Print Assumptions Context.C26_update.
Print Assumptions Context.C26_keys.
Print Assumptions Context.C26_kinds.
Print Assumptions Context.C26_unique.
Print Assumptions Context.C26_bool_refuted.
Print Assumptions Context.C25_reset.
Print Assumptions Context.C25_fresh.
Print Assumptions Context.C25_history_partial.
Print Assumptions Context.C27_isolated_partial.
Print Assumptions Context.C27_isolated_refuted.
Print Assumptions Context.C25_twice_refuted.
Print Assumptions Context.C25_protected_refuted.
Print Assumptions Context.C26_tags.
Print Assumptions Context.C25_tags.
Print Assumptions Hash.C29_chunks.
Print Assumptions Hash.C29_order.
Print Assumptions Hash.C29_inputs.
Print Assumptions Hash.C29_whole.
Print Assumptions Hash.C29_distinct.
Print Assumptions Hash.C30_text.
Print Assumptions Hash.C30_stamps.
Print Assumptions Hash.C30_other_partial.
Print Assumptions Hash.C30_lines_refuted.
Print Assumptions Decider.C28_total.
Print Assumptions Decider.C28_missing.
Print Assumptions Decider.C28_registers.
Print Assumptions Decider.C28_stays_partial.
Print Assumptions Decider.C28_stays_edits.
Print Assumptions Decider.C28_changed.
Print Assumptions Decider.C28_same_bytes.
Print Assumptions Decider.C28_swapped_refuted.
Print Assumptions Decider.C28_shared_refuted.
Print Assumptions Builders.C31_status.
Print Assumptions Builders.C31_done.
Print Assumptions Builders.C31_flatten.
Print Assumptions Builders.C32_order.
Print Assumptions Builders.C32_finished.
Print Assumptions Builders.C32_starts_partial.
Print Assumptions Builders.C32_progress_refuted.
Print Assumptions Builders.C58_once.
Print Assumptions Builders.C58_running.
Print Assumptions Builders.C28_stale_refuted.
Print Assumptions Builders.C56_inactive_refuted.
Print Assumptions Builders.C57_copy.
Print Assumptions Builders.C57_copy_idle.
Print Assumptions Builders.C57_copy_self.
Print Assumptions Builders.C57_save.
Print Assumptions FindBuilder.C33_best.
Print Assumptions FindBuilder.C33_none.
Print Assumptions FindBuilder.C33_copy.
Print Assumptions FindBuilder.C33_target.
Print Assumptions FindBuilder.C33_target_none.
Print Assumptions FindBuilder.C33_unknown.
Print Assumptions FindBuilder.C33_tex.
Print Assumptions FindBuilder.C33_html.
Print Assumptions FindBuilder.C33_output_refuted.
Print Assumptions FindBuilder.C33_all.
Print Assumptions Paths.C38_extension.
Print Assumptions Paths.C38_keeps.
Print Assumptions Paths.C38_same.
Print Assumptions Paths.C38_dot_refuted.
Print Assumptions Paths.C34_distinct_partial.
Print Assumptions Paths.C34_extension_refuted.
Print Assumptions Paths.C34_media_refuted.
Print Assumptions Paths.C34_absolute_refuted.
Print Assumptions Paths.C34_place.
Print Assumptions Paths.C39_relative.
Print Assumptions Paths.C39_escape_refuted.
Print Assumptions Paths.C39_absolute_partial.
Print Assumptions Paths.C39_dot_refuted.
Print Assumptions Paths.C40_first.
Print Assumptions Paths.C40_kind.
Print Assumptions Paths.C40_files.
Print Assumptions Paths.C40_text.
Print Assumptions Paths.C40_stream.
Print Assumptions Paths.C40_cwd_refuted.
Print Assumptions DocTree.C35_complete.
Print Assumptions DocTree.C35_loaded.
Print Assumptions DocTree.C35_once_partial.
Print Assumptions DocTree.C35_once_refuted.
Print Assumptions DocTree.C35_twice_refuted.
Print Assumptions DocTree.C36_terminates_partial.
Print Assumptions DocTree.C36_cycle_refuted.
Print Assumptions DocTree.C37_fresh.
Print Assumptions DocTree.C37_older_refuted.
Print Assumptions DocTree.C37_idle_refuted.
Print Assumptions DocTree.C37_inherit_refuted.
Print Assumptions Navigation.C41_links_partial.
Print Assumptions Navigation.C41_frame.
Print Assumptions Navigation.C41_targets_refuted.
Print Assumptions Navigation.C41_stale_refuted.
Print Assumptions Navigation.C41_skip_refuted.
Print Assumptions Toc.C42_abbreviate.
Print Assumptions Toc.C42_headings.
Print Assumptions Toc.C42_own.
Print Assumptions Toc.C42_items.
Print Assumptions Toc.C42_html_partial.
Print Assumptions Toc.C42_html_refuted.
Print Assumptions Toc.C42_both_refuted.
Print Assumptions ListTag.C43_layout.
Print Assumptions ListTag.C43_items.
Print Assumptions ListTag.C43_levels_partial.
Print Assumptions ListTag.C43_levels_refuted.
Print Assumptions ListTag.C43_clean.
Print Assumptions ListTag.C43_normalize.
Print Assumptions ListTag.C43_order.
Print Assumptions ListTag.C43_lowest.
Print Assumptions ListTag.C43_first_refuted.
Print Assumptions ListTag.C43_deeper_refuted.
Print Assumptions ListTag.C43_list.
Print Assumptions ListTag.C44_order.
Print Assumptions ListTag.C44_depth.
Print Assumptions ListTag.C44_shape_partial.
Print Assumptions ListTag.C44_shape_refuted.
Print Assumptions ListTag.C44_lower_refuted.
Print Assumptions ListTag.C43_written.
Print Assumptions ListTag.C44_written.
Print Assumptions Table.C45_reader.
Print Assumptions Table.C45_writable.
Print Assumptions Table.C45_cells_partial.
Print Assumptions Table.C45_noheader_partial.
Print Assumptions Table.C45_equal_refuted.
Print Assumptions Table.C45_empty_refuted.
Print Assumptions Table.C45_single_refuted.
Print Assumptions Table.C45_lines_refuted.
Print Assumptions Table.C45_tex_partial.
Print Assumptions Table.C45_tex_refuted.
Print Assumptions Table.C45_tex_lines.
Print Assumptions Table.C45_types.
Print Assumptions Table.C45_row_cells.
Print Assumptions Table.C45_tex_cell.
Print Assumptions Formats.C46_verb_partial.
Print Assumptions Formats.C46_verb_refuted.
Print Assumptions Formats.C46_lines_refuted.
Print Assumptions Formats.C46_block_partial.
Print Assumptions Formats.C46_block_refuted.
Print Assumptions Formats.C47_tex_refused.
Print Assumptions Formats.C47_cmd.
Print Assumptions Formats.C47_env.
Print Assumptions Formats.C47_tex_plain.
Print Assumptions Formats.C47_cmd_options.
Print Assumptions Formats.C47_indent.
Print Assumptions Formats.C47_html.
Print Assumptions Formats.C47_html_refused.
Print Assumptions Formats.C47_html_made.
Print Assumptions Formats.C47_html_value_refuted.
Print Assumptions Formats.C47_html_tag_refuted.
Print Assumptions Environment.C48_roots.
Print Assumptions Environment.C48_projects.
Print Assumptions Environment.C48_once.
Print Assumptions Environment.C48_apart.
Print Assumptions Environment.C48_covered.
Print Assumptions Environment.C48_files_refuted.
Print Assumptions Environment.C48_target_root.
Print Assumptions Checkers.C49_available.
Print Assumptions Checkers.C49_executables.
Print Assumptions Checkers.C49_flatten_partial.
Print Assumptions Checkers.C49_flatten_deep.
Print Assumptions Checkers.C49_flatten_refuted.
Print Assumptions Checkers.C49_check_images.
Print Assumptions Checkers.C49_check_pdf.
Print Assumptions Checkers.C49_check_python.
Print Assumptions Checkers.C49_missing_handler.
Print Assumptions Checkers.C49_twice_refuted.
Print Assumptions Checkers.C49_pip_partial.
Print Assumptions Checkers.C49_pip_any.
Print Assumptions Checkers.C49_pip_prefix_refuted.
Print Assumptions Checkers.C49_pip_version_refuted.
Print Assumptions Checkers.C49_pip_error_refuted.
Print Assumptions Checkers.C49_pip_unknown_refuted.
Print Assumptions Checkers.C49_report.
Print Assumptions Checkers.C49_report_refuted.
Print Assumptions Scanner.C50_references.
Print Assumptions Scanner.C50_references_only.
Print Assumptions Scanner.C50_scan.
Print Assumptions Scanner.C50_missing.
Print Assumptions Scanner.C50_disabled_refuted.
Print Assumptions Scanner.C50_data_refuted.
Print Assumptions Scanner.C50_empty_refuted.
Print Assumptions Scanner.C50_unquoted_refuted.
Print Assumptions Typography.C51_unchanged.
Print Assumptions Typography.C51_dashes.
Print Assumptions Typography.C51_set.
Print Assumptions Typography.C51_kept.
Print Assumptions Typography.C51_quotes.
Print Assumptions Typography.C51_quotes_unique.
Print Assumptions Typography.C51_idempotent.
Print Assumptions Typography.C51_tree.
Print Assumptions Typography.C51_longest.
Print Assumptions Typography.C51_neighbour_across_tags_refuted.
Print Assumptions Typography.C51_paragraphs_refuted.
Print Assumptions Authors.C52_reads.
Print Assumptions Authors.C52_reads_one.
Print Assumptions Authors.C52_names_told.
Print Assumptions Authors.C52_written.
Print Assumptions Authors.C52_from_context.
Print Assumptions Authors.C52_nobody_named_refuted.
Print Assumptions Authors.C52_tags_refuted.
Print Assumptions Headers.C59_result.
Print Assumptions Headers.C59_first_wins.
Print Assumptions Headers.C59_extends.
Print Assumptions Headers.C59_no_extends.
Print Assumptions Headers.C59_directories.
Print Assumptions Headers.C59_directory.
Print Assumptions Headers.C59_own_first.
Print Assumptions Headers.C59_grandparents_refuted.
Print Assumptions Headers.C59_unknown_refuted.
Print Assumptions Headers.C59_nearest_refuted.
Print Assumptions Headers.C59_nearest.
Print Assumptions Render.C60_templates.
Print Assumptions Render.C60_total.
Print Assumptions Render.C60_errors.
Print Assumptions Render.C60_depth.
Print Assumptions Render.C60_choice.
Print Assumptions Render.C60_empty.
Print Assumptions Render.C60_contexts.
Print Assumptions Render.C60_parameters.
Print Assumptions Render.C61_texts_partial.
Print Assumptions Render.C61_pages_partial.
Print Assumptions Render.C61_dotted_refuted.
Print Assumptions Render.C61_bold_refuted.
Print Assumptions Render.C61_env_refuted.
Print Assumptions Render.C60_context_refuted.
Print Assumptions Render.C60_own_context.
Print Assumptions Render.C60_recursive_refuted.
Print Assumptions DocContext.C62_targets.
Print Assumptions DocContext.C62_periods.
Print Assumptions DocContext.C62_includes.
Print Assumptions DocContext.C62_absolute.
Print Assumptions DocContext.C62_no_includes.
Print Assumptions DocContext.C62_reset.
Print Assumptions DocContext.C62_level.
Print Assumptions DocContext.C62_root.
Print Assumptions DocContext.C62_own_targets_refuted.
Print Assumptions Ref.C63_reference.
Print Assumptions Ref.C63_reference_partial.
Print Assumptions Ref.C63_no_file_refuted.
Print Assumptions Ref.C63_doc_id_refuted.
Print Assumptions Ref.C63_shown_partial.
Print Assumptions Ref.C63_shown_refuted.
Print Assumptions Ref.C63_heading_partial.
Print Assumptions Ref.C63_heading_refuted.
Print Assumptions Ref.C63_anchor_partial.
Print Assumptions Ref.C63_anchor_refuted.
Print Assumptions AutoLabels.C64_title.
Print Assumptions AutoLabels.C64_title_clean.
Print Assumptions AutoLabels.C64_title_same.
Print Assumptions AutoLabels.C64_title_space_refuted.
Print Assumptions AutoLabels.C64_given.
Print Assumptions AutoLabels.C64_titled.
Print Assumptions AutoLabels.C64_blank.
Print Assumptions AutoLabels.C64_blank_distinct.
Print Assumptions AutoLabels.C64_caption.
Print Assumptions AutoLabels.C64_loaded_partial.
Print Assumptions AutoLabels.C64_duplicate.
Print Assumptions AutoLabels.C64_same_title_fails.
Print Assumptions AutoLabels.C64_same_caption_fails.
Print Assumptions AutoLabels.C64_sentence_refuted.
Print Assumptions AutoLabels.C64_number_refuted.
Print Assumptions Chain.C65_flow.
Print Assumptions Chain.C65_result.
Print Assumptions Chain.C65_asked.
Print Assumptions Chain.C65_any_depth.
Print Assumptions Chain.C65_options_refuted.
Print Assumptions Commands.C66_pdf2svg_partial.
Print Assumptions Commands.C66_convert_partial.
Print Assumptions Commands.C66_pdfcrop_partial.
Print Assumptions Commands.C66_scalesvg_partial.
Print Assumptions Commands.C66_asy_partial.
Print Assumptions Commands.C66_pdflatex_partial.
Print Assumptions Commands.C66_program.
Print Assumptions Commands.C66_no_option.
Print Assumptions Commands.C66_space_refuted.
Print Assumptions Commands.C66_injection_refuted.
Print Assumptions Commands.C66_dash_refuted.
Print Assumptions Commands.C66_number.
Print Assumptions Commands.C66_crop_one_partial.
Print Assumptions Commands.C66_crop_four.
Print Assumptions Commands.C66_crop_offset.
Print Assumptions Commands.C66_crop_length.
Print Assumptions Commands.C66_crop_text_fails.
Print Assumptions Commands.C66_scale.
Print Assumptions Commands.C66_scale_invalid.
Print Assumptions Commands.C66_page_fails.
Print Assumptions Commands.C66_steps.
Print Assumptions Commands.C66_default.
Print Assumptions Commands.C66_no_parameters.
Print Assumptions Commands.C66_page_refuted.
Print Assumptions Commands.C66_crop_zero_refuted.
Print Assumptions Commands.C66_offset_one_refuted.
Print Assumptions TargetBuilders.C67_wanted.
Print Assumptions TargetBuilders.C67_builder.
Print Assumptions TargetBuilders.C67_unique.
Print Assumptions TargetBuilders.C67_pdf.
Print Assumptions TargetBuilders.C67_epub.
Print Assumptions TargetBuilders.C67_known.
Print Assumptions TargetBuilders.C67_collect.
Print Assumptions TargetBuilders.C67_add_file_partial.
Print Assumptions TargetBuilders.C67_add_file_missing.
Print Assumptions TargetBuilders.C67_find.
Print Assumptions TargetBuilders.C67_error.
Print Assumptions TargetBuilders.C67_epub_files_refuted.
Print Assumptions TargetBuilders.C67_epub_sub_refuted.
Print Assumptions Epub.C68_fixed.
Print Assumptions Epub.C68_complete.
Print Assumptions Epub.C68_once.
Print Assumptions Epub.C68_only.
Print Assumptions Epub.C68_name.
Print Assumptions Epub.C68_items.
Print Assumptions Epub.C68_listed.
Print Assumptions Epub.C68_listed_refuted.
Print Assumptions Epub.C68_reading.
Print Assumptions Epub.C68_distinct_partial.
Print Assumptions Epub.C68_ids_partial.
Print Assumptions Epub.C68_ids_refuted.
Print Assumptions Epub.C68_toc.
Print Assumptions Epub.C68_distinct_refuted.
Print Assumptions Epub.C68_all.
Print Assumptions TexFmt.C69_tables.
Print Assumptions TexFmt.C69_names.
Print Assumptions TexFmt.C69_class_total.
Print Assumptions TexFmt.C69_inactive_refuted.
Print Assumptions TexFmt.C69_balanced.
Print Assumptions TexFmt.C69_source.
Print Assumptions TexFmt.C69_text.
Print Assumptions TexFmt.C69_total.
Print Assumptions TexFmt.C69_supsub.
Print Assumptions TexFmt.C69_forms.
Print Assumptions TexFmt.C69_equations.
Print Assumptions TexFmt.C69_nolabel_refuted.
Print Assumptions HtmlFmt.C70_text.
Print Assumptions HtmlFmt.C70_allowed.
Print Assumptions HtmlFmt.C70_total.
Print Assumptions HtmlFmt.C70_forms.
Print Assumptions HtmlFmt.C70_symbol.
Print Assumptions HtmlFmt.C70_supsub.
Print Assumptions HtmlFmt.C70_headings.
Print Assumptions HtmlFmt.C70_attributes.
Print Assumptions HtmlFmt.C70_boxes.
Print Assumptions HtmlFmt.C70_same.
Print Assumptions HtmlFmt.C70_figure_class_refuted.
Print Assumptions HtmlFmt.C70_verbatim_refuted.
Print Assumptions HtmlFmt.C70_footnote_refuted.
Print Assumptions HtmlFmt.C70_target_refuted.
Print Assumptions HtmlFmt.C70_total_refuted.
Print Assumptions Starters.C71_copied.
Print Assumptions Starters.C71_only.
Print Assumptions Starters.C71_unchanged.
Print Assumptions Starters.C71_total.
Print Assumptions Starters.C71_again.
Print Assumptions Starters.C71_list.
Print Assumptions Starters.C71_names_refuted.
Print Assumptions Starters.C71_all_refuted.
Print Assumptions Starters.C71_directory_refuted.
Print Assumptions Starters.C71_description_refuted.
Print Assumptions Server.C72_static.
Print Assumptions Server.C72_served.
Print Assumptions Server.C72_media.
Print Assumptions Server.C72_error.
Print Assumptions Server.C72_sources_partial.
Print Assumptions Server.C72_sources_refuted.
Print Assumptions Server.C72_above_refuted.
Print Assumptions Server.C72_served_refuted.
Print Assumptions Server.C72_missing_refuted.
Print Assumptions Server.C72_projects.
Print Assumptions Server.C72_projects_error.
Print Assumptions Server.C72_projects_refuted.
Print Assumptions Server.C72_tree.
Print Assumptions Server.C72_numbers.
Print Assumptions Server.C72_checkers.
Print Assumptions Server.C72_lines.
Print Assumptions Images.C73_parameters.
Print Assumptions Images.C73_once.
Print Assumptions Images.C73_one.
Print Assumptions Images.C73_tex.
Print Assumptions Images.C73_html.
Print Assumptions Images.C73_given.
Print Assumptions Images.C73_tex_width_refuted.
Print Assumptions Images.C74_literal_partial.
Print Assumptions Images.C74_files.
Print Assumptions Images.C74_lexer.
Print Assumptions Images.C74_language.
Print Assumptions Images.C74_inline_html.
Print Assumptions Images.C74_inline_tex_partial.
Print Assumptions Images.C74_block.
Print Assumptions Images.C74_literal_refuted.
Print Assumptions LabelTags.C75_heading_text.
Print Assumptions LabelTags.C75_heading.
Print Assumptions LabelTags.C75_caption.
Print Assumptions LabelTags.C75_document_refs.
Print Assumptions LabelTags.C75_refs.
Print Assumptions LabelTags.C75_title.
Print Assumptions LabelTags.C75_content_refuted.
Print Assumptions LabelTags.C75_short_refuted.
Print Assumptions LabelTags.C75_reread_refuted.
Print Assumptions LabelTags.C75_anchor_refuted.
Print Assumptions Links.C76_html.
Print Assumptions Links.C76_html_made.
Print Assumptions Links.C76_tex.
Print Assumptions Links.C76_step.
Print Assumptions Links.C76_leads.
Print Assumptions Links.C76_other.
Print Assumptions Links.C76_tex_refuted.
Print Assumptions Links.C76_default_refuted.
Print Assumptions Links.C76_step_tex_refuted.
Print Assumptions Links.C76_step_xhtml_refuted.
Print Assumptions Links.C76_other_text_refuted.
Print Assumptions TagCreation.C77_document.
Print Assumptions TagCreation.C77_text.
Print Assumptions TagCreation.C77_exact.
Print Assumptions TagCreation.C77_verbatim.
Print Assumptions TagCreation.C77_unclosed.
Print Assumptions TagCreation.C77_layout.
Print Assumptions TagCreation.C77_paragraphs.
Print Assumptions TagCreation.C77_context.
Print Assumptions TagCreation.C77_context_order.
Print Assumptions TagCreation.C77_no_macros.
Print Assumptions TagCreation.C77_dash_refuted.
Print Assumptions TagCreation.C77_verbatim_refuted.
Print Assumptions TocFmt.C78_html.
Print Assumptions TocFmt.C78_own.
Print Assumptions TocFmt.C78_html_made.
Print Assumptions TocFmt.C78_tex.
Print Assumptions TocFmt.C78_tex_made.
Print Assumptions TocFmt.C78_leads.
Print Assumptions TocFmt.C78_authors.
Print Assumptions TocFmt.C78_titlepage.
Print Assumptions TocFmt.C78_marks_refuted.
Print Assumptions TocFmt.C78_symbol_refuted.
Print Assumptions DocLabels.C79_title.
Print Assumptions DocLabels.C79_name.
Print Assumptions DocLabels.C79_short.
Print Assumptions DocLabels.C79_label.
Print Assumptions DocLabels.C79_loaded.
Print Assumptions DocLabels.C79_listed.
Print Assumptions DocLabels.C79_reference.
Print Assumptions DocLabels.C79_short_reference_partial.
Print Assumptions DocLabels.C79_usual.
Print Assumptions DocLabels.C79_short_reference_refuted.
Print Assumptions DocLabels.C79_separator_refuted.
Print Assumptions DocTitles.C79_inherited.
Print Assumptions RefDeps.C80_found.
Print Assumptions RefDeps.C80_missing.
Print Assumptions RefDeps.C80_parameters.
Print Assumptions RefDeps.C80_texts.
Print Assumptions RefDeps.C80_title_refuted.
Print Assumptions RefDeps.C80_noticed.
Print Assumptions RefDeps.C80_unaffected.
Print Assumptions RefDeps.C80_rendered_refuted.
Print Assumptions RewritePath.C81_leads.
Print Assumptions RewritePath.C81_absolute.
Print Assumptions RewritePath.C81_unchanged.
Print Assumptions RewritePath.C81_beside.
Print Assumptions RewritePath.C81_raises.
Print Assumptions RewritePath.C81_hidden_refuted.
Print Assumptions RewritePath.C81_precedence_refuted.
Print Assumptions RewritePath.C81_elsewhere_refuted.
Print Assumptions Classes.C82_parents.
Print Assumptions Classes.C82_values.
Print Assumptions Classes.C82_do_not_inherit.
Print Assumptions Classes.C82_entries.
Print Assumptions Classes.C82_own.
Print Assumptions Classes.C82_nearest.
Print Assumptions Classes.C82_object_refuted.
Print Assumptions Classes.C82_precedence_refuted.
Print Assumptions Classes.C82_stale_refuted.
Print Assumptions WeakAttr.C83_reads.
Print Assumptions WeakAttr.C83_deletes.
Print Assumptions WeakAttr.C83_foreign.
Print Assumptions WeakAttr.C83_none_refuted.
Print Assumptions LinkCopy.C84_crash.
Print Assumptions LinkCopy.C84_done.
Print Assumptions LinkCopy.C84_errors.
Print Assumptions LinkCopy.C84_device_refuted.
Print Assumptions LinkCopy.C84_shared_refuted.
Print Assumptions CliBuild.C85_columns.
Print Assumptions CliBuild.C85_aligned.
Print Assumptions CliBuild.C85_row.
Print Assumptions CliBuild.C85_ends.
Print Assumptions CliBuild.C85_finishes.
Print Assumptions CliBuild.C85_all.
Print Assumptions CliBuild.C85_refused.
Print Assumptions Captions.C86_captions.
Print Assumptions Captions.C86_anchors.
Print Assumptions Captions.C86_stale_refuted.
Print Assumptions Captions.C86_given.
Print Assumptions Captions.C86_own.
Print Assumptions Captions.C86_own_refuted.
Print Assumptions Captions.C86_loads.
Print Assumptions Captions.C86_nested.
Print Assumptions Captions.C86_nested_refuted.
Print Assumptions SignalList.C87_stub.
Print Assumptions SignalList.C87_stub_same.
Print Assumptions SignalList.C87_stub_lines.
Print Assumptions SignalList.C87_stub_blank_refuted.
Print Assumptions SignalList.C87_listed.
Print Assumptions SignalList.C87_run.
Print Assumptions SignalList.C87_page.
Print Assumptions SignalList.C87_command.
Print Assumptions SignalList.C87_marks.
Print Assumptions TagEq.C88_same.
Print Assumptions TagEq.C88_equivalence.
Print Assumptions TagEq.C88_inside.
Print Assumptions TagEq.C88_table.
Print Assumptions TagEq.C88_table_one.
Print Assumptions TagEq.C88_class.
Print Assumptions TagEq.C88_items.
Print Assumptions TagEq.C88_items_refuted.
Print Assumptions TagEq.C88_list.
Print Assumptions TagEq.C88_list_refuted.
Print Assumptions Panel.C89_lines.
Print Assumptions Panel.C89_side_by_side.
Print Assumptions Panel.C89_width.
Print Assumptions Panel.C89_needs_width.
Print Assumptions Panel.C89_width_refuted.
Print Assumptions Panel.C89_blank_lines_refuted.
Print Assumptions LabelOrder.C90_lt.
Print Assumptions LabelOrder.C90_eq.
Print Assumptions LabelOrder.C90_agree.
Print Assumptions LabelOrder.C90_total.
Print Assumptions LabelOrder.C90_trans.
Print Assumptions LabelOrder.C90_sorted.
Print Assumptions LabelOrder.C90_sorted_unique.
Print Assumptions LabelOrder.C90_hash.
Print Assumptions LabelOrder.C90_hash_refuted.
Print Assumptions LabelOrder.C90_number.
