c("C01","proved","C01_lexing_terminates","all five lexers")
c("C02","proved","C02_document_lexer_errors")
c("C03","proved","C03_inline_lexers_never_fail")
c("C04","proved","C04_inline_lexing_lossless")
c("C05","proved","C05_contexts_locate_tokens C05_context_width","all five lexers")
c("C06","proved","C06_tokens_in_source_order","all five lexers")
c("C07","proved","C07_block_content_verbatim C07_block_content_verbatim_at_end")
c("C08","proved","C08_comments_invisible")
c("C09","proved","C09_unclosed_detected")
c("C10","proved","C10_merge_covers_both C10_merge_algebra")
c("C11","proved","C11_split_join_lossless")
c("C12","proved","C12_failed_attempts_consume_nothing")
c("C13","proved","C13_collect_stops_at_first_stop C13_collected_unique")
c("C14","proved","C14_nest_flatten C14_from_dict_asdict")
c("C15","proved","C15_from_environment_preserves C15_only_on_that_domain C15_outside","the stated domain is shown to be exactly the domain where it holds")
c("C16","proved","C16_read_after_write C16_last_write_wins")
c("C17","proved","C17_namespace_lookup")
c("C18","proved","C18_update C18_update_namespace C18_environments_are_flat")
c("C19","proved","C19_set_names")
c("C20","proved","C20_arguments_round_trip")
c("C21","proved","C21_unnamed_after_named C22_tags_and_subtype","the second theorem gives the order of the unnamed values and, through named_of, the last value of a repeated key")
c("C22","proved","C22_tags_and_subtype C22_two_aliases C23_alias_never_overrides","values with two marks in a row (#*x) are outside: C22_two_marks shows such a value is both a tag and the subtype")
c("C23","proved","C23_alias_never_overrides C23_alias_result C23_unknown_alias","C23_alias_result is the whole result, with the names of the definition")
c("C24","proved","C24_plain_text_untouched")
c("C25","proved","C25_variable_replacement","spaces at the end of a line are dropped when they follow a reference, escape or verbatim; the theorem says so")
c("C26","proved","C26_protected_from_replacement")
c("C27","proved","C27_conditions C27_unknown_operator")
c("C53","proved","C53_line_syntax C53_every_line C53_unambiguous","grammar in SpecLines.v")
c("C28","proved","C28_plain_text","spaces at the end of the line are dropped, as the theorem says; a blank line is one node, see C31")
c("C29","proved","C29_backslash_escapes_everything")
c("C30","proved","C30_markup_roundtrip","also mentions, links, mailto, images, characters, raw text, classes and user macros, with their texts in quotes parsed as trees of their own; text written with any redundant backslash; the grammar is SpecText.v")
c("C31","proved","C31_no_bracket_never_fails")
c("C55","proved","C55_no_ordinary_character_lost")
c("C32","partial","C32_mentions_registered_partial C30_markup_roundtrip C32_refuted_in_class C32_refuted_in_control C32_registered_twice","false inside the text of another macro and for the result of [if] (witnesses); proved for every other mention; C30 adds exactness for well-formed texts")
c("C33","partial","C33_first_quoted_argument_partial C33_refuted_second_argument","proved for the first argument, refuted by a witness for the others")
c("C54","partial","C54_link_text_partial C54_refuted_marked_text","false when the text starts with a mark (witness)")
c("C56","partial","C56_refuted_escaped_quotes C20_arguments_round_trip","refuted for macros; it holds of arguments lines (C20)")
c("C34","proved","C34_every_header_once C34_entry_under_its_parent C34_only_nesting C34_toc_nodes_filled","the manager; levels are positive because a header line starts with =")
c("C35","proved","C35_footnotes_linked C35_undefined_mention C35_second_definition C35_update_appends C35_refuted_update_duplicate","for every history of one manager; merging a block's manager (isolate=false) lets a second definition replace the first (witness)")
c("C36","proved","C36_links_resolved C36_unknown_name C36_duplicate_name")
c("C37","proved","C37_groups_collected C37_unknown_group C37_position_taken")
c("C40","proved","C40_source_lines C40_unique C40_language C40_line_positions C40_refuted_empty_delimiter C40_refuted_long_delimiter","The lines of a source block, for every content and one-character delimiter; the claim is false for an empty delimiter (ValueError) and a longer one, both proved with witnesses.")
c("C41","proved","C41_raw_verbatim","A raw block keeps its content verbatim, with the positions of its lines.")
c("C38","proved","C38_list_tree C38_unique")
c("C39","partial","C39_auto_continues_partial C39_start C39_other_elements C39_refuted_nested C39_refuted_unordered C39_first_auto","true when the previous list has no list inside; false in general: sublists count as items, unordered lists move the counter, the first list starts at 0 (witnesses); C39_start is what happens in every case")
c("C42","partial","C42_next_node_only_partial C42_between C42_never_a_later_node_partial C42_refuted_footnote","true of labels and arguments for every element, and of conditions except before the body of a footnote or a block of a group, where the condition reaches the next node (witness)")
c("C43","partial","C43_excluded_partial C43_refuted_merged_block C43_refuted_mention C43_block_changes_its_condition","true except for the headers of an excluded block with isolate=false; footnote mentions of excluded text are kept (witnesses)")
c("C44","proved","C44_isolation")
c("C57","proved","C57_document_of_elements")
c("C58","proved","C58_loops_end")
c("C46","proved","C46_variables_unchanged C46_included_environment")
c("C45","partial","C45_terminates_partial C45_without_includes C45_cycle_reported C45_forbidden_inherited C45_included_once C45_refuted_block","true when no block of the document or of a file contains an include line; false in general: a block is read with an empty list of forbidden files, and two files that include each other from inside blocks are read for ever (C45_refuted_block: every depth is exhausted)")
c("C59","proved","C59_grammar C59_unambiguous")
c("C60","proved","C60_depth_irrelevant")
c("C47","partial","C47_explained_partial C47_classes_partial C47_refuted","The full claim is false: C47_refuted has documents (an empty list item, '@if' without condition, '<< blockgroup', ':name' without closing colon, a start that is not a number, ...) that end in IndexError, AttributeError, KeyError, ValueError or TypeError instead of MauException (and C45_refuted_block in RecursionError). Proved: every failure that is not a MauException has one of the listed causes, element by element, and one of six classes (or the class of the error that the operating system gives for an included file).")
c("C48","proved","C48_chosen C48_counts C48_loaded C48_sources")
c("C49","proved","C49_match C49_claims C49_names")
c("C51","partial","C51_variables_partial C51_refuted","true when neither key nor value contains an equals sign; any other argument, as query=a=b, stops the program with ValueError")
c("C52","partial","C52_not_overwritten_partial C52_refuted","true when the input name contains .mau and the extension of the format is not mau; a complete run on an input whose name does not contain .mau always overwrites it")
c("C61","proved","C61_files C61_key_path C61_bad_file","keys without dots; contents are nested dictionaries without dots in their keys")
c("C62","proved","C62_writes_on_success C62_success C62_error_reported")
c("C63","proved","C63_only_definitions")
c("C64","proved","C64_definition")
c("C65","partial","C65_reuse_partial C65_refuted","false: variables of the first document are seen by the second; true for documents that define no variables (up to the parser's defaults)")

c("C50","partial","C50_copy_renders_partial C50_copy_data C50_copy_is_separate C50_copy_exists C50_refuted C50_refuted_document","The full claim is false: visits include the parent, and the parser gives the text of a list item the list as its parent while a copy gives it the item (C50_refuted, C50_refuted_document). Proved: equality for every visitor when every contained node has (a node that looks like) its container as parent; for every tree when parents are not in the result; copies are made of new objects and change nothing; every tree can be copied.")
c("C66","proved","C66_everything_is_shown")
c("C67","partial","C67_documents_render_partial C67_visits_end_partial C67_refuted C67_refuted_document C67_refuted_footnote","The full claim is false: a header whose text links to itself is visited for ever (C67_refuted_document), and so is a header that mentions a footnote whose body has the table of contents, when the blocks are not isolated (C67_refuted_footnote). Proved: every parsed document whose headers mention no footnote and link to no header, with all its groups of blocks, footnotes and tables of contents, is rendered by every visitor whose hooks do not fail, for every sufficient recursion limit; and a visit ends for every node from which no chain of visited attributes is infinite.")
c("C68","proved","C68_rendering_fails_only C68_objects_complete")
c("C69","proved","C69_goes_where_it_says C69_headers_of_the_document C69_one_node C69_no_node_twice C69_groups_are_layered C69_no_block_shares","the identity of a node is its number; the copies of a footnote have the numbers of the original")
c("C70","proved","C70_nothing_unfilled C70_contents_complete C70_contents_of_the_document","a table of contents may have more headers than the document tree: those of blocks in groups, footnotes or excluded by a control")
c("C71","proved","C71_precedence","keys of files without dots, variables without further equals signs (as C51, C61)")
c("C72","proved","C72_rendered","jinja2 itself is a function from a template name and data to text or an error")
c("C73","proved","C73_element C73_document C73_start_number","C73_refuted_context: the context of a paragraph or list need not contain the lines between its first and last")
c("C74","proved","C74_objects C74_document","heap_of (Build.v) is the model of the objects after finalise; copies of headers (plain entries) and of the content of bodies are those of the moment they are made, as in C67")
c("C75","proved","C75_parents","heap_of (Build.v) models the objects after finalise; an item or group may be another with the same name and position (the last that was processed), as the statement says")
c("C76","proved","C76_document C76_element C76_text C76_simple","lines, not columns; C76_refuted_footnote, C76_refuted_nameless and C76_refuted_lines show that each exception in the statement is needed")
c("C77","proved","C77_run C77_lexer C77_logged C77_place_read C77_position_read C77_no_source","the help that follows some errors, and the visitor's lines after the message, are not modelled; the values interpolated in the texts are not either")
c("C78","proved","C78_only C78_all C78_errors C78_order C78_visitor C78_sources","C78_refuted_names and C78_refuted_order: with two files of the same dotted name one is lost, and templates that are equally specific are tried in the order of listing, so the choice of a template can depend on it")
c("C79","proved","C79_rendered C79_node C79_content C79_text C79_main C79_main_yaml C79_template","what jinja2 makes of a template and its data, and yaml.dump, are parameters; the parent of a header that is shown elsewhere, and which node of a group is the parent of its items, are left open in the relation")
c("C80","proved","C80_header_ids C80_contents_ids C80_links C80_objects C80_default_shape C80_default_characters C80_default_same C80_refuted_clash C80_refuted_unique","MD5 is a parameter; str.lower is modelled exactly as far as the kept characters go")
c("C81","proved","C81_footnotes_numbered C81_mention_id C81_default_ids C81_refuted_document","")
c("C82","proved","C82_node C82_error C82_main C82_refuted_label","what jinja2 makes of a template is a parameter (a text, an UndefinedError, another exception); the lines of the log after the type (data of the node, templates) are not modelled; labels and made nodes have no place: C82_refuted_label")
c("C83","proved","C83_node C83_included C83_top C83_error C83_simple C83_refuted_empty","the exceptions are in the statement (placeless; nameless as in C76); C83_refuted_empty shows one of them")
c("C84","proved","C84_element C84_lines C84_order C84_document C84_simple C84_refuted_line C84_refuted_column","lines and order: for documents where no variable has an empty name (nameless as in C76; C84_simple gives a sufficient condition); the extra line and the columns: C84_refuted_line, C84_refuted_column")
c("C85","proved","C85_output C85_only C85_silent C85_every C85_exactly C85_finished C85_lines C85_refuted_once C85_refuted_footnote C85_refuted_context","the lines of the log after the type are not modelled; in groups, footnotes and tables a node may be reported more than once (C85_refuted_once), the body of a footnote loses the tag (C85_refuted_footnote), and without contexts the tag makes the visit fail (C85_refuted_context, outside the statement)")
c("C86","proved","C86_pages","the grammar is SpecPages.lays, with included documents, raw includes and block groups; its texts are those of C30 and C87 (with no mentions in the cases of a condition), its arguments those of C20 and C22, with the predefined alias and those that the variables define (C23)")
c("C87","proved","C87_conditional_text C87_condition_errors","the texts are those of C30; a text in quotes has no quotes in it, and no brackets when it is the second case (C33, C56)")
