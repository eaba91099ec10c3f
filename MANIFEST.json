{
 "claims": [
  {
   "property": "C01",
   "status": "proved",
   "theorems": [
    "C01_case_insensitive",
    "C01_latest_spelling"
   ],
   "note": ""
  },
  {
   "property": "C02",
   "status": "proved",
   "theorems": [
    "C02_read_your_write",
    "C02_frame",
    "C02_delete"
   ],
   "note": "frame holds for every operation of the editing interface, successful or failing"
  },
  {
   "property": "C03",
   "status": "proved",
   "theorems": [
    "C03_one_place",
    "C03_reachable_wf",
    "C03_repeated_names_refuted"
   ],
   "note": "CreateLoop with a repeated name (outside the quantifier) is refuted separately"
  },
  {
   "property": "C04",
   "status": "proved",
   "theorems": [
    "C04_locked_add_rejected",
    "C04_locked_history"
   ],
   "note": ""
  },
  {
   "property": "C05",
   "status": "partial",
   "theorems": [
    "C05_exact",
    "C05_atomic",
    "C05_guard_reachable",
    "C05_atomic_refuted"
   ],
   "note": "proved when the character set / name limit was not changed after storing; refuted otherwise"
  },
  {
   "property": "C06",
   "status": "proved",
   "theorems": [
    "C06_create_loop_effect"
   ],
   "note": ""
  },
  {
   "property": "C07",
   "status": "proved",
   "theorems": [
    "C07_remove_effect",
    "C07_remove_absent",
    "C07_remove_twice"
   ],
   "note": ""
  },
  {
   "property": "C08",
   "status": "partial",
   "theorems": [
    "C08_admission",
    "C08_failure_unchanged",
    "C08_effect",
    "C08_already_there",
    "C08_single_text_refuted"
   ],
   "note": "the clause that a single text value is never admitted is false of the code (refuted)"
  },
  {
   "property": "C09",
   "status": "partial",
   "theorems": [
    "C09_no_empty_loop_partial",
    "C09_addloopname_refuted",
    "C09_create_empty_refuted"
   ],
   "note": "false of the code for AddLoopName/AddToLoop and CreateLoop([]); proved for all other histories"
  },
  {
   "property": "C10",
   "status": "partial",
   "theorems": [
    "C10_move_top_level",
    "C10_move_column",
    "C10_move_loop_refuted",
    "C10_move_loop_fails"
   ],
   "note": "moving a loop by its number raises AttributeError (refuted)"
  },
  {
   "property": "C100",
   "status": "proved",
   "theorems": [
    "C100_balance",
    "C100_newlines",
    "C100_close_outside"
   ],
   "note": "For every text the lexer accepts, from every state."
  },
  {
   "property": "C101",
   "status": "proved",
   "theorems": [
    "C101_written"
   ],
   "note": "Else is left out because 'else if' is one token; numbers with exponents, comments, operators of several characters and parentheses are covered by C99 only."
  },
  {
   "property": "C102",
   "status": "partial",
   "theorems": [
    "C102_long_greedy",
    "C102_two_long_refuted",
    "C102_escape_refuted",
    "C102_else_name_refuted",
    "C102_capitals_refuted",
    "C102_lines_refuted"
   ],
   "note": "False of the code in all five parts; C102_long_greedy says what happens to long strings instead."
  },
  {
   "property": "C103",
   "status": "partial",
   "theorems": [
    "C103_product",
    "C103_unique",
    "C103_refuses",
    "C103_ragged",
    "C103_scalar",
    "C103_one_row_refuted",
    "C103_unfit_refuted",
    "C103_number_list_refuted"
   ],
   "note": "Exact whole numbers; matrices on the right have at least two rows. False for a matrix of one row on the right, which is taken for a list, and for a number times a list, which is given as a matrix."
  },
  {
   "property": "C104",
   "status": "partial",
   "theorems": [
    "C104_append",
    "C104_append_refuses",
    "C104_lists",
    "C104_list_number",
    "C104_mismatch",
    "C104_add_sub",
    "C104_remove",
    "C104_remove_absent",
    "C104_strip",
    "C104_strip_only",
    "C104_list_text_refuted",
    "C104_number_list_refuted",
    "C104_remove_changes_refuted"
   ],
   "note": "Flat lists of exact whole numbers for the arithmetic. False: a list += a text gives None, a number += a list is refused, --= changes the list in place."
  },
  {
   "property": "C105",
   "status": "partial",
   "theorems": [
    "C105_order",
    "C105_symmetric_vectors",
    "C105_rows_refuted"
   ],
   "note": "numpy's eig is a parameter with its documented meaning (vectors as columns). The values are right; the vectors only when the matrix of vectors is symmetric."
  },
  {
   "property": "C106",
   "status": "partial",
   "theorems": [
    "C106_disjoint",
    "C106_many",
    "C106_ddl1_fails",
    "C106_one_block",
    "C106_several",
    "C106_read_fails",
    "C106_kept",
    "C106_ddl1_refuted",
    "C106_ddl2_refuted",
    "C106_several_refuted"
   ],
   "note": "Proved for a DDL1 dictionary and any number of files of further definitions (C106_many). False for two whole dictionaries of any kind: DDL1 always fails (C106_ddl1_fails), DDL2 and DDLm lose all definitions of the later ones (C106_one_block) or fail when read from files (C106_read_fails), and with several blocks the later ones are ignored (C106_several). Making a CifDic of the result is not part of the model."
  },
  {
   "property": "C107",
   "status": "partial",
   "theorems": [
    "C107_fiddle",
    "C107_exact",
    "C107_one_line",
    "C107_every_refuted",
    "C107_first_refuted",
    "C107_outside_refuted",
    "C107_lines_refuted"
   ],
   "note": "C107_fiddle says exactly what is changed (C107_exact: the specification leaves no choice), and C107_one_line that an expression in one line loses nothing. False are: every mark (only the last one, and not directly after the bracket), only in sets (also between two sets), nothing lost (of two lines)."
  },
  {
   "property": "C108",
   "status": "partial",
   "theorems": [
    "C108_types",
    "C108_set",
    "C108_accepts",
    "C108_ends",
    "C108_single_fails",
    "C108_single_refuted",
    "C108_range_refuted"
   ],
   "note": "Proved for types in a loop and for sets of plain characters, ranges of plain characters and the usual escapes other than a backslash. False for one type that is not looped and for a range that ends in \\{. Compiling covers the fragment of python's re that is written in the model."
  },
  {
   "property": "C109",
   "status": "partial",
   "theorems": [
    "C109_all",
    "C109_one",
    "C109_same",
    "C109_row_exists",
    "C109_rows",
    "C109_row_syntax",
    "C109_row_one",
    "C109_endless",
    "C109_optional_refuted",
    "C109_endless_refuted",
    "C109_row_refuted",
    "C109_number_refuted",
    "C109_scalar_refuted"
   ],
   "note": "Proved for required columns and missing options. False if an optional item is there, if nothing but missing options is named, if the number of the row is used for one packet or together with an item, and for an item that is not looped. The body is a parameter."
  },
  {
   "property": "C11",
   "status": "proved",
   "theorems": [
    "C11_packets_transpose",
    "C11_get_packet",
    "C11_row_unique"
   ],
   "note": ""
  },
  {
   "property": "C110",
   "status": "partial",
   "theorems": [
    "C110_body",
    "C110_add_indent",
    "C110_pieces",
    "C110_constant_refuted"
   ],
   "note": "Every piece of the text without a newline is kept; a constant over several lines gains spaces. Lines end at newlines only in the model."
  },
  {
   "property": "C111",
   "status": "partial",
   "theorems": [
    "C111_order",
    "C111_no_head",
    "C111_nested_refuted",
    "C111_period_refuted",
    "C111_unnamed_refuted",
    "C111_id_refuted",
    "C111_scope_refuted"
   ],
   "note": "Proved for dictionaries without cycles whose blocks are named by their definition ids, with definitions outside the tree as long as no category outside is within another one, all name their category and have a name with one period. Each of these conditions is needed: the refuted theorems show failures (or a definition left out) otherwise. Imports are not followed."
  },
  {
   "property": "C112",
   "status": "proved",
   "theorems": [
    "C112_complete",
    "C112_grouped",
    "C112_one_reading",
    "C112_blanks"
   ],
   "note": "Converse of C94 with tokens described in WholeSpec without the scanner. Lines of a text field that start with a hash sign are left out: they may be lost (C31_refuted). The rule of STAR2 that starts a table anew (C94_pairs_refuted) is part of the grammar here."
  },
  {
   "property": "C113",
   "status": "proved",
   "theorems": [
    "C113_stored",
    "C113_refused"
   ],
   "note": "End to end from the text (WholeSpec) to the collection. Loops without names lose their values (C28_no_names_refuted), frames within frames and equal frame names are C52_nesting_refuted and C52_same_name_refuted; they are excluded in the hypotheses. The refusal is for a grammar that is named; 'auto' may go on to the next grammar."
  },
  {
   "property": "C114",
   "status": "partial",
   "theorems": [
    "C114_converted",
    "C114_older",
    "C114_list_refuted",
    "C114_unreadable_refuted",
    "C114_letters_refuted"
   ],
   "note": "Proved for contents that the other grammar can express (part_writable), and every file of grammar 1.0 or 1.1 with ordinary texts is one (C114_older). The last part is refuted: lists and datanames outside ASCII are written in the older grammars without complaint and read as a text or not at all."
  },
  {
   "property": "C115",
   "status": "partial",
   "theorems": [
    "C115_init_exact",
    "C115_new_block",
    "C115_stays_valid",
    "C115_capitals_fails",
    "C115_frames_refuted",
    "C115_refused_stays_refuted",
    "C115_capitals_refuted"
   ],
   "note": "The constructor is exact for the blocks that keys() lists, and names in lower case are added as they should be. Refuted: save frames are not checked, a refused block stays in the file, and a name with capitals always ends in a KeyError after the block was stored unchecked."
  },
  {
   "property": "C116",
   "status": "partial",
   "theorems": [
    "C116_reads",
    "C116_selected",
    "C116_default",
    "C116_unknown",
    "C116_twice",
    "C116_capitals_refuted",
    "C116_after_refuted",
    "C116_nested_warning_refuted"
   ],
   "note": "Proved for the grammars without nested frames. Refuted: saves_after has no effect, names with capitals are refused although blocks are found by them elsewhere, and in STAR2 the warning names frames that were written."
  },
  {
   "property": "C117",
   "status": "partial",
   "theorems": [
    "C117_dictionary",
    "C117_data_file",
    "C117_fails",
    "C117_visible_refuted",
    "C117_empty_refuted"
   ],
   "note": "Which blocks are checked and how they are called is proved. Refuted: after a dictionary was checked its frames stay visible, and a dictionary without data blocks ends in an IndexError."
  },
  {
   "property": "C118",
   "status": "partial",
   "theorems": [
    "C118_exact",
    "C118_one_tree",
    "C118_ends",
    "C118_fails",
    "C118_text",
    "C118_no_chain",
    "C118_beside",
    "C118_beside_refuted",
    "C118_two_numbers_refuted"
   ],
   "note": "The tables PLY makes of the grammar are replaced by functions that look at the next token and shift where PLY shifts. Refuted: a number with a point beside a name or number is read as an attribute without its first digit."
  },
  {
   "property": "C119",
   "status": "partial",
   "theorems": [
    "C119_sound",
    "C119_complete",
    "C119_one_tree",
    "C119_ends",
    "C119_fails",
    "C119_text",
    "C119_text_found",
    "C119_sequence",
    "C119_else",
    "C119_newline_if",
    "C119_newline_else",
    "C119_newline_for",
    "C119_newline_do",
    "C119_newline_loop",
    "C119_newline_repeat",
    "C119_no_newline",
    "C119_two_readings_refuted",
    "C119_body_refuted",
    "C119_newline_refuted"
   ],
   "note": "PLY's tables are replaced by functions that look ahead; completeness is for methods without the two ambiguities. Refuted: one reading for every method, a body that begins with a sign, a newline after else."
  },
  {
   "property": "C12",
   "status": "partial",
   "theorems": [
    "C12_add_packet",
    "C12_missing_value_refuted",
    "C12_locked_refuted",
    "C12_spelling_refuted"
   ],
   "note": "Successful case proved for all loops; failing calls leave the loop ragged and the output spelling is lost (refuted)."
  },
  {
   "property": "C120",
   "status": "partial",
   "theorems": [
    "C120_all",
    "C120_stops",
    "C120_succeeds",
    "C120_one",
    "C120_not_both",
    "C120_parse",
    "C120_says",
    "C120_found",
    "C120_text_one",
    "C120_text_plain",
    "C120_stop_refuted",
    "C120_name_refuted",
    "C120_break_refuted",
    "C120_purposes_refuted"
   ],
   "note": "Attributes are a definition's own, tokens are read before they are parsed, the text of the function header is not modelled. Refuted: one method that can not be translated stops the whole dictionary; so does a method under a name without a period; a form feed in a text constant becomes a newline; texts without a purpose are dropped."
  },
  {
   "property": "C121",
   "status": "partial",
   "theorems": [
    "C121_all",
    "C121_stops",
    "C121_defs",
    "C121_newline_refuted",
    "C121_single_refuted",
    "C121_replace_refuted"
   ],
   "note": "Executing the text is taken to define the functions in it and nothing else; what is a list is taken to be looped. Refuted: a function without a brace at its end is refused and stops the loading; so does one whose method is not in a loop; a function can replace one of the module itself."
  },
  {
   "property": "C122",
   "status": "partial",
   "theorems": [
    "C122_lookup",
    "C122_absent",
    "C122_one_answer",
    "C122_case_refuted",
    "C122_transitive_refuted"
   ],
   "note": "Block names are ids. Refuted: imported definitions are found in lower case only; what an imported dictionary imports itself is not found."
  },
  {
   "property": "C123",
   "status": "partial",
   "theorems": [
    "C123_selected",
    "C123_files",
    "C123_error",
    "C123_missing",
    "C123_duplicate",
    "C123_light_contents",
    "C123_light_full",
    "C123_heavy_contents",
    "C123_heavy_is_light",
    "C123_strict",
    "C123_mutual_refuted",
    "C123_override_refuted",
    "C123_replace_refuted",
    "C123_twice_refuted"
   ],
   "note": "Attributes are merged without their loops (C40); the theorems on heavy imports of attributes are for one definition and files without further imports; heavy imports of whole dictionaries are in C60. Refuted: dictionaries that import each other are never finished; a definition can not override an attribute it imports with heavy imports; dupl Replace does not replace; light imports do not notice what is imported twice."
  },
  {
   "property": "C124",
   "status": "partial",
   "theorems": [
    "C124_taken",
    "C124_exit",
    "C124_missing",
    "C124_twice_refuted",
    "C124_replace_refuted",
    "C124_exit_refuted",
    "C124_whole_refuted",
    "C124_children_refuted"
   ],
   "note": "Definitions are values that the dictionaries do not share; for ids that are not names of other blocks and a category that is not a member of itself. Refuted: taking a category a second time fails although duplicates are to be ignored; replacing keeps the old definition; after an error part of the category has been added; a dictionary with nested categories can not be taken as a whole; a category with those below it is never taken."
  },
  {
   "property": "C125",
   "status": "partial",
   "theorems": [
    "C125_su_exact",
    "C125_su_other",
    "C125_su_not_applied",
    "C125_su_refuted",
    "C125_container_refuted"
   ],
   "note": "The check is exact where it applies, but the attribute it asks for is the text 'self.primitive_type', which no definition has, so that it never applies. Refuted: a measurand without an s.u. and a number with one are not reported; the check of containers (not installed) never gives a verdict."
  },
  {
   "property": "C126",
   "status": "partial",
   "theorems": [
    "C126_verdict",
    "C126_other_values",
    "C126_type_refuted"
   ],
   "note": "For blocks for which all checks give an answer: items and categories known, enumerations that are lists, a key for each uppermost category, an entry for the scope of the block. Refuted: types, containers and ranges are not looked at."
  },
  {
   "property": "C127",
   "status": "partial",
   "theorems": [
    "C127_tables",
    "C127_none",
    "C127_definitions",
    "C127_rows_refuted",
    "C127_unlooped_refuted"
   ],
   "note": "For rows whose scope and attributes are lists of texts. Refuted: of two rows for the same scope and requirement only the last one counts; a single row given without a loop is an error."
  },
  {
   "property": "C128",
   "status": "partial",
   "theorems": [
    "C128_packet",
    "C128_key",
    "C128_case_refuted",
    "C128_unset_refuted",
    "C128_repeated_refuted"
   ],
   "note": "The block reads its items without a dictionary: no conversion, aliases or derived keys; where case does not count, the key columns and the value asked for are texts. Refuted: case of every key is treated as the first key's type says; a key present without a value is an error about a variable, or puts an earlier row in twice."
  },
  {
   "property": "C129",
   "status": "partial",
   "theorems": [
    "C129_compound",
    "C129_child_fails",
    "C129_child_refuted",
    "C129_key_refuted",
    "C129_absent_refuted"
   ],
   "note": "C129_compound is for blocks that have the keys of one category of the table only. Refuted: as soon as the keys of a child category are in the block there is an exception; if they are not, the packet names no key; a key that no row has gives an empty packet."
  },
  {
   "property": "C13",
   "status": "partial",
   "theorems": [
    "C13_keyed_packet",
    "C13_keyed_packet_no_case",
    "C13_no_case_number_refuted"
   ],
   "note": "Case-insensitive lookup proved for text columns; a number in the key column raises AttributeError (refuted)."
  },
  {
   "property": "C130",
   "status": "proved",
   "theorems": [
    "C130_get_all",
    "C130_items",
    "C130_first",
    "C130_block_names",
    "C130_item_names",
    "C130_parents_fail",
    "C130_hidden_refuted",
    "C130_list_refuted",
    "C130_parents_refuted"
   ],
   "note": "Beyond the statement: values in hidden save frames are left out; a value that is itself a list is taken apart; checking a dictionary against one in DDL2 that links items always fails before the checks, because the values collected would have to be stored as a block."
  },
  {
   "property": "C131",
   "status": "partial",
   "theorems": [
    "C131_place",
    "C131_pointer_partial",
    "C131_report",
    "C131_report_fails",
    "C131_compiled",
    "C131_last_tokens",
    "C131_pointer_refuted",
    "C131_lines_refuted",
    "C131_width_refuted"
   ],
   "note": "The pointer is right if no carriage return is among the 80 characters before the place; with CR LF line ends it is off by one, and a lone carriage return brings several lines into the picture. With the compiled scanner every error is reported on line 1, column 0. The line shown may be longer than the 80 columns assumed."
  },
  {
   "property": "C132",
   "status": "partial",
   "theorems": [
    "C132_safe",
    "C132_token",
    "C132_token_unique",
    "C132_lookahead",
    "C132_cleanup",
    "C132_cleanup_refuted",
    "C132_shared_refuted",
    "C132_nul_refuted"
   ],
   "note": "Memory is safe for all calls but cleanup, which frees the list and keeps the pointers: every text prepared after it frees them again. It also returns NULL without an exception. The list is shared by all scanners. What follows a NUL is not read and not reported."
  },
  {
   "property": "C133",
   "status": "partial",
   "theorems": [
    "C133_present",
    "C133_derived",
    "C133_error",
    "C133_same_row",
    "C133_no_key_value",
    "C133_case_refuted",
    "C133_loop_refuted",
    "C133_empty_refuted",
    "C133_no_keys_refuted"
   ],
   "note": "The row is that of the packet if its keys are unique without regard to case and in one loop with the item. It is an error for keys that differ only in case, for an item of the second loop of a category, and for packets found by compound keys that have no keys or not the values of their keys. derive_item is a parameter."
  },
  {
   "property": "C134",
   "status": "partial",
   "theorems": [
    "C134_written",
    "C134_refused",
    "C134_same_text",
    "C134_short_refuted",
    "C134_max_refuted",
    "C134_wrap_refuted",
    "C134_lines_refuted",
    "C134_failed_refuted",
    "C134_history_refuted"
   ],
   "note": "What the blocks are told is proved, and that a length to wrap at greater than the maximum is refused. It is refuted that the lengths bound the lines, that the argument maxoutlength can be used, that a file with a maximum below 80 can be written with the default arguments, that a failed call changes nothing, and that earlier output has no influence on the list delimiter."
  },
  {
   "property": "C135",
   "status": "partial",
   "theorems": [
    "C135_get",
    "C135_update",
    "C135_stops",
    "C135_replaces",
    "C135_collection",
    "C135_get_refuted",
    "C135_names_refuted",
    "C135_frames_refuted",
    "C135_replace_refuted",
    "C135_copy_refuted"
   ],
   "note": "Proved for new names, for the first name refused and, without a standard, for the replacement of a visible block. It is refuted that get finds save frames, that names of another collection keep their capitals and its save frames their place, that blocks are replaced as by a python dictionary, and that a collection can be copied. Missing: names of save frames that are there, and updating a collection with itself."
  },
  {
   "property": "C136",
   "status": "partial",
   "theorems": [
    "C136_allowed",
    "C136_refused",
    "C136_childless",
    "C136_alias_refuted"
   ],
   "note": "Proved for the names in the definition; refuted for their aliases, which the check of the values of children does look for. The code never runs this check, since the method that is to run it does not exist (ValidBlockModel)."
  },
  {
   "property": "C14",
   "status": "proved",
   "theorems": [
    "C14_compound_key",
    "C14_order_independent"
   ],
   "note": "python's str() of non-texts is a parameter"
  },
  {
   "property": "C15",
   "status": "partial",
   "theorems": [
    "C15_remove_keyed",
    "C15_remove_keyed_again",
    "C15_file_loop_refuted"
   ],
   "note": "Proved for loops built through the interface, refuted for loops read from a file."
  },
  {
   "property": "C16",
   "status": "partial",
   "theorems": [
    "C16_ascii_names",
    "C16_unicode_names",
    "C16_astral_refuted",
    "C16_read_back",
    "C16_read_back_unicode",
    "C16_short_name_refuted"
   ],
   "note": "Acceptance is characterised exactly for ASCII and for names of the basic plane, and accepted names of two or more characters are read back as one data_name token by every grammar (basic plane: 2.0 and STAR2). The statement fails for allowed characters beyond the basic plane, which are refused (C16_astral_refuted); a lone underscore is accepted but unreadable."
  },
  {
   "property": "C17",
   "status": "proved",
   "theorems": [
    "C17_text_values",
    "C17_text_columns",
    "C17_rejected_unchanged",
    "C17_nested_refuted"
   ],
   "note": "texts nested deeper than one list are not checked by the code (finding)"
  },
  {
   "property": "C18",
   "status": "proved",
   "theorems": [
    "C18_lossless",
    "C18_lossless_any_length",
    "C18_short_unchanged",
    "C18_dangling_refuted",
    "C18_header_refuted"
   ],
   "note": "For all texts and widths. The two _refuted theorems show the conditions are needed (backslash-blank line ends; a short text that itself starts with a folding header)."
  },
  {
   "property": "C19",
   "status": "proved",
   "theorems": [
    "C19_total_bounded",
    "C19_default",
    "C19_target_refuted",
    "C19_cut_at_blank",
    "C19_cut_at_width"
   ],
   "note": "Bound max(min+max-1, max+1), below min+max or equal to it; attained. Lines longer than the documented maximum are a finding (C19_target_refuted)."
  },
  {
   "property": "C20",
   "status": "proved",
   "theorems": [
    "C20_lossless",
    "C20_lossless_folded",
    "C20_one_char_refuted"
   ],
   "note": "Blanks after the backslash of a folding header are dropped, as the statement says; one-character prefixes are lost (finding)."
  },
  {
   "property": "C21",
   "status": "proved",
   "theorems": [
    "C21_no_terminator",
    "C21_search_ends",
    "C21_found_good"
   ],
   "note": ""
  },
  {
   "property": "C22",
   "status": "partial",
   "theorems": [
    "C22_delimiter",
    "C22_triple_refuted"
   ],
   "note": "Proved for all grammars, widths, requests and texts, except that triple quotes are allowed around any content: refuted by a witness ending in the quote."
  },
  {
   "property": "C23",
   "status": "partial",
   "theorems": [
    "C23_round_trip",
    "C23_stop",
    "C23_loop",
    "C23_text_field",
    "C23_refuted"
   ],
   "note": "Round trip proved for every text, requested delimiter and width under the condition readable; stop_ words, loop_ and verbatim text fields are characterised exactly. For folded or prefixed text fields the condition (no line ending in backslash-blank, not starting like a folded text, no hash line) is sufficient and not shown necessary. The 'reformat' hint is not modelled."
  },
  {
   "property": "C24",
   "status": "partial",
   "theorems": [
    "C24_round_trip",
    "C23_stop",
    "C23_loop",
    "C23_text_field",
    "C22_triple_refuted"
   ],
   "note": "As C23 for grammars 2.0 and STAR2, with triple quotes and brackets or commas following directly; triple_ok is shown necessary only by a witness."
  },
  {
   "property": "C25",
   "status": "partial",
   "theorems": [
    "C25_concatenation",
    "C25_accepts",
    "C25_block",
    "C25_empty_refuted",
    "C25_hint_refuted",
    "C25_list_refuted",
    "C25_table_refuted"
   ],
   "note": "Every sequence of writes yields the supplied strings and blanks only (separators may be left out); printing a block of texts keeps all tokens apart for every content and hints without column 0. As stated the property fails: a column hint of 0, a list earlier in the row, or a table after a long name glue tokens together (refuted with witnesses), and an empty string on a full line raises IndexError."
  },
  {
   "property": "C26",
   "status": "partial",
   "theorems": [
    "C26_round_trip",
    "C26_ordinary_texts",
    "C26_no_rows_refuted",
    "C26_template",
    "C26_ordinary_hinted"
   ],
   "note": "Printing any list of blocks of texts and loops, parsing and reading gives blocks with the same values, loops, spelling and order, for all texts satisfying the read-back condition of C23 (all ordinary texts do). A loop without rows is written but is unreadable (refuted). C26_template covers output with the hints of any template for texts that are read back with every delimiter asked for; C26_ordinary_hinted gives such texts."
  },
  {
   "property": "C27",
   "status": "partial",
   "theorems": [
    "C27_round_trip",
    "C27_ordinary_values",
    "C27_key_refuted"
   ],
   "note": "The same for nested lists and tables of any depth in CIF2 and STAR2; lists are read back as STAR lists. Not covered because they fail: keys with quotes (refuted), texts next to each other in loops with lists, tables after names of 80 or more characters (C25), loops ending in an empty list (C28)."
  },
  {
   "property": "C28",
   "status": "partial",
   "theorems": [
    "C28_round_robin",
    "C28_empty_list_refuted",
    "C28_no_names_refuted",
    "C28_no_names_lost"
   ],
   "note": "Proved for all numbers of names and values unless the last value is an empty list, where the code loses it (refuted); a loop without names loses its values (refuted)."
  },
  {
   "property": "C29",
   "status": "proved",
   "theorems": [
    "C29_read_block",
    "C29_duplicate_rejected"
   ],
   "note": "at the level of parsed entries; the tokens that make up the entries are in the scanner part"
  },
  {
   "property": "C30",
   "status": "proved",
   "theorems": [
    "C30_scan",
    "C30_determined",
    "C30_accepted",
    "C30_token_start",
    "C30_blanks"
   ],
   "note": "For all grammars, restrictions and inputs."
  },
  {
   "property": "C31",
   "status": "partial",
   "theorems": [
    "C31_verbatim",
    "C31_exact",
    "C31_refuted"
   ],
   "note": "Refuted as stated: lines after the first that start with a hash sign are dropped. Proved verbatim when no later line starts with a hash sign, and exactly which lines are lost otherwise."
  },
  {
   "property": "C32",
   "status": "proved",
   "theorems": [
    "C32_ctrl_z",
    "C32_line_limit",
    "C32_line_number",
    "C32_magic",
    "C32_no_magic",
    "C32_auto_refuted",
    "C32_empty_refuted"
   ],
   "note": "For texts read without the CBF option (with it, binary sections are cut out before Ctrl-Z is looked for). Findings: autodetection can refuse a text that grammar 1.1 reads, because the blocks of the failed first attempt stay in the collection; an empty file gives None."
  },
  {
   "property": "C33",
   "status": "partial",
   "theorems": [
    "C33_histories_partial",
    "C33_membership",
    "C33_failure_partial",
    "C33_parent_refuted",
    "C33_cycle_refuted"
   ],
   "note": "Proved for histories whose named parents exist, that create no cycle, and that delete or rename only visible blocks (with everything below them when deleting). Outside these: a missing parent is accepted with a warning and leaves a block that cannot be written or deleted (C33_parent_refuted); set_parent can create cycles (C33_cycle_refuted)."
  },
  {
   "property": "C34",
   "status": "proved",
   "theorems": [
    "C34_new_block"
   ],
   "note": "For every consistent collection with a standard, every name, and every parent that exists (missing parents: C33_parent_refuted)."
  },
  {
   "property": "C35",
   "status": "partial",
   "theorems": [
    "C35_delete_partial",
    "C35_missing",
    "C35_hidden_refuted"
   ],
   "note": "Holds when the block and everything below it is visible, so for all blocks under dictionary scoping. Under instance scoping a data block with save frames cannot be deleted: the attempt fails half-way (C35_hidden_refuted)."
  },
  {
   "property": "C36",
   "status": "partial",
   "theorems": [
    "C36_rename_partial",
    "C36_hidden_refuted"
   ],
   "note": "Holds for visible blocks; renaming a hidden block fails half-way and loses the block (C36_hidden_refuted)."
  },
  {
   "property": "C37",
   "status": "partial",
   "theorems": [
    "C37_is_child",
    "C37_child_list",
    "C37_get_children_refuted"
   ],
   "note": "The tests and listings are the transitive closure; get_children goes by printed names instead of keys and can list a block among its own children (C37_get_children_refuted)."
  },
  {
   "property": "C38",
   "status": "proved",
   "theorems": [
    "C38_written_once"
   ],
   "note": "The order of output of WriteOut for grammars 1.0, 1.1 and 2.0 and default block order."
  },
  {
   "property": "C39",
   "status": "partial",
   "theorems": [
    "C39_merge_partial",
    "C39_disjoint",
    "C39_lost_refuted",
    "C39_no_parent_refuted",
    "C39_suffix_refuted"
   ],
   "note": "Holds when no common name also occurs with plus signs appended. Otherwise blocks are lost silently (C39_lost_refuted, C39_suffix_refuted); a data block a followed by one with a save frame a raises AttributeError after re-keying (C39_no_parent_refuted)."
  },
  {
   "property": "C40",
   "status": "partial",
   "theorems": [
    "C40_strict_refuses",
    "C40_strict_union",
    "C40_strict_exact",
    "C40_replace",
    "C40_replace_returns",
    "C40_other_modes",
    "C40_strict_atomic_refuted",
    "C40_replace_excepted_refuted",
    "C40_replace_read_refuted",
    "C40_replace_column_refuted",
    "C40_strict_looped_refuted",
    "C40_strict_spelling_refuted"
   ],
   "note": "Strict mode refuses every common dataname that is not excepted and otherwise gives the union; replace mode gives the incoming values and keeps all others; loops and spelling are described too. Needed: the loops of the incoming block are tables, and in strict mode no excepted dataname is looped. Refuted beyond that: strict mode is not atomic, replace mode does not spare excepted names, raises on blocks read from a file (overwrite is off), and can put a single value into a loop."
  },
  {
   "property": "C41",
   "status": "partial",
   "theorems": [
    "C41_exact",
    "C41_prefix",
    "C41_no_value",
    "C41_unknown",
    "C41_float_plain",
    "C41_float_su",
    "C41_plus_refuted",
    "C41_su_last_refuted",
    "C41_trailing_refuted",
    "C41_float_exponent_refuted",
    "C41_float_d_refuted"
   ],
   "note": "Numbers are exact rationals in the model (python float rounding and overflow not modelled). Every numeral with optional minus, digits, point, s.u., exponent is read exactly and any text gives the value of its longest numeral prefix. Refuted: a plus sign is not read, an s.u. after the exponent is dropped, trailing text is ignored; float_with_esd drops an exponent after an s.u. and refuses d exponents."
  },
  {
   "property": "C42",
   "status": "partial",
   "theorems": [
    "C42_ranges_exact",
    "C42_ranges_pass",
    "C42_no_range",
    "C42_single_range_refuted",
    "C42_trailing_text_refuted"
   ],
   "note": "Exact for looped or one-sided ranges with plain numeral bounds. Refuted for a range given without a loop, which is taken character by character; text after the number is ignored."
  },
  {
   "property": "C43",
   "status": "partial",
   "theorems": [
    "C43_enumeration_exact",
    "C43_enumeration_pass",
    "C43_no_enumeration",
    "C43_single_value_refuted"
   ],
   "note": "Exact for a list of enumerated values. Refuted for a single enumerated value given without a loop: AttributeError."
  },
  {
   "property": "C44",
   "status": "partial",
   "theorems": [
    "C44_unique_sound",
    "C44_unique_exact_partial",
    "C44_space_refuted"
   ],
   "note": "Passing implies unique rows for all values; the converse holds when no value contains a space, and is refuted otherwise. Columns are lists of texts."
  },
  {
   "property": "C45",
   "status": "partial",
   "theorems": [
    "C45_parent_exact",
    "C45_parent_pass",
    "C45_parent_absent",
    "C45_alternate_case_refuted"
   ],
   "note": "Exact when the parent item is present and when it and its alternates are absent. Refuted for alternates spelled with capitals."
  },
  {
   "property": "C46",
   "status": "proved",
   "theorems": [
    "C46_valid_iff_no_failure",
    "C46_runs_iff_checks_return",
    "C46_order_irrelevant"
   ],
   "note": "For arbitrary check functions; a check that raises makes the run raise."
  },
  {
   "property": "C47",
   "status": "partial",
   "theorems": [
    "C47_recursion_refused",
    "C47_stack_restored",
    "C47_never_reenters",
    "C47_terminates",
    "C47_outermost",
    "C47_failure_names_item",
    "C47_no_memory",
    "C47_other_block_refuted",
    "C47_default_keyword_refuted"
   ],
   "note": "The watch looks at the item name only. C47_other_block_refuted shows that a derivation which reaches the same name in another block or dictionary is refused although it would end. C47_default_keyword_refuted shows that a call without the keyword leaves the outermost body to its own default while nested bodies get False."
  },
  {
   "property": "C48",
   "status": "proved",
   "theorems": [
    "C48_all_children",
    "C48_all_children_once",
    "C48_all_children_total",
    "C48_semantic_child",
    "C48_danglers",
    "C48_connected",
    "C48_no_head",
    "C48_head",
    "C48_cycle_refuted",
    "C48_semantic_child_case_refuted"
   ],
   "note": "Danglers are the definitions whose category is not defined as a category together with everything below those; C48_connected is the case of none. Outside the stated quantifier: with a cycle the walk never ends (C48_cycle_refuted); the semantic-child test is case sensitive (C48_semantic_child_case_refuted); a missing or second Head gives TypeError (C48_no_head)."
  },
  {
   "property": "C49",
   "status": "partial",
   "theorems": [
    "C49_own",
    "C49_own_wins",
    "C49_last_wins",
    "C49_absent",
    "C49_total",
    "C49_plain",
    "C49_has_key",
    "C49_missing_refuted",
    "C49_mixed_modes_refuted",
    "C49_get_refuted",
    "C49_transitive_refuted",
    "C49_has_key_error"
   ],
   "note": "Proved when every import resolves. An own attribute cannot be read if an imported file or frame is missing (C49_missing_refuted), nor if one entry is in mode full (C49_mixed_modes_refuted); get and `in' do not see imported attributes (C49_get_refuted); attributes that an imported definition imports are not found (C49_transitive_refuted)."
  },
  {
   "property": "C50",
   "status": "proved",
   "theorems": [
    "C50_template_order",
    "C50_template_names",
    "C50_stable",
    "C50_parts",
    "C50_twice_refuted"
   ],
   "note": "For every block and every template: each entry exactly once, requested ones first in the requested order, the others in their previous order; columns likewise; ordering twice changes nothing; output up to and from a dataname is a partition. The hints' datanames are modelled as process_template collects them; columns and delimiters of hints are arbitrary. Refuted for hints assigned directly with a name twice in different case."
  },
  {
   "property": "C51",
   "status": "proved",
   "theorems": [
    "C51_parser",
    "C51_total",
    "C51_unambiguous",
    "C51_round",
    "C51_container_refuted"
   ],
   "note": "Nesting is kept; the name of the container is not (C51_container_refuted)."
  },
  {
   "property": "C52",
   "status": "partial",
   "theorems": [
    "C52_round_trip",
    "C52_nesting_refuted",
    "C52_same_name_refuted",
    "C52_frame_limit_refuted"
   ],
   "note": "Grammars 1.0, 1.1 and 2.0, collections without the dictionary layout, no template; values as in C27. Nested save frames come back directly inside the data block (refuted for nesting). Findings: items after a save frame named like its data block go to the frame in 1.x; dataname length is not checked in save frames."
  },
  {
   "property": "C53",
   "status": "partial",
   "theorems": [
    "C53_type_sound",
    "C53_class_type_exact_partial",
    "C53_alternation_refuted",
    "C53_empty_value_refuted"
   ],
   "note": "Sound up to the empty text; exact for a repeated character class. Refuted for ordered alternation and for the empty value. The rewriting of expressions by regex_fiddle is C107."
  },
  {
   "property": "C54",
   "status": "partial",
   "theorems": [
    "C54_children",
    "C54_dependents",
    "C54_exclusion",
    "C54_dependent_case_refuted"
   ],
   "note": "Exact with names compared as the code does; refuted for dependents spelled with capitals."
  },
  {
   "property": "C55",
   "status": "partial",
   "theorems": [
    "C55_loop_key_exact_partial",
    "C55_membership",
    "C55_membership_ddl2_refuted",
    "C55_single_key_refuted",
    "C55_alternate_key_refuted",
    "C55_looping_exact",
    "C55_looping_ddlm_exact",
    "C55_membership_ddl2"
   ],
   "note": "Key check exact for a list of keys without alternates. Refuted: membership never fails outside DDLm; a single key name is taken character by character; alternates of a key never help."
  },
  {
   "property": "C56",
   "status": "proved",
   "theorems": [
    "C56_esd_exact"
   ],
   "note": "Uses the numeral specification of C41."
  },
  {
   "property": "C57",
   "status": "partial",
   "theorems": [
    "C57_definitions",
    "C57_duplicates",
    "C57_case_duplicates_refuted",
    "C57_added_refuted",
    "C57_added"
   ],
   "note": "Proved for ids that differ ignoring case. Ids that differ only in case are accepted and one definition is lost (C57_case_duplicates_refuted); a definition added later with capitals in its id is not found (C57_added_refuted)."
  },
  {
   "property": "C58",
   "status": "proved",
   "theorems": [
    "C58_parent_lookup",
    "C58_parent_lookup_total",
    "C58_top",
    "C58_own_parent_refuted"
   ],
   "note": "A loop category that is its own parent makes the table loop for ever (C58_own_parent_refuted)."
  },
  {
   "property": "C59",
   "status": "partial",
   "theorems": [
    "C59_expand",
    "C59_no_category",
    "C59_names_in_cat",
    "C59_names_only_refuted"
   ],
   "note": "names_in_cat with names_only returns subcategories too (C59_names_only_refuted)."
  },
  {
   "property": "C60",
   "status": "partial",
   "theorems": [
    "C60_full_import",
    "C60_tree",
    "C60_category_fails",
    "C60_category_refuted",
    "C60_same_head_refuted"
   ],
   "note": "Proved for heads of different names. The import of a category that is not a head always fails (C60_category_fails, C60_category_refuted); two heads of the same name delete the importing dictionary's own head (C60_same_head_refuted)."
  },
  {
   "property": "C61",
   "status": "partial",
   "theorems": [
    "C61_list",
    "C61_list_length",
    "C61_list_total",
    "C61_repeated",
    "C61_nested_refuted"
   ],
   "note": "Elements that are lists themselves are not converted at all (C61_nested_refuted). The conversion of one value by a named type is a parameter; Real is C41."
  },
  {
   "property": "C62",
   "status": "partial",
   "theorems": [
    "C62_references_decided",
    "C62_group_refuted",
    "C62_undefined_refuted"
   ],
   "note": "Decided exactly for single names that are in the dictionary; a missing group is never reported and an undefined reference raises KeyError (both refuted)."
  },
  {
   "property": "C63",
   "status": "partial",
   "theorems": [
    "C63_mandatory_decided",
    "C63_case_refuted",
    "C63_unknown_item_refuted"
   ],
   "note": "Exact when all items are in the dictionary and categories are compared as spelled; refuted for spelling by case and for items not in the dictionary."
  },
  {
   "property": "C64",
   "status": "partial",
   "theorems": [
    "C64_mandatory_attributes",
    "C64_prohibited_attributes",
    "C64_data_files",
    "C64_scope_refuted",
    "C64_missing_scope_refuted"
   ],
   "note": "The two checks are exact for scopes in the table; refuted: run_block_validation drops the scope, and scopes not in the table raise KeyError."
  },
  {
   "property": "C65",
   "status": "partial",
   "theorems": [
    "C65_key_table",
    "C65_three_levels",
    "C65_nested_refuted",
    "C65_check",
    "C65_compound_refuted",
    "C65_child_refuted",
    "C65_capital_refuted"
   ],
   "note": "The table is exact for two levels of loop categories and cannot be built for three (proved for every such dictionary). The check is characterised exactly; refuted: part of a compound key is enough, a child loop with its own key is reported, keys with capitals are not found."
  },
  {
   "property": "C66",
   "status": "partial",
   "theorems": [
    "C66_found",
    "C66_own",
    "C66_child",
    "C66_total",
    "C66_deep_refuted",
    "C66_empty_refuted"
   ],
   "note": "Sound for every dictionary; complete for a category's own items and those of the loop categories directly below; refuted for deeper ones."
  },
  {
   "property": "C67",
   "status": "partial",
   "theorems": [
    "C67_hierarchy",
    "C67_case_refuted"
   ],
   "note": "Exact whenever the table is computed; refuted: a link that differs from the key in capitals stops the loading."
  },
  {
   "property": "C68",
   "status": "partial",
   "theorems": [
    "C68_add_exact",
    "C68_add_atomic",
    "C68_add_refuses",
    "C68_items_stay_valid",
    "C68_empty_sound",
    "C68_init_exact",
    "C68_delete_never",
    "C68_add_to_loop_never",
    "C68_validity_kept_refuted",
    "C68_loops_unchecked_refuted",
    "C68_unknown_name_refuted"
   ],
   "note": "Refuted: del on an item and AddToLoop always raise; an accepted item can make the whole block invalid; CreateLoop is unchecked; names outside the dictionary are accepted by AddItem but stop the constructor."
  },
  {
   "property": "C69",
   "status": "partial",
   "theorems": [
    "C69_list_item",
    "C69_text_refuted",
    "C69_valid_text_refuted",
    "C69_table_item",
    "C69_columns"
   ],
   "note": "Proved for lists; refuted for texts, which are split into characters."
  },
  {
   "property": "C70",
   "status": "partial",
   "theorems": [
    "C70_disjoint",
    "C70_common_refused",
    "C70_replace_refuted",
    "C70_atomic_refuted",
    "C70_overlay_refuted",
    "C70_match_refuted",
    "C70_same_name_refuted",
    "C70_overlay_fails"
   ],
   "note": "Proved for merges without names in common and for refusal of visible common names; replace mode in a collection with a standard, overlay mode, atomicity, match_att and printed names that are not unique are refuted."
  },
  {
   "property": "C71",
   "status": "partial",
   "theorems": [
    "C71_part",
    "C71_consistent_partial",
    "C71_absent_refuted",
    "C71_twice_refuted"
   ],
   "note": "Proved exactly which blocks are selected, and consistency for distinct existing names; absent and repeated names are refuted."
  },
  {
   "property": "C72",
   "status": "partial",
   "theorems": [
    "C72_works",
    "C72_taken",
    "C72_ids",
    "C72_unlocked_refuted",
    "C72_capitals_refuted",
    "C72_lost_refuted",
    "C72_lookup_refuted",
    "C72_dictionary_refuted",
    "C72_dictionary_fails"
   ],
   "note": "Proved for dictionaries whose frames carry the definition ids. Refuted: a refused change leaves all definitions unlocked; a change of capitals only is refused; where the frame has another name than the id such a change deletes the definition from the keys; the category/object table keeps the old name; the dictionary block itself can never be renamed."
  },
  {
   "property": "C73",
   "status": "partial",
   "theorems": [
    "C73_item",
    "C73_category",
    "C73_nothing",
    "C73_atomic_refuted"
   ],
   "note": "Refuted part: when the new id is taken the move raises with the category and the id of the definition already changed and the dictionary unlocked."
  },
  {
   "property": "C74",
   "status": "partial",
   "theorems": [
    "C74_works_partial",
    "C74_members",
    "C74_lost",
    "C74_ids_refuted",
    "C74_unlocked_refuted"
   ],
   "note": "The renaming is proved with the keys the code gives. Refuted: the keys of the items lack the underscore of their ids, so no renamed item is found by its id (proved for every dictionary with an item in the category, C74_lost); a refused renaming leaves the dictionary unlocked."
  },
  {
   "property": "C75",
   "status": "partial",
   "theorems": [
    "C75_category",
    "C75_item_partial",
    "C75_category_taken",
    "C75_item_refused",
    "C75_capitals_refuted",
    "C75_parent_refuted",
    "C75_no_head_refuted",
    "C75_space_refuted"
   ],
   "note": "Proved for names without blanks and objects without capitals. Refuted: an added item with capitals is not in the dictionary; add_definition leaves it unlocked (in C75_item_partial); a missing parent raises after the block was added; without a Head category the documented fallback raises; a name with a blank gets a frame of another name."
  },
  {
   "property": "C76",
   "status": "partial",
   "theorems": [
    "C76_works",
    "C76_cycle_refuted"
   ],
   "note": "Proved when no category is below itself (well_founded_cats). Refuted: for a category that is its own parent the recursion never ends."
  },
  {
   "property": "C77",
   "status": "partial",
   "theorems": [
    "C77_expression",
    "C77_one_reading",
    "C77_packet_refuted",
    "C77_capitals_refuted",
    "C77_bits_refuted",
    "C77_brackets_refuted",
    "C77_step_refuted",
    "C77_step2_refuted",
    "C77_slice_start_refuted",
    "C77_slice_all_refuted",
    "C77_slice_among_refuted",
    "C77_group_refuted",
    "C77_sort_refuted",
    "C77_sind_refuted",
    "C77_words_refuted",
    "C77_zeros_refuted",
    "C77_slice_start_fails",
    "C77_slice_all_fails",
    "C77_slice_among_fails",
    "C77_group_fails"
   ],
   "note": "Proved for expressions whose names are python names and whose slices are complete, with data items reached by tag, alias or key; refuted for & above |, lists outside an assignment, slices without their first element, sort, functions of degrees with two arguments, python's words as names, numbers with leading zeros, a packet left unused before an attribute; names found through a key keep their capitals."
  },
  {
   "property": "C78",
   "status": "partial",
   "theorems": [
    "C78_layout",
    "C78_one_layout",
    "C78_text_refuted"
   ],
   "note": "Proved for methods whose names and literals are in one line; refuted for a text of several lines within a block, which is moved with the block."
  },
  {
   "property": "C79",
   "status": "proved",
   "theorems": [
    "C79_ends",
    "C79_bound_free"
   ],
   "note": "For arbitrary methods, given as programs that ask for names of a finite set; categories may be built from others in circles."
  },
  {
   "property": "C80",
   "status": "partial",
   "theorems": [
    "C80_well_formed",
    "C80_adds_defined",
    "C80_kept_partial",
    "C80_kept_refuted",
    "C80_default_returned_refuted",
    "C80_all_or_nothing_refuted",
    "C80_present"
   ],
   "note": "Well-formedness and what may be added are proved without conditions. That nothing is lost needs a block without wholly unknown items and a dictionary that does not define a category as an item; refuted for an item that is a question mark."
  },
  {
   "property": "C81",
   "status": "partial",
   "theorems": [
    "C81_stored_partial",
    "C81_calculated_refuted",
    "C81_method"
   ],
   "note": "Proved for items without aliases whose category has no method and in a dictionary without categories that are built from others; refuted for a looped category without rows."
  },
  {
   "property": "C82",
   "status": "partial",
   "theorems": [
    "C82_old_name",
    "C82_new_name",
    "C82_other_old_name",
    "C82_two_definitions",
    "C82_single_alias_refuted",
    "C82_part_of_alias_refuted",
    "C82_capitals_refuted"
   ],
   "note": "Proved where the item that is present is read as it is stored (not defined itself, or conversion switched off); refuted for a single alias given outside a loop and for other capitals."
  },
  {
   "property": "C83",
   "status": "partial",
   "theorems": [
    "C83_not_used",
    "C83_last_resort",
    "C83_column",
    "C83_index_refuted",
    "C83_category_method_refuted",
    "C83_extend_fails",
    "C83_extend_refuted",
    "C83_index_value",
    "C83_index_column"
   ],
   "note": "Refuted for defaults indexed by an item that is not a code, and for a category whose method cannot be carried out."
  },
  {
   "property": "C84",
   "status": "partial",
   "theorems": [
    "C84_pullback",
    "C84_rows",
    "C84_filter",
    "C84_copied",
    "C84_read",
    "C84_repeated_keys_refuted",
    "C84_missing_column_refuted",
    "C84_first_missing_refuted",
    "C84_capitals_refuted",
    "C84_filter_twice_refuted",
    "C84_undefined_component_refuted",
    "C84_table"
   ],
   "note": "Proved when keys are unique, all columns are present and filter values are distinct; refuted without these."
  },
  {
   "property": "C85",
   "status": "partial",
   "theorems": [
    "C85_from_pullback",
    "C85_from_filter",
    "C85_keys_unique_refuted",
    "C85_key_copied_refuted",
    "C85_sources",
    "C85_read"
   ],
   "note": "Proved for one source and distinct names; that keys are unique is refuted."
  },
  {
   "property": "C86",
   "status": "partial",
   "theorems": [
    "C86_names_partial",
    "C86_same_name_refuted",
    "C86_capitals_refuted"
   ],
   "note": "Proved when all names differ and the keys are in lower case; refuted for two blocks with one name and for a name with capitals whose key is the same name in lower case."
  },
  {
   "property": "C87",
   "status": "partial",
   "theorems": [
    "C87_contents_partial",
    "C87_range",
    "C87_exponent_refuted",
    "C87_letters_refuted",
    "C87_reversed_refuted"
   ],
   "note": "Proved for ranges whose ends are numbers without d exponents and in order; refuted for the others."
  },
  {
   "property": "C88",
   "status": "partial",
   "theorems": [
    "C88_categories",
    "C88_load_partial",
    "C88_found",
    "C88_marker_refuted",
    "C88_capitals_refuted",
    "C88_two_refuted",
    "C88_types_kept"
   ],
   "note": "Proved for dictionaries with distinct identifiers whose items name their categories with the capitals of the identifiers; refuted for two descriptions of a category, for other capitals and for the marker for descriptions."
  },
  {
   "property": "C89",
   "status": "partial",
   "theorems": [
    "C89_loads_partial",
    "C89_unchanged",
    "C89_children_refuted",
    "C89_alias_refuted"
   ],
   "note": "Proved for definitions of one item without other names; refuted for definitions of several items and for other names, which stop the loading."
  },
  {
   "property": "C90",
   "status": "partial",
   "theorems": [
    "C90_outside_partial",
    "C90_text",
    "C90_dropped_refuted",
    "C90_return_refuted"
   ],
   "note": "Proved for texts of printable ASCII, tab and newline, for a loop_ that is followed by a blank, for values other than loop_ and, in 1.0, not starting with a bracket; outside text fields for every restriction of the parser, within them where a line does not start with a hash sign. Refuted for form feeds in a text field and for a carriage return at the end."
  },
  {
   "property": "C91",
   "status": "partial",
   "theorems": [
    "C91_same_partial",
    "C91_hash_refuted",
    "C91_glued_refuted",
    "C91_values_refuted"
   ],
   "note": "Proved for texts of printable ASCII, tab and newline where no line of a text field starts with a hash sign, no loop_ runs into a name or comment, and the values read are not loop_ and, in 1.0, do not start with a bracket. Refuted without each of these conditions."
  },
  {
   "property": "C92",
   "status": "proved",
   "theorems": [
    "C92_total",
    "C92_skipped",
    "C92_ends",
    "C92_inside",
    "C92_nul"
   ],
   "note": "For all texts; characters as in FlexModel (one character per byte)."
  },
  {
   "property": "C93",
   "status": "proved",
   "theorems": [
    "C93_ends"
   ],
   "note": "For all texts and all four grammars; data actions (building blocks) are applied after parsing in the model."
  },
  {
   "property": "C94",
   "status": "partial",
   "theorems": [
    "C94_read",
    "C94_names",
    "C94_pairs_refuted"
   ],
   "note": "Soundness for all texts and all four grammars; the STAR2 rule for tables loses pairs that have no comma before them (refuted, and visible as its own rule in GrammarSpec). The converse is C112."
  },
  {
   "property": "C95",
   "status": "partial",
   "theorems": [
    "C95_results",
    "C95_verdict",
    "C95_again",
    "C95_fails",
    "C95_unchanged_refuted"
   ],
   "note": "The given file is changed: unknown items are deleted from it (refuted). Validation of dictionaries (isdic) is C117."
  },
  {
   "property": "C96",
   "status": "partial",
   "theorems": [
    "C96_shows",
    "C96_total",
    "C96_ddl12",
    "C96_ddlm_refuted",
    "C96_text_refuted",
    "C96_columns_refuted",
    "C96_html_refuted"
   ],
   "note": "Contents proved for every report; refuted: two DDLm checks have no explanation (KeyError), repeated keys are shown letter by letter, columns are headed by the first row only, HTML is not escaped."
  },
  {
   "property": "C97",
   "status": "partial",
   "theorems": [
    "C97_is_valid",
    "C97_no_matches",
    "C97_whole_file_refuted"
   ],
   "note": "Proved for a named block; without a name both methods raise AttributeError in python 3 (refuted)."
  },
  {
   "property": "C98",
   "status": "partial",
   "theorems": [
    "C98_topmost",
    "C98_single",
    "C98_category",
    "C98_one_child_refuted"
   ],
   "note": "Proved for lists of children; a single child given as a text is searched as a text (refuted)."
  },
  {
   "property": "C99",
   "status": "proved",
   "theorems": [
    "C99_exact",
    "C99_ends",
    "C99_fails",
    "C99_unique"
   ],
   "note": "The reading ([reads] of LexSpec) is stated without regular expressions. PLY itself is not in the repository: the order in which it tries rules, ignored characters and literals is taken as documented. Values of binary, octal and hexadecimal numerals are part of the statement."
  }
 ]
}