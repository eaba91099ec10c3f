{"id": "C01", "title": "Datanames are case-insensitive keys", "statement": "Membership, lookup, deletion, loop membership and assignment on a block give the same answer for any two spellings of a dataname that differ only in letter case, and the spelling used in the latest assignment is the one kept for output.", "quantifier": "for every block state, every pair of case-variant names, every value", "why_tests_cant": "infinitely many names, spellings and block histories", "anchors": ["src/StarFile.nw: StarBlock.__contains__", "src/StarFile.nw: StarBlock.__getitem__", "src/StarFile.nw: StarBlock.AddItem", "src/StarFile.nw: StarBlock.RemoveItem", "src/StarFile.nw: StarBlock.FindLoop"]}
{"id": "C02", "title": "A block is a map: read-your-writes and frame", "statement": "After a successful block[name]=value, reading the name returns the stored value and every other dataname reads exactly as before; after deleting a name it is absent and every other dataname reads as before.", "quantifier": "for every block state reachable by any history of operations, every name and value", "why_tests_cant": "interference between items can depend on an arbitrary earlier history", "anchors": ["src/StarFile.nw: StarBlock.AddItem", "src/StarFile.nw: StarBlock.RemoveItem", "src/StarFile.nw: StarBlock.GetFullItemValue"]}
{"id": "C03", "title": "Every dataname has exactly one place in the output order", "statement": "After any sequence of add, remove, create-loop (distinct names), add-loop-name, add-to-loop and reorder calls, successful or failing, every dataname of the block occurs exactly once in the item order or in exactly one loop, every loop is referenced exactly once in the item order, and nothing else is listed; so output neither drops nor repeats an item.", "quantifier": "for every sequence of operations of any length, starting from the empty block", "why_tests_cant": "an invariant over unbounded operation histories including failing calls", "anchors": ["src/StarFile.nw: StarBlock.item_order", "src/StarFile.nw: StarBlock.loops", "src/StarFile.nw: StarBlock.CreateLoop", "src/StarFile.nw: StarBlock.AddLoopName", "src/StarFile.nw: StarBlock.RemoveItem", "src/StarFile.nw: StarBlock.ChangeItemOrder"]}
{"id": "C04", "title": "Locked blocks never lose data to AddItem", "statement": "If overwriting is disabled, adding a dataname already present (in any case) raises an error and leaves the block exactly as it was, whatever the value.", "quantifier": "for every block state, name and value", "why_tests_cant": "must hold for every prior content of the block", "anchors": ["src/StarFile.nw: StarBlock.AddItem", "src/StarFile.nw: BlockCollection.lock"]}
{"id": "C05", "title": "CreateLoop fails without touching the block", "statement": "CreateLoop raises exactly when a name is missing, when list lengths differ, or when lists and single values are mixed, and in each of those cases the block is unchanged.", "quantifier": "for every block state and every list of names", "why_tests_cant": "failure atomicity for every mixture of column lengths and scalar items", "anchors": ["src/StarFile.nw: StarBlock.CreateLoop"]}
{"id": "C06", "title": "CreateLoop builds the requested loop and only that", "statement": "On success the names form one loop, in the requested order, all other loops keep their remaining columns in order, emptied loops vanish, single values become one-row columns, all other values are unchanged and the new loop sits at the requested position.", "quantifier": "for every block state, list of distinct names and position", "why_tests_cant": "effects on all other loops and items, for arbitrarily many loops", "anchors": ["src/StarFile.nw: StarBlock.CreateLoop"]}
{"id": "C07", "title": "Deleting a dataname removes every trace of it", "statement": "RemoveItem removes the name from values, from its loop and from the order; if it was the last name of its loop the loop goes too; other names, other loops and their relative order are unchanged; removing an absent name changes nothing and removing twice equals removing once.", "quantifier": "for every well-formed block state and name", "why_tests_cant": "requires all internal tables to agree in every reachable state", "anchors": ["src/StarFile.nw: StarBlock.RemoveItem"]}
{"id": "C08", "title": "AddLoopName only admits a column of the right length", "statement": "AddLoopName raises unless the new item has as many values as the loop has packets, and after success the loop has one more column of that same number of values and every other loop keeps its columns; a single text value is never admitted as a column.", "quantifier": "for every block state, loop and new name", "why_tests_cant": "value lengths and kinds are unbounded", "anchors": ["src/StarFile.nw: StarBlock.AddLoopName"]}
{"id": "C09", "title": "No loop without datanames survives", "statement": "After any sequence of successful operations no loop of the block is empty, so the block never prints a bare loop_ keyword (which the parser rejects).", "quantifier": "for every operation history", "why_tests_cant": "depends on unbounded histories of moving names between loops", "anchors": ["src/StarFile.nw: StarBlock.AddLoopName", "src/StarFile.nw: StarBlock.CreateLoop", "src/StarFile.nw: StarBlock.RemoveItem"]}
{"id": "C10", "title": "Reordering is a permutation that puts the item where asked", "statement": "Moving an item to a position leaves the relative order of all other items unchanged and puts the item at that position (clamped to the end); no item is lost or duplicated, and values are unchanged.", "quantifier": "for every block state, item and position", "why_tests_cant": "order lists are unbounded", "anchors": ["src/StarFile.nw: StarBlock.ChangeItemOrder", "src/StarFile.nw: LoopBlock.ChangeItemOrder"]}
{"id": "C11", "title": "Packets are the transpose of the columns", "statement": "Iterating over a loop yields exactly one packet per row; packet i holds, under each column name, the i-th value of that column, in column order.", "quantifier": "for every loop whose columns have equal length, any number of rows and columns", "why_tests_cant": "unbounded numbers of rows and columns", "anchors": ["src/StarFile.nw: LoopBlock.__iter__", "src/StarFile.nw: LoopBlock.GetPacket", "src/StarFile.nw: transpose"]}
{"id": "C12", "title": "AddPacket appends one row to every column", "statement": "Adding a packet with a value for each column makes every column one longer with the packet's value last and leaves earlier rows and all other items unchanged.", "quantifier": "for every loop and packet", "why_tests_cant": "unbounded loops", "anchors": ["src/StarFile.nw: LoopBlock.AddPacket"]}
{"id": "C13", "title": "Keyed packet lookup is sound and unique", "statement": "GetKeyedPacket returns a packet only if exactly one row has the requested key value, and returns that row; with no or several matching rows it raises ValueError. Case-insensitive matching ignores case of both sides only when asked.", "quantifier": "for every loop, key column and key value", "why_tests_cant": "depends on all rows", "anchors": ["src/StarFile.nw: StarBlock.GetKeyedPacket"]}
{"id": "C14", "title": "Compound key lookup equals filtering on all keys", "statement": "GetCompoundKeyedPacket returns the unique row that matches all given key/value pairs, independent of the order in which keys are supplied, and raises ValueError if none or several match.", "quantifier": "for every loop and every set of key/value pairs", "why_tests_cant": "unbounded rows and key sets", "anchors": ["src/StarFile.nw: StarBlock.GetCompoundKeyedPacket"]}
{"id": "C15", "title": "RemoveKeyedPacket deletes exactly the matching row", "statement": "Removing a packet by key deletes the first matching row from every column and nothing else; if no row matches, an error is raised and nothing changes.", "quantifier": "for every loop and key value, including loops read from a file", "why_tests_cant": "unbounded loops; storage of a column depends on how it was created", "anchors": ["src/StarFile.nw: StarBlock.RemoveKeyedPacket"]}
{"id": "C16", "title": "Exact acceptance of datanames", "statement": "A dataname is accepted for assignment exactly if it starts with an underscore, is no longer than the configured maximum and contains only allowed characters of the character set; acceptance does not depend on the rest of the block, and every accepted ASCII dataname of two or more characters is read back as one dataname token by the reader.", "quantifier": "for every string and maximum length", "why_tests_cant": "infinitely many strings", "anchors": ["src/StarFile.nw: StarBlock.check_data_name", "src/YappsStarParser.nw: token data_name"]}
{"id": "C17", "title": "Exact acceptance of values", "statement": "A text value (or list of text values) is accepted for assignment exactly if every character of every element is in the allowed set for the character set; a rejected assignment leaves the block unchanged.", "quantifier": "for every value and block state", "why_tests_cant": "infinitely many strings", "anchors": ["src/StarFile.nw: StarBlock.check_item_value", "src/StarFile.nw: StarBlock.set_characterset"]}
{"id": "C18", "title": "Line folding is lossless", "statement": "Folding any text that contains an over-long line and then unfolding it returns the original text, provided no line of it ends in a backslash followed by blanks; folding a text with only short lines returns it unchanged (unless it starts with an opening bracket, a space and a vertical tab, in which case it is folded, losslessly).", "quantifier": "for every text, with default wrap widths and for all widths 0<min<max", "why_tests_cant": "unbounded text, fold positions depend on content", "anchors": ["src/StarFile.nw: apply_line_folding", "src/StarFile.nw: remove_line_folding"]}
{"id": "C19", "title": "Folding terminates and bounds line length", "statement": "Folding terminates for every text and no output line is longer than the sum of the minimum and maximum wrap lengths.", "quantifier": "for every text and widths 0<min<max", "why_tests_cant": "termination and a bound over unbounded inputs", "anchors": ["src/StarFile.nw: apply_line_folding"]}
{"id": "C20", "title": "Text prefixing is lossless", "statement": "Applying a prefix of two or more characters without newline or backslash and not starting with a semicolon, then removing it, returns the original text, including texts that carry a line-folding header (blanks after the backslash of that header are dropped).", "quantifier": "for every text and every admissible prefix", "why_tests_cant": "unbounded texts including ones containing the prefix", "anchors": ["src/StarFile.nw: apply_line_prefix", "src/StarFile.nw: remove_line_prefix"]}
{"id": "C21", "title": "Prefixed text never contains a premature terminator", "statement": "After prefixing, no line after the first begins with a semicolon, so an embedded newline-semicolon can not end the text field early; the search for an unused prefix always terminates.", "quantifier": "for every text", "why_tests_cant": "unbounded search and text", "anchors": ["src/StarFile.nw: apply_line_prefix", "src/StarFile.nw: StarBlock._formatstring"]}
{"id": "C22", "title": "Delimiter choice is valid for the content", "statement": "The formatted form of a string uses no delimiter, quotes, triple quotes or a text field such that the content can not be confused with the delimiter: quotes are never used around a string containing that quote or a newline, an undelimited form is never empty, never contains blanks, quotes, commas or brackets, never starts with a reserved character or with data/save/global; and a requested delimiter is honoured exactly when admissible.", "quantifier": "for every string, requested delimiter and grammar", "why_tests_cant": "infinitely many strings", "anchors": ["src/StarFile.nw: StarBlock._formatstring", "src/StarFile.nw: StarBlock.set_grammar"]}
{"id": "C23", "title": "A written value is read back as the same value (1.0/1.1)", "statement": "For every text value without carriage returns or other non-CIF characters, the CIF1 reader's token(s) for the formatted value, followed by white space or end of file, give back the same value; the exceptions (stop_ words, a lone loop_ word inside a loop, texts that look like folded or prefixed text, text lines starting with a hash) are characterised exactly as misread.", "quantifier": "for every string and every following text", "why_tests_cant": "all strings times all contexts", "anchors": ["src/StarFile.nw: StarBlock._formatstring", "src/YappsStarParser.nw: token data_value_1", "src/YappsStarParser.nw: token start_sc_line", "src/YappsStarParser.nw: stripextras", "src/YappsStarParser.nw: stripstring", "src/yapps3_compiled_rt.py: Scanner.interp_scan"]}
{"id": "C24", "title": "A written value is read back as the same value (2.0/STAR2)", "statement": "With the CIF2 and STAR2 tokens, formatted strings (quoted, triple quoted, undelimited or text fields) are read back as the same string whenever the content does not contain the exceptions listed for C23 or a trailing quote in a triple-quoted value.", "quantifier": "for every string, delimiter request and following text", "why_tests_cant": "all strings times all contexts", "anchors": ["src/StarFile.nw: StarBlock._formatstring", "src/YappsStarParser.nw: token triple_quote_data_value", "src/YappsStarParser.nw: token single_quote_data_value", "src/YappsStarParser.nw: striptriple"]}
{"id": "C25", "title": "The writer never inserts characters inside a value and always separates tokens", "statement": "Writing any sequence of items to the output sink yields the concatenation of exactly the supplied strings separated only by blanks and newlines, with at least one blank or newline between a dataname and its value and between consecutive values of a loop of text values.", "quantifier": "for every block content, tab and indent state", "why_tests_cant": "layout depends on the whole preceding output", "anchors": ["src/StarFile.nw: CIFStringIO.write", "src/StarFile.nw: StarBlock.printsection", "src/StarFile.nw: StarBlock.format_packets"]}
{"id": "C26", "title": "Write then read gives back the same block (CIF 1.1)", "statement": "Printing a block of text items and loops and reading the result with the CIF 1.1 reader gives a block with the same datanames in the same order, the same loops with the same columns and rows, and the same values, for all values covered by C23.", "quantifier": "for every well-formed block of any size", "why_tests_cant": "whole-pipeline property over unbounded data", "anchors": ["src/StarFile.nw: StarBlock.printsection", "src/StarFile.nw: StarBlock.format_names", "src/StarFile.nw: StarBlock.format_packets", "src/StarFile.nw: StarBlock.format_value", "src/YappsStarParser.nw: rule input", "src/YappsStarParser.nw: rule dblock", "src/YappsStarParser.nw: rule data", "src/YappsStarParser.nw: rule top_loop", "src/YappsStarParser.nw: makeloop"]}
{"id": "C27", "title": "Nested lists and tables survive write and read (CIF2)", "statement": "Formatting a list or table value of any nesting depth whose strings are covered by C24 and reading it with the CIF2 grammar gives back the same nested value.", "quantifier": "for every value of any nesting depth", "why_tests_cant": "unbounded nesting depth", "anchors": ["src/StarFile.nw: StarBlock.format_value", "src/YappsStarParser.nw: rule square_bracket_expr", "src/YappsStarParser.nw: rule curly_bracket_expr"]}
{"id": "C28", "title": "Loop values are distributed round-robin to columns", "statement": "Reading a loop of k names and n values succeeds exactly if k divides n; column j then holds values j, j+k, j+2k, ... in order; no value is lost, duplicated or moved to another column; otherwise a ValueError is raised.", "quantifier": "for all k>0, all n and all values", "why_tests_cant": "arbitrary numbers of names and values", "anchors": ["src/YappsStarParser.nw: makeloop"]}
{"id": "C29", "title": "Duplicate datanames in a file are rejected", "statement": "Reading a data block that defines a dataname twice (in any letter case, looped or not) raises an error; a successful read stores for each dataname the single value given in the file.", "quantifier": "for every parsed block content of any length", "why_tests_cant": "arbitrary positions of the duplicate", "anchors": ["src/YappsStarParser.nw: rule data", "src/YappsStarParser.nw: makeloop", "src/StarFile.nw: StarBlock.AddItem"]}
{"id": "C30", "title": "The scanner takes the longest match, the first on ties, and always terminates", "statement": "For every input and set of admissible tokens the scanner either reports an error or returns a token that starts after the skipped blanks and comments, is the longest among the admissible patterns and the earliest declared among equals; blanks and comments never become part of a token and every byte is skipped, returned or reported.", "quantifier": "for every input text and restriction set", "why_tests_cant": "unbounded inputs", "anchors": ["src/yapps3_compiled_rt.py: Scanner.interp_scan"]}
{"id": "C31", "title": "Text fields are read verbatim", "statement": "The lines between an opening newline-semicolon and the next newline-semicolon are returned unchanged (before the folding and prefix protocols), whatever they contain.", "quantifier": "for every text without a newline-semicolon", "why_tests_cant": "all texts", "anchors": ["src/YappsStarParser.nw: rule sc_lines_of_text", "src/YappsStarParser.nw: stripextras", "src/YappsStarParser.nw: ignore patterns", "src/yapps3_compiled_rt.py: Scanner.interp_scan"]}
{"id": "C32", "title": "Input truncation and line-length limit", "statement": "Text after the first Ctrl-Z has no influence on the result of a read; with a positive maximum length, a file is rejected exactly if some line before Ctrl-Z is longer, and the reported line number is that of the first such line; CIF2 parsing is only attempted for files that start with the CIF2 magic string.", "quantifier": "for every text and maximum length", "why_tests_cant": "all texts", "anchors": ["src/StarFile.nw: ReadStar"]}
{"id": "C33", "title": "Block collections are case-insensitive maps with an order", "statement": "After any sequence of adding, deleting, renaming and re-parenting blocks, every block is found under its name in any case, each block has exactly one entry in the output order and in the parent table, and keys are exactly the top-level blocks (instance scoping) or all blocks (dictionary scoping).", "quantifier": "for every operation history on top-level and nested blocks", "why_tests_cant": "invariant over unbounded histories", "anchors": ["src/StarFile.nw: BlockCollection.NewBlock", "src/StarFile.nw: BlockCollection.__delitem__", "src/StarFile.nw: BlockCollection.rename", "src/StarFile.nw: BlockCollection.set_parent"]}
{"id": "C34", "title": "NewBlock never overwrites an existing block when a standard is set", "statement": "With a standard set, adding a block never changes or removes the contents of an existing block: it is added under a fresh key, or the colliding top-level block is re-keyed, or StarError is raised and nothing changes; names longer than 75 characters are rejected; the returned key retrieves the added block.", "quantifier": "for every collection, name and parent", "why_tests_cant": "depends on all existing names and plus-suffixed variants", "anchors": ["src/StarFile.nw: BlockCollection.NewBlock", "src/StarFile.nw: BlockCollection._rekey"]}
{"id": "C35", "title": "Deleting a block deletes exactly its descendants", "statement": "Deleting a block removes the block and all blocks nested below it, at any depth, and leaves all others, with their order and parents, unchanged.", "quantifier": "for every well-founded block hierarchy", "why_tests_cant": "unbounded nesting", "anchors": ["src/StarFile.nw: BlockCollection.__delitem__"]}
{"id": "C36", "title": "Renaming a block preserves contents, position and children", "statement": "Renaming keeps the block contents, its position in the output order, its parent and its children (re-pointed to the new name); other blocks are unchanged; renaming onto an existing name or from a missing one raises and changes nothing.", "quantifier": "for every collection and pair of names", "why_tests_cant": "all hierarchies", "anchors": ["src/StarFile.nw: BlockCollection.rename", "src/StarFile.nw: BlockCollection._rekey"]}
{"id": "C37", "title": "Child tests and child listings are the transitive closure of the parent relation", "statement": "For every acyclic hierarchy, is_child_of_parent holds exactly for proper descendants, get_child_list lists exactly the descendants, and the query terminates.", "quantifier": "for every finite acyclic parent table", "why_tests_cant": "unbounded depth and breadth", "anchors": ["src/StarFile.nw: BlockCollection.is_child_of_parent", "src/StarFile.nw: BlockCollection.get_children", "src/StarFile.nw: BlockCollection.get_child_list"]}
{"id": "C38", "title": "Every block is written exactly once", "statement": "For a collection whose parent table is acyclic and whose parents exist, writing with non-nested save frames emits each top-level block once, each descendant exactly once inside its root's section and no other block.", "quantifier": "for every hierarchy", "why_tests_cant": "unbounded hierarchies", "anchors": ["src/StarFile.nw: BlockCollection.WriteOut", "src/StarFile.nw: BlockCollection.is_child_of_parent"]}
{"id": "C39", "title": "Merging collections never silently loses a block in strict mode", "statement": "In strict mode merge_fast either raises, or the result contains every block of both inputs under distinct keys with unchanged contents and all parent links preserved.", "quantifier": "for every pair of collections", "why_tests_cant": "all collision patterns", "anchors": ["src/StarFile.nw: BlockCollection.merge_fast"]}
{"id": "C40", "title": "Strict block merge is disjoint union; replace merge overrides", "statement": "StarBlock.merge in strict mode raises if a dataname is common and not excepted, and otherwise yields the union with both sides' values; in replace mode values of the incoming block win and all other values stay.", "quantifier": "for every pair of blocks", "why_tests_cant": "all overlaps", "anchors": ["src/StarFile.nw: StarBlock.merge"]}
{"id": "C41", "title": "Numeric values and standard uncertainties are read exactly", "statement": "For every numeral of the CIF grammar (sign, digits, decimal point, parenthesised s.u., exponent) the value and s.u. returned are the mathematically exact value of the digits and the digits of the s.u. scaled to the last decimal place and the exponent; unknown and inapplicable give no value.", "quantifier": "for every numeral of any length", "why_tests_cant": "infinitely many numerals", "anchors": ["src/CifFile_module.nw: get_number_with_esd", "src/CifFile_module.nw: float_with_esd"]}
{"id": "C42", "title": "Enumeration-range check equals the mathematical range", "statement": "A number is accepted by the range check exactly if it lies strictly inside one of the listed open intervals or equals a listed endpoint pair; unknown bounds are unbounded; unknown and inapplicable values pass.", "quantifier": "for every list of ranges and every number", "why_tests_cant": "infinitely many numbers and range lists", "anchors": ["src/CifFile_module.nw: CifDic.validate_enum_range"]}
{"id": "C43", "title": "Enumeration check accepts exactly the listed values", "statement": "The enumeration check passes exactly if each value is in the list or is unknown/inapplicable, and reports exactly the offending values.", "quantifier": "for every value list and enumeration", "why_tests_cant": "unbounded lists", "anchors": ["src/CifFile_module.nw: CifDic.validate_item_enum"]}
{"id": "C44", "title": "Key uniqueness check", "statement": "The uniqueness check of a loop with a set of key items passes exactly if no two rows agree on all key items.", "quantifier": "for every loop and key set", "why_tests_cant": "all pairs of rows and arbitrary strings", "anchors": ["src/CifFile_module.nw: CifDic.validate_uniqueness"]}
{"id": "C45", "title": "Parent-child check", "statement": "The parent check passes exactly if every child value that is neither unknown nor inapplicable occurs among the parent's values, and reports exactly the orphans.", "quantifier": "for every child and parent value lists", "why_tests_cant": "unbounded lists", "anchors": ["src/CifFile_module.nw: CifDic.check_parent_child", "src/CifFile_module.nw: CifDic.validate_parent"]}
{"id": "C46", "title": "A block is reported valid exactly if no check failed", "statement": "The overall verdict of a validation run is valid exactly if no individual check, for any item or for the block, returned False, independent of the order of the checks.", "quantifier": "for every list of check results", "why_tests_cant": "unbounded reports", "anchors": ["src/CifFile_module.nw: run_data_checks", "src/CifFile_module.nw: validate_report"]}
{"id": "C47", "title": "Derivation never recurses into itself and always restores its call stack", "statement": "While a value is being derived, asking for the same (function, item) again raises the recursion error instead of looping; after the outermost derivation returns or raises, the call stack is as before; nesting depth is bounded by the number of distinct items.", "quantifier": "for every call tree, successful or raising at any point", "why_tests_cant": "every exception point in every call tree", "anchors": ["src/CifFile_module.nw: track_recursion"]}
{"id": "C48", "title": "Category tree queries are closures", "statement": "For an acyclic category tree all_children returns exactly the descendants of a category, semantic-child tests agree with it, and danglers are exactly the categories whose parent is not defined.", "quantifier": "for every finite acyclic tree", "why_tests_cant": "unbounded trees", "anchors": ["src/CifFile_module.nw: CifDic.ddlm_all_children", "src/CifFile_module.nw: CifDic.is_semantic_child", "src/CifFile_module.nw: CifDic.ddlm_danglers"]}
{"id": "C49", "title": "Import precedence in dictionary definitions", "statement": "A definition's own attribute always wins over imported ones; among imports the last one that has the attribute wins; absent everywhere raises KeyError.", "quantifier": "for every definition and import list", "why_tests_cant": "unbounded import lists", "anchors": ["src/CifFile_module.nw: DicBlock.__getitem__", "src/CifFile_module.nw: DicBlock.follow_import"]}
{"id": "C50", "title": "Template ordering prints each item once, requested ones first", "statement": "With any template, the output order lists every item of the block exactly once, the items requested by the template first and in the requested order, the others in their previous order.", "quantifier": "for every block and template", "why_tests_cant": "arbitrary templates", "anchors": ["src/StarFile.nw: StarBlock.create_ordering"]}
{"id": "C51", "title": "Data type contents strings parse to the intended nesting", "statement": "Printing a nested list of identifiers as a type-contents expression and parsing it returns the same nesting.", "quantifier": "for every nesting depth", "why_tests_cant": "unbounded nesting", "anchors": ["src/TypeContentsParser.nw: rule input", "src/TypeContentsParser.nw: rule container"]}
{"id": "C52", "title": "Whole files survive writing and reading", "statement": "Writing a collection of data blocks and save frames and reading the text with the same grammar gives a collection with the same block names, the same data blocks at top level, every save frame inside the data block it belonged to, the blocks in the order written, and in every block the same datanames, values, loops and item order.", "quantifier": "for every consistent collection of any size whose names and values can be written, every comment header and every read option that admits the text", "why_tests_cant": "The claim covers every collection, nesting of save frames and value; a test covers a few files, and interactions of scanner, parser, merging and printer only show for particular combinations.", "anchors": ["src/StarFile.nw: BlockCollection.WriteOut", "src/StarFile.nw: ReadStar", "src/StarFile.nw: BlockCollection.merge_fast", "src/YappsStarParser.nw: rule dblock", "src/YappsStarParser.nw: rule save_frame"]}
{"id": "C53", "title": "Type check accepts only values that match the dictionary's expression", "statement": "A value passes the DDL1/DDL2 type check only if it is unknown, inapplicable or matched as a whole by the regular expression of its type; a value that the expression matches as a whole passes.", "quantifier": "for every dictionary, expression and column of values", "why_tests_cant": "infinitely many expressions and texts", "anchors": ["src/CifFile_module.nw: CifDic.validate_item_type"]}
{"id": "C54", "title": "Child, dependent and exclusion checks", "statement": "The child check passes exactly if every present child item (or alternate) has only values of the parent; the dependents check reports exactly the dependent items of which neither they nor an alternate are present; the exclusion check passes exactly if no exclusive alternate or alias is present, ignoring case.", "quantifier": "for every dictionary, block, provisional and global items", "why_tests_cant": "all combinations of related items", "anchors": ["src/CifFile_module.nw: CifDic.validate_child", "src/CifFile_module.nw: CifDic.validate_dependents", "src/CifFile_module.nw: CifDic.validate_exclusion", "src/CifFile_module.nw: CifDic.get_alternates"]}
{"id": "C55", "title": "Loop checks", "statement": "A loop fails the membership check exactly if it mixes names of different categories; it fails the key check exactly if a key that is not implicit is missing, and the missing key is reported.", "quantifier": "for every dictionary and loop", "why_tests_cant": "unbounded loops and dictionaries", "anchors": ["src/CifFile_module.nw: CifDic.validate_loop_membership", "src/CifFile_module.nw: CifDic.validate_loop_key", "src/CifFile_module.nw: CifDic.get_final_cats"]}
{"id": "C56", "title": "Standard uncertainty check", "statement": "For a numeric item that may not have a standard uncertainty, the check reports exactly the values whose numeral carries one.", "quantifier": "for every column of values", "why_tests_cant": "infinitely many numerals", "anchors": ["src/CifFile_module.nw: CifDic.validate_item_esd"]}
{"id": "C57", "title": "Definitions are found by id", "statement": "Every definition of a dictionary is found by its id in any spelling of its case, no other id is reported present, and two definitions with the same id are refused when the dictionary is loaded.", "quantifier": "for every set of definition blocks", "why_tests_cant": "all combinations of ids, block names and top-level blocks", "anchors": ["src/CifFile_module.nw: CifDic.create_def_block_table", "src/CifFile_module.nw: CifDic.__getitem__", "src/CifFile_module.nw: CifDic.__contains__", "src/CifFile_module.nw: CifDic.__setitem__"]}
{"id": "C58", "title": "Loop categories are grouped under their uppermost parent", "statement": "The parent table holds exactly the loop categories, each with the uppermost category reachable from it through loop categories; it is computed for every dictionary in which loop categories do not form a cycle.", "quantifier": "for every dictionary", "why_tests_cant": "unbounded chains of categories", "anchors": ["src/CifFile_module.nw: Create category parent table"]}
{"id": "C59", "title": "Expansion of categories", "statement": "Expanding a list of names gives exactly the names that are not categories together with the items at any depth below the categories, and no category; names_in_cat gives exactly the items of a category without its subcategories.", "quantifier": "for every dictionary with an acyclic category tree", "why_tests_cant": "unbounded trees", "anchors": ["src/CifFile_module.nw: CifDic.expand_category_opt", "src/CifFile_module.nw: CifDic.names_in_cat"]}
{"id": "C60", "title": "Full import of one dictionary into another", "statement": "Importing the head category of a dictionary into the head category of another in full mode gives a dictionary with exactly the own definitions and the definitions below the imported head that are not already defined; definitions that named the imported head as category name the importing category, all other attributes are unchanged, and every imported definition is below the importing category. Importing a category adds it and everything below it in the same way.", "quantifier": "for every pair of dictionaries with acyclic category trees", "why_tests_cant": "unbounded trees and overlaps of definitions", "anchors": ["src/CifFile_module.nw: CifDic.ddlm_import"]}
{"id": "C61", "title": "List values are converted element by element", "statement": "A value of container List is converted element by element: with one type every element by that type, with several types the numbers of types and values must agree and each value is converted by the type at its position, at every depth of nesting.", "quantifier": "for every structure, dimension and value", "why_tests_cant": "unbounded lists and nesting", "anchors": ["src/CifFile_module.nw: convert_list_values", "src/CifFile_module.nw: convert_simple_list"]}
{"id": "C62", "title": "Loop references are checked", "statement": "The check of loop references passes a loop exactly if every name referred to by the definitions of its names is in the loop, or an alternate of that name is; a reference to a group of names is met if some name of the group is in the loop; what is reported is missing.", "quantifier": "for every dictionary and loop", "why_tests_cant": "unbounded names, references and alternates", "anchors": ["src/CifFile_module.nw: CifDic.validate_loop_references"]}
{"id": "C63", "title": "Mandatory categories are checked", "statement": "The check of mandatory categories passes a block exactly if for every category marked mandatory the block holds an item of that category; the missing categories are exactly those reported.", "quantifier": "for every dictionary and block", "why_tests_cant": "unbounded sets of items and categories", "anchors": ["src/CifFile_module.nw: CifDic.validate_mandatory_category"]}
{"id": "C64", "title": "Mandatory and prohibited attributes of definitions", "statement": "A definition passes exactly if it holds all attributes mandatory in its scope and none prohibited there; data files are not subject to the check.", "quantifier": "for every table of scopes and definition", "why_tests_cant": "unbounded tables and definitions", "anchors": ["src/CifFile_module.nw: CifDic.check_mandatory_items", "src/CifFile_module.nw: CifDic.check_prohibited_items", "src/CifFile_module.nw: CifDic.run_block_validation"]}
{"id": "C65", "title": "Keys of loop categories", "statement": "The key table of a dictionary gives for every loop category its own key and the keys of the loop categories below it; a loop passes the key check exactly if it holds the complete key of its category or of a category above it.", "quantifier": "for every dictionary and loop", "why_tests_cant": "unbounded nesting of categories and compound keys", "anchors": ["src/CifFile_module.nw: CifDic.create_cat_key_table", "src/CifFile_module.nw: CifDic.validate_loop_key_ddlm"]}
{"id": "C66", "title": "Data names from category and object", "statement": "Looking up a category and an object gives the item of that category with that object, otherwise the item with that object of a loop category below it at any depth, and an error if there is none.", "quantifier": "for every dictionary, category and object", "why_tests_cant": "unbounded nesting of loop categories", "anchors": ["src/CifFile_module.nw: CifDic.create_cat_obj_table", "src/CifFile_module.nw: CifDic.get_name_by_cat_obj"]}
{"id": "C67", "title": "The hierarchy of keys", "statement": "For every name in the key of a loop category the table of equivalent keys lists the names reached by following its links upwards, one for each loop category above; no other name has an entry.", "quantifier": "for every dictionary", "why_tests_cant": "unbounded chains of categories", "anchors": ["src/CifFile_module.nw: Create key hierarchy"]}
{"id": "C68", "title": "Blocks that check their items", "statement": "A block tied to a dictionary accepts an item exactly if the checks of that item pass; a refused item changes nothing; whatever is done with the block, all its items pass the checks of single items, items can be deleted, and a valid block stays valid.", "quantifier": "for every dictionary, block and sequence of edits", "why_tests_cant": "unbounded histories of edits and arbitrary checks", "anchors": ["src/CifFile_module.nw: ValidCifBlock"]}
{"id": "C69", "title": "Items added in the deprecated way", "statement": "AddCifItem stores the value given for a name: a text as it is, a list as a loop of one column.", "quantifier": "for every block, name and value", "why_tests_cant": "unbounded values", "anchors": ["src/CifFile_module.nw: CifBlock.AddCifItem"]}
{"id": "C70", "title": "Merging collections", "statement": "Merging a collection into another adds every incoming block that is new, with its contents, name and parent, and leaves the blocks already there as they are; a name in common is refused in strict mode, replaced in replace mode and overlaid in overlay mode; a merge that fails changes nothing.", "quantifier": "for every pair of collections, mode, parent and matching attribute", "why_tests_cant": "unbounded collections and trees of save frames", "anchors": ["src/StarFile.nw: BlockCollection.merge"]}
{"id": "C71", "title": "Selecting blocks", "statement": "The collection made from a list of names has exactly the blocks named, with their contents and those parents that are named too, and is itself in good order; names that do not exist are refused.", "quantifier": "for every collection and list of names", "why_tests_cant": "unbounded collections and lists", "anchors": ["src/StarFile.nw: BlockCollection.makebc"]}
{"id": "C72", "title": "Renaming a dictionary definition changes that definition and no other", "statement": "change_name(x,obj) gives the definition x the id _category.obj, its new object id and a new key, keeps its frame's place and every other definition, relocks the dictionary; a name already taken is refused with every definition unchanged and the dictionary locked; the lookup from category and object follows.", "quantifier": "every dictionary whose frames are named by their definitions' ids, every definition and new object name", "why_tests_cant": "tests rename one item of one file; that no other definition, key or frame is disturbed has to hold for every table of ids and frames", "anchors": ["src/CifFile_module.nw:1415-1432", "src/CifFile_module.nw:1234-1247", "src/CifFile_module.nw:1224-1232", "src/StarFile.nw:586-616", "src/CifFile_module.nw:1523-1534"]}
{"id": "C73", "title": "Moving a definition to another category is complete or does nothing", "statement": "change_category(x,cat) puts an item under cat with a new id and key, or a category under cat with its key unchanged, moves its frame into the frame of cat and changes no other definition; if it cannot, it leaves everything as it was.", "quantifier": "every dictionary whose frames are named by their definitions' ids, every definition and category", "why_tests_cant": "the failure needs a second definition of the same object in the target category, which no sample file has", "anchors": ["src/CifFile_module.nw:1394-1413", "src/CifFile_module.nw:1234-1247", "src/StarFile.nw:586-616"]}
{"id": "C74", "title": "Renaming a category carries its members along", "statement": "change_category_name(old,new) renames the category, makes every member name the new category, gives each member item the id _new.object under which it is then found, and changes nothing else.", "quantifier": "every dictionary whose frames are named by their definitions' ids, with texts as categories and distinct objects", "why_tests_cant": "needs quantification over all members at once, with each renaming changing the table the next one looks in", "anchors": ["src/CifFile_module.nw:1371-1388", "src/CifFile_module.nw:1269-1276", "src/CifFile_module.nw:1234-1247"]}
{"id": "C75", "title": "New categories and items are added without touching other definitions", "statement": "add_category and add_definition add one definition with exactly the documented attributes inside the top block, found by its name, leave every other definition and frame as it was and relock the dictionary; on an error nothing is added.", "quantifier": "every dictionary whose frames are named by their definitions' ids, every name, parent, text and option", "why_tests_cant": "the faults need capitals, blanks, a missing parent or a missing Head category; tests add one plain name", "anchors": ["src/CifFile_module.nw:1434-1492", "src/CifFile_module.nw:1224-1232", "src/StarFile.nw:526-576"]}
{"id": "C76", "title": "Removing a definition removes exactly what is below it", "statement": "remove_definition(x) ends, removes x and, if x is a category, its members and what is below them, and changes no other definition.", "quantifier": "every dictionary whose frames are named by their definitions' ids and lie side by side, every definition", "why_tests_cant": "the recursion runs over a table that shrinks while it is used; the statement is about arbitrary category trees", "anchors": ["src/CifFile_module.nw:1494-1502", "src/CifFile_module.nw:1184-1193", "src/CifFile_module.nw:1269-1276"]}
{"id": "C77", "title": "dREL expressions keep their meaning in python", "statement": "The python text that is generated for an expression of a dREL method is accepted by python's expression grammar, and the tree that python makes of it is the intended one: each dREL operator, function, list, table, subscript and group with its operands in place, and each data item reached through a tag, an alias, a loop or a key read from the right column and row. The data names that the value depends on, and no others, are noted, and each that is used in the current row has its own variable.", "quantifier": "for all expressions of the dREL grammar, dictionaries and states of the translation", "why_tests_cant": "precedence and quoting faults appear only for particular nestings of operators; any finite set of methods misses most nestings", "anchors": ["src/drel/py_from_ast.nw:291-501", "src/drel/py_from_ast.nw:766-880", "src/drel/drel_ast_yacc.py:110-401"]}
{"id": "C78", "title": "The blocks of a dREL method are the blocks of the python text", "statement": "The text generated for a dREL method, read by python's rules of indentation, has the block structure of the method: the statements of an IF, ELSEIF, ELSE, FOR, DO, LOOP, REPEAT or function body are exactly the block below the corresponding python line, in order, at every depth of nesting.", "quantifier": "for all methods of the dREL grammar, dictionaries and states of the translation", "why_tests_cant": "wrong indentation or a missing line end shows only at particular nestings of statements", "anchors": ["src/drel/py_from_ast.nw:513-671", "src/drel/py_from_ast.nw:724-758", "src/drel/py_from_ast.nw:885-887"]}
{"id": "C79", "title": "Reading a derived item ends", "statement": "Reading an item of a block with a dictionary ends with a value or an exception: the depth of nested derivations is bounded by the number of names that the dictionary and its methods mention, however methods, defaults, aliases and categories refer to one another.", "quantifier": "for all dictionaries, methods, blocks and names", "why_tests_cant": "circular references through aliases, defaults and category methods are too many to enumerate; a test can only show that one circle is broken", "anchors": ["src/StarFile.nw:1532-1590", "src/CifFile_module.nw:2903-2950", "src/CifFile_module.nw:3062-3125", "src/CifFile_module.nw:3305-3350", "src/CifFile_module.nw:4313-4336"]}
{"id": "C80", "title": "Deriving an item loses nothing", "statement": "Reading an item leaves a well-formed block; only items that the dictionary defines are added; every item that was there keeps its value, its spelling and its loop.", "quantifier": "for all dictionaries, methods, well-formed blocks and names", "why_tests_cant": "nested derivations store intermediate items, create loops and reorder columns; which of them run depends on the contents of both the block and the dictionary", "anchors": ["src/StarFile.nw:1532-1590", "src/CifFile_module.nw:2903-2950", "src/CifFile_module.nw:2970-3050"]}
{"id": "C81", "title": "Derived values are kept", "statement": "After an item was derived with storing switched on, the block holds the value that was returned, and reading the item again gives the same value and changes nothing.", "quantifier": "for all dictionaries, methods, blocks and names", "why_tests_cant": "the value passes through conversions, repetition and two ways of storing before it is found again", "anchors": ["src/StarFile.nw:1532-1590", "src/CifFile_module.nw:2903-2950", "src/CifFile_module.nw:2970-3012"]}
{"id": "C82", "title": "Aliases stand for one another", "statement": "If an item is in the block under another name of the same definition, reading it by any of the names gives that value, converted to the type of the definition, and changes nothing; a name that two definitions claim is an error.", "quantifier": "for all dictionaries, blocks and names", "why_tests_cant": "the way depends on which of the names is asked for and which are present", "anchors": ["src/CifFile_module.nw:3305-3318", "src/CifFile_module.nw:1035-1039", "src/StarFile.nw:1620-1628"]}
{"id": "C83", "title": "Defaults are the last resort", "statement": "A derivation without leave to use defaults does not depend on them; reading uses a default only if the derivation without defaults failed; a default in a looped category is repeated for all rows and joins the loop of the category.", "quantifier": "for all dictionaries, methods, blocks and names", "why_tests_cant": "the leave to use defaults is passed on through any depth of nested derivations", "anchors": ["src/CifFile_module.nw:3331-3350", "src/CifFile_module.nw:2954-2965", "src/CifFile_module.nw:4313-4336"]}
{"id": "C84", "title": "Categories built from others have the right rows", "statement": "A category that is a pullback of two items gets one row for each pair of rows of their categories with equal values; a filter keeps the rows with one of the filter values; the columns that are copied hold the values of the rows they come from; only the new category is stored, and its items are then read from it.", "quantifier": "for all dictionaries, blocks, and numbers of rows", "why_tests_cant": "positions are found by value while rows are repeated and dropped, and the columns are lined up by object name across three categories", "anchors": ["src/CifFile_module.nw:3098-3125", "src/CifFile_module.nw:3134-3180", "src/CifFile_module.nw:3251-3282"]}
{"id": "C85", "title": "The way back from a category that was built", "statement": "A category without rows is filled from a pullback or filter that uses it: its key gets the column that refers to it, items with the same object name are copied, and the item that a filter compares gets the value of the filter; no key occurs twice.", "quantifier": "for all dictionaries, blocks, and numbers of rows", "why_tests_cant": "which column refers to the category depends on the order of the components; repeated keys appear only when rows match more than once", "anchors": ["src/CifFile_module.nw:3098-3125", "src/CifFile_module.nw:3184-3249", "src/CifFile_module.nw:3251-3282"]}
{"id": "C86", "title": "DDL1 definitions are filed under their names", "statement": "After a DDL1 dictionary is loaded, a definition with one name is found under that name, a definition with several names is found under each of them with just that name in it, blocks without a name stay where they are, and no definition is lost.", "quantifier": "for all dictionaries", "why_tests_cant": "the dictionary is changed while its keys are visited; losses need names that meet each other or differ only in capitals", "anchors": ["src/CifFile_module.nw:698-722", "src/CifFile_module.nw:1157-1213"]}
{"id": "C87", "title": "Attributes of DDL1 definitions are completed", "statement": "Every definition gets its default attributes, its range is split into the two ends that were written so that exactly the numbers between them are accepted, and a type with an expression of its own is added to the list of types.", "quantifier": "for all dictionaries, ranges and values", "why_tests_cant": "the range is cut by a regular expression; the numbers in it can be written in many ways", "anchors": ["src/CifFile_module.nw:723-760", "src/CifFile_module.nw:3423-3437"]}
{"id": "C88", "title": "A loaded DDL1 dictionary is complete", "statement": "Every definition is found under its identifier; every category that an item names has a definition, and this lists the items that must be present in a row and those that make rows unique.", "quantifier": "for all dictionaries", "why_tests_cant": "the lists of a category are collected over all definitions and depend on the identifiers of categories, which are cut out of names", "anchors": ["src/CifFile_module.nw:530-575", "src/CifFile_module.nw:761-773", "src/CifFile_module.nw:1000-1030", "src/CifFile_module.nw:1138-1155"]}
{"id": "C89", "title": "A DDL2 dictionary loads", "statement": "Every definition of a DDL2 dictionary is found under its identifier; definitions of several items are given to each of the items; the other names of items are known.", "quantifier": "for all dictionaries", "why_tests_cant": "which steps are reached depends on the attributes of all definitions together", "anchors": ["src/CifFile_module.nw:530-575", "src/CifFile_module.nw:833-878", "src/CifFile_module.nw:1138-1155"]}
{"id": "C90", "title": "The compiled scanner finds the same tokens", "statement": "At every place of a CIF 1.0 or 1.1 text where the python scanner finds a token, the scanner compiled from star.l finds the same token with the same text, leaves the same text over, and is then within a text field exactly after the start of one.", "quantifier": "for all texts, restrictions and places", "why_tests_cant": "the two scanners are written in different formalisms (first or longest match of python expressions with lookahead, against flex rules with start conditions and trailing context); they part only on rare neighbours of tokens", "anchors": ["src/lib/star.l:41-154", "src/YappsStarParser.nw:218-302", "src/yapps3_compiled_rt.py:130-190"]}
{"id": "C91", "title": "A file read with scantype='flex' is the same file", "statement": "If the python scanner reads a text as CIF 1.0 or 1.1, then the compiled scanner reads the same data blocks, save frames, names and values from it.", "quantifier": "for all texts", "why_tests_cant": "equality is needed over the whole parse, with the start condition of the compiled scanner kept in step with the parser's restrictions through text fields", "anchors": ["src/StarFile.nw:1118-1130", "src/lib/star.l:79-164", "src/lib/py_star_scan.c:60-150", "src/YappsStarParser.nw:496-567"]}
{"id": "C92", "title": "The compiled scanner ends, and outside text fields it skips only blanks and comments", "statement": "Every call of the compiled scanner returns a token; outside text fields only blanks and comments are skipped, and only the start of a text field changes the state; inside a text field only its closing semicolon does; parsing ends on every text.", "quantifier": "for all texts, also with characters outside CIF", "why_tests_cant": "flex rules may match the empty text or fall through to the default rule; endless loops need rare characters", "anchors": ["src/lib/star.l:79-154", "src/lib/py_star_scan.c:96-150"]}
{"id": "C93", "title": "Parsing ends with data or a syntax error", "statement": "For each of the four grammars every text is either read or refused with a syntax error; the scanner and parser never loop for ever, and the scanner's NotImplementedError (a token looked at under one restriction and asked for under a larger one) is never raised.", "quantifier": "for all texts and grammars 1.0, 1.1, 2.0 and STAR2", "why_tests_cant": "endless loops and impossible restrictions need particular token sequences; all texts cannot be tried", "anchors": ["src/yapps3_compiled_rt.py:173-289", "src/YappsStarParser.nw:337-567"]}
{"id": "C94", "title": "What is read stands in the file", "statement": "If a text is read then it is a sequence of tokens with only blanks and comments between them, up to its end, and the data blocks follow from that sequence by the rules of the grammar: nothing is dropped, invented, reordered or attached to another name; datanames and headings are well formed.", "quantifier": "for all texts and grammars", "why_tests_cant": "losing a token on some path through the parser shows only in files that take it", "anchors": ["src/YappsStarParser.nw:337-567", "src/yapps3_compiled_rt.py:204-254"]}
{"id": "C95", "title": "Validate reports what the checks find in each block", "statement": "For each block the names that the dictionary does not know are listed, exactly these are left out, and the result is that of all checks on the other items, which keep their values, order and loops; a block is called valid exactly if these pass; validating again gives the same results; only a check that raises an error keeps a file from being validated; the file given is not changed.", "quantifier": "for all files of well-formed blocks and all sets of checks", "why_tests_cant": "an item dropped from a loop, or a verdict that depends on unknown items, shows only for certain mixtures of known and unknown names", "anchors": ["src/CifFile_module.nw:3857-3907", "src/CifFile_module.nw:4060-4079"]}
{"id": "C96", "title": "A validation report shows every failure once", "statement": "The report has the verdict on each block, the names that were not found, and each failed check exactly once, in a table of its kind, with the item and everything that was found; there is a report for every result of the installed checks.", "quantifier": "for all results, in plain text and HTML, however values are written", "why_tests_cant": "kinds of failure that no test produces have no heading or wrong columns", "anchors": ["src/CifFile_module.nw:3909-3992", "src/CifFile_module.nw:3998-4023", "src/CifFile_module.nw:4027-4052", "src/CifFile_module.nw:1897-1945"]}
{"id": "C97", "title": "ValidationResult answers for a block and for the file", "statement": "is_valid is true of a block exactly if it was called valid with no failures, has_no_match_items exactly if names were not found; without a name the answer is for all blocks.", "quantifier": "for all results", "why_tests_cant": "the form without a block name is never called by the tests", "anchors": ["src/CifFile_module.nw:3807-3845"]}
{"id": "C98", "title": "find_parent finds the one item that is not a child", "statement": "Of the items of a definition the one that is not among the children is returned, an error if there is not exactly one; a single item is itself, a category has none.", "quantifier": "for all definitions", "why_tests_cant": "names that contain one another are rare in test dictionaries", "anchors": ["src/CifFile_module.nw:4381-4394"]}
{"id": "C99", "title": "The tokens of a dREL method are those of a declarative reading", "statement": "For each kind of token a set of texts is fixed (numbers, names, strings, operators, ...). At every place the kind that comes first in the order of the rules and has a text there is taken, with its longest text; blanks (and, inside parentheses, newlines) are skipped first; a single character is a token only when no kind has a text. The lexer returns exactly the tokens of this reading, it ends on every text, fails exactly when there is no reading, and a text has at most one reading.", "quantifier": "all texts, all lexer states", "why_tests_cant": "the rules interact by order and by backtracking; a test sees single texts only", "anchors": ["src/drel/drel_lex.py:59-226"]}
{"id": "C100", "title": "Parentheses and newlines in dREL methods", "statement": "The number of open parentheses after a text is the number before it plus the opened and minus the closed ones; a newline is passed on only where no parenthesis is open, a closing parenthesis only where one is open, and outside of parentheses it is an error.", "quantifier": "all texts, all lexer states", "why_tests_cant": "depends on the state carried through the whole text", "anchors": ["src/drel/drel_lex.py:59-226"]}
{"id": "C101", "title": "dREL tokens written with blanks are read back", "statement": "Names, reserved words other than else, integers, reals, item names, short strings and single characters, each followed by a blank, are read back as the same tokens in the same order, whatever the lexer state.", "quantifier": "all lists of such tokens, all lexer states", "why_tests_cant": "the rule that wins depends on the characters that follow and on all earlier rules", "anchors": ["src/drel/drel_lex.py:59-226"]}
{"id": "C102", "title": "Strings, else-if and line numbers in dREL methods", "statement": "Each long string of a method is a token of its own; a quote after a backslash does not end a short string; a name after else stays whole; reserved words are known in the same spellings alone and combined; the line number is the number of newlines passed.", "quantifier": "all texts", "why_tests_cant": "needs particular neighbouring tokens", "anchors": ["src/drel/drel_lex.py:59-226"]}
{"id": "C103", "title": "Multiplication in dREL methods follows its rules", "statement": "The product of two lists is their dot product, of a matrix and a list the matrix times the column, of a list and a matrix the row times the matrix, of two matrices the matrix product, and a number multiplies every element. Entry i,j of the result is the sum over k of the products of the entries; a result of one element is a number and one of a single row or column is a list. Factors that do not fit are refused.", "quantifier": "all matrices and lists of whole numbers of all sizes", "why_tests_cant": "the sizes and the entries are unbounded; tests in the repository multiply three by three only", "anchors": ["src/drel/drel_runtime.nw:86-140"]}
{"id": "C104", "title": "Augmented assignments and strip in dREL methods", "statement": "++= gives the list with the new element at its end; += and -= add and subtract number by number, -= undoes +=, unequal lengths are refused; --= takes away the first equal element and leaves its operand alone; Strip gives the n-th element of each list exactly when all have one. No operation on a list gives nothing instead of an error.", "quantifier": "all lists and elements", "why_tests_cant": "unbounded lists; the wrong cases need particular types of operands", "anchors": ["src/drel/drel_runtime.nw:26-84", "src/drel/drel_runtime.nw:142-148", "src/drel/drel_runtime.nw:178-181"]}
{"id": "C105", "title": "Eigenvalues in dREL methods", "statement": "Eigen gives every eigenvalue once, in falling order, each with an eigenvector that belongs to it.", "quantifier": "all matrices, all results of the numerical routine", "why_tests_cant": "a diagonal test matrix has the same rows and columns of eigenvectors", "anchors": ["src/drel/drel_runtime.nw:156-165"]}
{"id": "C106", "title": "Merging dictionaries keeps all definitions", "statement": "merge_dic of several dictionaries that define nothing twice gives a dictionary with every definition of each of them, in every mode; what the first one had stays as it was; dictionaries it cannot merge are refused, not ignored.", "quantifier": "all dictionaries as collections of blocks, all lists of them, all modes", "why_tests_cant": "depends on the kind of the dictionary, the blocks they share and how they were read; the repository has no test of it", "anchors": ["src/CifFile_module.nw:4352-4374", "src/StarFile.nw:731-787"]}
{"id": "C107", "title": "The expressions of types are mended in their sets and nowhere else", "statement": "regex_fiddle replaces every \\{ by \\\\{ and every \\n by \\n\\r inside the sets of an expression, changes nothing else and loses nothing.", "quantifier": "every text of an expression", "why_tests_cant": "the result depends on the order in which the regular expressions try their matches", "anchors": ["src/CifFile_module.nw:2726-2739"]}
{"id": "C108", "title": "The types of a DDL2 dictionary are entered, and their sets are read as written", "statement": "add_type_info enters every type of the dictionary with its expression and primitive type; a type that is a set of characters, repeated, accepts exactly the texts of characters of that set, of a carriage return if it has \\n and of a backslash if it has \\{.", "quantifier": "every table of types, every set, every column of values", "why_tests_cant": "infinitely many sets and values; the tests use the types of two dictionaries", "anchors": ["src/CifFile_module.nw:2719-2745", "src/CifFile_module.nw:1978-2010"]}
{"id": "C109", "title": "A method computes the same for a column and for each of its packets", "statement": "The function made for a dREL method of a looped category runs the translated text once on each packet, in order, with the values of that packet, and gives for one packet what it gives for that packet of the whole column.", "quantifier": "every table of names, every data, every translated body, every packet", "why_tests_cant": "needs all tables of required and optional names and all bodies; the tests call few generated functions for one packet", "anchors": ["src/drel/py_from_ast.nw:66-176"]}
{"id": "C110", "title": "Indentation does not change the text of a method", "statement": "The lines of the translated method are indented and are otherwise unchanged, so that text constants keep their values.", "quantifier": "every translated text", "why_tests_cant": "infinitely many texts; the tests have no constant over several lines", "anchors": ["src/drel/py_from_ast.nw:86-109", "src/drel/py_from_ast.nw:885-887"]}
{"id": "C111", "title": "A dictionary is written completely, categories before their members", "statement": "The list of blocks that CifDic.WriteOut uses starts with the data block and has every definition exactly once; each category stands before its members, and within a category of the tree the items follow directly in the order of their names.", "quantifier": "every DDLm dictionary, every order of python's sets", "why_tests_cant": "infinitely many trees and definitions outside of the tree; the tests write two dictionaries in which nothing is outside", "anchors": ["src/CifFile_module.nw:3446-3503", "src/CifFile_module.nw:1291-1298"]}
{"id": "C112", "title": "Every well formed file is read, in one way", "statement": "A text that is a sequence of well formed tokens, each followed by a character that ends it, with any blanks, line ends and comments between them, and from which the rules of the grammar make data blocks, is read as these blocks: no syntax error, no other reading, and what stands between the tokens does not matter.", "quantifier": "for all texts, token sequences and the four grammars (lines of text fields do not start with a hash sign)", "why_tests_cant": "infinitely many layouts and nestings; the scanner's choice depends on which tokens the parser asks for at that place and on the longest match", "anchors": ["src/YappsStarParser.nw:215-302", "src/YappsStarParser.nw:337-567", "src/yapps3_compiled_rt.py:173-289"]}
{"id": "C113", "title": "A file written by hand is stored as it stands", "statement": "Reading a well formed text, however it is laid out, gives a collection with every data block and save frame under its name, the frames inside their data block, and in each the datanames, values, loops and order of the text and nothing else; a text that names a dataname twice in a data block or frame, or whose loop ends within a row, is refused.", "quantifier": "for all texts of well formed tokens in the four grammars, all layouts, collection standards and read options that admit the text; block names differ ignoring case and frames hold no frames", "why_tests_cant": "the texts were not written by the program, so round-trip tests do not cover them; all layouts and contents", "anchors": ["src/StarFile.nw:998-1153", "src/YappsStarParser.nw:215-567", "src/StarFile.nw:520-742", "src/yapps3_compiled_rt.py:173-289"]}
{"id": "C114", "title": "A file converted to another grammar says the same", "statement": "Reading a well formed text, setting another grammar on the collection, writing it and reading the result gives the same data blocks and frames, datanames, values, loops and order; values that the other grammar cannot express are not silently changed.", "quantifier": "for all texts of well formed tokens in the four grammars, all layouts, all of the grammars 1.0, 1.1 and 2.0 for writing, and options that admit the texts; block names differ ignoring case and frames hold no frames", "why_tests_cant": "conversion is tested on a few files; the texts to be quoted differ from grammar to grammar and by position", "anchors": ["src/StarFile.nw:241-245", "src/StarFile.nw:837-896", "src/StarFile.nw:998-1153", "src/StarFile.nw:2535-2544", "src/Programs/star2_to_cif2.py:1-66"]}
{"id": "C115", "title": "A file of checked blocks holds only blocks that pass", "statement": "Making a file of checked blocks from a file succeeds exactly if every block passes its dictionary, and then keeps names, places and contents; adding a block succeeds exactly if the block passes and otherwise leaves the file as it was; save frames are checked like data blocks.", "quantifier": "for all dictionaries, all collections reached by adding, removing and renaming blocks, all blocks, names and parents", "why_tests_cant": "that a refused block is nevertheless stored shows only if the file is looked at after the error", "anchors": ["src/CifFile_module.nw:3763-3795", "src/CifFile_module.nw:3516-3560", "src/StarFile.nw:526-576"]}
{"id": "C116", "title": "A file written in a given order has exactly the blocks listed", "statement": "WriteOut with a list of blocks writes exactly these blocks in that order, each data block with its frames in that order, so that they can be read back, names in a warning exactly the blocks that it does not write, refuses unknown and repeated names, and puts the save frames after the dataname given as saves_after.", "quantifier": "for all collections, all lists of names, all values of saves_after and all comments; for reading back all collections that can be written, in the grammars without nesting", "why_tests_cant": "lists of blocks are given by hand in few tests, always complete and in lower case", "anchors": ["src/StarFile.nw:837-896", "src/CifFile_module.nw:3446-3450", "src/Programs/star2_to_cif2.py:40-50"]}
{"id": "C117", "title": "Validating a dictionary checks all its frames, and nothing else changes", "statement": "Validate with isdic checks every data block and every save frame exactly once, without it exactly the blocks that keys() lists; each is called valid exactly if its known items pass all checks; apart from the removal of unknown items the file is as before, and a file is refused only if a check cannot be finished.", "quantifier": "for all collections reached by adding, removing and renaming blocks, all blocks reached by their operations, and all dictionaries to check against", "why_tests_cant": "that the file has other keys afterwards shows only if it is used again", "anchors": ["src/CifFile_module.nw:3857-3907", "src/StarFile.nw:280-300"]}
{"id": "C118", "title": "dREL expressions have one tree, the one that the binding of the operators gives", "statement": "A row of tokens is parsed to a tree exactly if it says that tree by the table of operators (or, and, not, comparisons, + and -, * / ^ & |, signs, **, and what stands behind a name), it says at most one tree, anything else is a SyntaxError, and comparisons are not chained; two things beside one another are no expression.", "quantifier": "for all rows of tokens and all trees", "why_tests_cant": "an operator bound too loosely changes the value only of expressions that mix it with others", "anchors": ["src/drel/drel_ast_yacc.py:99-401"]}
{"id": "C119", "title": "dREL methods have the trees that their statements give them", "statement": "A row of tokens is parsed to a list of statements only if it says them by the grammar; if no else could go to two ifs and no body begins with a token that goes on with the expression before it, what the tokens say is found and is the only reading; an else goes to the last if; anything else is a SyntaxError, and so is a newline before the body of else, for, do, loop or repeat.", "quantifier": "for all rows of tokens and all lists of statements", "why_tests_cant": "an else that goes to the wrong if, or a statement that is lost at the end of a block, changes only methods that have that shape", "anchors": ["src/drel/drel_ast_yacc.py:22-97", "src/drel/drel_ast_yacc.py:403-571"]}
{"id": "C120", "title": "Each definition gets the translations of its own methods", "statement": "When the methods of a dictionary are translated without an exception, a definition has, in their order, the translations of exactly those of its methods that are for evaluation and can be read, whatever the methods before it were; definitions without such methods and all other attributes are unchanged. If an exception comes out, the definitions before one that has a method which is read but not translated are done and the others are unchanged. A text is parsed with its ends of lines as newlines and a newline at its end.", "quantifier": "for all dictionaries, all translations of a method and all states of the lexer outside parentheses", "why_tests_cant": "a lexer state that leaks from a broken method spoils only the methods behind it in dictionaries with such a method", "anchors": ["src/CifFile_module.nw:2789-2844", "src/drel/py_from_ast.nw:66-111", "src/drel/py_from_ast.nw:229-239", "src/drel/py_from_ast.nw:889-895"]}
{"id": "C121", "title": "The functions of a dictionary are all loaded, the last of a name wins", "statement": "When the functions of a dictionary are loaded without an exception, each one was read and translated, every name has the text of the last function that defines it, and other names are unchanged. Otherwise a definition lacks its name or its one method for evaluation, or a function can not be read or translated, and no function behind it is loaded.", "quantifier": "for all dictionaries, all translations and all tables of names", "why_tests_cant": "names that collide and functions that are refused depend on the whole dictionary", "anchors": ["src/CifFile_module.nw:2854-2877", "src/StarFile.nw:2188-2203"]}
{"id": "C122", "title": "Definitions are looked up in the own dictionary first, then in the imported ones, the last one first", "statement": "The definition that a dictionary with light imports returns for a name is its own one; otherwise that of the first dictionary in the list of imports, the latest one first, that has the name at or below the imported head. If there is none, a KeyError is raised. There is never more than one answer.", "quantifier": "for all dictionaries with imports nested to any depth, without cycles of categories, whose imports are there, and all names", "why_tests_cant": "which of several dictionaries answers depends on the order of imports and on the tree of each", "anchors": ["src/CifFile_module.nw:1157-1167", "src/CifFile_module.nw:1782-1789", "src/CifFile_module.nw:1281-1288"]}
{"id": "C123", "title": "Imports are resolved as the entries ask", "statement": "The entries that are followed are those of the mode that is asked for. Every file that they name is read once and no other. A definition that is missing is an error unless the entry says otherwise, and then nothing is imported; one that is there already is an error or is ignored as the entry says. Light imports leave all definitions alone and search the latest dictionary first. Heavy imports of attributes, when they succeed, give a definition its own attributes and those of its entries and touch no other, and each attribute is the same as what is read through light imports.", "quantifier": "for all dictionaries, entries, files and orders of entries", "why_tests_cant": "the policies interact with the mode, the cache of files and the definitions imported before", "anchors": ["src/CifFile_module.nw:1646-1684", "src/CifFile_module.nw:1693-1697", "src/CifFile_module.nw:1743-1776", "src/CifFile_module.nw:561-562"]}
{"id": "C124", "title": "Taking over a category brings the category and its members and nothing else", "statement": "When a dictionary takes a category of another one, the category and all definitions in it are there afterwards with their attributes, definitions it had itself are kept when duplicates are to be ignored, and every other definition is as before. When duplicates are to be an error, any definition that is there already is one, and a duplicate category leaves the dictionary unchanged. A category that the other dictionary lacks is an error unless it is to be ignored, and nothing changes.", "quantifier": "for all pairs of dictionaries in order, categories and policies", "why_tests_cant": "names of blocks, ids and their case interact with the table of ids", "anchors": ["src/CifFile_module.nw:1795-1851", "src/CifFile_module.nw:1157-1182", "src/CifFile_module.nw:1322-1324", "src/StarFile.nw:526-576"]}
{"id": "C125", "title": "Standard uncertainties where DDLm asks for them", "statement": "For a DDLm dictionary a value of a measurand without a standard uncertainty and a value of another number with one are reported, each of them and no other.", "quantifier": "for all definitions and values", "why_tests_cant": "the check never runs, so that no test of a valid file shows it", "anchors": ["src/CifFile_module.nw:2048-2061", "src/CifFile_module.nw:2004-2023"]}
{"id": "C126", "title": "What a DDLm dictionary asks of a block", "statement": "Validated against a DDLm dictionary, a block is called valid exactly if all values of items with an enumeration are listed in it, unknown or inapplicable, each loop holds names of one uppermost loop category with a name of its key, and the attributes mandatory and prohibited in the scope of the block are there and not there; the values of items without an enumeration do not matter.", "quantifier": "for all dictionaries, blocks and loops for which the checks give an answer", "why_tests_cant": "every combination of items, loops and scopes", "anchors": ["src/CifFile_module.nw:1927-1941", "src/CifFile_module.nw:2105-2117", "src/CifFile_module.nw:2140-2182", "src/CifFile_module.nw:2218-2230", "src/CifFile_module.nw:2600-2667"]}
{"id": "C127", "title": "Mandatory and prohibited attributes as the dictionary lists them", "statement": "The tables of mandatory and prohibited attributes hold for each scope exactly the attributes that the main block of the dictionary lists for it, a category standing for all items in it at any depth; a definition passes the checks exactly if it has every attribute mandatory for its scope and none that is prohibited.", "quantifier": "for all dictionaries with an acyclic category tree and all lists of demands", "why_tests_cant": "needs every order and repetition of rows and every depth of categories", "anchors": ["src/CifFile_module.nw:1348-1357", "src/CifFile_module.nw:1310-1320", "src/CifFile_module.nw:2618-2646"]}
{"id": "C128", "title": "The packet for a key joins the rows of all loops of its category", "statement": "Asked for the packet of a category with a key value, a block gives one that holds, for each key of the category and its child categories in turn, the values of the only row that has the key value, and nothing for keys of which no row or several rows have it; its attributes are these values by name, those of a later category counting where there are two; the key it names is the first that it has a value for; and there is an error exactly if it has a value for none of the keys.", "quantifier": "for all blocks, dictionaries' key tables and key values where each key is absent or a column of a table", "why_tests_cant": "several loops, case of keys and several matches combine", "anchors": ["src/StarFile.nw:2321-2360", "src/StarFile.nw:1306-1330", "src/StarFile.nw:2188-2203"]}
{"id": "C129", "title": "A compound key finds its row also beside child categories", "statement": "Asked for the packet of a category by a compound key, a block gives the only row that has all the values, with all its columns, and names the key; rows of child categories with the same key are joined to it.", "quantifier": "for all blocks, key tables and compound keys", "why_tests_cant": "compound keys with child loops are rare in test files", "anchors": ["src/StarFile.nw:2264-2312", "src/StarFile.nw:2209-2226"]}
{"id": "C130", "title": "Looking over all blocks misses nothing and repeats nothing", "statement": "Collecting the values of an item over a collection gives exactly those that occur in its visible blocks, members of looped ones singly, each once; all visible blocks are listed in order and the first of them is the first block; names of blocks and of items are found too long exactly if one of them is longer than the limit.", "quantifier": "for all consistent collections of readable blocks, items and limits", "why_tests_cant": "the values are spread over many blocks in many forms", "anchors": ["src/StarFile.nw:272-278", "src/StarFile.nw:391-397", "src/StarFile.nw:789-797", "src/StarFile.nw:812-823", "src/CifFile_module.nw:3872-3885"]}
{"id": "C131", "title": "A syntax error is reported at its place", "statement": "The line and column printed for a syntax error are those of the scanner's place in the text; the two lines printed for a place show what stands on its line before and after it, and the pointer is under its character; the rules that were being parsed are listed with the lines where they began; the report itself never fails as long as those tokens were read; the last ten tokens are listed in order.", "quantifier": "for all texts, places, lists of tokens and rules being parsed", "why_tests_cant": "every place in every text, with lines of any length and any line ends", "anchors": ["src/yapps3_compiled_rt.py:135-158", "src/yapps3_compiled_rt.py:192-202", "src/yapps3_compiled_rt.py:327-380", "src/StarFile.nw:1130-1148"]}
{"id": "C132", "title": "The list of tokens of the compiled scanner is sound", "statement": "Whatever calls are made and in whatever order, the compiled scanner never touches memory that it does not have, and does not take much more than it needs; after a text has been prepared, token i is the i-th token of that text if it was read before or is the next one, and otherwise an IndexError that changes nothing; the last ten tokens are those read last; a parser going forward sees the same as with one token of lookahead.", "quantifier": "for all sequences of calls, texts and positions in the range of a C int", "why_tests_cant": "the order of calls, reallocation every 4192 tokens and negative positions are rarely tried", "anchors": ["src/lib/py_star_scan.c:47-51", "src/lib/py_star_scan.c:62-194", "src/lib/star_scanner.h:10-18", "src/yapps3_compiled_rt.py:186-190"]}
{"id": "C133", "title": "An attribute that a packet lacks is calculated for its own row", "statement": "Reading an attribute of a packet found by key gives the packet's value, whatever the case of the name; an attribute that it does not have is calculated for the block, and the value of the one row with the keys of the packet is given; if no or several rows have them, or the item is not in their loop, or it can not be calculated, that is an error.", "quantifier": "for all packets, blocks, attribute names and results of the calculation", "why_tests_cant": "the row depends on the keys, on case and on what the calculation stored", "anchors": ["src/StarFile.nw:1313-1330", "src/StarFile.nw:2307-2313", "src/StarFile.nw:2354-2361"]}
{"id": "C134", "title": "Writing a file tells every block the lengths, grammar and template of the file", "statement": "If the length to wrap at is at most the maximum of the file, all blocks are told these lengths, the delimiters of the grammar of the file and its template, and the text is written with them; otherwise the call is an error. The lengths asked for bound the lines of the text.", "quantifier": "for all files, settings of blocks, comments and lengths", "why_tests_cant": "depends on two lengths, the grammar and what the blocks were told before", "anchors": ["src/StarFile.nw:837-858", "src/StarFile.nw:945-953", "src/StarFile.nw:2521-2528", "src/StarFile.nw:2535-2544"]}
{"id": "C135", "title": "Updating a collection with other blocks adds them at the top and keeps what was there", "statement": "Updating a collection with blocks under new names puts every one at the top under its name, after the blocks that were there, which are as before; a name that is there, or a block that is not taken, is an error after which the blocks before it have been added, but without a standard the block of that name is replaced. Getting a block with a default gives the visible block of that name in any case of letters, and otherwise the default.", "quantifier": "for all consistent collections, lists of names and blocks, and other collections", "why_tests_cant": "depends on names up to case and spaces, on the order and on what was added before", "anchors": ["src/StarFile.nw:303-304", "src/StarFile.nw:361-365", "src/StarFile.nw:374-389", "src/StarFile.nw:526-576"]}
{"id": "C136", "title": "An item may be removed only if none of its children is in the block", "statement": "The check before an item is removed allows it exactly if no child that its definition names is in the block, in whatever case, and otherwise names the first that is; an item without children or without a definition is not checked. No item is in the block whose parent may be removed, under any of its names.", "quantifier": "for all dictionaries in DDL2, names and blocks", "why_tests_cant": "depends on the links of the dictionary and on the items of the block", "anchors": ["src/CifFile_module.nw:2462-2472", "src/CifFile_module.nw:1928-1930"]}
