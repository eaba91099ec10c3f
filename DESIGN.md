# Formal model of PyCIFRW (jamesrhester/pycifrw)

Source read: `/repo` at the pinned commit (noweb files under `/repo/src`).  Nothing in `/repo` was built or run.
The model is a transcription by hand into Gallina (Rocq/Coq 8.16.1) under `rocq/theories`.

## Trusted base

* Coq's kernel (coqc; `vm_compute` is used in proofs of concrete facts and by reflection).
* Axioms: none. Every `Properties*.v` file ends with a tuple of all its theorems and `Print Assumptions` of the
  tuple; each one prints `Closed under the global context`. So every theorem listed in `MANIFEST.json` depends on no
  axiom. (`coqchk` also reports what is in the loaded standard library files; the only entries are
  `Coq.ssr.ssrunder.Under_rel.*`, which are module-type parameters of the standard library that no theorem uses.)
* No functors, module types, plugins, switched-off checks, `Admitted` or section-less variables.
* The transcription: that each definition does what the cited lines of python do. It is the largest part of the
  trusted base; simplifications are stated in the header of each `*Model.v` and at the definitions, and collected
  below.
* The specifications (`*Spec.v` and the definitions in `Properties*.v`) and the wording in `properties.jsonl`.

## Modelling conventions

* Text is `list N` (unicode code points). `str.lower()` acts on ASCII letters only: exact for ASCII text, a
  simplification for other letters.
* Python dicts are insertion-ordered association lists; sets are lists, and claims about them do not depend on order.
* Exceptions are values (`outcome A := Ret a | Raise e`). Every operation that changes something returns the *new
  state and* the outcome, so changes made before a `raise` are visible.
* Recursion that python does not bound has fuel; running out is the outcome `OutOfFuel`, never a default value.
* Python values: strings, numbers (an opaque numeral), `None`, plain lists and tuples, `StarList`, `StarDict`.
* Object identity is not modelled: values and blocks are immutable and operations return new ones.
* Regular expressions are syntax trees (`RegexModel.v`) with a backtracking matcher that lists the matches in the
  order in which python tries them.
* `*Model.v` contain no proofs; `*Spec.v` state what is wanted without using the model's functions;
  `*Facts.v` and `*Proofs*.v` contain lemmas; `Properties*.v` contain the theorems, an example next to each that
  shows its hypotheses can be met, and `Print Assumptions`.
* A theorem whose property is false of the code as stated comes as a pair: the positive theorem under the condition
  that is needed (`_partial`, or status `partial` in the manifest) and a `_refuted` theorem with a witness.

## What is modelled

| model file | code (under `/repo/src`) |
|----|----|
| StarBlockModel | StarFile.nw 1412-2174: StarBlock storage, names, order, loops, character checks |
| LoopModel | StarFile.nw 1221-1398, 2188-2403: LoopBlock, packets, keyed packets |
| MergeModel | StarFile.nw 3131-3211: StarBlock.merge |
| CollectionModel, CollMergeModel | StarFile.nw 217-922: BlockCollection (parents, scoping, renaming, deletion, merge_fast, merge, makebc, order of output) |
| FileModel | StarFile.nw 837-911, 998-1153: WriteOut, ReadStar with autodetection |
| FoldModel | StarFile.nw 2811-2925: line folding and prefixing |
| FormatModel, WriteModel, OrderModel | StarFile.nw 2430-2778, 2948-3098: CIFStringIO, _formatstring, printsection, templates, ordering |
| RegexModel, ScanModel, ParseModel, ReadModel | YappsStarParser.nw, yapps3_compiled_rt.py: tokens of four grammars, scanner, parsers, semantic actions |
| NumberModel | CifFile_module.nw 3409-3413, 4100-4122: numbers with standard uncertainty |
| TypeModel | TypeContentsParser.nw; CifFile_module.nw 4144-4259: type contents and conversion |
| ValidateModel, BlockCheckModel | CifFile_module.nw 1978-2680, 4060-4077: the validation checks |
| ValidBlockModel | CifFile_module.nw 290-311, 3517-3745: ValidCifBlock, AddCifItem |
| TreeModel, KeyModel | CifFile_module.nw 1059-1169, 1265-1315, 1523-1622: category tree, definition tables, keys |
| ImportModel | CifFile_module.nw 444-496, 1693-1741: imports |
| EditModel | CifFile_module.nw 1184-1247, 1371-1534: editing a dictionary |
| RecursionModel | CifFile_module.nw 4310-4338: track_recursion |
| DrelModel | drel/drel_ast_yacc.py 22-552, drel/py_from_ast.nw 228-898: dREL expressions and statements to python text |
| DeriveModel | StarFile.nw 1532-1590, 1620-1628; CifFile_module.nw 1035-1039, 2903-3050, 3062-3125, 3134-3282, 3305-3350, 3396-3403: reading and deriving items through a dictionary, building categories from others |
| DdlModel | CifFile_module.nw 530-575, 598-655, 698-773, 833-878, 1000-1030, 1138-1155, 3423-3437: loading DDL1 and DDL2 dictionaries |
| FlexModel | lib/star.l 41-164, lib/py_star_scan.c 60-150, yapps3_compiled_rt.py 186-190, 277-289: the compiled scanner, and the parsers of 1.0 and 1.1 on its tokens |
| ReportModel | CifFile_module.nw 1897-1945, 3807-4052, 4381-4394: Validate, ValidationResult, validation reports, find_parent |
| LexModel | drel/drel_lex.py 59-226 (with what PLY does with the rules): the tokens of dREL methods |
| RuntimeModel | drel/drel_runtime.nw 26-181: products, augmented assignments, eigenvalues (numpy's `eig` a parameter), strip, over exact whole numbers |
| DicMergeModel | CifFile_module.nw 4352-4374 (merge_dic) and StarFile.nw 738-742 (the single_block case of merge) |
| TypeInfoModel | CifFile_module.nw 2719-2745 (add_type_info, regex_fiddle) and the fragment of python's `re.compile` that the expressions of DDL2 dictionaries use (tokens, sets, repetition, groups, alternatives; not `\d` and the like, `{m,n}`, `^`, `(?`) |
| HeaderModel | drel/py_from_ast.nw 66-190 (make_python_function: what the generated function does under python 3 for all packets and for one, not its text; the translated body and the data are parameters), the indentation of the body (newlines only), `add_indent` 885-887 |
| OutlineModel | CifFile_module.nw 3446-3503: the order in which a DDLm dictionary is written (get_full_child_list, cat_from_name, recurse_child_list; without imports) |
| ValidFileModel | CifFile_module.nw 3763-3795: ValidCifFile, made from a file (not from a text) and its NewBlock; the dictionary is that of ValidBlockModel |
| GivenModel | StarFile.nw 837-896: WriteOut with blockorder and saves_after, and the names in its warning |
| FrameCheckModel | CifFile_module.nw 3857-3907: Validate on a file with save frames, with and without isdic (without 3876-3884) |
| PhraseModel | drel/drel_ast_yacc.py 99-401: expressions, from the tokens to the parse trees of DrelModel (functions that look ahead one token in place of PLY's tables) |
| SentenceModel | drel/drel_ast_yacc.py 22-97, 403-571: statements, from the tokens to the parse trees of DrelModel (functions that look ahead in place of PLY's tables; the types of a function's arguments are dropped) |
| TransformModel | CifFile_module.nw 2789-2877: transform_drel and add_drel_funcs, with py_from_ast.nw 66-111, 229-239, 889-895 (attributes are a definition's own; the text of the header is left out; executing a text defines the functions in it) |
| ObtainModel | CifFile_module.nw 1646-1684, 1693-1697, 1743-1789, 1157-1167, 561-562: obtain_imports, light imports and the search in imported dictionaries (block names are ids; attributes are merged without loops; the printed messages are left out) |
| AdoptModel | CifFile_module.nw 1795-1851, 1169-1182, 1322-1324: get_whole_dict, get_one_cat, add_one_defn, get_one_cat_with_children (definitions are values that dictionaries do not share; no imports) |
| VerdictModel | CifFile_module.nw 2004-2023, 2048-2061, 1927-1941: validate_item_esd_ddlm, validate_item_container, the checks installed for a DDLm dictionary (s.u.s are rationals) |
| ScopeModel | CifFile_module.nw 1348-1357: ddlm_parse_valid (a scope that is no text raises TypeError; the depth of categories is bounded by a parameter) |
| SemanticModel | StarFile.nw 1306-1311, 2264-2312, 2321-2360: merge_packet, GetMultiKeyedSemanticPacket, GetKeyedSemanticPacket (the block reads its items as without a dictionary; the attributes for deriving further values, cif_dictionary and fulldata, are left out) |
| SurveyModel | StarFile.nw 272-278, 391-397, 789-797, 812-823: checklengths, items, first_block, checknamelengths, get_all; CifFile_module.nw 3872-3885: what Validate collects for DDL2 (linked items are texts) |
| PointerModel | yapps3_compiled_rt.py 135-158, 192-202, 327-380: line and column, print_line_with_pointer, print_error, the last tokens (repr of a token's text and the arguments of a rule left out) |
| BufferModel | lib/py_star_scan.c 47-194: the list of tokens of the compiled scanner and its memory (allocation never fails; line numbers and reference counts left out; an access to memory that is not there is None) |
| AttrModel | StarFile.nw 1313-1330: StarPacket.__getattr__ of packets that know their dictionary (derive_item is a parameter) |
| LengthModel | StarFile.nw 846-858, 950-953, 2521-2528, 2535-2544: lengths of lines and what WriteOut tells the blocks |
| UpdateModel | StarFile.nw 303-304, 361-365, 374-389: get, update and copy of collections of blocks; CifFile_module.nw 257-259: that CifBlock.copy fails |
| RemovalModel | CifFile_module.nw 2462-2472: validate_remove_parent_child |

## Results per property

| id | property | status | file | what is proved, what is missing or refuted |
|----|----|----|----|----|
| C01 | Datanames are case-insensitive keys | proved | PropertiesBlock.v | As stated. |
| C02 | A block is a map: read-your-writes and frame | proved | PropertiesBlock.v | frame holds for every operation of the editing interface, successful or failing |
| C03 | Every dataname has exactly one place in the output order | proved | PropertiesBlock.v | CreateLoop with a repeated name (outside the quantifier) is refuted separately |
| C04 | Locked blocks never lose data to AddItem | proved | PropertiesBlock.v | As stated. |
| C05 | CreateLoop fails without touching the block | partial | PropertiesBlock.v | proved when the character set / name limit was not changed after storing; refuted otherwise |
| C06 | CreateLoop builds the requested loop and only that | proved | PropertiesBlock.v | As stated. |
| C07 | Deleting a dataname removes every trace of it | proved | PropertiesBlock.v | As stated. |
| C08 | AddLoopName only admits a column of the right length | partial | PropertiesBlock.v | the clause that a single text value is never admitted is false of the code (refuted) |
| C09 | No loop without datanames survives | partial | PropertiesBlock.v | false of the code for AddLoopName/AddToLoop and CreateLoop([]); proved for all other histories |
| C10 | Reordering is a permutation that puts the item where asked | partial | PropertiesBlock.v | moving a loop by its number raises AttributeError (refuted) |
| C100 | Parentheses and newlines in dREL methods | proved | PropertiesLex.v | For every text the lexer accepts, from every state. |
| C101 | dREL tokens written with blanks are read back | proved | PropertiesLex.v | Else is left out because 'else if' is one token; numbers with exponents, comments, operators of several characters and parentheses are covered by C99 only. |
| C102 | Strings, else-if and line numbers in dREL methods | partial | PropertiesLex.v | False of the code in all five parts; C102_long_greedy says what happens to long strings instead. |
| C103 | Multiplication in dREL methods follows its rules | partial | PropertiesRuntime.v | Exact whole numbers; matrices on the right have at least two rows. False for a matrix of one row on the right, which is taken for a list, and for a number times a list, which is given as a matrix. |
| C104 | Augmented assignments and strip in dREL methods | partial | PropertiesRuntime.v | Flat lists of exact whole numbers for the arithmetic. False: a list += a text gives None, a number += a list is refused, --= changes the list in place. |
| C105 | Eigenvalues in dREL methods | partial | PropertiesRuntime.v | numpy's eig is a parameter with its documented meaning (vectors as columns). The values are right; the vectors only when the matrix of vectors is symmetric. |
| C106 | Merging dictionaries keeps all definitions | partial | PropertiesDicMerge.v | Proved for a DDL1 dictionary and any number of files of further definitions (C106_many). False for two whole dictionaries of any kind: DDL1 always fails (C106_ddl1_fails), DDL2 and DDLm lose all definitions of the later ones (C106_one_block) or fail when read from files (C106_read_fails), and with several blocks the later ones are ignored (C106_several). Making a CifDic of the result is not part of the model. |
| C107 | The expressions of types are mended in their sets and nowhere else | partial | PropertiesTypeInfo.v | C107_fiddle says exactly what is changed (C107_exact: the specification leaves no choice), and C107_one_line that an expression in one line loses nothing. False are: every mark (only the last one, and not directly after the bracket), only in sets (also between two sets), nothing lost (of two lines). |
| C108 | The types of a DDL2 dictionary are entered, and their sets are read as written | partial | PropertiesTypeInfo.v | Proved for types in a loop and for sets of plain characters, ranges of plain characters and the usual escapes other than a backslash. False for one type that is not looped and for a range that ends in \{. Compiling covers the fragment of python's re that is written in the model. |
| C109 | A method computes the same for a column and for each of its packets | partial | PropertiesHeader.v | Proved for required columns and missing options. False if an optional item is there, if nothing but missing options is named, if the number of the row is used for one packet or together with an item, and for an item that is not looped. The body is a parameter. |
| C11 | Packets are the transpose of the columns | proved | PropertiesLoop.v | As stated. |
| C110 | Indentation does not change the text of a method | partial | PropertiesHeader.v | Every piece of the text without a newline is kept; a constant over several lines gains spaces. Lines end at newlines only in the model. |
| C111 | A dictionary is written completely, categories before their members | partial | PropertiesOutline.v | Proved for dictionaries without cycles whose blocks are named by their definition ids, with definitions outside the tree as long as no category outside is within another one, all name their category and have a name with one period. Each of these conditions is needed: the refuted theorems show failures (or a definition left out) otherwise. Imports are not followed. |
| C112 | Every well formed file is read, in one way | proved | PropertiesWhole.v | Converse of C94 with tokens described in WholeSpec without the scanner. Lines of a text field that start with a hash sign are left out: they may be lost (C31_refuted). The rule of STAR2 that starts a table anew (C94_pairs_refuted) is part of the grammar here. |
| C113 | A file written by hand is stored as it stands | proved | PropertiesHand.v | End to end from the text (WholeSpec) to the collection. Loops without names lose their values (C28_no_names_refuted), frames within frames and equal frame names are C52_nesting_refuted and C52_same_name_refuted; they are excluded in the hypotheses. The refusal is for a grammar that is named; 'auto' may go on to the next grammar. |
| C114 | A file converted to another grammar says the same | partial | PropertiesConvert.v | Proved for contents that the other grammar can express (part_writable), and every file of grammar 1.0 or 1.1 with ordinary texts is one (C114_older). The last part is refuted: lists and datanames outside ASCII are written in the older grammars without complaint and read as a text or not at all. |
| C115 | A file of checked blocks holds only blocks that pass | partial | PropertiesValidFile.v | The constructor is exact for the blocks that keys() lists, and names in lower case are added as they should be. Refuted: save frames are not checked, a refused block stays in the file, and a name with capitals always ends in a KeyError after the block was stored unchecked. |
| C116 | A file written in a given order has exactly the blocks listed | partial | PropertiesGiven.v | Proved for the grammars without nested frames. Refuted: saves_after has no effect, names with capitals are refused although blocks are found by them elsewhere, and in STAR2 the warning names frames that were written. |
| C117 | Validating a dictionary checks all its frames, and nothing else changes | partial | PropertiesFrameCheck.v | Which blocks are checked and how they are called is proved. Refuted: after a dictionary was checked its frames stay visible, and a dictionary without data blocks ends in an IndexError. |
| C118 | dREL expressions have one tree, the one that the binding of the operators gives | partial | PropertiesPhrase.v | The tables PLY makes of the grammar are replaced by functions that look at the next token and shift where PLY shifts. Refuted: a number with a point beside a name or number is read as an attribute without its first digit. |
| C119 | dREL methods have the trees that their statements give them | partial | PropertiesSentence.v | PLY's tables are replaced by functions that look ahead; completeness is for methods without the two ambiguities. Refuted: one reading for every method, a body that begins with a sign, a newline after else. |
| C12 | AddPacket appends one row to every column | partial | PropertiesLoop.v | Successful case proved for all loops; failing calls leave the loop ragged and the output spelling is lost (refuted). |
| C120 | Each definition gets the translations of its own methods | partial | PropertiesTransform.v | Attributes are a definition's own, tokens are read before they are parsed, the text of the function header is not modelled. Refuted: one method that can not be translated stops the whole dictionary; so does a method under a name without a period; a form feed in a text constant becomes a newline; texts without a purpose are dropped. |
| C121 | The functions of a dictionary are all loaded, the last of a name wins | partial | PropertiesTransform.v | Executing the text is taken to define the functions in it and nothing else; what is a list is taken to be looped. Refuted: a function without a brace at its end is refused and stops the loading; so does one whose method is not in a loop; a function can replace one of the module itself. |
| C122 | Definitions are looked up in the own dictionary first, then in the imported ones, the last one first | partial | PropertiesObtain.v | Block names are ids. Refuted: imported definitions are found in lower case only; what an imported dictionary imports itself is not found. |
| C123 | Imports are resolved as the entries ask | partial | PropertiesObtain.v | Attributes are merged without their loops (C40); the theorems on heavy imports of attributes are for one definition and files without further imports; heavy imports of whole dictionaries are in C60. Refuted: dictionaries that import each other are never finished; a definition can not override an attribute it imports with heavy imports; dupl Replace does not replace; light imports do not notice what is imported twice. |
| C124 | Taking over a category brings the category and its members and nothing else | partial | PropertiesAdopt.v | Definitions are values that the dictionaries do not share; for ids that are not names of other blocks and a category that is not a member of itself. Refuted: taking a category a second time fails although duplicates are to be ignored; replacing keeps the old definition; after an error part of the category has been added; a dictionary with nested categories can not be taken as a whole; a category with those below it is never taken. |
| C125 | Standard uncertainties where DDLm asks for them | partial | PropertiesVerdict.v | The check is exact where it applies, but the attribute it asks for is the text 'self.primitive_type', which no definition has, so that it never applies. Refuted: a measurand without an s.u. and a number with one are not reported; the check of containers (not installed) never gives a verdict. |
| C126 | What a DDLm dictionary asks of a block | partial | PropertiesVerdict.v | For blocks for which all checks give an answer: items and categories known, enumerations that are lists, a key for each uppermost category, an entry for the scope of the block. Refuted: types, containers and ranges are not looked at. |
| C127 | Mandatory and prohibited attributes as the dictionary lists them | partial | PropertiesScope.v | For rows whose scope and attributes are lists of texts. Refuted: of two rows for the same scope and requirement only the last one counts; a single row given without a loop is an error. |
| C128 | The packet for a key joins the rows of all loops of its category | partial | PropertiesSemantic.v | The block reads its items without a dictionary: no conversion, aliases or derived keys; where case does not count, the key columns and the value asked for are texts. Refuted: case of every key is treated as the first key's type says; a key present without a value is an error about a variable, or puts an earlier row in twice. |
| C129 | A compound key finds its row also beside child categories | partial | PropertiesSemantic.v | C129_compound is for blocks that have the keys of one category of the table only. Refuted: as soon as the keys of a child category are in the block there is an exception; if they are not, the packet names no key; a key that no row has gives an empty packet. |
| C13 | Keyed packet lookup is sound and unique | partial | PropertiesLoop.v | Case-insensitive lookup proved for text columns; a number in the key column raises AttributeError (refuted). |
| C130 | Looking over all blocks misses nothing and repeats nothing | proved | PropertiesSurvey.v | Beyond the statement: values in hidden save frames are left out; a value that is itself a list is taken apart; checking a dictionary against one in DDL2 that links items always fails before the checks, because the values collected would have to be stored as a block. |
| C131 | A syntax error is reported at its place | partial | PropertiesPointer.v | The pointer is right if no carriage return is among the 80 characters before the place; with CR LF line ends it is off by one, and a lone carriage return brings several lines into the picture. With the compiled scanner every error is reported on line 1, column 0. The line shown may be longer than the 80 columns assumed. |
| C132 | The list of tokens of the compiled scanner is sound | partial | PropertiesBuffer.v | Memory is safe for all calls but cleanup, which frees the list and keeps the pointers: every text prepared after it frees them again. It also returns NULL without an exception. The list is shared by all scanners. What follows a NUL is not read and not reported. |
| C133 | An attribute that a packet lacks is calculated for its own row | partial | PropertiesAttr.v | The row is that of the packet if its keys are unique without regard to case and in one loop with the item. It is an error for keys that differ only in case, for an item of the second loop of a category, and for packets found by compound keys that have no keys or not the values of their keys. derive_item is a parameter. |
| C134 | Writing a file tells every block the lengths, grammar and template of the file | partial | PropertiesLength.v | What the blocks are told is proved, and that a length to wrap at greater than the maximum is refused. It is refuted that the lengths bound the lines, that the argument maxoutlength can be used, that a file with a maximum below 80 can be written with the default arguments, that a failed call changes nothing, and that earlier output has no influence on the list delimiter. |
| C135 | Updating a collection with other blocks adds them at the top and keeps what was there | partial | PropertiesUpdate.v | Proved for new names, for the first name refused and, without a standard, for the replacement of a visible block. It is refuted that get finds save frames, that names of another collection keep their capitals and its save frames their place, that blocks are replaced as by a python dictionary, and that a collection can be copied. Missing: names of save frames that are there, and updating a collection with itself. |
| C136 | An item may be removed only if none of its children is in the block | partial | PropertiesRemoval.v | Proved for the names in the definition; refuted for their aliases, which the check of the values of children does look for. The code never runs this check, since the method that is to run it does not exist (ValidBlockModel). |
| C14 | Compound key lookup equals filtering on all keys | proved | PropertiesLoop.v | python's str() of non-texts is a parameter |
| C15 | RemoveKeyedPacket deletes exactly the matching row | partial | PropertiesLoop.v | Proved for loops built through the interface, refuted for loops read from a file. |
| C16 | Exact acceptance of datanames | partial | PropertiesBlock.v, PropertiesScan.v | Acceptance is characterised exactly for ASCII and for names of the basic plane, and accepted names of two or more characters are read back as one data_name token by every grammar (basic plane: 2.0 and STAR2). The statement fails for allowed characters beyond the basic plane, which are refused (C16_astral_refuted); a lone underscore is accepted but unreadable. |
| C17 | Exact acceptance of values | proved | PropertiesBlock.v | texts nested deeper than one list are not checked by the code (finding) |
| C18 | Line folding is lossless | proved | PropertiesFold.v | For all texts and widths. The two _refuted theorems show the conditions are needed (backslash-blank line ends; a short text that itself starts with a folding header). |
| C19 | Folding terminates and bounds line length | proved | PropertiesFold.v | Bound max(min+max-1, max+1), below min+max or equal to it; attained. Lines longer than the documented maximum are a finding (C19_target_refuted). |
| C20 | Text prefixing is lossless | proved | PropertiesFold.v | Blanks after the backslash of a folding header are dropped, as the statement says; one-character prefixes are lost (finding). |
| C21 | Prefixed text never contains a premature terminator | proved | PropertiesFold.v | As stated. |
| C22 | Delimiter choice is valid for the content | partial | PropertiesFormat.v | Proved for all grammars, widths, requests and texts, except that triple quotes are allowed around any content: refuted by a witness ending in the quote. |
| C23 | A written value is read back as the same value (1.0/1.1) | partial | PropertiesFormat.v | Round trip proved for every text, requested delimiter and width under the condition readable; stop_ words, loop_ and verbatim text fields are characterised exactly. For folded or prefixed text fields the condition (no line ending in backslash-blank, not starting like a folded text, no hash line) is sufficient and not shown necessary. The 'reformat' hint is not modelled. |
| C24 | A written value is read back as the same value (2.0/STAR2) | partial | PropertiesFormat.v | As C23 for grammars 2.0 and STAR2, with triple quotes and brackets or commas following directly; triple_ok is shown necessary only by a witness. |
| C25 | The writer never inserts characters inside a value and always separates tokens | partial | PropertiesWrite.v | Every sequence of writes yields the supplied strings and blanks only (separators may be left out); printing a block of texts keeps all tokens apart for every content and hints without column 0. As stated the property fails: a column hint of 0, a list earlier in the row, or a table after a long name glue tokens together (refuted with witnesses), and an empty string on a full line raises IndexError. |
| C26 | Write then read gives back the same block (CIF 1.1) | partial | PropertiesOrder.v, PropertiesWrite.v | Printing any list of blocks of texts and loops, parsing and reading gives blocks with the same values, loops, spelling and order, for all texts satisfying the read-back condition of C23 (all ordinary texts do). A loop without rows is written but is unreadable (refuted). C26_template covers output with the hints of any template for texts that are read back with every delimiter asked for; C26_ordinary_hinted gives such texts. |
| C27 | Nested lists and tables survive write and read (CIF2) | partial | PropertiesWrite.v | The same for nested lists and tables of any depth in CIF2 and STAR2; lists are read back as STAR lists. Not covered because they fail: keys with quotes (refuted), texts next to each other in loops with lists, tables after names of 80 or more characters (C25), loops ending in an empty list (C28). |
| C28 | Loop values are distributed round-robin to columns | partial | PropertiesRead.v | Proved for all numbers of names and values unless the last value is an empty list, where the code loses it (refuted); a loop without names loses its values (refuted). |
| C29 | Duplicate datanames in a file are rejected | proved | PropertiesRead.v | at the level of parsed entries; the tokens that make up the entries are in the scanner part |
| C30 | The scanner takes the longest match, the first on ties, and always terminates | proved | PropertiesScan.v | For all grammars, restrictions and inputs. |
| C31 | Text fields are read verbatim | partial | PropertiesScan.v | Refuted as stated: lines after the first that start with a hash sign are dropped. Proved verbatim when no later line starts with a hash sign, and exactly which lines are lost otherwise. |
| C32 | Input truncation and line-length limit | proved | PropertiesFile.v | For texts read without the CBF option (with it, binary sections are cut out before Ctrl-Z is looked for). Findings: autodetection can refuse a text that grammar 1.1 reads, because the blocks of the failed first attempt stay in the collection; an empty file gives None. |
| C33 | Block collections are case-insensitive maps with an order | partial | PropertiesCollection.v | Proved for histories whose named parents exist, that create no cycle, and that delete or rename only visible blocks (with everything below them when deleting). Outside these: a missing parent is accepted with a warning and leaves a block that cannot be written or deleted (C33_parent_refuted); set_parent can create cycles (C33_cycle_refuted). |
| C34 | NewBlock never overwrites an existing block when a standard is set | proved | PropertiesCollection.v | For every consistent collection with a standard, every name, and every parent that exists (missing parents: C33_parent_refuted). |
| C35 | Deleting a block deletes exactly its descendants | partial | PropertiesCollection.v | Holds when the block and everything below it is visible, so for all blocks under dictionary scoping. Under instance scoping a data block with save frames cannot be deleted: the attempt fails half-way (C35_hidden_refuted). |
| C36 | Renaming a block preserves contents, position and children | partial | PropertiesCollection.v | Holds for visible blocks; renaming a hidden block fails half-way and loses the block (C36_hidden_refuted). |
| C37 | Child tests and child listings are the transitive closure of the parent relation | partial | PropertiesCollection.v | The tests and listings are the transitive closure; get_children goes by printed names instead of keys and can list a block among its own children (C37_get_children_refuted). |
| C38 | Every block is written exactly once | proved | PropertiesCollection.v | The order of output of WriteOut for grammars 1.0, 1.1 and 2.0 and default block order. |
| C39 | Merging collections never silently loses a block in strict mode | partial | PropertiesCollection.v | Holds when no common name also occurs with plus signs appended. Otherwise blocks are lost silently (C39_lost_refuted, C39_suffix_refuted); a data block a followed by one with a save frame a raises AttributeError after re-keying (C39_no_parent_refuted). |
| C40 | Strict block merge is disjoint union; replace merge overrides | partial | PropertiesMerge.v | Strict mode refuses every common dataname that is not excepted and otherwise gives the union; replace mode gives the incoming values and keeps all others; loops and spelling are described too. Needed: the loops of the incoming block are tables, and in strict mode no excepted dataname is looped. Refuted beyond that: strict mode is not atomic, replace mode does not spare excepted names, raises on blocks read from a file (overwrite is off), and can put a single value into a loop. |
| C41 | Numeric values and standard uncertainties are read exactly | partial | PropertiesNumber.v | Numbers are exact rationals in the model (python float rounding and overflow not modelled). Every numeral with optional minus, digits, point, s.u., exponent is read exactly and any text gives the value of its longest numeral prefix. Refuted: a plus sign is not read, an s.u. after the exponent is dropped, trailing text is ignored; float_with_esd drops an exponent after an s.u. and refuses d exponents. |
| C42 | Enumeration-range check equals the mathematical range | partial | PropertiesValidate.v | Exact for looped or one-sided ranges with plain numeral bounds. Refuted for a range given without a loop, which is taken character by character; text after the number is ignored. |
| C43 | Enumeration check accepts exactly the listed values | partial | PropertiesValidate.v | Exact for a list of enumerated values. Refuted for a single enumerated value given without a loop: AttributeError. |
| C44 | Key uniqueness check | partial | PropertiesValidate.v | Passing implies unique rows for all values; the converse holds when no value contains a space, and is refuted otherwise. Columns are lists of texts. |
| C45 | Parent-child check | partial | PropertiesValidate.v | Exact when the parent item is present and when it and its alternates are absent. Refuted for alternates spelled with capitals. |
| C46 | A block is reported valid exactly if no check failed | proved | PropertiesValidate.v | For arbitrary check functions; a check that raises makes the run raise. |
| C47 | Derivation never recurses into itself and always restores its call stack | partial | PropertiesRecursion.v | The watch looks at the item name only. C47_other_block_refuted shows that a derivation which reaches the same name in another block or dictionary is refused although it would end. C47_default_keyword_refuted shows that a call without the keyword leaves the outermost body to its own default while nested bodies get False. |
| C48 | Category tree queries are closures | proved | PropertiesTree.v | Danglers are the definitions whose category is not defined as a category together with everything below those; C48_connected is the case of none. Outside the stated quantifier: with a cycle the walk never ends (C48_cycle_refuted); the semantic-child test is case sensitive (C48_semantic_child_case_refuted); a missing or second Head gives TypeError (C48_no_head). |
| C49 | Import precedence in dictionary definitions | partial | PropertiesImport.v | Proved when every import resolves. An own attribute cannot be read if an imported file or frame is missing (C49_missing_refuted), nor if one entry is in mode full (C49_mixed_modes_refuted); get and `in' do not see imported attributes (C49_get_refuted); attributes that an imported definition imports are not found (C49_transitive_refuted). |
| C50 | Template ordering prints each item once, requested ones first | proved | PropertiesOrder.v | For every block and every template: each entry exactly once, requested ones first in the requested order, the others in their previous order; columns likewise; ordering twice changes nothing; output up to and from a dataname is a partition. The hints' datanames are modelled as process_template collects them; columns and delimiters of hints are arbitrary. Refuted for hints assigned directly with a name twice in different case. |
| C51 | Data type contents strings parse to the intended nesting | proved | PropertiesType.v | Nesting is kept; the name of the container is not (C51_container_refuted). |
| C52 | Whole files survive writing and reading | partial | PropertiesFile.v | Grammars 1.0, 1.1 and 2.0, collections without the dictionary layout, no template; values as in C27. Nested save frames come back directly inside the data block (refuted for nesting). Findings: items after a save frame named like its data block go to the frame in 1.x; dataname length is not checked in save frames. |
| C53 | Type check accepts only values that match the dictionary's expression | partial | PropertiesValidate.v | Sound up to the empty text; exact for a repeated character class. Refuted for ordered alternation and for the empty value. The rewriting of expressions by regex_fiddle is C107. |
| C54 | Child, dependent and exclusion checks | partial | PropertiesValidate.v | Exact with names compared as the code does; refuted for dependents spelled with capitals. |
| C55 | Loop checks | partial | PropertiesValidate.v | Key check exact for a list of keys without alternates. Refuted: membership never fails outside DDLm; a single key name is taken character by character; alternates of a key never help. |
| C56 | Standard uncertainty check | proved | PropertiesValidate.v | Uses the numeral specification of C41. |
| C57 | Definitions are found by id | partial | PropertiesTree.v | Proved for ids that differ ignoring case. Ids that differ only in case are accepted and one definition is lost (C57_case_duplicates_refuted); a definition added later with capitals in its id is not found (C57_added_refuted). |
| C58 | Loop categories are grouped under their uppermost parent | proved | PropertiesTree.v | A loop category that is its own parent makes the table loop for ever (C58_own_parent_refuted). |
| C59 | Expansion of categories | partial | PropertiesTree.v | names_in_cat with names_only returns subcategories too (C59_names_only_refuted). |
| C60 | Full import of one dictionary into another | partial | PropertiesImport.v | Proved for heads of different names. The import of a category that is not a head always fails (C60_category_fails, C60_category_refuted); two heads of the same name delete the importing dictionary's own head (C60_same_head_refuted). |
| C61 | List values are converted element by element | partial | PropertiesType.v | Elements that are lists themselves are not converted at all (C61_nested_refuted). The conversion of one value by a named type is a parameter; Real is C41. |
| C62 | Loop references are checked | partial | PropertiesBlockCheck.v | Decided exactly for single names that are in the dictionary; a missing group is never reported and an undefined reference raises KeyError (both refuted). |
| C63 | Mandatory categories are checked | partial | PropertiesBlockCheck.v | Exact when all items are in the dictionary and categories are compared as spelled; refuted for spelling by case and for items not in the dictionary. |
| C64 | Mandatory and prohibited attributes of definitions | partial | PropertiesBlockCheck.v | The two checks are exact for scopes in the table; refuted: run_block_validation drops the scope, and scopes not in the table raise KeyError. |
| C65 | Keys of loop categories | partial | PropertiesKey.v | The table is exact for two levels of loop categories and cannot be built for three (proved for every such dictionary). The check is characterised exactly; refuted: part of a compound key is enough, a child loop with its own key is reported, keys with capitals are not found. |
| C66 | Data names from category and object | partial | PropertiesKey.v | Sound for every dictionary; complete for a category's own items and those of the loop categories directly below; refuted for deeper ones. |
| C67 | The hierarchy of keys | partial | PropertiesKey.v | Exact whenever the table is computed; refuted: a link that differs from the key in capitals stops the loading. |
| C68 | Blocks that check their items | partial | PropertiesValidBlock.v | Refuted: del on an item and AddToLoop always raise; an accepted item can make the whole block invalid; CreateLoop is unchecked; names outside the dictionary are accepted by AddItem but stop the constructor. |
| C69 | Items added in the deprecated way | partial | PropertiesValidBlock.v | Proved for lists; refuted for texts, which are split into characters. |
| C70 | Merging collections | partial | PropertiesCollMerge.v | Proved for merges without names in common and for refusal of visible common names; replace mode in a collection with a standard, overlay mode, atomicity, match_att and printed names that are not unique are refuted. |
| C71 | Selecting blocks | partial | PropertiesCollMerge.v | Proved exactly which blocks are selected, and consistency for distinct existing names; absent and repeated names are refuted. |
| C72 | Renaming a dictionary definition changes that definition and no other | partial | PropertiesEdit.v | Proved for dictionaries whose frames carry the definition ids. Refuted: a refused change leaves all definitions unlocked; a change of capitals only is refused; where the frame has another name than the id such a change deletes the definition from the keys; the category/object table keeps the old name; the dictionary block itself can never be renamed. |
| C73 | Moving a definition to another category is complete or does nothing | partial | PropertiesEdit.v | Refuted part: when the new id is taken the move raises with the category and the id of the definition already changed and the dictionary unlocked. |
| C74 | Renaming a category carries its members along | partial | PropertiesEdit.v | The renaming is proved with the keys the code gives. Refuted: the keys of the items lack the underscore of their ids, so no renamed item is found by its id (proved for every dictionary with an item in the category, C74_lost); a refused renaming leaves the dictionary unlocked. |
| C75 | New categories and items are added without touching other definitions | partial | PropertiesEdit.v | Proved for names without blanks and objects without capitals. Refuted: an added item with capitals is not in the dictionary; add_definition leaves it unlocked (in C75_item_partial); a missing parent raises after the block was added; without a Head category the documented fallback raises; a name with a blank gets a frame of another name. |
| C76 | Removing a definition removes exactly what is below it | partial | PropertiesEdit.v | Proved when no category is below itself (well_founded_cats). Refuted: for a category that is its own parent the recursion never ends. |
| C77 | dREL expressions keep their meaning in python | partial | PropertiesDrel.v | Proved for expressions whose names are python names and whose slices are complete, with data items reached by tag, alias or key; refuted for & above /, lists outside an assignment, slices without their first element, sort, functions of degrees with two arguments, python's words as names, numbers with leading zeros, a packet left unused before an attribute; names found through a key keep their capitals. |
| C78 | The blocks of a dREL method are the blocks of the python text | partial | PropertiesLayout.v | Proved for methods whose names and literals are in one line; refuted for a text of several lines within a block, which is moved with the block. |
| C79 | Reading a derived item ends | proved | PropertiesDerive.v | For arbitrary methods, given as programs that ask for names of a finite set; categories may be built from others in circles. |
| C80 | Deriving an item loses nothing | partial | PropertiesDerive.v | Well-formedness and what may be added are proved without conditions. That nothing is lost needs a block without wholly unknown items and a dictionary that does not define a category as an item; refuted for an item that is a question mark. |
| C81 | Derived values are kept | partial | PropertiesDerive.v | Proved for items without aliases whose category has no method and in a dictionary without categories that are built from others; refuted for a looped category without rows. |
| C82 | Aliases stand for one another | partial | PropertiesDerive.v | Proved where the item that is present is read as it is stored (not defined itself, or conversion switched off); refuted for a single alias given outside a loop and for other capitals. |
| C83 | Defaults are the last resort | partial | PropertiesDerive.v | Refuted for defaults indexed by an item that is not a code, and for a category whose method cannot be carried out. |
| C84 | Categories built from others have the right rows | partial | PropertiesPullback.v | Proved when keys are unique, all columns are present and filter values are distinct; refuted without these. |
| C85 | The way back from a category that was built | partial | PropertiesPullback.v | Proved for one source and distinct names; that keys are unique is refuted. |
| C86 | DDL1 definitions are filed under their names | partial | PropertiesDdl.v | Proved when all names differ and the keys are in lower case; refuted for two blocks with one name and for a name with capitals whose key is the same name in lower case. |
| C87 | Attributes of DDL1 definitions are completed | partial | PropertiesDdl.v | Proved for ranges whose ends are numbers without d exponents and in order; refuted for the others. |
| C88 | A loaded DDL1 dictionary is complete | partial | PropertiesDdl.v | Proved for dictionaries with distinct identifiers whose items name their categories with the capitals of the identifiers; refuted for two descriptions of a category, for other capitals and for the marker for descriptions. |
| C89 | A DDL2 dictionary loads | partial | PropertiesDdl.v | Proved for definitions of one item without other names; refuted for definitions of several items and for other names, which stop the loading. |
| C90 | The compiled scanner finds the same tokens | partial | PropertiesFlex.v | Proved for texts of printable ASCII, tab and newline, for a loop_ that is followed by a blank, for values other than loop_ and, in 1.0, not starting with a bracket; outside text fields for every restriction of the parser, within them where a line does not start with a hash sign. Refuted for form feeds in a text field and for a carriage return at the end. |
| C91 | A file read with scantype='flex' is the same file | partial | PropertiesFlex.v | Proved for texts of printable ASCII, tab and newline where no line of a text field starts with a hash sign, no loop_ runs into a name or comment, and the values read are not loop_ and, in 1.0, do not start with a bracket. Refuted without each of these conditions. |
| C92 | The compiled scanner ends, and outside text fields it skips only blanks and comments | proved | PropertiesFlex.v | For all texts; characters as in FlexModel (one character per byte). |
| C93 | Parsing ends with data or a syntax error | proved | PropertiesGrammar.v | For all texts and all four grammars; data actions (building blocks) are applied after parsing in the model. |
| C94 | What is read stands in the file | partial | PropertiesGrammar.v | Soundness for all texts and all four grammars; the STAR2 rule for tables loses pairs that have no comma before them (refuted, and visible as its own rule in GrammarSpec). The converse is C112. |
| C95 | Validate reports what the checks find in each block | partial | PropertiesReport.v | The given file is changed: unknown items are deleted from it (refuted). Validation of dictionaries (isdic) is C117. |
| C96 | A validation report shows every failure once | partial | PropertiesReport.v | Contents proved for every report; refuted: two DDLm checks have no explanation (KeyError), repeated keys are shown letter by letter, columns are headed by the first row only, HTML is not escaped. |
| C97 | ValidationResult answers for a block and for the file | partial | PropertiesReport.v | Proved for a named block; without a name both methods raise AttributeError in python 3 (refuted). |
| C98 | find_parent finds the one item that is not a child | partial | PropertiesReport.v | Proved for lists of children; a single child given as a text is searched as a text (refuted). |
| C99 | The tokens of a dREL method are those of a declarative reading | proved | PropertiesLex.v | The reading ([reads] of LexSpec) is stated without regular expressions. PLY itself is not in the repository: the order in which it tries rules, ignored characters and literals is taken as documented. Values of binary, octal and hexadecimal numerals are part of the statement. |

## Findings

Each line is a machine-checked witness that the model, transcribed from the code, behaves differently from what
the property (or the documentation, or the rest of the code) asks for. The theorem name is given first.

* `C03_repeated_names_refuted`: Without the distinctness condition the property fails: CreateLoop accepts a repeated name and the column would be printed twice.
* `C05_atomic_refuted`: When the character set was changed after a value was stored, a failing CreateLoop leaves the block half converted.
* `C08_single_text_refuted`: A single text value whose number of characters equals the number of rows is admitted as a column.
* `C09_addloopname_refuted`: Moving the only column of a loop into another loop leaves an empty loop.
* `C09_create_empty_refuted`: CreateLoop with an empty list of names makes a loop without columns.
* `C10_move_loop_refuted`: A loop (given by its number, as the documentation allows) can not be moved: the call raises AttributeError as soon as the block has a loop.
* `C102_two_long_refuted`: Two long strings in one method are read as a single one, with everything between them: the repetition in the rule is greedy (drel_lex.py 154).
* `C102_escape_refuted`: A backslash before a quote does not keep a short string open, although the rule has an alternative for it (drel_lex.py 159).
* `C102_else_name_refuted`: A name that starts with "if" is cut in two when it follows "else" (drel_lex.py 164).
* `C102_capitals_refuted`: "ELSE IF" is known in capitals, "ELSE" and "IF" alone are not.
* `C102_lines_refuted`: The line number grows by the length of the text of a newline token, blanks included, and not at all inside parentheses (drel_lex.py 219, 61).
* `C103_one_row_refuted`: A matrix of one row on the right is taken for a list, so a product that exists is refused: the column of 1 and 2 times the row of 3 and 4 (drel_runtime.nw 127-129).
* `C103_unfit_refuted`: For the same reason a product that does not exist is given: rows of two numbers cannot be multiplied by a matrix with one row of two (drel_runtime.nw 127-129).
* `C103_number_list_refuted`: A number times a list is not a list but a matrix of one row, the case that the text before the function says has to be avoided, as its second element does not exist (drel_runtime.nw 101-107, 140).
* `C104_list_text_refuted`: A list += a text gives nothing at all instead of an error (drel_runtime.nw 51-58).
* `C104_number_list_refuted`: A number plus a list is the list of the sums, but a number += a list is refused (drel_runtime.nw 58, 147).
* `C104_remove_changes_refuted`: --= changes the list itself, so another name for the same list sees it; the others make a new one (drel_runtime.nw 77-79).
* `C105_rows_refuted`: numpy gives the vectors as columns, but rows are taken: for the matrix with rows 1 1 0, 0 2 0, 0 0 3 the vector given with 2 is no eigenvector (drel_runtime.nw 159-164).
* `C106_ddl1_refuted`: Two DDL1 dictionaries that define different items cannot be merged in any mode, because both have a block on_this_dictionary: the block is not skipped, and replacing it is refused in a file held to the CIF standard (CifFile_module.nw 4362-4364).
* `C106_ddl2_refuted`: Of two DDL2 dictionaries only the main blocks are merged, without an error: the definitions of the second one, which are save frames, are lost (CifFile_module.nw 4365-4371).
* `C106_several_refuted`: Where the first dictionary has several data blocks and no on_this_dictionary, the others are ignored without an error (CifFile_module.nw 4362-4365).
* `C107_every_refuted`: Of two sets that have \n only the second one is mended.
* `C107_first_refuted`: Nor is a \n directly after the opening bracket.
* `C107_outside_refuted`: A \n between two sets is changed as well: a value that the expression of the dictionary matches is then not matched.
* `C107_lines_refuted`: Of an expression in two lines the second one is dropped when the first one is mended, with the $ in the end.
* `C108_single_refuted`: A dictionary with one type can not be used at all.
* `C108_range_refuted`: A range that ends in \{ shrinks: the letters are no longer matched.
* `C109_optional_refuted`: An optional item that is there: a packet of the whole column gets the value of its row, a single packet gets all values of the item.
* `C109_endless_refuted`: If all that a method names is optional and missing, the column has no end.
* `C109_row_refuted`: A method that uses the number of its row and another item can not be compiled.
* `C109_number_refuted`: One that uses its number only works for the column and fails for every packet.
* `C109_scalar_refuted`: An item of the category that is not looped is taken letter by letter.
* `C110_constant_refuted`: A text constant in two lines has eight spaces more than was written, and four more for every block it is in.
* `C111_nested_refuted`: Two categories outside, one within the other: nothing is written.
* `C111_period_refuted`: A definition outside whose name has no period: nothing is written, although it names its category.
* `C111_unnamed_refuted`: A definition outside without a category, besides a category outside.
* `C111_id_refuted`: What is outside is listed by its definition id; if its block has another name, as is usual, there is no block of that name to write.
* `C111_scope_refuted`: A definition whose scope is written differently is left out.
* `C114_list_refuted`: A list of grammar 2.0 is written without complaint in grammar 1.0, and is read from there as the text [1].
* `C114_unreadable_refuted`: A list of grammar 2.0 is written without complaint in grammar 1.1, as a file that cannot be read.
* `C114_letters_refuted`: A dataname with a letter outside ASCII is written without complaint in grammar 1.1, as a file that cannot be read.
* `C115_frames_refuted`: Save frames are not checked: a file with a frame that fails is accepted.
* `C115_refused_stays_refuted`: A block that NewBlock refuses stays in the file.
* `C115_capitals_refuted`: A valid block whose name has capitals cannot be added: the call ends in a KeyError, and the block is stored as a block that does no checks.
* `C116_capitals_refuted`: A name with capitals, by which the block can be looked up, is refused in the list.
* `C116_after_refuted`: saves_after does nothing: the frame comes before the item after which it is to come.
* `C116_nested_warning_refuted`: With nested save frames the warning names all frames, although they are written.
* `C117_visible_refuted`: Validating a dictionary changes what its keys are: the frames stay visible.
* `C117_empty_refuted`: A dictionary without data blocks ends in an IndexError; a data file without blocks is valid.
* `C118_beside_refuted`: a number beside a name is an attribute whose name lacks the first digit ([p[1][1:]], drel_ast_yacc.py 319-325, is meant for "a.12"): "a 1.5" is read as "a" with the attribute ".5" and "a 12.5" has the attribute "2.5"
* `C118_two_numbers_refuted`: two numbers beside one another are read as well: "1 2.5" is the number 1 with the attribute ".5"
* `C119_two_readings_refuted`: the grammar (drel_ast_yacc.py 452-469) has two readings of "if (a) if (b) c else d": PLY reports the conflict and shifts
* `C119_body_refuted`: the body of a "for" that begins with a sign is taken to go on with the list: "for i in a -b" is a SyntaxError although the grammar (486-492) allows it
* `C119_newline_refuted`: a newline may stand between "if (a)" and its body but not between "else" and its own (452-456 have no maybe_nline behind ELSE)
* `C12_missing_value_refuted`: When the packet lacks a value the error comes after earlier columns have grown: the loop is left with columns of different lengths.
* `C12_locked_refuted`: In a block locked against overwriting the call fails but the first column has already grown.
* `C12_spelling_refuted`: Adding a row also replaces the spelling used for output by lower case.
* `C120_stop_refuted`: One method that is read but not translated stops the loading of the dictionary, while one that is not read is left out: here a loop over a category that has no loops.
* `C120_name_refuted`: A method in a definition whose name has no period, or two, and which is not said to be a category, stops it as well (getcatname uses a variable without a value).
* `C120_break_refuted`: A text constant with a form feed in it gets a newline instead, and a short one makes the method unreadable.
* `C120_purposes_refuted`: With fewer purposes than texts the last texts are left out without a word; with one purpose for several texts all are.
* `C121_newline_refuted`: No newline is put at the end of a function's text, as it is for a method: a function that ends without a brace is refused, and all those behind it are lost.
* `C121_single_refuted`: A function whose method is not in a loop can not be loaded, while the method of an item may be single.
* `C121_replace_refuted`: The functions are put among those of the module itself: one called transpose replaces the module's own. The name is the one in the text, not the name of the definition.
* `C122_case_refuted`: A definition is found in whatever case its name is written, unless it is an imported one.
* `C122_transitive_refuted`: Definitions that an imported dictionary has imported itself are not found, although that dictionary finds them; heavy imports bring them.
* `C123_mutual_refuted`: Dictionaries that import each other are never finished.
* `C123_override_refuted`: An attribute that a definition gives itself and imports too: light imports load the dictionary, heavy ones (the default) do not.
* `C123_replace_refuted`: dupl "Replace" does not replace: with either kind of import the own definition is kept.
* `C123_twice_refuted`: The same frame imported by two entries with dupl "Exit": light imports do not notice, as they look at own definitions only.
* `C124_twice_refuted`: Taking the same category twice, where what is there already is to be ignored: the id is filed with its capitals, is not found again, and the second block is refused.
* `C124_replace_refuted`: Replacing a definition whose block is named by its id: no error, but the definition is still the old one.
* `C124_exit_refuted`: After an error because of a member that is there already, the category and the members before it have been added.
* `C124_whole_refuted`: A dictionary with a category in a category can not be taken as a whole: the inner one is taken as a member first, and then refused.
* `C124_children_refuted`: A category with the categories below it is never taken, as DDLm has no attribute _category.parent_id.
* `C125_su_refuted`: The attribute is called _type.contents: a measurand without an s.u. and another number with one are not reported.
* `C125_container_refuted`: The check of containers never gives a verdict.
* `C126_type_refuted`: Neither the type nor the range of a value nor its container is looked at.
* `C127_rows_refuted`: Two rows for the same scope and requirement: only the last one counts.
* `C127_unlooped_refuted`: A single row given without a loop is an error.
* `C128_case_refuted`: Whether case counts is taken from the first key alone: the second loop has a key that is a text, of which "C1" and "c1" are different values, but its rows are looked up without regard to case, so that none is found.
* `C128_unset_refuted`: A key that is in the block without a value, outside a loop, makes the search fail with an error about a variable that has none.
* `C128_repeated_refuted`: The same in a later category: the row that was found for an earlier one is put in twice.
* `C129_child_refuted`: The names of the child category's keys are entered as tuples: a torsion loop beside the bonds makes the search for a bond fail with a KeyError.
* `C129_key_refuted`: Without the loops of the child category the packet names no key at all or the wrong number of them, because those of the last category are taken.
* `C129_absent_refuted`: A key that no row has gives an empty packet where one key alone would be an error.
* `C13_no_case_number_refuted`: A number in the key column makes the case-insensitive search fail with AttributeError, even if another row matches.
* `C130_hidden_refuted`: Values in save frames are not collected while frames are hidden.
* `C130_list_refuted`: A value that is itself a list is not among the values: its members are, as if the item were looped.
* `C130_parents_refuted`: The values that were collected for a parent item can not be stored: they would have to be a block of the file.
* `C131_pointer_refuted`: In a text with CR LF line ends the piece shown begins with the LF, so that the line itself is printed without the mark in front and the pointer is one too far to the right of its character.
* `C131_lines_refuted`: One CR anywhere in the 80 characters before the place brings the lines in between into the picture.
* `C131_width_refuted`: The lines printed do not fit the 80 columns that the code assumes.
* `C132_cleanup_refuted`: Memory is used after it was freed: a text, cleanup, another text.
* `C132_shared_refuted`: The list is global: a scanner that has a text of its own sees the tokens of the text that was prepared last.
* `C132_nul_refuted`: A NUL ends the text without any error: what follows it is not read.
* `C133_case_refuted`: Keys of type Text that differ only in case: the packet is found, and the value of the item is in the block, but reading it is a ValueError.
* `C133_loop_refuted`: A packet joins the rows of two loops; an item of the second one is calculated, but reading it is an AttributeError.
* `C133_empty_refuted`: Such packets are made: with compound keys that no row has, a packet without any values is returned, and reading an item of it ends in a RecursionError.
* `C133_no_keys_refuted`: Where a child category is not in the block the packet has no keys at all, and an item that was calculated is not found.
* `C134_short_refuted`: A file can not be written with the default arguments if its own maximum is less than 80, though it has only shorter lines: the length to wrap at stays 80.
* `C134_max_refuted`: The argument maxoutlength can not be used: with any value but 0 the call fails, even with that which the file has.
* `C134_wrap_refuted`: The length to wrap at is not kept: a name and a value that are shorter and could be on lines of their own make a longer line.
* `C134_lines_refuted`: Nor is the maximum: the values of a row are written on one line, however long it is.
* `C134_failed_refuted`: A call that fails leaves the blocks told different things: afterwards one of them may write texts without delimiters and the other not.
* `C134_history_refuted`: What is between the elements of lists depends on what was written before: after STAR2 it is a comma also in grammar 1.1.
* `C135_get_refuted`: Save frames can be had by their names but not by get, with the scoping of data files.
* `C135_names_refuted`: The names in the other collection lose their capitals.
* `C135_frames_refuted`: Save frames are lost with the scoping of data files, and become data blocks with that of dictionaries.
* `C135_replace_refuted`: Unlike that of a python dictionary, update does not replace blocks: a name that is there is an error, after which some blocks have been added.
* `C135_copy_refuted`: No collection can be copied, whatever its blocks are; not even an empty one.
* `C136_alias_refuted`: Other names of the children are not looked for: an item may be removed whose child is in the block under an alias, although validate_child checks its values against it.
* `C15_file_loop_refuted`: In a loop as stored by the file reader (values stored without a calculated version) the removal fails after shortening the first column.
* `C16_astral_refuted`: Beyond the basic plane allowed characters are refused (U+1F60E is one).
* `C16_short_name_refuted`: A dataname consisting of the underscore alone is accepted but not readable.
* `C17_nested_refuted`: Texts inside a nested list are not looked at.
* `C18_dangling_refuted`: Outside its conditions the round trip fails: a line ending in backslash-blank is joined to the next one, and a short text that begins with a backslash line is left alone by folding but altered by unfolding (the guard at line 2829 never fires because its python literal is not raw).
* `C18_header_refuted`: The short text that begins with a backslash line, as above.
* `C19_target_refuted`: With the default widths (60, 80) a line of 139 characters is written.
* `C20_one_char_refuted`: A one-character prefix is accepted when writing but not recognised when reading.
* `C22_triple_refuted`: Three quotes are admissible around anything, so the property fails for them: a text that ends in a quote is written with four quotes at its end.
* `C23_refuted`: stop_, loop_ and verbatim texts with hash lines are written in a form that is not read back as the same text.
* `C22_triple_refuted`: Three quotes are admissible around anything, so the property fails for them: a text that ends in a quote is written with four quotes at its end.
* `C25_empty_refuted`: An empty string is refused when the line is full.
* `C25_hint_refuted`: A column hint of 0 glues a value to its dataname.
* `C25_list_refuted`: A text after a list in one row of a loop is glued to it.
* `C25_table_refuted`: A table after a dataname of 80 or more characters is glued to it.
* `C26_no_rows_refuted`: A loop without rows is written and cannot be read back.
* `C27_key_refuted`: A quote in the key of a table is not delimited properly; the output cannot be read back.
* `C28_empty_list_refuted`: If the last value is an empty list it is thrown away: with one name the loop is accepted but a value is lost, with two names a correct loop is rejected.
* `C28_no_names_refuted`: A loop without names (accepted by the grammar) loses all its values.
* `C31_refuted`: Lines of a text field that start with a hash sign are dropped as comments.
* `C32_auto_refuted`: Autodetection can refuse what grammar 1.1 reads: blocks that were read in the first attempt stay in the collection, and are read again in the second.
* `C32_empty_refuted`: An empty file gives no collection at all.
* `C33_parent_refuted`: A parent that does not exist is only warned about, and leaves a block without an entry in the parent table: it can be neither written nor deleted.
* `C33_cycle_refuted`: A block can be made its own parent; queries and output then recurse for ever.
* `C35_hidden_refuted`: Under instance scoping a data block with save frames cannot be deleted: the attempt fails half-way, after the innermost frame has lost its contents.
* `C36_hidden_refuted`: Renaming a hidden block (a save frame under instance scoping) raises ValueError half-way; the block is then found under neither name.
* `C37_get_children_refuted`: get_children goes by printed names: a data block that contains a save frame of its own name is then counted among its own children.
* `C39_lost_refuted`: If a common name already occurs with a plus sign appended, merge_fast gives two blocks the same new name and loses one silently, although the collection is strict.
* `C39_no_parent_refuted`: A data block called a followed by a data block containing a save frame a.
* `C39_suffix_refuted`: With a parent, a block of ours is renamed to a key that is fresh for us only.
* `C40_strict_atomic_refuted`: Strict mode copies datanames before it finds a common one.
* `C40_replace_excepted_refuted`: The excepted datanames are not spared in replace mode.
* `C40_replace_read_refuted`: Replace mode raises on the first common dataname of a block that does not allow overwriting, such as every block read from a file.
* `C40_replace_column_refuted`: A single value that replaces a column leaves a loop that is not a table.
* `C40_strict_looped_refuted`: An excepted dataname of a loop makes strict mode fail.
* `C40_strict_spelling_refuted`: An excepted dataname that the old block does not have gets a spelling but no value.
* `C41_plus_refuted`: A plus sign, which the CIF grammar allows, is not read.
* `C41_su_last_refuted`: An s.u. after the exponent, where the CIF 1.1 grammar puts it, is dropped.
* `C41_trailing_refuted`: A text that merely begins with a numeral is read as a number.
* `C41_float_exponent_refuted`: float_with_esd loses the exponent after an s.u., and refuses the old d and D exponents that get_number_with_esd reads.
* `C41_float_d_refuted`: float_with_esd refuses d and D exponents.
* `C42_single_range_refuted`: A range given without a loop is taken character by character: 500 passes a range from 10.0 to 20.0, and 15 fails a range from 10 to 20.
* `C42_trailing_text_refuted`: Only the number the text begins with is looked at.
* `C43_single_value_refuted`: An enumeration of one value, given without a loop, raises AttributeError.
* `C44_space_refuted`: Rows are compared after joining with a space, so two different rows can collide.
* `C45_alternate_case_refuted`: An alternate of the parent is found only if its dictionary spelling is in lower case: names in a data block are compared as lower-case keys.
* `C47_other_block_refuted`: The recursion watch goes by the item name only: reaching the same name in another block is refused although it would end.
* `C47_default_keyword_refuted`: Without the keyword the outermost body runs with its own default (True for derive_item) while all nested ones are told False.
* `C48_cycle_refuted`: A category below itself: the walk never ends.
* `C48_semantic_child_case_refuted`: The test is case sensitive although names of definitions are not.
* `C49_missing_refuted`: An own attribute cannot be read if an imported file or frame is missing.
* `C49_mixed_modes_refuted`: A definition that imports one file in mode contents and another in mode full: after the light import of both nothing can be read from it.
* `C49_get_refuted`: get and `in' do not see imported attributes.
* `C49_transitive_refuted`: Attributes that an imported definition itself imports are not found.
* `C50_twice_refuted`: Hints that name one dataname twice in different case print it twice.
* `C51_container_refuted`: The container is lost: a list and a matrix cannot be told apart, nor can a list and a bare sequence.
* `C52_nesting_refuted`: A frame inside a frame comes back directly inside the data block.
* `C52_same_name_refuted`: Grammar 1.1: items that follow a save frame with the name of its data block go into the frame.
* `C52_frame_limit_refuted`: The limit on the length of datanames is not applied in save frames.
* `C53_alternation_refuted`: Python takes the first alternative that matches: with a|ab the value ab is refused although the expression matches it.
* `C53_empty_value_refuted`: The empty value passes whatever the expression.
* `C54_dependent_case_refuted`: Dependents and alternates are compared without regard to case only one way: a name with capitals in the dictionary is never found.
* `C55_membership_ddl2_refuted`: Outside DDLm the table of top categories is empty (1547), so a loop that mixes categories always passes.
* `C55_single_key_refuted`: A single key name is taken character by character and raises KeyError even when the key is there.
* `C55_alternate_key_refuted`: An alternate of the key does not help although it is in the loop.
* `C57_case_duplicates_refuted`: Ids that differ only in case: no error, and one definition is lost.
* `C57_added_refuted`: A definition added later is not found unless its id is in lower case.
* `C58_own_parent_refuted`: A loop category that is its own parent: the loop never ends.
* `C59_names_only_refuted`: With names_only the subcategories are not left out.
* `C60_category_refuted`: A full import of a category that is not a head always fails (IndexError); the witness is a category of a core dictionary.
* `C60_same_head_refuted`: Two heads of the same name: the importing dictionary's own head is deleted and the import ends in KeyError.
* `C61_nested_refuted`: Types inside nested lists are ignored: the element is left as it is.
* `C62_group_refuted`: A group of which no name is in the loop is not reported.
* `C62_undefined_refuted`: If the name referred to is neither in the loop nor in the dictionary, the check ends with an error, not with a verdict.
* `C63_case_refuted`: Category names are case-insensitive everywhere else.
* `C63_unknown_item_refuted`: An item that is not in the dictionary makes the check fail with an error.
* `C64_scope_refuted`: The scope given to run_block_validation is dropped: a data file is checked like the definition of an item, and reported.
* `C64_missing_scope_refuted`: A scope that is not in the table gives an error.
* `C65_nested_refuted`: Three levels of loop categories: the table of keys cannot be built (TypeError), so the dictionary cannot be loaded.
* `C65_compound_refuted`: Of a key with two names one is enough.
* `C65_child_refuted`: A loop of the lower category with its own key is reported.
* `C65_capital_refuted`: A key written with capitals is not found.
* `C66_deep_refuted`: Items of loop categories more than one level below are not reachable from the uppermost category: only the last grandchild's table survives.
* `C66_empty_refuted`: An empty category is answered with IndexError.
* `C67_case_refuted`: A link spelled with other capitals than the key it leads to stops the loading.
* `C68_validity_kept_refuted`: Adding an item only checks that item: a block that was valid, and an item that is accepted, can give a block that is not valid.
* `C68_loops_unchecked_refuted`: CreateLoop is not checked: a loop can be made without the key of its category.
* `C68_unknown_name_refuted`: A name outside the dictionary may be added, but a block having it cannot be given to the constructor.
* `C69_text_refuted`: A text is taken apart into its characters.
* `C69_valid_text_refuted`: ... so that a text allowed by the dictionary is refused.
* `C70_replace_refuted`: Replace mode does not replace in a collection held to a standard: it fails.
* `C70_atomic_refuted`: A merge that fails leaves what it had already added.
* `C70_overlay_refuted`: Overlay mode never overlays: it always fails.
* `C70_match_refuted`: With match_att the place found among the visible blocks is used in the table of all blocks: the incoming block that matches "b" is added under the name of the save frame.
* `C70_same_name_refuted`: Incoming blocks are looked up by their printed names: a collection with a data block and a save frame of the same name cannot even be merged into an empty one, and leaves a block without an entry in the table there.
* `C71_absent_refuted`: A name that is not there is not refused, and the result cannot be written.
* `C71_twice_refuted`: A name given twice is written twice.
* `C72_unlocked_refuted`: After a refusal the definitions can be overwritten by assignment.
* `C72_capitals_refuted`: A change of capitals only is refused.
* `C72_lost_refuted`: In a dictionary whose frames have other names than their definitions, it is accepted, and the definition is lost from the dictionary's keys.
* `C72_lookup_refuted`: The table from category and object to name keeps the old name.
* `C72_dictionary_refuted`: The block of the dictionary itself, which the documentation says can be renamed, is not among the definitions, and so never is.
* `C73_atomic_refuted`: If the new name is taken the move fails with the definition half changed.
* `C74_ids_refuted`: After the renaming the items are kept under keys without the underscore of their ids, so none is found by its id.
* `C74_unlocked_refuted`: A refused renaming leaves the dictionary unlocked.
* `C75_capitals_refuted`: An object with capitals: the new definition is not in the dictionary.
* `C75_parent_refuted`: A parent that is not there: an error, but the half-made category stays.
* `C75_no_head_refuted`: Without a Head category, the top data block cannot be the parent as the documentation says: it has no object id.
* `C75_space_refuted`: A name with a space is put under a frame of another name, and is not found by it.
* `C76_cycle_refuted`: A category below itself is removed for ever.
* `C77_packet_refuted`: A packet that was fetched but not used stays in force: after cat[k] the attribute of a variable in the same expression is looked up in cat.
* `C77_capitals_refuted`: The names noted for the items of a packet keep their capitals: the data name may be noted twice, in two forms.
* `C77_bits_refuted`: The operators & and | have one precedence in dREL and two in python.
* `C77_brackets_refuted`: A list that is not part of an assignment loses its brackets: f([1,2]).
* `C77_step_refuted`: A slice with a step but without its first elements is another slice: a[::2] and a[1::2].
* `C77_step2_refuted`: Likewise a[1::2], which becomes a[1:2].
* `C77_slice_start_refuted`: Every a[:b] raises TypeError.
* `C77_slice_all_refuted`: Every a[:] raises IndexError.
* `C77_slice_among_refuted`: A slice among several subscripts raises SyntaxError.
* `C77_group_refuted`: The empty group () raises IndexError.
* `C77_sort_refuted`: sort gives what list.sort() gives, which is nothing, not the sorted list.
* `C77_sind_refuted`: What is made for a function of degrees with two arguments is not python.
* `C77_words_refuted`: Names that are words of python, and numbers that start with zeros, go to python as they are.
* `C77_zeros_refuted`: Likewise numbers that start with zeros.
* `C78_text_refuted`: The lines of a text that spans lines are indented with the block it is in, so the text changes.
* `C80_kept_refuted`: A method that asks for an item whose value is a question mark removes it from the block, also if nothing can be derived.
* `C80_default_returned_refuted`: A question mark for an item with a default is replaced by the default in the block, but what is returned is the question mark.
* `C80_all_or_nothing_refuted`: A derived column that has not as many values as its category has rows is refused with an error, but stays in the block outside the loop.
* `C81_calculated_refuted`: Without rows in its looped category, a value that was calculated is given up for an empty list.
* `C82_single_alias_refuted`: An alias that stands outside a loop is a text, and a text is taken by its characters: the older name is not found.
* `C82_part_of_alias_refuted`: And any part of the text counts as the name: an item nobody defined has a value.
* `C82_capitals_refuted`: Aliases are found under the spelling of the dictionary only.
* `C83_index_refuted`: A default that is chosen by the value of an item of type other than Code, Name or Tag cannot be used: lcase_comp was never set.
* `C83_category_method_refuted`: A method of the category that cannot be carried out keeps an item from its own default value.
* `C83_extend_refuted`: So a calculated row is never added to a category.
* `C84_repeated_keys_refuted`: Rows are found by their keys: with a repeated key, a matching row is overlooked.
* `C84_missing_column_refuted`: A column that the first category does not have is filled with the values of another item.
* `C84_first_missing_refuted`: If it is the first of the columns, even the items that can be found are not given, but python's UnboundLocalError.
* `C84_capitals_refuted`: A category whose name is spelled with a capital letter is not built: KeyError.
* `C84_filter_twice_refuted`: A filter value given twice gives every row twice.
* `C84_undefined_component_refuted`: One category built from an undefined item makes all derivations in other categories fail, here of an item with a method.
* `C85_keys_unique_refuted`: A pullback has most keys in several rows: the category that is filled from it has rows with the same key. Here from the rows that the pullback itself was built with.
* `C85_key_copied_refuted`: If the pullback has an item with the object name of the key, that item is copied over the keys.
* `C86_same_name_refuted`: Two blocks with the same name: only the later one is kept, and nobody is told.
* `C86_capitals_refuted`: A block whose key is its name in lower case is lost if the name has capitals: the definition is stored and then deleted as the old one.
* `C87_exponent_refuted`: Numbers may be written with the exponents d and D, and such values are accepted as numbers in data; a range with such an end stops the loading of the dictionary.
* `C87_letters_refuted`: A range that is not one of numbers stops the loading: after the message that it cannot be read, variables without a value are used.
* `C87_reversed_refuted`: A range with the ends in the wrong order holds no number; its two ends pass.
* `C88_marker_refuted`: The marker for descriptions of categories becomes a category itself.
* `C88_capitals_refuted`: A category that is named with other capitals than in its description: the description is replaced by an empty one.
* `C88_two_refuted`: Two descriptions of one category, as those in the core dictionary and in an extension of it (_x_[] and _x_[ms]), stop the loading.
* `C89_children_refuted`: A definition for an item and its children, with all their names in a loop, is what the steps after the loading of names are for; it stops the loading.
* `C89_alias_refuted`: A definition with another name for its item stops the loading.
* `C90_dropped_refuted`: In a text field a line with a character that star.l does not list, such as a form feed, has its start printed by flex's default rule and lost.
* `C90_return_refuted`: The end of a file written with single carriage returns is an error.
* `C91_hash_refuted`: A line of a text field that starts with a hash sign is lost by the python scanner, which skips comments everywhere, and kept by the compiled one.
* `C91_glued_refuted`: The word loop_ is not told from a name that follows it without a blank: a file that the python scanner reads is refused.
* `C91_values_refuted`: Values that only one of the two accepts: an opening bracket in grammar 1.0 and the word loop_ are refused by the compiled scanner; a value that starts with a brace, or with stop_ or global_, is refused by the python one.
* `C94_pairs_refuted`: In the STAR2 grammar a pair of a table that has no comma before it makes the earlier ones vanish (src/YappsStarParser.nw 445-456); the same text is read whole by the CIF2 grammar.
* `C95_unchanged_refuted`: A file that has been validated has lost the items that are not in the dictionary.
* `C96_ddlm_refuted`: Two checks of dictionaries in DDLm have none: when they fail there is no report.
* `C96_text_refuted`: A repeated key of several columns is one text (2571); the report gives its letters as so many wrong values.
* `C96_columns_refuted`: The columns are headed by what was found in the first row: what only a later row has stands under the wrong heading.
* `C96_html_refuted`: Names and values go into the HTML report as they are.
* `C97_whole_file_refuted`: Neither can be asked about the whole file, although that is the default.
* `C98_one_child_refuted`: With one child, given as a single text, names are looked for inside that text: an item whose name begins the name of its child is not found.

## What is not modelled

* Opening files and URIs, decoding (latin1 fallback), the compiled scanner on bytes above 127 (FlexModel has one character per byte) and its line counts, CBF binary sections.
* Links between parents and children in DDL2 (CifFile_module.nw 888-995; with python 3 no dictionary that has them gets there, see C89).
* When a category is filled from several sources (CifFile_module.nw 3184-3249), lists are extended in place; that they may be the block's own lists is not modelled. The order of a python set is a parameter.
* Running translated dREL methods in python (DeriveModel takes them as arbitrary programs) and numpy arrays in the runtime library (RuntimeModel has lists and matrices of whole numbers); the LALR tables PLY builds from `drel_ast_yacc.py` (LexModel gives the tokens, PhraseModel and SentenceModel parse them by functions that look ahead, DrelModel starts from the parse trees).
* numpy values, float rounding and overflow, python 2.
* Sharing of one object by several owners; messages printed; timing and memory.

## How the theorems were tested

`seeded/LOG.jsonl` records wrong programs: for each, the edited definition, the edit, the claim it breaks, the
theorems that stopped proving, and the theorems that were tightened because they did not.
