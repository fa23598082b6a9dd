{"id": "C01", "title": "LaTeX source embedded in the output is escaped losslessly and safely", "statement": "When the original LaTeX is embedded in the output (the <annotation> element, or the <code> element of an HTML error), the embedded text contains no '<' or '>' and every '&' in it starts one of &amp; &lt; &gt;; decoding those three entities gives back exactly the original LaTeX. In particular different sources give different embedded texts.", "quantifier": "every input string", "why_tests_cant": "the input space is every Unicode string; tests only sample a few characters", "anchors": ["crates/math-core/src/html_utils.rs:escape_html_content", "crates/math-core/src/lib.rs:emit", "crates/math-core/src/error.rs:to_html"]}
{"id": "C02", "title": "Error HTML cannot be broken out of by the message or the source", "statement": "The HTML produced for an error is exactly <tag class=C title=\"T\"><code>S</code></tag> where T contains no double quote and decodes to the error message and S contains no '<' or '>' and decodes to the LaTeX source, whatever the message and source contain.", "quantifier": "every error message and every LaTeX source", "why_tests_cant": "messages embed arbitrary user supplied names; all of them must be covered", "anchors": ["crates/math-core/src/error.rs:to_html", "crates/math-core/src/html_utils.rs:escape_double_quoted_html_attribute"]}
{"id": "C03", "title": "Text in MathML is escaped losslessly", "statement": "Text coming from \\text, tags and references is written with < > & \" ' replaced by entities, so it contains none of < > \" ' and HTML-decodes to exactly the original text.", "quantifier": "every text", "why_tests_cant": "every Unicode string has to be covered", "anchors": ["crates/mathml-renderer/src/escaping.rs:EscapeHtml", "crates/mathml-renderer/src/ast.rs:Emitter.emit"]}
{"id": "C04", "title": "Label ids and reference targets are attribute-safe and collision free", "statement": "The id generated for a label and the href generated for a reference to it use the same percent encoding; the encoding contains none of the characters space \" < > # % (other than as an escape introducer) or control characters, percent-decoding gives the label back, so distinct labels never share an id, and a reference always points at the id of the label it names.", "quantifier": "every label", "why_tests_cant": "injectivity is a statement about pairs of labels", "anchors": ["crates/mathml-renderer/src/escaping.rs:FRAGMENT_SAFE", "crates/mathml-renderer/src/ast.rs:write_equation_num"]}
{"id": "C05", "title": "Every successful conversion produces balanced, properly nested markup", "statement": "For every syntax tree the parser can build and every emitter configuration, the output parses as a sequence of properly nested elements with matching open and close tags (self-closed elements aside), provided strings copied verbatim are free of markup characters.", "quantifier": "every AST, indentation, css class and label map", "why_tests_cant": "nesting depth and tree shape are unbounded", "anchors": ["crates/mathml-renderer/src/ast.rs:Emitter.emit", "crates/mathml-renderer/src/table.rs:write_next_mtd", "crates/math-core/src/lib.rs:emit"]}
{"id": "C06", "title": "User input never becomes markup", "statement": "No LaTeX input can make the conversion emit an element, attribute or entity that is not one of the renderer's own: a '<', '>' or '&' typed by the user only ever appears escaped.", "quantifier": "every input and configuration", "why_tests_cant": "needs all paths from lexer to emitter", "anchors": ["crates/math-core/src/parser.rs:OperatorName", "crates/mathml-renderer/src/ast.rs:PseudoOp", "crates/mathml-renderer/src/ast.rs:UnknownCommand"]}
{"id": "C07", "title": "Pretty printing only inserts whitespace", "statement": "The pretty-printed output differs from the compact output only by newlines and indentation placed before a tag: deleting the inserted line breaks with their indentation yields the compact output, for every tree and every indentation setting.", "quantifier": "every AST and indentation setting", "why_tests_cant": "tree shape unbounded", "anchors": ["crates/mathml-renderer/src/fmt.rs:new_line_and_indent", "crates/mathml-renderer/src/ast.rs:Emitter.emit", "crates/math-core/src/lib.rs:emit"]}
{"id": "C08", "title": "Lexing terminates and error positions lie inside the input", "statement": "Tokenising any input ends after at most (number of characters + 1) tokens; the byte ranges of successive tokens are non-decreasing, never overlap, lie within the input and fall on character boundaries; so does the range of any lexing error.", "quantifier": "every input string", "why_tests_cant": "multi-byte characters at every position", "anchors": ["crates/math-core/src/lexer.rs:next_token"]}
{"id": "C09", "title": "Whitespace and comments are insignificant up to one space", "statement": "A non-empty run of whitespace produces exactly one whitespace token, whitespace after a command name produces none, and a % comment together with the line end and following whitespace produces none.", "quantifier": "every whitespace run and comment in every context", "why_tests_cant": "any length, any position", "anchors": ["crates/math-core/src/lexer.rs:next_token", "crates/math-core/src/lexer.rs:skip_whitespace"]}
{"id": "C10", "title": "Command names are lexed maximally", "statement": "After a backslash the command name is the longest run of ASCII letters plus an optional star, or else exactly one character; concatenating backslash, name, skipped blanks and rest reproduces the input.", "quantifier": "every input after a backslash", "why_tests_cant": "all suffixes", "anchors": ["crates/math-core/src/lexer.rs:read_command"]}
{"id": "C11", "title": "Numbers are merged completely and correctly", "statement": "In ordinary sequences a maximal digit run (with dots only between digits) becomes one <mn> whose text is the run; a trailing dot not followed by a digit is left alone.", "quantifier": "every token sequence", "why_tests_cant": "all lengths", "anchors": ["crates/math-core/src/parser.rs:parse_one_token Digit arm"]}
{"id": "C12", "title": "Equation numbers are consecutive", "statement": "In numbered environments each row that is neither suppressed nor custom-tagged gets the next integer; the numbers handed out over any sequence of rows and environments are c+1, c+2, ... with no gaps or repeats, the counter grows by exactly the number of automatic tags, and custom tags and suppressed rows do not advance it.", "quantifier": "every row sequence, environment and starting counter", "why_tests_cant": "histories of arbitrary length", "anchors": ["crates/math-core/src/environments.rs:next_equation_tag", "crates/math-core/src/parser.rs:Begin/NewLine"]}
{"id": "C13", "title": "Suppressing a number affects only its own row", "statement": "\\notag/\\nonumber in one row affects no other row.", "quantifier": "every row sequence", "why_tests_cant": "needs all combinations of \\tag and \\notag", "anchors": ["crates/math-core/src/environments.rs:next_equation_tag"]}
{"id": "C14", "title": "multline gets exactly one number", "statement": "A multline environment consumes exactly one equation number, on its last row, however many rows it has; starred environments consume none unless \\tag is used.", "quantifier": "every number of rows", "why_tests_cant": "unbounded rows", "anchors": ["crates/math-core/src/environments.rs:get_numbered_env_state", "crates/math-core/src/environments.rs:next_equation_tag"]}
{"id": "C15", "title": "Equation counter overflow is an error, never a wrap-around", "statement": "When the counter is at its maximum the next automatic number is reported as an error and the counter is unchanged.", "quantifier": "every counter value", "why_tests_cant": "2^64 states", "anchors": ["crates/math-core/src/environments.rs:next_equation_tag"]}
{"id": "C16", "title": "References show the number of the labelled equation", "statement": "After converting, a reference to label L shows the tag of the row in which L was set last, and an undefined label shows ?? (in parentheses) and raises the undefined-reference warning; warnings are raised only in that case.", "quantifier": "every history of labels", "why_tests_cant": "histories", "anchors": ["crates/mathml-renderer/src/ast.rs:EqRef", "crates/math-core/src/parser.rs:Label"]}
{"id": "C17", "title": "Batch conversion resolves forward references", "statement": "convert_all resolves a reference in any snippet against labels of all snippets, including later ones; the label table used for every snippet is the one after parsing all of them.", "quantifier": "every list of snippets", "why_tests_cant": "any number and order of snippets", "anchors": ["crates/math-core/src/lib.rs:convert_all"]}
{"id": "C18", "title": "Local conversion is a pure function", "statement": "convert_with_local_state returns the same result whatever was converted before and does not change any later result.", "quantifier": "every call history", "why_tests_cant": "histories", "anchors": ["crates/math-core/src/lib.rs:convert_with_local_state"]}
{"id": "C19", "title": "Reset equals a fresh converter", "statement": "After reset_global_state every later conversion behaves as on a newly created converter with the same configuration.", "quantifier": "every history before and after the reset", "why_tests_cant": "histories", "anchors": ["crates/math-core/src/lib.rs:reset_global_state"]}
{"id": "C20", "title": "Batch conversion agrees with sequential conversion", "statement": "convert_all returns one result per snippet in order; snippet i fails exactly when converting the snippets one after another with global state on a fresh converter fails at i, and with the same error; a failing snippet does not stop the others.", "quantifier": "every list of snippets", "why_tests_cant": "any length", "anchors": ["crates/math-core/src/lib.rs:convert_all"]}
{"id": "C21", "title": "A failed conversion leaves the converter unchanged", "statement": "If convert_with_global_state returns an error then later conversions behave as if the failed call had not happened.", "quantifier": "every state and failing input", "why_tests_cant": "needs all histories", "anchors": ["crates/math-core/src/lib.rs:convert_with_global_state", "crates/math-core/src/parser.rs:parse"]}
{"id": "C22", "title": "Configured macros are validated completely", "statement": "Creating a converter succeeds iff every macro name is valid, every definition lexes, and every command used in a definition is builtin or itself configured; the outcome does not depend on the order of definitions with distinct names; the reported index is the offending macro.", "quantifier": "every macro list", "why_tests_cant": "any number of macros, any order", "anchors": ["crates/math-core/src/lib.rs:parse_custom_commands", "crates/math-core/src/custom_cmds.rs:is_valid_macro_name"]}
{"id": "C23", "title": "Macro expansion is simultaneous parameter substitution", "statement": "Using a macro puts in front of the remaining input exactly its body with each #i replaced by the i-th argument's tokens, and nothing else changes; arguments containing # markers or macros are not re-substituted.", "quantifier": "every body, argument list and remaining input", "why_tests_cant": "all bodies and arguments", "anchors": ["crates/math-core/src/token_queue.rs:queue_body_substituting", "crates/math-core/src/token_queue.rs:queue_stored_body_substituting"]}
{"id": "C24", "title": "Name resolution precedence", "statement": "A command name means: the definition local to the snippet if any, else the document-wide definition, else the configured macro, else the builtin; otherwise it is unknown.", "quantifier": "every state of the three tables", "why_tests_cant": "all combinations", "anchors": ["crates/math-core/src/token_queue.rs:resolve_command", "crates/math-core/src/custom_cmds.rs:get"]}
{"id": "C25", "title": "newcommand / renewcommand / providecommand contracts", "statement": "\\newcommand fails iff the name already has a meaning, \\renewcommand fails iff it has none, \\providecommand never fails for this reason and keeps the existing meaning, \\def always redefines.", "quantifier": "every state", "why_tests_cant": "all table states", "anchors": ["crates/math-core/src/parser.rs:define_command", "crates/math-core/src/token_queue.rs:define"]}
{"id": "C26", "title": "Definition scope", "statement": "A local definition is invisible after its snippet; a global one stays visible in later snippets until reset and shadows no local meaning afterwards; in global_group mode top level definitions survive.", "quantifier": "every sequence of definitions", "why_tests_cant": "histories", "anchors": ["crates/math-core/src/token_queue.rs:define", "crates/math-core/src/custom_cmds.rs:absorb", "crates/math-core/src/parser.rs:parse"]}
{"id": "C27", "title": "Surviving definitions keep their meaning", "statement": "When local definitions are carried over to the document table their stored bodies are token for token the ones that were visible at the end of the snippet, references between them still lead to the same bodies, none points to the discarded local table, and older definitions are unaffected.", "quantifier": "every pair of tables", "why_tests_cant": "reference chains of any length", "anchors": ["crates/math-core/src/custom_cmds.rs:absorb"]}
{"id": "C28", "title": "Macro expansion is bounded", "statement": "At most max_expansions macro expansions happen in one conversion; the next one is reported as an error.", "quantifier": "every input and every set of recursive macros", "why_tests_cant": "non-termination cannot be tested", "anchors": ["crates/math-core/src/parser.rs:count_expansion"]}
{"id": "C29", "title": "Conversion always terminates", "statement": "For every input, configuration and state the parser stops with a tree or an error, even for self-recursive macros.", "quantifier": "every input, configuration and state", "why_tests_cant": "non-termination cannot be tested", "anchors": ["crates/math-core/src/parser.rs:parse"]}
{"id": "C30", "title": "Column specifications", "statement": "A column specification is accepted iff it consists of l c r | : and blanks and contains at least one of l c r; the resulting list has one content column per letter in order with that alignment, and the lines are where the bars stand.", "quantifier": "every specification string", "why_tests_cant": "all strings", "anchors": ["crates/math-core/src/specifications.rs:parse_column_specification"]}
{"id": "C31", "title": "Length specifications", "statement": "A length is accepted iff it is a decimal number (optional minus, at most one dot, at least one digit, mantissa below 2^64) followed by a two letter unit; the decimal value is read exactly.", "quantifier": "every string", "why_tests_cant": "all strings", "anchors": ["crates/math-core/src/specifications.rs:parse_length_specification", "crates/math-core/src/atof.rs:limited_float_parse"]}
{"id": "C32", "title": "Combined characters are packed losslessly", "statement": "Packing a character with a variation selector and overlay bits and unpacking yields the same characters in the order base, selector, solidus, vertical line, for every Unicode scalar value.", "quantifier": "every scalar value, selector and flag", "why_tests_cant": "1.1 million characters times flags", "anchors": ["crates/mathml-renderer/src/super_char.rs:SuperChar"]}
{"id": "C33", "title": "Negation picks the precomposed character whenever one exists", "statement": "Overlaying \\not on a character gives the precomposed negated character iff the table lists one, else the base followed by U+0338; the search agrees with plain lookup for every character; applying it twice is the same as once.", "quantifier": "every character", "why_tests_cant": "whole Unicode range", "anchors": ["crates/mathml-renderer/src/super_char.rs:get_precomposed_solidus_overlay", "crates/mathml-renderer/src/super_char.rs:with_overlay"]}
{"id": "C34", "title": "Math alphabets are valid and injective", "statement": "For each style (bold, script, ...) mapping a character yields a valid Unicode scalar value, characters outside the style's repertoire are unchanged, and two different repertoire characters never become the same output.", "quantifier": "every style and every Unicode scalar", "why_tests_cant": "whole Unicode range", "anchors": ["crates/mathml-renderer/src/attribute.rs:transform_char"]}
{"id": "C35", "title": "Colors", "statement": "Every accepted color produces a #rrggbb value with exactly six uppercase hexadecimal digits whose decoded channels equal the requested ones.", "quantifier": "every channel value / color string", "why_tests_cant": "all byte triples", "anchors": ["crates/mathml-renderer/src/itoa.rs:append_u8_as_hex", "crates/math-core/src/parser.rs:Color"]}
{"id": "C36", "title": "Spacing of operators follows the neighbouring atoms", "statement": "Explicit spacing attributes are produced exactly when the classes of the previous and next atoms require it, as tabulated in TeX's rules implemented here; a binary operator with nothing to combine on one side is treated as ordinary.", "quantifier": "every combination of classes and parser states", "why_tests_cant": "all contexts", "anchors": ["crates/math-core/src/parser.rs:bin_op_spacing", "crates/math-core/src/parser.rs:relation_spacing", "crates/math-core/src/parser.rs:punctuation_spacing"]}
{"id": "C37", "title": "Environment names round-trip", "statement": "Every environment name maps to one environment and back; names are distinct, and \\end is accepted iff it carries the same name as its \\begin.", "quantifier": "every string", "why_tests_cant": "all strings", "anchors": ["crates/math-core/src/environments.rs:Env"]}
{"id": "C38", "title": "The command line tool changes only the formulas", "statement": "When a document is processed, all bytes outside formulas are copied unchanged and in order, each formula is the text between an opening and the next closing delimiter, and it is converted in document order with the display mode of its delimiter.", "quantifier": "every document and delimiter pair", "why_tests_cant": "all documents", "anchors": ["crates/math-core-cli/src/replace.rs:replace"]}
{"id": "C39", "title": "Windowed delimiter search equals full search", "statement": "Searching in a growing window returns the same delimiter as searching the whole rest of the document, with block delimiters preferred on ties, with and without escape handling.", "quantifier": "every document, window and delimiter length", "why_tests_cant": "documents of every length around the window boundary", "anchors": ["crates/math-core-cli/src/replace.rs:find_next_delimiter"]}
{"id": "C40", "title": "Entity decoding inverts escaping", "statement": "Decoding HTML entities of a formula yields the original text for every text that was escaped with any of the supported entities; text without '&' is untouched.", "quantifier": "every string", "why_tests_cant": "all strings", "anchors": ["crates/math-core-cli/src/html_entities.rs:replace_html_entities"]}
{"id": "C41", "title": "The command line tool reports errors instead of crashing", "statement": "If a formula fails to convert the tool returns that error.", "quantifier": "every document, converter state and formula", "why_tests_cant": "needs stateful converter histories", "anchors": ["crates/math-core-cli/src/replace.rs:replace"]}
{"id": "C42", "title": "The command line tool terminates", "statement": "Processing a document terminates for every document and every delimiter configuration.", "quantifier": "every document and delimiters", "why_tests_cant": "non-termination", "anchors": ["crates/math-core-cli/src/replace.rs:replace", "crates/math-core-cli/src/replace.rs:find_delimiter_position"]}
{"id": "C43", "title": "Error positions are reported in characters", "statement": "The position in an error message equals the number of characters before the error, and the reported line and column point at it.", "quantifier": "every source and byte offset", "why_tests_cant": "multi-byte sources", "anchors": ["crates/math-core/src/error.rs:to_message", "crates/math-core-cli/src/replace.rs:line_and_col", "crates/math-core-wasm/src/lib.rs:byte_offset_to_utf16_offset"]}
{"id": "C44", "title": "Arguments are read with balanced braces", "statement": "Reading an argument consumes exactly one token or one balanced group; the tokens returned are those between the braces with inner braces balanced, and what follows is untouched; a missing close brace is an error.", "quantifier": "every token stream", "why_tests_cant": "any nesting depth", "anchors": ["crates/math-core/src/token_queue.rs:read_argument", "crates/math-core/src/token_queue.rs:record_group"]}
{"id": "C45", "title": "The token queue is a faithful view of the input", "statement": "The buffered look-ahead never loses, duplicates or reorders tokens: reading all tokens gives the queued ones followed by the lexer's, whatever peeks happen in between; end of input is delivered forever.", "quantifier": "every interleaving of peeks, reads and pushes", "why_tests_cant": "interleavings", "anchors": ["crates/math-core/src/token_queue.rs:TokenQueue"]}
{"id": "C46", "title": "Text mode style changes are scoped to their group", "statement": "In text mode a style or size command affects exactly the characters to the end of its argument or group, and the concatenation of the produced snippets is the typed text.", "quantifier": "every text argument", "why_tests_cant": "any nesting", "anchors": ["crates/math-core/src/text_parser.rs:extract_text"]}
{"id": "C47", "title": "Sub- and superscripts", "statement": "An atom accepts at most one subscript and one superscript in either order, primes are merged into the superscript; a second one is an error.", "quantifier": "every token stream", "why_tests_cant": "any order and number of primes", "anchors": ["crates/math-core/src/parser.rs:get_bounds"]}
{"id": "C48", "title": "Let freezes, def stays late-bound", "statement": "After \\let\\a=\\b, redefining \\b does not change \\a, whereas a macro whose body mentions \\b follows the redefinition.", "quantifier": "every later sequence of definitions", "why_tests_cant": "histories", "anchors": ["crates/math-core/src/parser.rs:let_command", "crates/math-core/src/token_queue.rs:define"]}
{"id": "C49", "title": "Tables keep their shape", "statement": "A table environment with given rows and cells is emitted with one <mtr> per row and one content <mtd> per cell in order, for every column specification.", "quantifier": "every row/cell structure", "why_tests_cant": "unbounded", "anchors": ["crates/mathml-renderer/src/ast.rs:emit_table", "crates/mathml-renderer/src/table.rs:ColumnGenerator"]}
{"id": "C50", "title": "String interning and splitting are lossless", "statement": "A string stored in the pool is read back unchanged however many strings are added later; splitting on an ASCII separator and joining gives back the input.", "quantifier": "every history of insertions", "why_tests_cant": "histories", "anchors": ["crates/math-core/src/string_pool.rs", "crates/math-core/src/split_on_ascii.rs"]}
{"id": "C51", "title": "Errors point into the input", "statement": "The start and the end of every error of a conversion are character boundaries of the converted input, the start not after the end; those of an error in the configuration lie in the definition of the macro that is to blame.", "quantifier": "every input, configuration, global state and error", "why_tests_cant": "all error sites reached through macro expansion and arguments", "anchors": ["crates/math-core/src/token_queue.rs:next", "crates/math-core/src/parser.rs:parse_kern_or_skip", "crates/math-core/src/error.rs:to_report", "crates/math-core/src/lib.rs:parse_custom_commands"]}
{"id": "C52", "title": "Parsing gives the meaning of a formula", "statement": "For every formula of a language of atoms, numbers, words, groups, fences, environments, commands with arguments, scripts, primes and numbered rows that has a meaning (a syntax tree defined by recursion on the formula, without the parser), parsing its text gives exactly that tree, and the numbers and labels that the meaning says.", "quantifier": "every formula, configuration, global state, style and meaning of names", "why_tests_cant": "formulas of any depth and size, with any combination of constructs and macros", "anchors": ["crates/math-core/src/parser.rs:parse_sequence", "crates/math-core/src/parser.rs:parse_token", "crates/math-core/src/parser.rs:get_bounds", "crates/math-core/src/lexer.rs:next_token", "crates/math-core/src/environments.rs"]}
{"id": "C53", "title": "The output reads back as the MathML of the trees", "statement": "An XML reader applied to the output finds exactly one math element whose elements, attributes and (decoded) texts are those that the syntax trees stand for: operator attributes, spacing, sizes, styles, colors, lengths, table rows and cells with their styles, equation numbers, anchors, references and the annotation; with or without pretty printing.", "quantifier": "every list of trees, configuration, table of labels, input and history of conversions", "why_tests_cant": "trees of any shape, all attribute combinations, arbitrary text", "anchors": ["crates/mathml-renderer/src/ast.rs:emit", "crates/mathml-renderer/src/ast.rs:emit_table", "crates/mathml-renderer/src/table.rs:write_next_mtd", "crates/mathml-renderer/src/attribute.rs", "crates/math-core/src/lib.rs:emit"]}
{"id": "C54", "title": "Elements have the children that MathML prescribes", "statement": "Reading back the output, every element has the kind and number of children that MathML prescribes for it (two for msub, msup, mfrac, mroot, mover, munder, three for msubsup and munderover, rows in mtable, cells in mtr, pairs of scripts in mmultiscripts, text in token elements, one expression and its annotation in semantics). Refuted where a cell or row separator is taken as an argument or stands inside a group; proved for all trees and all formulas whose separators are direct content of an environment.", "quantifier": "every list of trees, formula, configuration and history of conversions", "why_tests_cant": "trees of any shape, all combinations of nested constructs and separators", "anchors": ["crates/mathml-renderer/src/ast.rs:emit", "crates/mathml-renderer/src/ast.rs:emit_table", "crates/math-core/src/parser.rs:parse_token"]}
{"id": "C55", "title": "No element has an attribute twice", "statement": "Reading back the output, no element has the same attribute twice (which XML forbids). Proved for all attributes but stretchy, and for stretchy unless an operator is told both to stretch and not to stretch; refuted for a delimiter of fixed size or a stretching bar that is given a math class.", "quantifier": "every input, configuration and history of conversions", "why_tests_cant": "all combinations of operator attributes over all commands, macros and nestings", "anchors": ["crates/mathml-renderer/src/attribute.rs:write_to", "crates/math-core/src/parser.rs:parse_token", "crates/mathml-renderer/src/ast.rs:emit"]}
{"id": "C56", "title": "Blanks and macros stand for nothing but what they stand for", "statement": "A text that has blanks between its tokens and uses macros in place of what they stand for is parsed to the same tree as the formula it stands for: blanks between tokens do not change the tree, except inside the arguments that are taken as they stand and between primes, and a macro with its arguments gives the same tree as its body with the arguments put in, as often as the limit on expansions allows.", "quantifier": "all configurations with all macros, all definitions made before, all texts, all formulas with a meaning, all nestings of macros in macros and in arguments up to the limit", "why_tests_cant": "The tests have a few macros in a few places. How a macro acts depends on where it stands (argument, script, start of a row, after a digit), on what its body begins with and on the lookahead for spacing, so the combinations are unbounded.", "anchors": ["crates/math-core/src/token_queue.rs", "crates/math-core/src/parser.rs:205-447", "crates/math-core/src/custom_cmds.rs"]}
{"id": "C57", "title": "\\mathchoice leaves the argument of the current style", "statement": "Wherever \\mathchoice is met, it takes four arguments and leaves exactly the one that belongs to the style in force (display, text, script, scriptscript), as a macro with four parameters would; nothing else changes, no expansion is counted, and it fails only if the four arguments cannot be read.", "quantifier": "every use of \\mathchoice in every conversion, with any macros, arguments and style", "why_tests_cant": "The tests use it in a few places; the arguments can be any tokens, in any of the styles, inside any macro.", "anchors": ["crates/math-core/src/parser.rs:2313-2326", "crates/math-core/src/token_queue.rs:633-637"]}
{"id": "C58", "title": "The command line program writes only what it should", "statement": "A run on a directory converts the files whose names end in .html one after the other, each as the document mode converts it with the state that the files before it leave, and leaves everything else as it is; the first problem ends the run and the files after it stay as they are. If the run succeeds, every such file has its converted text. A dry run changes nothing and ends as the real run. Without --write or --recursive no file is changed. The program always comes to an end, with the exit code of what went wrong.", "quantifier": "all directory trees with all names and contents, readable or not, writable or not; all options; all configurations; all inputs", "why_tests_cant": "The test of the program converts one document. What becomes of a file depends on all files before it, on their formulas, on the names in the tree and on the failures of the file system, which are never provoked.", "anchors": ["crates/math-core-cli/src/main.rs:119-352", "crates/math-core-cli/src/config_file.rs:73-77"]}
{"id": "C59", "title": "The bindings do what the converter does", "statement": "The JavaScript and Python objects answer every sequence of calls with the strings that the converter gives. A failing conversion is thrown (or raised) with its message and its position in the units of the language, counted in the text of the call, or becomes an HTML element with the source and the message if exceptions are switched off, and then nothing is ever thrown; a batch throws the error of the first failing snippet with its index. The options reach the converter: every setting can be chosen, wrong values are refused, and the defaults are those of the converter. Both languages answer alike.", "quantifier": "all options, all macros, all sequences of calls with all texts, including batches with any number of failing snippets", "why_tests_cant": "The tests of the bindings make a few calls. The offsets differ only for characters outside the Basic Multilingual Plane before an error; the index and the order of errors need batches with several failures; each option could be mixed up with another.", "anchors": ["crates/math-core-wasm/src/lib.rs:161-398", "crates/math-core-python/src/lib.rs:30-311", "crates/math-core/src/error.rs:398-449"]}
{"id": "C60", "title": "Texts that are no formulas are rejected with the error that is due", "statement": "Unclosed and unmatched groups, fences, brackets and environments, missing arguments, misplaced scripts, limits, rows, columns, lines, tags, labels, switches and definitions, repeated scripts and \\over, missing delimiters, and wrong lengths, units, colors and column specifications are errors, wherever they are in a formula that is well-formed up to there, also when they come out of a macro. The kind of the error, with its details, is the one that a declarative description of the ill-formed texts assigns; it assigns one kind at most, and none to the text of a formula.", "quantifier": "all texts that the description of ill-formed texts covers, in all contexts (any nesting of groups, arguments, scripts, fences and tables), all configurations, all states, all macros", "why_tests_cant": "The tests of errors have one text for each message. Each mistake can come after any formula and inside any construction, where another branch of the parser has to notice it.", "anchors": ["crates/math-core/src/parser.rs:201-447", "crates/math-core/src/parser.rs:450-2348", "crates/math-core/src/parser.rs:2707-2933", "crates/math-core/src/parser.rs:3367-3392", "crates/math-core/src/error.rs:20-132"]}
{"id": "C61", "title": "Operators are drawn as they are meant under the operator dictionary of MathML Core", "statement": "A browser takes the spaces, the stretchiness, the size and the place of the limits of an operator from the operator dictionary of MathML Core, depending on the position of the operator in its row, unless attributes say otherwise. The converter leaves out attributes that it expects the dictionary to supply. Every symbol has the entries that its category in the code stands for. With the dictionary and the attributes that are written, a row of symbols has the spaces that TeX puts between its atoms (with the exceptions of C36); symbols do not stretch; large operators are large, and their limits are where TeX puts them; delimiters of \\left, \\middle, \\right and \\big stretch, are without spaces unless they are relations in the middle; wide accents, braces and arrows with labels stretch and other accents do not.", "quantifier": "all formulas that are rows of symbols, numbers and operators with scripts, all styles, all characters and commands, both versions of the dictionary where they differ, and every order in which a browser looks for an entry", "why_tests_cant": "The snapshots contain the attributes, not what a browser makes of them; whether leaving one out is right depends on a table of a thousand entries and on the position in the row.", "anchors": ["crates/math-core/src/character_class.rs:60-209", "crates/math-core/src/parser.rs:560-760", "crates/math-core/src/parser.rs:3213-3404", "crates/mathml-renderer/src/symbol.rs", "crates/math-core/src/commands.rs"]}
{"id": "C62", "title": "The message of an error tells which error it is", "statement": "Errors with the same message are the same error, down to the names, numbers, units and environments in it. The text with the position in front tells the character as well, and the HTML tells the source and the display mode as well. The labels beside the source tell the kinds of errors apart, except for the two reasons for which an argument may be missing.", "quantifier": "all errors, with arbitrary strings and numbers in them, all sources and displays", "why_tests_cant": "Names in messages are arbitrary text that may contain quotes and whole messages; all pairs of errors matter.", "anchors": ["crates/math-core/src/error.rs:16-85", "crates/math-core/src/error.rs:153-348", "crates/math-core/src/error.rs:351-449"]}
{"id": "C63", "title": "Symbols have the characters and classes that they have in TeX", "statement": "A command whose name is in the table of unicode-math (which the repository contains) or in LaTeX draws the character of the table, and its atom is of the class of the table; so does a typed character of the table; a command and its character are the same. In a text, symbols of the tables are drawn with their characters, with the spaces that TeX puts between atoms of these classes. Names and characters for which the code differs are listed exactly.", "quantifier": "all 2300 symbols of the table and 427 names of LaTeX, in all configurations; all rows of such symbols, typed or by name, with scripts, in all styles and without definitions", "why_tests_cant": "There are thousands of symbols in three tables of the code that are written by hand, and a snapshot of a wrong entry is as good as one of a right entry.", "anchors": ["crates/math-core/src/commands.rs:29-994", "crates/math-core/src/lexer.rs:150-256", "crates/mathml-renderer/src/symbol.rs", "docs/unicode-math-table.html"]}
{"id": "C64", "title": "Definitions at the front of a text take effect", "statement": "A text may begin with definitions (\\newcommand, \\renewcommand, \\providecommand, \\def, \\gdef, \\let, \\global). With a definition the name stands for the body and nothing else changes: other names keep their meaning, and bodies stay as they are. The formula after the definitions is parsed and converted as it reads with the definitions. Definitions for the document are in force in the next snippet, the others are forgotten at the end of the text.", "quantifier": "all texts that begin with any number of well-formed definitions and go on with a formula that has a meaning, all configurations, and all states of the converter", "why_tests_cant": "The order, the kind and the scope of definitions combine freely with their use in arbitrary formulas; snapshots show a few combinations.", "anchors": ["crates/math-core/src/token_queue.rs:655-830", "crates/math-core/src/custom_cmds.rs", "crates/math-core/src/parser.rs:2365-2660"]}
{"id": "C65", "title": "More permissive settings only remove errors", "statement": "With ignore_unknown_commands switched on, or with a larger max_expansions, a conversion gives the same result and leaves the same state, unless with the narrower setting it stops with the error that the setting controls: an unknown command (inside the argument of \\color[..]{..} it is reported as a missing argument), or too many expansions. The same holds for every sequence of calls of a converter, and the two settings do not affect whether a converter can be made.", "quantifier": "all inputs, all macros, all states of the converter, all sequences of calls and all pairs of settings that differ only in these two options", "why_tests_cant": "A setting that is read in one place may change which branch the parser takes anywhere after it; tests run with one or two settings and compare single inputs.", "anchors": ["crates/math-core/src/lib.rs:190-247", "crates/math-core/src/token_queue.rs:402-430", "crates/math-core/src/parser.rs:2653-2662"]}
{"id": "C66", "title": "The internal error is never seen", "statement": "No input makes the parser give the error \"Internal parser error. Please report this bug\": bodies of macros are always found, an environment always ends at \\end, the name of a definition has the meaning it was read with, and no token that has no meaning of its own is read as an atom.", "quantifier": "all inputs, all configurations, all states of the converter and all fuels", "why_tests_cant": "The error marks states that the authors take to be impossible; only an argument over all runs can show that they are, and no snapshot has it.", "anchors": ["crates/math-core/src/parser.rs:1502", "crates/math-core/src/parser.rs:2180-2187", "crates/math-core/src/parser.rs:2289", "crates/math-core/src/parser.rs:2488", "crates/math-core/src/predefined.rs:142-175"]}
