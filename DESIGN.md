# Formal model of math-core: design

Target: `tmke8/math-core` at the commit in `/repo` (LaTeX → MathML Core, Rust).
Tool: Coq 8.16.1, standard library only.

## 1. Approach

* Rust functions are transcribed one by one as total Gallina functions in `theories/M_*.v`
  ("model" files). Every definition cites the file and lines it models and says where it simplifies.
* Characters are Unicode scalar values (`N`), strings are `list N`; where the code works on bytes
  (CLI search, spans) the UTF-8 length/encoding is modelled explicitly.
* `&mut` becomes returning the new value; `Result`/`Option` stay data; panics (`unwrap`, slice
  bounds, `unreachable!`, undefined behaviour of `unwrap_unchecked`) are an explicit `Crash`;
  loops without structural measure take fuel and return an explicit out-of-fuel value that the
  theorems prove unreachable (C29: for every input there is an amount of fuel beyond which the
  result no longer changes and is not a crash).
* The recursive parser (`parser.rs`) is a program over primitive operations and recursive calls
  (`M_Parser.prog`): `exec` gives the meaning of the operations, `body` the program of each
  recursive function, `run` executes it. A run also has a trace of performed operations
  (`S_Run.trun`), in terms of which properties "at every use of a macro", "at every number" are
  stated.
* Specifications independent of the model are in `theories/S_*.v`; proofs in `theories/L_*.v`;
  the property theorems are in `theories/P_*.v` together with non-vacuity `Example`s and
  `Print Assumptions`.

## 2. Files

| model | code |
|-------|------|
| `Str` | characters, strings, UTF-8 lengths, decimal printing |
| `M_Escape` | `html_utils.rs`, `escaping.rs`, `itoa.rs` |
| `M_SuperChar`, `M_Transform` | `super_char.rs`, `attribute.rs:transform_char` with the real tables |
| `M_Length`, `M_Spec` | `length.rs`, `atof.rs`, `specifications.rs` (binary32 arithmetic of `SpecFloat`) |
| `M_Ast`, `M_Emit`, `M_Output` | `ast.rs`, `table.rs`, `fmt.rs`, `lib.rs:emit` |
| `M_Token`, `M_Symbols`, `M_Commands`, `M_Colors` | `token.rs`, `symbol.rs`, `commands.rs`, `predefined.rs`, `character_class.rs`, `color_defs.rs`: the complete tables |
| `M_Env` | `environments.rs`, numbering in `parser.rs` |
| `M_Lexer` | `lexer.rs` |
| `M_CustomCmds`, `M_Queue` | `custom_cmds.rs`, `token_queue.rs` |
| `M_Spacing`, `M_Leaf`, `M_TextParser`, `M_Parser` | `parser.rs`, `text_parser.rs` |
| `M_LatexError`, `M_Error` | `error.rs` |
| `M_Api` | `lib.rs`, `global_state.rs` |
| `M_Cli`, `M_Tool`, `M_Main` | `math-core-cli`: `replace.rs`, `html_entities.rs`, `main.rs` |
| `M_Bindings` | `math-core-wasm`, `math-core-python`; labels of errors in `error.rs` |
| `M_Pool` | `string_pool.rs`, `split_on_ascii.rs` |

Not modelled: the arena (references become subtrees), `phf` hashing (maps are association lists or
decision functions with the same contents), the shortest decimal printing of floats (`dtoa`; a
function parameter of the emitter), the `&'static`/`KString` representations, the parsing of
options (`clap`) and of the configuration file (`toml`), the value conversions of
`wasm_bindgen` and `pyo3`, coloured error reports (`ariadne`), time, memory
and stack use.

## 3. Validation of the model

The model was executed (`vm_compute`) on the test-suite's inputs and compared, character by
character, with the snapshots stored in the repository: all 544 conversion snapshots, all 161 error
snapshots, all 98 custom-command snapshots (with 12 sequences of snippets sharing a state) and all 22
substitution snapshots agree.

## 4. Plan per property

| id | modelled | proof idea |
|----|----------|------------|
| C01 | `escape_html_content` | induction on the string; spec = independent entity decoder; round trip ⇒ injective |
| C02 | `to_html`, attribute escaper | shape theorem + round trip of both escapers |
| C03 | `EscapeHtml` | as C01 with five entities |
| C04 | `FRAGMENT_SAFE` percent encoding over UTF-8 bytes | byte-wise induction; percent decoder as spec; alphabet lemma by finite sweep over 256 bytes |
| C05 | whole `Node` type and `Emitter::emit`, `emit_table`, `ColumnGenerator`, parser | structural induction over the tree: output is accepted by an independent tag-stack checker; every tree of the parser is such a tree |
| C06 | the same | no text changes the tags, for trees without operator names / unknown commands that contain markup; `_refuted` for those |
| C07 | emitter with indent 0 vs n | simultaneous induction: compact output = pretty output with marked breaks erased |
| C08 | `Lexer` | strong induction on the remaining input, span arithmetic over UTF-8 lengths |
| C09, C10 | `Lexer` | case analysis + induction over runs |
| C11 | digit arm of `parse_one_token` | induction over the token stream against a longest-match spec; every number of a conversion |
| C12–C15 | `NumberedEnvState::next_equation_tag`, the row loop, the parser | induction over row lists against an abstract numbering spec; from the text of formulas to the tags their trees show through C52 (`S_Tagged`, `L_Tagged*`), and to the numbers in the markup read back through C53 (`S_Shown`, `C12_seen`, `C12_converted`) |
| C16, C17 | label map, `EqRef` emission, `convert_all` | map refinement; induction over snippets |
| C18–C21 | API layer over the real parser | induction over call histories |
| C22 | `parse_custom_commands` | induction over macro list; permutation argument |
| C23, C44, C45 | `TokenQueue`, `CustomCmds` | refinement: queue = buffered tokens ++ lexer stream |
| C24–C27, C48 | `CustomCmds`, `define`, `absorb`, `\let` | invariants over stores, refinement to an abstract environment (name → meaning) over histories |
| C28, C29 | expansion counter, parser loop | budget invariant over traces; lexicographic termination measure (expansions left, weight of what is to be read, program) |
| C30, C31 | `parse_column_specification`, `parse_length_specification`, `limited_float_parse` | induction against regular-language specs |
| C32, C33 | `SuperChar` | bit arithmetic lemmas, finite table search |
| C34 | `transform_char` | interval reasoning over all scalars per style |
| C35 | hex output, color parsing | finite 256-sweep lifted; numbers by computation over all values with few decimals; in front of any formula through C52 |
| C36 | spacing functions | decision tables against TeX's table |
| C37 | environment table | finite table |
| C38–C43 | CLI `replace`, entity decoder, error positions | induction over the document |
| C46 | `extract_text` | refinement to a stack-free reading with scoped styles |
| C47 | `get_bounds` | induction over the marks of a run |
| C49 | `emit_table` | induction over cells |
| C50 | `StringPool`, `split_on_ascii` | induction over histories |
| C51 | every error site of lexer, queue, parser | invariant: all spans in the queue are ranges of the input; Hoare triples for all operations and programs |
| C52 | lexer, queue, parser, environments | formulas as an inductive type with a text and a meaning (`S_Formula`); the lexer turns the text into tokens (`L_FormLex`), the parser programs win on them with the meaning (`L_Wins`, `L_Form*`) by mutual induction. An argument is a group, a symbol, or without braces a command with its own arguments (`AItem`: `x_\mathrm{max}`, `\sqrt\frac12`); in that case the scripts that follow go to it only if it is an operator or a `\sideset`, which `formula_ended` says. The first two arguments of `\sideset` begin with scripts that have no base (`AScripts`). Scripts at the start of a sequence (`^{14}C`) are an item whose symbol is `_` or `^` |
| C53 | `emit`, `emit_table`, `lib.rs:emit` | an XML reader as a fold over characters and the elements of each tree, written without the emitter (`S_MathML`); reading is compositional, induction over trees (`L_Read*`) |
| C54 | `emit`, `emit_table`, `parse_token` | content models of the elements (`S_Valid`), induction over trees (`L_Valid`); formulas with their separators in sight of the table (`S_Tidy`) have such trees, induction over formulas (`L_Tidy`) |
| C56 | queue, expansion, parser | an inductive relation between token lists and formulas (`S_Reading`) in which blanks are skipped and macros unfolded up to a budget; the programs of C52 win on every list that reads as a formula (`L_Expand`, `L_Form*`); `\dots` is read like a macro whose body depends on the class of what follows |
| C57 | expansion, parser | `\mathchoice` as a macro with four parameters whose body is the parameter of the style in force, for every operation in the trace of a conversion |
| C58 | `main.rs`: files, directories, options, ends | the run over a tree as a run over the list of what is visited (`S_Main.converted`), induction over the tree; everything else by induction over that list |
| C59 | both bindings | simulation of sessions by sessions of the converter (`S_Bindings.js_expected`, `py_expected`), with C02, C29, C43 and C51 for the errors |
| C60 | the errors of the parser | a declarative description of ill-formed texts (`S_Faulty.wrong_seq`, on top of the readings of C56), mutual induction over it; the programs of the parser are followed by the combinators of C52, extended by the kind of error that is expected |
| C61 | symbol tables, spacing, `fenced`, accents | the operator dictionary of MathML Core as a table of ranges (`S_Dictionary`), with the choices of a browser (form, order of the search, two uncertain entries) as parameters; that every symbol has the entries of its category by computation over the tables; rows by induction over formulas on top of C36 and C52 |
| C62 | `write_msg`, `label`, `to_message`, `to_html` | injectivity: no opening of a message is the beginning of another (a check of all pairs of kinds), and what varies is bounded by characters that it cannot contain or by the end |
| C63 | symbol and command tables, `char_token` | the table of unicode-math and a list of the symbols of LaTeX as data (`S_UnicodeMath`), compared by computation in both directions (the exceptions are exact); texts by induction over rows on top of C61 |
| C64 | `define`, `define_command`, `def_command`, `let_command` | a relation between token lists, definitions and stores (`S_Preamble.prepared`); an invariant of the queue says that its tokens are the typed ones under the current definitions (`L_Preamble.ty`), each definition keeps it; the formula after them by C56 |
| C65 | every reader of the queue, `exec`, `run` | two settings `permits a b`; every reader does the same with both or stops with a lifted error (`L_Permit.less`), every operation does so on states that differ in the expansions left (`plift`); no program looks at that number (`blind`, over all the parser programs), so runs agree by induction on fuel and program |
| C66 | `body`, `exec`, `run` | a second interpreter `run_with` that differs only in the error for a misplaced token (`S_Intern`); every operation but `ODefine` never raises the internal error in a sound state (`L_Intern.exec_fine`, with the stored bodies of `L_Weight`), the programs raise it at misplaced tokens only (`pfine`, with the end of a sequence as postcondition for `\begin`), so the two runs are related by induction; a failed `ODefine` has a name that got its meaning after it was read (`define_stale`) |
| C55 | `attribute.rs`, `parse_token` | the names of the attributes of an operator for all combinations of flags by computation, everything else by induction over trees (`L_Once`); that the flags are compatible is an invariant of the parser (`attrs_ok` in `S_Tree`, `L_Run`) |

## 5. Findings

Properties that the faithful model violates; each has a `_refuted` theorem with a concrete witness
unless said otherwise.

1. **Markup injection (C06).** `\operatorname{<img/src=x/onerror=alert(1)>}` puts its argument
   verbatim into the output (`ast.rs:359`, `PseudoOp`), `\operatorname{\&lt;}` gives a raw entity, and
   with `ignore_unknown_commands` `\<` is copied verbatim into `<mtext>` (`UnknownCommand`). All other
   text is proved to be escaped. The CSS classes and the id prefix of the configuration are copied
   verbatim as well.
2. **`\mathfrak{I}` (C34).** The table maps `I` to U+210D (double-struck H) instead of U+2111; and
   U+03A2 (unassigned) is mapped and collides with ϴ.
3. **`\notag` and `\tag` in one row (C13).** The row keeps its tag, but the suppression stays pending and
   takes away the number of the next row.
4. **`\label` in `multline` (C16).** A label in a row other than the last is dropped silently although
   the environment gets a number.
5. **Failed conversions (C21).** `convert_with_global_state` leaves global definitions, equation numbers and
   labels of the part before the error behind.
6. **CLI panic (C41).** `replace.rs:199` runs the conversion a second time and calls `unwrap_err`; the first
   run may have changed the state so that the second one succeeds
   (`\providecommand{\b}{\undef}\let\c=\b\gdef\b{x}\c`). Proved: `replace` does not panic for any converter whose
   failures are repeatable, and for the real converter with `--continue-on-error`.
7. **Entities after a bare `&` (C40).** `a & b &lt; c` is left alone up to the next `;`: a bare ampersand shields
   the entity after it.
8. **Definitions through arguments (C25).** Control words in a macro body are resolved and lose their name. When a
   definition command reaches a body as an argument, the name after it is therefore judged wrongly:
   `\newcommand\a[1]{x#1\b{1}\b}\a\def` leaves `\b` without meaning for the rest of the body, and
   `\newcommand` of a name that has a meaning is accepted.
9. **Spacing (C36).** Three situations differ from TeX's table: see `S_Spacing`. `\mathbin` with nothing on one
   side still counts as a binary operator for its neighbours.
10. **Text (C46).** An accent before a group goes to a later character (`\text{\'{\textbf a}b}`) or is lost before
    `}`; `\text\textbf{y}z}` is accepted while `\text\textbf{y}` is refused as unclosed.
11. **Reversed error positions (C51).** Tokens of a macro body have the position 0..0, those of its arguments keep
    theirs. An error that goes from an argument to the body then ends before it starts:
    `\def\a#1{\kern#1pt}\a{1.1.1}` gives 22..0. `to_report` (`error.rs:455`) hands this range to a library
    which insists on start ≤ end.

12. **Separators as arguments (C54).** Inside a table environment `&` and `\\` are tokens like others: `\begin{matrix} a_& b\end{matrix}`
    makes the separator the subscript, and the emitter writes `<msub><mi>a</mi></msub>` with one child in a table with one cell; the same with
    `\frac & b`, `\sqrt[2]\\`, and in groups and after `\displaystyle` the separator is lost. The emitter panics on such a tree in debug builds
    (ast.rs:722-727) and drops the separator in release builds. `C54_refuted`.
13. **The attribute `stretchy` twice (C55).** `\mathrel{\big|}` and `\Set{x\mathrel{|}y}` give `<mo stretchy="false" stretchy="true" ...>`, which is
    not well-formed XML: parser.rs:761-773 adds STRETCHY_FALSE to an operator that has STRETCHY_TRUE already, against the debug assertion in
    attribute.rs:30-33. `C55_refuted`.
14. **Colors (C35).** `\color[HTML]{zzzzzz}` is black, `\color[RGB]{1,2,3,junk}` is `1,2,3`, and numbers out of range become 0 or 255: none of
    these is an error, while a missing part is. `C35_invalid_refuted`.
15. **Rows within braces (C12).** `\\` within braces ends a row of the environment around it: it takes a number, but the separator is
    not shown (finding 12). The only row of `\begin{align}{a\\b}\end{align}` has the number 2. `C12_braces_refuted`.
16. **Macros are not always transparent (C56).** The commands that leave nothing behind are handled before a token is expanded
    (parser.rs:205-447), so a macro that begins with one of them is refused: `\newcommand\nn{\nonumber}` cannot be used in `align`, nor can a
    macro for `\rm` or `\over` (`C56_switch_refuted`). A macro `^2` puts the script on an empty base (`C56_script_refuted`). A macro
    that begins with its argument does not count as the argument for the spacing before it (`C56_class_refuted`). `1\two` is two numbers
    (`C56_digits_refuted`). An empty macro is an empty row, after which `-` is binary (`C56_empty_refuted`). As an argument without braces, a macro or `\dots` counts only with the first atom it stands for: `\sqrt\ab` is not `\sqrt{\ab}` (`C56_argument_refuted`). In all other cases a macro gives the tree
    of what it stands for (`C56_parsed`, `C56_macro`).
17. **Recursive runs (C58).** `main.rs:184` uses one converter for all files, so definitions, labels and numbers of a file reach
    the files that `read_dir` lists after it, and the order of `read_dir` is not specified: the same tree can be converted in different
    ways on different file systems (`C58_alone_refuted`). A recursive run on a path where there is nothing does nothing and exits with 0,
    where a plain run exits with 1 (`C58_missing_refuted`).
18. **Signs at the start of a row (C61).** After `\color{red}`, `\displaystyle` and `&` the code counts `+` and `-` as binary and leaves their
    spaces to the dictionary, but they are the first child of an `<mrow>` or `<mtd>`, where a browser takes them for signs without spaces:
    `a &+ b` in `aligned` has no space after `+`, though TeX puts 4mu there. `form="infix"` is missing. `C61_row_start_refuted`.
19. **Groups and scripts as the next atom (C61).** `{` has the class of an opening delimiter (token.rs:547-657), so `\sin{x}` has no space
    where `\sin x` has one; a script has the class of an ordinary atom, so `a =_b = c` has a space between the relations. `C61_next_refuted`.
20. **`\smile` and `\frown` stretch (C61).** They are stretchy in the dictionary (as accents) and have no `stretchy="false"`: `\overset{abc}{\smile}`
    draws a wide one. `C61_stretchy_refuted`. For U+2A1D and U+2A1E, which have movable limits, `\limits` has no effect in text style
    (`C61_limits_refuted`).
21. **Delimiters that are not in the dictionary (C61).** `\left\lmoustache x\right\rmoustache` and `\left\ulcorner x\right\urcorner` have 5mu
    around each delimiter (`fenced` takes for granted that delimiters have no spaces). `C61_delimiter_spaces_refuted`.
22. **Arrows as delimiters (C61).** `\left\uparrow` is not centered on the axis, while `\middle\uparrow` and `\big\uparrow` are: `fenced`
    ignores `Stretchy::AlwaysAsymmetric` (character_class.rs:165-170). `C61_centered_refuted`.
23. **Symbols of another class than in LaTeX (C63).** `\bigcirc`, `\dag` and `\ddag` are letters instead of binary operators, so
    `a \bigcirc b` has no spaces; `\backepsilon` is a letter instead of a relation; `\colon` is a letter instead of punctuation, so
    `f\colon A` has no space after the colon; `\lhd`, `\rhd`, `\unlhd` and `\unrhd` are relations instead of operators; `\ddots`
    and `\vdots` are relations (as in unicode-math). `C63_latex_refuted`.
24. **Characters that are unlike their commands (C63).** The characters of `\therefore`, `\because`, `\Yleft`, `\Yright`,
    `\circlearrowleft`, `\circlearrowright`, `\dashleftarrow`, `\dashrightarrow`, `\blacktriangleleft` and `\blacktriangleright`
    are letters when they are typed, and the commands are relations. `C63_typed_refuted`. 72 typed characters have another
    class than in unicode-math, such as U+2ADB, which is a relation there (`um_char_others` in `S_UnicodeMath`).
25. **The internal error can be seen (C66).** `\set{\sqrt}`, `\Set{x^}` and `\Braket{\frac1}` give "Internal parser error. Please report this bug":
    the bodies of these macros (predefined.rs:142-175) have a token that ends the special meaning of `|` right after the argument, and a command at
    the end of the argument takes it for its own argument (`C66_refuted`). A name that is defined twice by means of the arguments of a macro
    gives the error as well, instead of that for a defined name: `\newcommand\a[2]{x#1\b{1}#2\b{2}}\a\def\newcommand` (`C66_define_refuted`, a
    consequence of finding 8). There are no other sources (`C66_source_partial`).

Smaller observations (no theorem needed or only a lemma): duplicate configured macros are ignored silently
(the first wins); `after_first_char_and_vs` misses U+FE0F; `LengthSet` iteration stops at a non-finite value;
the `' '` arm in `lexer.rs:174` and the flag
`lexer_is_eoi` are dead; `absorb` may copy exponentially many tokens; `\eqref` puts parentheses around the tag
even for `\tag*`; a one-token macro argument loses its text form, so that
`\newcommand\a[1]{\text{#1}}\a\&` fails while `\a{\&}` works; digits are merged over blanks
(`1 2` is one `<mn>`); errors inside macro bodies are reported at position 0; `\genfrac` style errors are reported
as a missing argument; the CLI misreads `\$$$b` and `$a$$b$`.

## 6. Trusted base

* Coq's kernel (8.16.1) and `vm_compute`.
* `Print Assumptions` says "Closed under the global context" for every theorem: no axioms at all.
* The reading of the Rust source recorded in the comments of the model files (supported by section 3).
* The statements in the `P_*.v` files and the definitions in the `S_*.v` files they use.
* The operator dictionary of MathML Core (appendix B.2) as written down in `S_Dictionary`: the sizes of its categories are those of the
  specification (313, 109, 64, 52, 40, 30, 30, 27, 22, 22, 7, 6 and 3 entries). Two uncertain entries (`/` in category B or K, an infix
  entry for U+2016) are parameters of the theorems.
* The table of unicode-math in `S_UnicodeMath` (copied by a script from docs/unicode-math-table.html) and the list of LaTeX symbols beside
  it (written by hand after fontmath.ltx, amsmath and amssymb).
* Parameters: the largest `usize` (arbitrary), the float printer (arbitrary), and the amount of fuel
  (arbitrary; sufficient amounts exist by C29).

## 7. Seeded bugs

`seeded/LOG.jsonl` lists edits of the model made in a scratch copy, each the kind of slip a programmer could
make, with the theorems whose proofs then fail. An edit counts as found if a property theorem itself, or a lemma
it rests on, can no longer be proved by its script; the list contains the theorems only.
