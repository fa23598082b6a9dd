(** Model of the error values of crates/math-core/src/error.rs and of their messages. *)
From Verif Require Import Str M_Token M_Env.

(** error.rs:87-100 [DelimiterModifier] *)
Inductive delimiter_modifier := DmLeft | DmRight | DmMiddle | DmBig | DmGenfrac.
(** error.rs:102-116 [Place] *)
Inductive place := AfterBigOp | TableEnv | NumberedEnv | ArrayRowStart | BeforeDefinition.
(** error.rs:118-141 [LimitedUsabilityToken] *)
Inductive limited_token := LtAmpersand | LtTag | LtTagStar | LtLabel | LtLimits | LtNoLimits | LtDisplayLimits
  | LtHLine | LtHDashLine | LtGlobal.
(** error.rs:143-151 *)
Definition limited_from_limits (k : limits_kind) : limited_token :=
  match k with LkAlways => LtLimits | LkNever => LtNoLimits | LkDisplay => LtDisplayLimits end.

(** error.rs:16-85 [LatexErrKind] *)
Inductive err_kind :=
| E_UnclosedGroup (e : end_token)
| E_UnmatchedClose (e : end_token)
| E_ExpectedArgumentGotClose
| E_ExpectedArgumentGotEOI
| E_ExpectedDelimiter (d : delimiter_modifier)
| E_DisallowedChar (c : N)
| E_UnknownEnvironment (s : str)
| E_UnknownCommand (s : str)
| E_UnknownColor (s : str)
| E_MismatchedEnvironment (expected got : env)
| E_CannotBeUsedHere (got : limited_token) (correct : place)
| E_ExpectedRelation
| E_ExpectedLargeOp
| E_ExpectedAtMostOneToken
| E_ExpectedExactlyOneToken
| E_BoundFollowedByBound
| E_DuplicateSubOrSup
| E_CannotBeUsedAsArgument
| E_ExpectedAscii
| E_ExpectedLength (s : str)
| E_IllegalUnit (unit : str) (math_unit_expected : bool)
| E_InvalidUnit (s : str)
| E_ExpectedColSpec (s : str)
| E_ExpectedStyle
| E_NotValidInTextMode
| E_NotValidInMathMode
| E_NestedMathModeUnimplemented
| E_UnexpectedDollar
| E_CouldNotExtractText
| E_MoreThanOneLabel
| E_MoreThanOneInfixCmd
| E_InvalidMacroName (s : str)
| E_ExpectedCommandName
| E_CommandAlreadyDefined
| E_CommandNotDefined
| E_InvalidParameterNumber
| E_ParameterNumberOutOfRange (n actual : nat)
| E_DelimitedParameters
| E_UnexpectedParameterNumber (expected actual : nat)
| E_MacroParameterOutsideCustomCommand
| E_ExpectedParamNumberGotEOI
| E_HardLimitExceeded
| E_TooManyExpansions
| E_Internal.

(** error.rs:12-14 [LatexError] *)
Record latex_error := mkErr { err_span : span; err_kind_of : err_kind }.

(** token.rs:776-788: the names of end tokens *)
Definition end_token_name (e : end_token) : str :=
  match e with
  | EtEnd => lit "\end{...}" | EtGroupClose => lit "}" | EtRight => lit "\right"
  | EtSquareBracketClose => lit "]" | EtEoi => lit "end of input"
  end.
(** error.rs:87-141: the serialized names *)
Definition delimiter_modifier_name (d : delimiter_modifier) : str :=
  match d with
  | DmLeft => lit "\left" | DmRight => lit "\right" | DmMiddle => lit "\middle"
  | DmBig => lit "\big, \Big, ..." | DmGenfrac => lit "\genfrac"
  end.
Definition place_name (p : place) : str :=
  match p with
  | AfterBigOp => lit "after \int, \sum, ..."
  | TableEnv => lit "in a table-like environment"
  | NumberedEnv => lit "in a numbered equation environment"
  | ArrayRowStart => lit "directly after a `\\` or at the beginning of an array or matrix"
  | BeforeDefinition => lit "directly before \let or \def"
  end.
Definition limited_token_name (t : limited_token) : str :=
  match t with
  | LtAmpersand => lit "&" | LtTag => lit "\tag" | LtTagStar => lit "\tag*" | LtLabel => lit "\label"
  | LtLimits => lit "\limits" | LtNoLimits => lit "\nolimits" | LtDisplayLimits => lit "\displaylimits"
  | LtHLine => lit "\hline" | LtHDashLine => lit "\hdashline" | LtGlobal => lit "\global"
  end.

(** error.rs:153-348 [write_msg] *)
Definition write_msg (k : err_kind) : str :=
  match k with
  | E_UnclosedGroup e => lit "Expected closing token """ ++ end_token_name e ++ lit """, but reached end of input."
  | E_UnmatchedClose e => lit "Unmatched closing token: """ ++ end_token_name e ++ lit """."
  | E_ExpectedArgumentGotClose => lit "Expected argument but got closing token (`}`, `\end`, `\right`)."
  | E_ExpectedArgumentGotEOI => lit "Expected argument but reached end of input."
  | E_ExpectedDelimiter d =>
      lit "There must be a parenthesis after """ ++ delimiter_modifier_name d ++ lit """, but not found."
  | E_ExpectedStyle =>
      lit "Expected one of `\displaystyle`, `\textstyle`, `\scriptstyle`, or `\scriptscriptstyle`"
  | E_DisallowedChar c => lit "Disallowed character in text group: '" ++ [c] ++ lit "'."
  | E_UnknownEnvironment s => lit "Unknown environment """ ++ s ++ lit """."
  | E_UnknownCommand s => lit "Unknown command ""\" ++ s ++ lit """."
  | E_UnknownColor s => lit "Unknown color """ ++ s ++ lit """."
  | E_MismatchedEnvironment e g =>
      lit "Expected ""\end{" ++ env_as_str e ++ lit "}"", but found ""\end{" ++ env_as_str g ++ lit "}""."
  | E_CannotBeUsedHere g p => lit "Found """ ++ limited_token_name g ++ lit """, which may only appear " ++ place_name p ++ lit "."
  | E_ExpectedRelation => lit "Expected a relation after \not."
  | E_ExpectedLargeOp => lit "Expected a large operator."
  | E_ExpectedAtMostOneToken => lit "Expected at most one token as argument."
  | E_ExpectedExactlyOneToken => lit "Expected exactly one token as argument."
  | E_BoundFollowedByBound => lit "'^' or '_' directly followed by '^', '_' or prime."
  | E_DuplicateSubOrSup => lit "Duplicate subscript or superscript."
  | E_CannotBeUsedAsArgument => lit "Switch-like commands cannot be used as arguments."
  | E_ExpectedAscii => lit "Expected non-special ASCII characters in string literal."
  | E_ExpectedLength s => lit "Expected length with units, found """ ++ s ++ lit """."
  | E_IllegalUnit u true => lit "Text unit """ ++ u ++ lit """ cannot be used with \mkern/\mskip/\mspace."
  | E_IllegalUnit u false => lit "Math unit """ ++ u ++ lit """ cannot be used with \kern/\hskip/\hspace."
  | E_InvalidUnit u => lit "Found invalid unit """ ++ u ++ lit """."
  | E_ExpectedColSpec s => lit "Expected column specification, found """ ++ s ++ lit """."
  | E_NotValidInTextMode => lit "Not valid in text mode."
  | E_NotValidInMathMode => lit "Not valid in math mode."
  | E_NestedMathModeUnimplemented => lit "Math mode within text mode is not implemented yet."
  | E_UnexpectedDollar => lit "Unexpected ""$""."
  | E_CouldNotExtractText => lit "Could not extract text from the given macro."
  | E_MoreThanOneLabel => lit "Found more than one label in a row."
  | E_MoreThanOneInfixCmd => lit "Found more than one infix fraction in a group."
  | E_InvalidMacroName s => lit "Invalid macro name: ""\" ++ s ++ lit """."
  | E_ExpectedCommandName => lit "Expected the name of a command."
  | E_CommandAlreadyDefined => lit "This command is already defined."
  | E_CommandNotDefined => lit "This command is not defined."
  | E_InvalidParameterNumber => lit "Invalid parameter number. Must be 1-9."
  | E_ParameterNumberOutOfRange n a =>
      lit "Parameter number " ++ dec (N.of_nat a) ++ lit " is out of range. Expected a number of at most " ++ dec (N.of_nat n) ++ lit "."
  | E_DelimitedParameters => lit "Delimited parameters are not supported. Expected ""#n"" or ""{"" here."
  | E_UnexpectedParameterNumber e a =>
      lit "Expected parameter #" ++ dec (N.of_nat e) ++ lit ", found #" ++ dec (N.of_nat a) ++
      lit ". Parameters must be numbered consecutively, starting at 1."
  | E_MacroParameterOutsideCustomCommand => lit "Macro parameter found outside of custom command definition."
  | E_ExpectedParamNumberGotEOI => lit "Expected parameter number after '#', but reached end of input."
  | E_HardLimitExceeded => lit "Hard limit exceeded. Please simplify your equation."
  | E_TooManyExpansions => lit "Too many expansions of custom commands. A command may be expanding to itself."
  | E_Internal => lit "Internal parser error. Please report this bug at https://github.com/tmke8/math-core/issues"
  end.
