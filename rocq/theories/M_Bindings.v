(** The bindings for JavaScript (crates/math-core-wasm/src/lib.rs) and Python (crates/math-core-python/src/lib.rs).
    What [wasm_bindgen] and [pyo3] do to hand values over is not modelled; strings are Unicode on both sides. The
    lock of the Python object is never poisoned, since nothing panics (C29). *)
From Verif Require Import Str M_Escape M_Cli M_Error M_Length M_Emit M_Output M_Token M_LatexError M_Lexer M_CustomCmds M_Queue M_Parser M_Api M_Tool.

(** crates/math-core/src/error.rs:398-449 [label] *)
Definition error_label (k : err_kind) : str :=
  match k with
  | E_UnclosedGroup _ => lit "a group was never closed"
  | E_UnmatchedClose _ => lit "no matching opening for this"
  | E_ExpectedArgumentGotClose | E_ExpectedArgumentGotEOI => lit "expected an argument here"
  | E_ExpectedDelimiter _ => lit "expected a delimiter here"
  | E_DisallowedChar _ => lit "disallowed character"
  | E_UnknownEnvironment _ => lit "unknown environment"
  | E_UnknownCommand _ => lit "unknown command"
  | E_UnknownColor _ => lit "unknown color"
  | E_MismatchedEnvironment _ _ => lit "expected a different environment name here"
  | E_CannotBeUsedHere _ _ => lit "cannot be used here"
  | E_ExpectedRelation => lit "expected a relation"
  | E_ExpectedLargeOp => lit "expected a large operator"
  | E_ExpectedStyle => lit "expected a style"
  | E_ExpectedAtMostOneToken => lit "expected at most one token here"
  | E_ExpectedExactlyOneToken => lit "expected exactly one token here"
  | E_BoundFollowedByBound => lit "unexpected bound"
  | E_DuplicateSubOrSup => lit "duplicate"
  | E_CannotBeUsedAsArgument => lit "used as argument"
  | E_ExpectedAscii => lit "special or not ASCII"
  | E_ExpectedLength _ => lit "expected length here"
  | E_IllegalUnit _ _ => lit "illegal unit here"
  | E_InvalidUnit _ => lit "invalid unit here"
  | E_ExpectedColSpec _ => lit "expected a column spec here"
  | E_NotValidInTextMode => lit "this is not valid in text mode"
  | E_NotValidInMathMode => lit "this is not valid in math mode"
  | E_NestedMathModeUnimplemented => lit "cannot switch to math mode here"
  | E_UnexpectedDollar => lit "unexpected dollar sign"
  | E_CouldNotExtractText => lit "could not extract text from this"
  | E_MoreThanOneLabel => lit "duplicate label"
  | E_MoreThanOneInfixCmd => lit "duplicate infix frac"
  | E_InvalidMacroName _ => lit "invalid name here"
  | E_ExpectedCommandName => lit "expected a command name here"
  | E_CommandAlreadyDefined => lit "already defined"
  | E_CommandNotDefined => lit "not defined"
  | E_InvalidParameterNumber => lit "must be 1-9"
  | E_ParameterNumberOutOfRange _ _ => lit "parameter number out of range"
  | E_DelimitedParameters => lit "unsupported delimiter"
  | E_UnexpectedParameterNumber _ _ => lit "unexpected parameter number"
  | E_MacroParameterOutsideCustomCommand => lit "unexpected macro parameter"
  | E_ExpectedParamNumberGotEOI => lit "expected parameter number"
  | E_HardLimitExceeded => lit "limit exceeded"
  | E_TooManyExpansions => lit "expansion limit exceeded"
  | E_Internal => lit "internal error"
  end.

(** [if displaystyle { Block } else { Inline }] *)
Definition display_of (displaystyle : bool) : math_display := if displaystyle then M_Output.Block else M_Output.Inline.
Definition html_display (displaystyle : bool) : M_Cli.display := if displaystyle then M_Cli.Block else M_Cli.Inline.
(** What a dynamic value is if a string is wanted *)
Inductive dynamic := DStr (s : str) | DOther.
Definition as_string (v : dynamic) : option str := match v with DStr s => Some s | DOther => None end.
Definition or_default {A} (o : option A) (d : A) : A := match o with Some a => a | None => d end.
(** math-core/src/lib.rs:154-158 [MaxExpansions::default] *)
Definition default_max_expansions : nat := 1000.
(** mathml-renderer/src/ast.rs:235-241 and 251-255 *)
Definition default_css_unknown : str := lit "math-core-unknown-cmd".
Definition default_indentation : indentation := IndSpaces 4.

(** The calls of both objects *)
Inductive bind_call :=
| BGlobal (latex : str) (displaystyle : bool)
| BLocal (latex : str) (displaystyle : bool)
| BAll (snippets : list (str * bool))
| BReset.

Section Bindings.
Context (usize_max : N) (fuel : nat) (dtoa : f32 -> str).

(** ** JavaScript *)

(** wasm lib.rs:89-110 [MathCoreOptions]; the entries of a map are pairs *)
Record js_options := mkJsOptions {
  jo_pretty : option str; jo_macros : option (list (dynamic * dynamic)); jo_xml_namespace : option bool; jo_throw : option bool;
  jo_ignore_unknown : option bool; jo_annotation : option bool; jo_unreliable : option bool; jo_global_group : option bool;
  jo_unicode : option str; jo_max_expansions : option nat; jo_id_prefix : option str }.
(** wasm lib.rs:31-41 [LatexError] without the report *)
Record js_error := mkJsError {
  je_message : str; je_label : str; je_start : N; je_end : N; je_index : option N; je_context : option str }.
(** wasm lib.rs:83-87 [LatexToMathML] *)
Record js_object := mkJsObject { js_inner : converter; js_throw : bool }.
Inductive js_thrown := JsConfigError (message : str) | JsLatexError (e : js_error).
(** [JsCrash] is no behaviour of the program (C59_ends). *)
Inductive js_reply := JsString (s : str) | JsArray (l : list str) | JsThrow (e : js_thrown) | JsUndefined | JsCrash (k : crash).
Inductive js_new := JsNew (o : js_object) | JsNewThrow (e : js_thrown) | JsNewCrash (k : crash).

(** [as u32] *)
Definition as_u32 (n : nat) : N := N.of_nat n mod 4294967296.
(** wasm lib.rs:373-387 [conversion_error] and 249-261 *)
Definition js_latex_error (e : latex_error) (content : str) (index : option nat) (context : option str) : js_error :=
  mkJsError (write_msg (err_kind_of e)) (error_label (err_kind_of e))
    (as_u32 (byte_offset_to_utf16_offset content (sp_start (err_span e)))) (as_u32 (byte_offset_to_utf16_offset content (sp_end (err_span e))))
    (option_map as_u32 index) context.

(** wasm lib.rs:164-196: the loop over the entries of the map *)
Fixpoint js_macros (l : list (dynamic * dynamic)) : option (list (str * str)) :=
  match l with
  | [] => Some []
  | (k, v) :: rest =>
      match as_string k with
      | None => None
      | Some key =>
          match as_string v with
          | None => None
          | Some value => match js_macros rest with Some r => Some ((key, value) :: r) | None => None end
          end
      end
  end.
(** wasm lib.rs:197-211 *)
Definition js_pretty (s : str) : option pretty_print :=
  if str_eqb s (lit "always") then Some PpAlways
  else if str_eqb s (lit "never") then Some PpNever
  else if str_eqb s (lit "auto") then Some PpAuto
  else None.
(** wasm lib.rs:218-231: whether it is [Conventional] *)
Definition js_unicode (s : str) : option bool :=
  if str_eqb s (lit "never") then Some false
  else if str_eqb s (lit "conventional") then Some true
  else None.
(** An option that may be absent, and wrong *)
Definition opt_read {A B} (f : A -> option B) (d : B) (o : option A) : option B :=
  match o with Some a => f a | None => Some d end.

(** wasm lib.rs:164-248: the configuration *)
Definition js_config (o : js_options) : config + str :=
  match opt_read js_macros [] (jo_macros o) with
  | None => inr (lit "Invalid macros map")
  | Some macros =>
      match opt_read js_pretty PpNever (jo_pretty o) with
      | None => inr (lit "Invalid value for prettyPrint")
      | Some pp =>
          match opt_read js_unicode true (jo_unicode o) with
          | None => inr (lit "Invalid value for unicodeSubstitution")
          | Some conventional =>
              inl (mkConfig macros (or_default (jo_ignore_unknown o) false) (or_default (jo_unreliable o) false)
                     (or_default (jo_global_group o) false) conventional (or_default (jo_max_expansions o) default_max_expansions)
                     (mkEmitterCfg pp (or_default (jo_xml_namespace o) false) (or_default (jo_annotation o) false)
                        default_css_unknown default_indentation (or_default (jo_id_prefix o) []) dtoa))
          end
      end
  end.
(** wasm lib.rs:161-266 [new] *)
Definition js_construct (o : js_options) : js_new :=
  match js_config o with
  | inr message => JsNewThrow (JsConfigError message)
  | inl cfg =>
      match converter_new cfg with
      | NewOk c => JsNew (mkJsObject c (or_default (jo_throw o) true))
      | NewErr (e, _, context) => JsNewThrow (JsLatexError (js_latex_error e context None (Some context)))
      | NewCrash k => JsNewCrash k
      end
  end.

(** wasm lib.rs:279-288, 303-312, 350-359: what is made of a result *)
Definition js_present (throw : bool) (r : res convert_result) (content : str) (displaystyle : bool) (index : option nat) : js_reply :=
  match r with
  | Ok m => JsString (cr_mathml m)
  | Err e =>
      if throw then JsThrow (JsLatexError (js_latex_error e content index None))
      else match error_html e content (html_display displaystyle) with Some h => JsString h | None => JsCrash OutOfFuel end
  | Crash k => JsCrash k
  end.
(** wasm lib.rs:343-362: [enumerate], [map] and [collect], which stops at the first error *)
Fixpoint js_collect (throw : bool) (index : nat) (inputs : list (str * bool)) (results : list (res convert_result)) : js_reply :=
  match inputs, results with
  | (latex, d) :: inputs, r :: results =>
      match js_present throw r latex d (Some index) with
      | JsString s =>
          match js_collect throw (S index) inputs results with
          | JsArray l => JsArray (s :: l)
          | x => x
          end
      | x => x
      end
  | _, _ => JsArray []
  end.
(** wasm lib.rs:268-368: the methods *)
Definition js_call (o : js_object) (x : bind_call) : js_reply * js_object :=
  match x with
  | BLocal latex d => (js_present (js_throw o) (convert_with_local_state usize_max fuel (js_inner o) latex (display_of d)) latex d None, o)
  | BGlobal latex d =>
      match convert_with_global_state usize_max fuel (js_inner o) latex (display_of d) with
      | (r, c) => (js_present (js_throw o) r latex d None, mkJsObject c (js_throw o))
      end
  | BAll snippets => (js_collect (js_throw o) 0 snippets (convert_all usize_max fuel (js_inner o) (map (fun s => (fst s, display_of (snd s))) snippets)), o)
  | BReset => (JsUndefined, mkJsObject (reset_global_state (js_inner o)) (js_throw o))
  end.

(** ** Python *)

(** python lib.rs:33-58: the arguments of [__new__], with their defaults in [py_default] *)
Record py_options := mkPyOptions {
  po_pretty : str; po_macros : option (list (dynamic * dynamic)); po_xml_namespace : bool; po_continue : bool; po_ignore_unknown : bool;
  po_annotation : bool; po_unreliable : bool; po_global_group : bool; po_fancy : bool; po_unicode : str; po_max_expansions : nat; po_id_prefix : str }.
Definition py_default : py_options :=
  mkPyOptions (lit "never") None false false false false false false true (lit "conventional") default_max_expansions [].
(** python lib.rs:13-18 [LatexToMathML] *)
Record py_object := mkPyObject { py_inner : converter; py_continue : bool; py_fancy : bool }.
Inductive py_raised := PyValueError (message : str) | PyTypeError | PyLatexError (message : str).
Inductive py_reply := PyStr (s : str) | PyList (l : list str) | PyRaise (e : py_raised) | PyNone | PyCrash (k : crash).
Inductive py_new := PyNew (o : py_object) | PyNewRaise (e : py_raised) | PyNewCrash (k : crash).
(** python lib.rs:20-28 [render_fancy_error]: the report of the [ariadne] crate, with the name of the source and the
    source *)
Context (fancy_report : latex_error -> str -> str -> str).

(** python lib.rs:301-311 [dict_to_tuple_vec] *)
Definition py_macros : list (dynamic * dynamic) -> option (list (str * str)) := js_macros.
(** python lib.rs:59-78 *)
Definition py_pretty (s : str) : option pretty_print :=
  if str_eqb s (lit "never") then Some PpNever
  else if str_eqb s (lit "always") then Some PpAlways
  else if str_eqb s (lit "auto") then Some PpAuto
  else None.
Definition py_unicode (s : str) : option bool :=
  if str_eqb s (lit "conventional") then Some true
  else if str_eqb s (lit "never") then Some false
  else None.
(** python lib.rs:59-97: the configuration *)
Definition py_config (o : py_options) : config + py_raised :=
  match py_pretty (po_pretty o) with
  | None => inr (PyValueError (lit "Invalid pretty_print value: '" ++ po_pretty o ++ lit "'. Must be 'never', 'always', or 'auto'."))
  | Some pp =>
      match py_unicode (po_unicode o) with
      | None => inr (PyValueError (lit "Invalid unicode_substitution value: '" ++ po_unicode o ++ lit "'. Must be 'conventional' or 'never'."))
      | Some conventional =>
          match opt_read py_macros [] (po_macros o) with
          | None => inr PyTypeError
          | Some macros =>
              inl (mkConfig macros (po_ignore_unknown o) (po_unreliable o) (po_global_group o) conventional (po_max_expansions o)
                     (mkEmitterCfg pp (po_xml_namespace o) (po_annotation o) default_css_unknown default_indentation (po_id_prefix o) dtoa))
          end
      end
  end.
(** The message of an exception: the report, or a line with the prefix *)
Definition py_message (fancy : bool) (e : latex_error) (source_name prefix source : str) : str :=
  if fancy then fancy_report e source_name source
  else to_message prefix (sp_start (err_span e)) (write_msg (err_kind_of e)) source.
(** python lib.rs:45-121 [new] *)
Definition py_construct (o : py_options) : py_new :=
  match py_config o with
  | inr x => PyNewRaise x
  | inl cfg =>
      match converter_new cfg with
      | NewOk c => PyNew (mkPyObject c (po_continue o) (po_fancy o))
      | NewErr (e, idx, source) =>
          let name := lit "macro" ++ dec (N.of_nat idx) in
          PyNewRaise (PyLatexError (py_message (po_fancy o) e name (name ++ lit ":") source))
      | NewCrash k => PyNewCrash k
      end
  end.
(** python lib.rs:279-299 [conversion_error] *)
Definition py_latex_error (fancy : bool) (e : latex_error) (latex : str) (index : option nat) : py_raised :=
  PyLatexError
    (match index with
     | Some i => let name := lit "input" ++ dec (N.of_nat i) in py_message fancy e name (name ++ lit ":") latex
     | None => py_message fancy e (lit "input") [] latex
     end).
(** python lib.rs:136-159, 174-197, 238-252: what is made of a result *)
Definition py_present (o : py_object) (r : res convert_result) (latex : str) (displaystyle : bool) (index : option nat) : py_reply :=
  match r with
  | Ok m => PyStr (cr_mathml m)
  | Err e =>
      if py_continue o then match error_html e latex (html_display displaystyle) with Some h => PyStr h | None => PyCrash OutOfFuel end
      else PyRaise (py_latex_error (py_fancy o) e latex index)
  | Crash k => PyCrash k
  end.
(** python lib.rs:229-255 *)
Fixpoint py_collect (o : py_object) (index : nat) (inputs : list (str * bool)) (results : list (res convert_result)) : py_reply :=
  match inputs, results with
  | (latex, d) :: inputs, r :: results =>
      match py_present o r latex d (Some index) with
      | PyStr s =>
          match py_collect o (S index) inputs results with
          | PyList l => PyList (s :: l)
          | x => x
          end
      | x => x
      end
  | _, _ => PyList []
  end.
(** python lib.rs:123-264: the methods *)
Definition py_call (o : py_object) (x : bind_call) : py_reply * py_object :=
  match x with
  | BLocal latex d => (py_present o (convert_with_local_state usize_max fuel (py_inner o) latex (display_of d)) latex d None, o)
  | BGlobal latex d =>
      match convert_with_global_state usize_max fuel (py_inner o) latex (display_of d) with
      | (r, c) => (py_present o r latex d None, mkPyObject c (py_continue o) (py_fancy o))
      end
  | BAll snippets => (py_collect o 0 snippets (convert_all usize_max fuel (py_inner o) (map (fun s => (fst s, display_of (snd s))) snippets)), o)
  | BReset => (PyNone, mkPyObject (reset_global_state (py_inner o)) (py_continue o) (py_fancy o))
  end.
End Bindings.
