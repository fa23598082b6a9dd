(** What the messages of errors tell. *)
From Verif Require Import Str M_Error M_Cli M_Token M_Env M_LatexError.

(** The character at which an error starts: the number of characters before it *)
Definition error_position (e : latex_error) (latex : str) : nat :=
  length (floor_prefix latex (sp_start (err_span e))).

(** Errors that say where an argument is missing have one label, all others have one for each kind *)
Definition same_label (a b : err_kind) : Prop :=
  match a, b with
  | (E_ExpectedArgumentGotClose | E_ExpectedArgumentGotEOI), (E_ExpectedArgumentGotClose | E_ExpectedArgumentGotEOI) => True
  | E_UnclosedGroup _, E_UnclosedGroup _ | E_UnmatchedClose _, E_UnmatchedClose _
  | E_ExpectedDelimiter _, E_ExpectedDelimiter _ | E_DisallowedChar _, E_DisallowedChar _
  | E_UnknownEnvironment _, E_UnknownEnvironment _ | E_UnknownCommand _, E_UnknownCommand _
  | E_UnknownColor _, E_UnknownColor _ | E_MismatchedEnvironment _ _, E_MismatchedEnvironment _ _
  | E_CannotBeUsedHere _ _, E_CannotBeUsedHere _ _ | E_ExpectedLength _, E_ExpectedLength _
  | E_IllegalUnit _ _, E_IllegalUnit _ _ | E_InvalidUnit _, E_InvalidUnit _
  | E_ExpectedColSpec _, E_ExpectedColSpec _ | E_InvalidMacroName _, E_InvalidMacroName _
  | E_ParameterNumberOutOfRange _ _, E_ParameterNumberOutOfRange _ _
  | E_UnexpectedParameterNumber _ _, E_UnexpectedParameterNumber _ _ => True
  | _, _ => a = b
  end.
