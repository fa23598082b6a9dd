(** Specification vocabulary for the positions of errors. *)
From Verif Require Import Str M_Token M_LatexError M_Api S_Lexer.

(** Both ends are character boundaries of the input, in any order. *)
Definition within (input : str) (sp : span) : Prop := boundary input (sp_start sp) /\ boundary input (sp_end sp).

(** The errors about a piece of the input with several tokens: the position goes from the start of the first
    to the end of the last. *)
Definition spanning (k : err_kind) : bool :=
  match k with
  | E_ExpectedLength _ | E_InvalidUnit _ | E_IllegalUnit _ _ | E_ExpectedColSpec _ | E_UnknownColor _
  | E_ExpectedAtMostOneToken | E_ExpectedExactlyOneToken => true
  | _ => false
  end.
Definition placed_error (input : str) (e : latex_error) : Prop :=
  within input (err_span e) /\ (spanning (err_kind_of e) = false -> range_of input (err_span e)).

(** The error about a macro of a configuration lies in the definition of this macro. *)
Definition placed_macro (macros : list (str * str)) (e : macro_error) : Prop :=
  match e with (e, idx, def) => nth_error (map snd macros) idx = Some def /\ range_of def (err_span e) end.
