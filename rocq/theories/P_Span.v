(** Property C51: the positions of errors. *)
From Verif Require Import Str M_Error M_Length M_Ast M_Emit M_Output M_Token M_LatexError M_Lexer M_CustomCmds M_Queue M_Parser M_Api
  S_Lexer S_Api S_Span L_Error L_Span.
Local Open Scope nat_scope.

(** Whatever the configuration and the global state, the start and the end of an error are character
    boundaries of the input of this conversion, also for errors in the expansion of macros. *)
Theorem C51_inside_the_input : forall usize_max fuel ec pc gs latex d e,
  fst (convert usize_max fuel ec pc gs latex d) = Err e -> within latex (err_span e).
Proof. intros um f ec pc gs latex d e E. now destruct (convert_placed um f ec pc gs latex d e E). Qed.

(** Hence the position in a message counts exactly the characters before the error, and the offsets given
    to JavaScript are those of the two ends. *)
Theorem C51_reported_exactly : forall usize_max fuel ec pc gs latex d e msg,
  fst (convert usize_max fuel ec pc gs latex d) = Err e ->
  exists a b a' b', latex = a ++ b /\ latex = a' ++ b' /\
    to_message [] (sp_start (err_span e)) msg latex = dec (N.of_nat (length a)) ++ lit ": " ++ msg /\
    byte_offset_to_utf16_offset latex (sp_start (err_span e)) = utf16_len a /\
    byte_offset_to_utf16_offset latex (sp_end (err_span e)) = utf16_len a' /\
    sp_start (err_span e) = blen a /\ sp_end (err_span e) = blen a'.
Proof.
  intros um f ec pc gs latex d e msg E. destruct (convert_placed um f ec pc gs latex d e E) as [[(a & b & A1 & A2) (a' & b' & B1 & B2)] _].
  exists a, b, a', b'. rewrite A2, B2. split; [exact A1|]. split; [exact B1|].
  unfold to_message, byte_offset_to_utf16_offset. split; [now rewrite A1, floor_prefix_exact|].
  split; [now rewrite A1, get_prefix_exact|]. split; [now rewrite B1, get_prefix_exact|]. now split.
Qed.

(** Errors which are not about a piece with several tokens have a proper range. *)
Theorem C51_proper_range_partial : forall usize_max fuel ec pc gs latex d e,
  fst (convert usize_max fuel ec pc gs latex d) = Err e -> spanning (err_kind_of e) = false -> range_of latex (err_span e).
Proof. intros um f ec pc gs latex d e E. now destruct (convert_placed um f ec pc gs latex d e E). Qed.

(** The other errors may end before they start, when they go from an argument to the body of a macro. *)
Theorem C51_refuted : exists latex e,
  fst (convert 1000 100 (cv_emitter (plain_converter [])) (cv_parser (plain_converter [])) gs_default latex Inline) = Err e /\
  sp_end (err_span e) < sp_start (err_span e).
Proof.
  exists (lit "\def\a#1{\kern#1pt}\a{1.1.1}"), (mkErr (mkSpan 22 0) (E_ExpectedLength (lit "1.1.1pt"))).
  split; [vm_compute; reflexivity|cbn; lia].
Qed.

(** The error about a macro of the configuration has a proper range in the definition of this macro. *)
Theorem C51_configuration : forall c e, converter_new c = NewErr e -> placed_macro (co_macros c) e.
Proof. exact new_placed. Qed.

Example C51_nonvacuous :
  fst (convert 1000 100 (cv_emitter (plain_converter [])) (cv_parser (plain_converter [])) gs_default ([233%N] ++ lit "\foo{x}") Inline)
    = Err (mkErr (mkSpan 2 6) (E_UnknownCommand (lit "foo"))) /\
  fst (convert 1000 100 (cv_emitter (plain_converter [])) (cv_parser (plain_converter [])) gs_default (lit "\hspace{1xy}") Inline)
    = Err (mkErr (mkSpan 7 12) (E_ExpectedLength (lit "1xy"))) /\
  converter_new (plain_config [(lit "a", lit "x"); (lit "b", [233%N] ++ lit "\foo")]) =
    NewErr (mkErr (mkSpan 2 6) (E_UnknownCommand (lit "foo")), 1, [233%N] ++ lit "\foo").
Proof. repeat split; vm_compute; reflexivity. Qed.
Print Assumptions C51_inside_the_input.
Print Assumptions C51_reported_exactly.
Print Assumptions C51_proper_range_partial.
Print Assumptions C51_refuted.
Print Assumptions C51_configuration.
