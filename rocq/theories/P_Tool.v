(** Property C41: the command line tool never panics, with the real converter. *)
From Verif Require Import Str M_Escape S_Html M_Cli S_Cli M_Error M_Emit M_Output M_Token M_LatexError M_Lexer M_Queue M_Parser M_Api M_Tool S_Tool
  S_Api S_Convert L_Escape L_Cli L_Convert L_Tool.
Local Open Scope nat_scope.

(** When errors are shown in the document, the tool gives an answer for every document, every choice of
    delimiters and every configuration, and the only errors are errors about delimiters. *)
Theorem C41_continue : forall usize_max config c dl doc,
  scalar_config config -> converter_new config = NewOk c -> scalar_delimiters dl -> scalar_str doc ->
  exists F out, (forall f, F <= f -> snd (tool usize_max f true (replacer_of dl) c (utf8 doc)) = out) /\ delimiters_only out.
Proof.
  intros umax config c dl doc S E D Sd. unfold tool, replace.
  destruct (tool_halts umax dl D (Datatypes.S (length (utf8 doc))) c [] doc 0 (new_cv_ok config c S E) Sd ltac:(lia)) as (F & out & H1 & H2 & _).
  exists F, (snd out). split; [|exact H2]. intros f L. now rewrite (H1 f L).
Qed.
(** What the tool puts in the place of a formula (C38) is what the library gives for it; the next formula is converted with the
    state that this one leaves. An error is shown in the document or ends the run. *)
Theorem C38_formula : forall usize_max f continue_on_error c latex d, scalar_str latex ->
  let (answer, c') := convert_with_global_state usize_max f c latex (match d with M_Cli.Inline => M_Output.Inline | M_Cli.Block => M_Output.Block end) in
  exists y, tool_convert usize_max f continue_on_error c (utf8 latex) d = (c', y) /\
    match answer with
    | Ok r => y = inl (utf8 (cr_mathml r))
    | Err e => if continue_on_error then exists html, to_html (sp_start (err_span e)) (write_msg (err_kind_of e)) latex d (lit "math-core-error") = Some html /\ y = inl (utf8 html)
               else y = inr (ToolLatex e)
    | Crash k => y = inr (ToolCrash k)
    end.
Proof. exact tool_formula. Qed.
Example C38_formula_nonvacuous :
  let first := tool_convert 1000 100 true (plain_converter []) (lit "\gdef\y{z}\y") M_Cli.Inline in
  snd first = inl (lit "<math><mi>z</mi></math>") /\
  snd (tool_convert 1000 100 true (fst first) (lit "\y") M_Cli.Block) = inl (lit "<math display=""block""><mi>z</mi></math>") /\
  snd (tool_convert 1000 100 false (plain_converter []) (lit "\y") M_Cli.Inline) = inr (ToolLatex (mkErr (mkSpan 0 2) (E_UnknownCommand (lit "y")))).
Proof. vm_compute. repeat split. Qed.
Example C41_continue_nonvacuous :
  snd (tool 1000 100 true (replacer_of dollar_delimiters) (plain_converter []) (lit "a $\b$ $x$")) =
  ROk (lit "a <span class=""math-core-error"" title=""0: Unknown command &quot;\b&quot;.""><code>\b</code></span> <math><mi>x</mi></math>").
Proof. vm_compute. reflexivity. Qed.

(** Otherwise the tool converts a formula with an error a second time, and expects the error again. The
    first conversion may have changed the meaning of commands, so that there is no error. *)
Theorem C41_refuted : exists config c doc, scalar_config config /\ converter_new config = NewOk c /\ scalar_str doc /\
  forall f, 100 <= f -> snd (tool 1000 f false (replacer_of dollar_delimiters) c (utf8 doc)) = RPanic.
Proof.
  exists (plain_config []), (plain_converter []), (lit "$\providecommand{\b}{\undef}\let\c=\b\gdef\b{x}\c$").
  split; [constructor|]. split; [vm_compute; reflexivity|]. split; [repeat constructor|]. intros f L.
  pose (t := lit "\providecommand{\b}{\undef}\let\c=\b\gdef\b{x}\c").
  destruct (tool_convert 1000 100 false (plain_converter []) t M_Cli.Inline) as [c1 x1] eqn:E1.
  destruct (tool_convert 1000 100 false c1 t M_Cli.Inline) as [c2 x2] eqn:E2.
  pose proof (tool_convert_more 1000 100 false _ _ _ _ _ E1) as M1. pose proof (tool_convert_more 1000 100 false _ _ _ _ _ E2) as M2.
  vm_compute in E1. injection E1 as <- <-. vm_compute in E2. injection E2 as <- <-.
  specialize (M1 ltac:(discriminate) f L). specialize (M2 ltac:(discriminate) f L).
  unfold tool. revert M1 M2. generalize (tool_convert 1000 f false). intros T M1 M2. vm_compute in M1, M2. vm_compute. rewrite M1. cbv beta iota. rewrite M2. reflexivity.
Qed.
Print Assumptions C41_continue.
Print Assumptions C41_refuted.
Print Assumptions C38_formula.
