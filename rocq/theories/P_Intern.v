(** Property C66: where the internal error comes from. *)
From Verif Require Import Str M_SuperChar M_Transform M_Length M_Spec M_Ast M_Token M_Symbols M_Commands M_Env
  M_LatexError M_Lexer M_CustomCmds M_Queue M_Spacing M_Colors M_Leaf M_TextParser M_Parser
  S_Lexer S_Queue S_Store S_Run S_Api S_Convert S_Intern L_Wp L_Exec L_Run L_Convert L_Intern.
Local Open Scope nat_scope.

(** The internal error comes either from a definition whose name was without a meaning when it was read and has one
    now, or from the reading of an atom that begins with a misplaced token: then a parser with another error for these
    tokens gives that one, at the same place. *)
Theorem C66_source_partial : forall cfg usize_max f gs input st e k, config_ok (pc_custom cfg) -> gs_ok cfg gs -> scalar_text input ->
  fst (parse_snippet cfg usize_max f gs input st) = Err e -> err_kind_of e = E_Internal ->
  definition_failed cfg e (snippet_trace cfg usize_max f gs input st) \/
  parse_snippet_with cfg usize_max k f gs input st = (Err (mkErr (err_span e) k), snd (parse_snippet cfg usize_max f gs input st)).
Proof. intros cfg umax f gs input st e k C D S. apply (snippet_intern cfg umax f gs input st k C D S). Qed.
(** In all other cases that parser gives the same. *)
Theorem C66_same_partial : forall cfg usize_max f gs input st k, config_ok (pc_custom cfg) -> gs_ok cfg gs -> scalar_text input ->
  (forall e, fst (parse_snippet cfg usize_max f gs input st) = Err e -> err_kind_of e <> E_Internal) ->
  parse_snippet_with cfg usize_max k f gs input st = parse_snippet cfg usize_max f gs input st.
Proof. intros cfg umax f gs input st k C D S. apply (snippet_intern cfg umax f gs input st k C D S). Qed.

(** Both happen: an argument is missing at the end of [\set], or a macro defines a name twice by means of its
    arguments. *)
Theorem C66_refuted : exists cfg usize_max f gs input st e, config_ok (pc_custom cfg) /\ gs_ok cfg gs /\ scalar_text input /\
  fst (parse_snippet cfg usize_max f gs input st) = Err e /\ err_kind_of e = E_Internal.
Proof.
  exists plain_cfg, 1000%N, 80, gs_default, (lit "\set{\sqrt}"), StText, (mkErr (mkSpan 0 0) E_Internal).
  split; [split; constructor|]. split; [split; constructor|]. split; [reflexivity|]. split; [vm_compute; reflexivity|reflexivity].
Qed.
Theorem C66_define_refuted : exists cfg usize_max f gs input st e, config_ok (pc_custom cfg) /\ gs_ok cfg gs /\ scalar_text input /\
  fst (parse_snippet cfg usize_max f gs input st) = Err e /\ err_kind_of e = E_Internal /\
  fst (parse_snippet_with cfg usize_max E_ExpectedArgumentGotClose f gs input st) = Err e.
Proof.
  exists plain_cfg, 1000%N, 80, gs_default, (lit "\newcommand\a[2]{x#1\b{1}#2\b{2}}\a\def\newcommand"), StText, (mkErr (mkSpan 33 35) E_Internal).
  split; [split; constructor|]. split; [split; constructor|]. split; [reflexivity|]. split; [vm_compute; reflexivity|]. split; [reflexivity|].
  vm_compute. reflexivity.
Qed.

(** The other parser, on texts with and without the internal error. *)
Example C66_nonvacuous :
  map (fun s => fst (parse_snippet_with plain_cfg 1000 E_ExpectedArgumentGotClose 80 gs_default s StText)) [lit "\set{\sqrt}"; lit "\Set{x^}"; lit "\Braket{\frac1}"]
    = repeat (Err (mkErr (mkSpan 0 0) E_ExpectedArgumentGotClose)) 3 /\
  map (fun s => is_ok (fst (parse_snippet_with plain_cfg 1000 E_ExpectedArgumentGotClose 80 gs_default s StText))) [lit "\set{x|y}"; lit "\begin{matrix}a&b\end{matrix}"; lit "x^"]
    = [true; true; false].
Proof. vm_compute. auto. Qed.

Print Assumptions C66_source_partial.
Print Assumptions C66_same_partial.
Print Assumptions C66_refuted.
Print Assumptions C66_define_refuted.
