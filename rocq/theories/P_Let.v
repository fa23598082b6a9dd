(** Properties C48 and C26 for the commands [\let] and [\global] themselves. *)
From Verif Require Import Str M_SuperChar M_Transform M_Length M_Spec M_Ast M_Token M_Symbols M_Commands M_Env
  M_LatexError M_Lexer M_CustomCmds M_Queue M_Spacing M_Colors M_Leaf M_TextParser M_Parser
  S_Lexer S_Queue S_Store S_Run S_Api S_Convert S_Names L_Queue L_Args L_Reads L_Names L_Let.
Local Open Scope nat_scope.

(** [\let], a name, perhaps an equals sign and a token: the token becomes the meaning of the name. *)
Theorem C48_let_command : forall cfg is_global q t q1 n q2 src q3, sound_queue cfg q ->
  q_next_unres cfg q = (Ok t, q1) -> names cfg q t n -> after_equals cfg q1 q2 -> q_next cfg q2 = (Ok src, q3) ->
  let_outcome cfg is_global n src q3 (let_command cfg is_global q).
Proof.
  intros cfg g q t q1 n q2 src q3 Sq E N A E3.
  exact (let_made cfg g q n q1 q2 src q3 (reads_sound _ _ _ (next_unres_reads cfg q t q1 Sq E)) (definition_name_of cfg q q t n q1 N E) A E3).
Qed.
(** When the token is a name, this is its meaning at the time of [\let]. *)
Theorem C48_let_name : forall cfg is_global q t q1 n q2 src q3 b, sound_queue cfg q ->
  q_next_unres cfg q = (Ok t, q1) -> names cfg q t n -> after_equals cfg q1 q2 -> q_next cfg q2 = (Ok src, q3) ->
  names cfg q3 src b -> has_meaning cfg q3 b = true -> qt_tok src <> T_Eoi ->
  exists m q4, in_math (q_meaning cfg q3 b) m /\ made cfg q3 (mkDefn n 0 [RTok m] (token_class m) true is_global) q4 /\
    let_command cfg is_global q = (Ok tt, q4).
Proof.
  intros cfg g q t q1 n q2 src q3 b Sq E N A E3 Nb Hb Ne. pose proof (C48_let_command cfg g q t q1 n q2 src q3 Sq E N A E3) as K.
  pose proof (names_cases cfg q3 src b Nb) as C. rewrite Hb in C. destruct C as [C _]. destruct Nb as [Nb _].
  exists (qt_tok src). unfold let_outcome in K.
  destruct (qt_tok src) eqn:Et; try (destruct K as (q4 & K1 & K2); exists q4; split; [exact Nb|split; [exact K1|exact K2]]).
  - now destruct Ne.
  - discriminate C.
Qed.
(** [\global] once or more, then [\let] or a [\def]: the definition is global. *)
Theorem C26_global_prefix : forall cfg q t q', sound_queue cfg q -> after_globals cfg q t q' ->
  global_prefix cfg q = match qt_tok t with
  | T_Let => let_command cfg true q'
  | T_Def _ => def_command cfg true q'
  | T_Eoi => (Err (mkErr (qt_span t) E_ExpectedArgumentGotEOI), q')
  | _ => (Err (mkErr (qt_span t) (E_CannotBeUsedHere LtGlobal BeforeDefinition)), q')
  end.
Proof.
  intros cfg q t q' Sq A. unfold global_prefix. apply globals_loop; [exact A|exact Sq|]. pose proof (view_size cfg q). lia.
Qed.

Example C26_global_prefix_nonvacuous :
  let p s := fst (parse_snippet plain_cfg 1000 100 gs_default s StText) in
  map (fun s => is_ok (p s)) [lit "\global\def\a{1}"; lit "\global\global\let\a\alpha"; lit "\global x"; lit "\global\gdef\a{}"; lit "\global\newcommand\a{}"] =
    [true; true; false; true; false] /\
  let g s := map fst (cc_map (gs_cmds (snd (parse_snippet plain_cfg 1000 100 gs_default s StText)))) in
  g (lit "\global\def\a{1}") = [lit "a"] /\ g (lit "\def\a{1}") = [] /\ g (lit "\global\global\let\a\alpha") = [lit "a"].
Proof. vm_compute. repeat split. Qed.
Example C48_let_nonvacuous :
  let p s := fst (parse_snippet plain_cfg 1000 100 gs_default s StText) in
  map (fun s => is_ok (p s)) [lit "\let\a=\alpha\a"; lit "\let\a\alpha\a"; lit "\let\a=="; lit "\let\a="; lit "\let\a"; lit "\let\a\nothing"] = [true; true; true; false; false; false] /\
  p (lit "\def\b{1}\let\a\b\def\b{2}\a") = p (lit "1") /\ p (lit "\def\b{1}\def\a{\b}\def\b{2}\a") = p (lit "2") /\
  p (lit "\let\a=\alpha\def\alpha{2}\a") = p (lit "\alpha") /\ p (lit "\let\a=5\a\a") = p (lit "{5}{5}") /\ p (lit "\let\a==1\a") = p (lit "1=").
Proof. vm_compute. repeat split. Qed.

Print Assumptions C48_let_command.
Print Assumptions C48_let_name.
Print Assumptions C26_global_prefix.
