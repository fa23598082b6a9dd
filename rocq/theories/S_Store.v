(** Sound tokens and command stores: references lead to bodies, which refer to their own parameters
    only, and to bodies that are earlier. *)
From Verif Require Import Str M_SuperChar M_Ast M_Spec M_Token M_Symbols M_Commands M_Env M_LatexError M_Lexer M_CustomCmds M_Queue
  S_SuperChar S_Lexer S_Queue.
Local Open Scope nat_scope.

(** ** Characters *)

Definition sc_unpack (s : superchar) : cchar :=
  {| cc_base := N.land s CHAR_MASK; cc_vs := N.shiftr s 28;
     cc_solidus := N.testbit s 27; cc_vline := N.testbit s 26 |}.
Definition sc_valid (s : superchar) : bool :=
  is_scalar (cc_base (sc_unpack s)) && (cc_vs (sc_unpack s) <? 16)%N && (cc_pack (sc_unpack s) =? s)%N.
(** The packed characters of a token, and the plain ones. *)
Definition tok_superchars (t : token) : list superchar :=
  match t with
  | T_OverUnderBrace o _ | T_Ord o | T_Open o | T_Close o => [ord_as_op o]
  | T_Op o | T_Inner o => [op_as_op o]
  | T_BinaryOp o => [bin_as_op o]
  | T_Relation r | T_XArrow r => [rel_as_op r]
  | T_ForceOrd o | T_ForceBinaryOp o | T_ForceRelation o | T_ForceOpen o _ | T_ForceClose o _ | T_ForcePunctuation o
  | T_ForceMathInner o | T_ForceLargeOp o | T_Letter o _ | T_UprightLetter o => [o]
  | _ => []
  end.
Definition tok_text (t : token) : str :=
  match t with
  | T_Accent c _ _ | T_Punctuation c | T_Digit c | T_MathOrTextMode _ c => [c]
  | T_PseudoOperator s | T_PseudoOperatorLimits s | T_UnresolvedCommand s | T_InternalStringLiteral s => s
  | T_TextMode (TtAccent c) | T_TextMode (TtLetter c) => [c]
  | _ => []
  end.
(** Letters and names are written as they are, so they are not markup; digits are digits. *)
Definition markup_char (c : N) : bool := ((c =? 60) || (c =? 62) || (c =? 38))%N.
(** Names that are read character by character: ASCII, without ['&'] and braces. *)
Definition typed_char (c : N) : bool := (is_ascii c && negb ((c =? 38) || (c =? 123) || (c =? 125)))%N.
(** Attributes of an operator which do not contradict each other (stretching aside). *)
Definition attrs_ok (a : op_attrs) : bool :=
  negb (has_attr a A_NO_MOVABLE_LIMITS && has_attr a A_FORCE_MOVABLE_LIMITS) &&
  negb (has_attr a A_FORM_PREFIX && (has_attr a A_FORM_INFIX || has_attr a A_FORM_POSTFIX)) &&
  negb (has_attr a A_FORM_INFIX && has_attr a A_FORM_POSTFIX).
Definition letters_ok (t : token) : bool :=
  match t with
  | T_Accent _ _ a => attrs_ok a
  | T_Letter c _ | T_UprightLetter c => negb (markup_char (cc_base (sc_unpack c)))
  | T_Digit c => is_ascii_digit c
  | T_PseudoOperator s | T_PseudoOperatorLimits s => forallb (fun c => negb (markup_char c)) s
  | T_InternalStringLiteral s => forallb typed_char s
  | _ => true
  end.
Definition chars_ok (t : token) : bool :=
  forallb sc_valid (tok_superchars t) && forallb is_scalar (tok_text t) && letters_ok t.

(** ** Tokens *)

(** A token which does not stand for other tokens without being a macro. *)
Fixpoint settled (t : token) : bool :=
  match t with
  | T_Dots | T_UnresolvedCommand _ | T_MathChoiceInternal _ _ _ _ _ => false
  | T_MathOrTextMode u _ => settled u
  | _ => true
  end.
(** What a character means in math mode is neither a blank nor another such token. *)
Definition math_plain (t : token) : bool := match t with T_MathOrTextMode _ _ | T_Whitespace => false | _ => true end.
(** A token without references to stored bodies; the parameters of a builtin macro are among its
    arguments. *)
Fixpoint tok_okb (t : token) : bool :=
  chars_ok t &&
  match t with
  | T_CustomCmdRef _ _ _ _ _ | T_CustomCmdArg _ => false
  | T_CustomCmd n body =>
      (n <=? 9) &&
      (fix all l := match l with
                    | [] => true
                    | u :: r => match u with T_CustomCmdArg i => i <? n | _ => tok_okb u && negb (means_eoi u) end && all r
                    end) body
  | T_CustomCmdArgInput n => n <? 9
  | T_MathOrTextMode u _ => math_plain u && tok_okb u
  | T_MathChoiceInternal _ d x s ss =>
      (tok_okb d && negb (means_eoi d) && settled d) && (tok_okb x && negb (means_eoi x) && settled x) &&
      (tok_okb s && negb (means_eoi s) && settled s) && (tok_okb ss && negb (means_eoi ss) && settled ss)
  | _ => true
  end.
Section Tok.
Context (P : cmd_source -> nat -> nat -> nat -> Prop).
(** A token whose reference satisfies [P], if it is one. *)
Definition tok_ok (t : token) : Prop :=
  match t with T_CustomCmdRef src n _ a b => P src n a b | _ => tok_okb t = true end.
(** A token of a stored body. *)
Definition rec_ok (r : recorded) : Prop :=
  match r with
  | RName name => forallb is_scalar name = true
  | RTok (T_CustomCmdArg _) => True
  | RTok t => tok_ok t /\ means_eoi t = false
  end.
End Tok.

(** ** Stores *)

(** There is a body from [a] to [b], and its parameters are among the first [n]. *)
Definition body_at (toks : list recorded) (n a b : nat) : Prop :=
  n <= 9 /\ exists body, slice_get toks a b = Some body /\ params_below n body.
(** A reference to one of the three stores. *)
Definition ref_ok (config document local : list recorded) (src : cmd_source) (n a b : nat) : Prop :=
  body_at (match src with SrcConfig => config | SrcDocument => document | SrcLocal => local end) n a b.
Definition map_ok (c : custom_cmds) : Prop :=
  Forall (fun e => body_at (cc_tokens c) (cd_args (snd e)) (cd_start (snd e)) (cd_end (snd e))) (cc_map c).

(** The macros of the configuration refer to each other by name only. *)
Definition config_ok (c : custom_cmds) : Prop :=
  Forall (rec_ok (fun _ _ _ _ => False)) (cc_tokens c) /\ map_ok c.
(** Definitions of the document do not depend on local ones. *)
Definition document_ok (config : list recorded) (c : custom_cmds) : Prop :=
  Forall (rec_ok (fun src n a b => src <> SrcLocal /\ ref_ok config (cc_tokens c) [] src n a b)) (cc_tokens c) /\ map_ok c.
(** Local definitions refer to earlier local ones. *)
Definition local_ok (config document : list recorded) (c : custom_cmds) : Prop :=
  (forall i r, nth_error (cc_tokens c) i = Some r ->
     rec_ok (fun src n a b => ref_ok config document (cc_tokens c) src n a b /\ (src = SrcLocal -> b <= i)) r) /\ map_ok c.

Definition gs_ok (cfg : parser_cfg) (gs : global_state) : Prop := document_ok (cc_tokens (pc_custom cfg)) (gs_cmds gs).
Definition q_refs (cfg : parser_cfg) (q : queue) : cmd_source -> nat -> nat -> nat -> Prop :=
  ref_ok (cc_tokens (pc_custom cfg)) (cc_tokens (gs_cmds (q_gs q))) (cc_tokens (q_local q)).
Definition stores_ok (cfg : parser_cfg) (q : queue) : Prop :=
  config_ok (pc_custom cfg) /\ gs_ok cfg (q_gs q) /\ local_ok (cc_tokens (pc_custom cfg)) (cc_tokens (gs_cmds (q_gs q))) (q_local q).
(** A queued token. A name never stands for a blank. *)
Fixpoint means_ws (t : token) : bool := match t with T_Whitespace => true | T_MathOrTextMode u _ => means_ws u | _ => false end.
Definition qtok_ok (P : cmd_source -> nat -> nat -> nat -> Prop) (t : qtok) : Prop :=
  tok_ok P (qt_tok t) /\
  match qt_name t with Some n => forallb is_scalar n = true /\ means_ws (qt_tok t) = false | None => True end.
(** A queue in a regular state, with sound tokens and stores. *)
Definition sound_queue (cfg : parser_cfg) (q : queue) : Prop :=
  good_queue q /\ stores_ok cfg q /\ Forall (qtok_ok (q_refs cfg q)) (fst (q_view cfg q)).

(** ** Copies *)

(** Older tokens stay where they are. *)
Definition extends {A} (l l' : list A) : Prop := exists x, l' = l ++ x.

(** A token of a body that has been copied from [local] to [document]: a reference to a local body is
    now one to a copy of that body, everything else is as before. *)
Inductive copied (local document : list recorded) : recorded -> recorded -> Prop :=
| copied_same r : (forall n cl a b, r <> RTok (T_CustomCmdRef SrcLocal n cl a b)) -> copied local document r r
| copied_ref n cl a b a' b' body body' :
    slice_get local a b = Some body -> slice_get document a' b' = Some body' -> Forall2 (copied local document) body body' ->
    copied local document (RTok (T_CustomCmdRef SrcLocal n cl a b)) (RTok (T_CustomCmdRef SrcDocument n cl a' b')).

(** ** Meanings *)

(** What a recorded token stands for, independent of where bodies are stored: names are looked up when
    they are used, references to bodies are replaced by the bodies. *)
Inductive mtree := MtName (name : str) | MtTok (t : token) | MtMacro (args : nat) (cl : option class) (body : list mtree).
Inductive unfolds (config document local : list recorded) : recorded -> mtree -> Prop :=
| unfolds_name name : unfolds config document local (RName name) (MtName name)
| unfolds_tok t : (forall src n cl a b, t <> T_CustomCmdRef src n cl a b) -> unfolds config document local (RTok t) (MtTok t)
| unfolds_ref src n cl a b body trees :
    slice_get (match src with SrcConfig => config | SrcDocument => document | SrcLocal => local end) a b = Some body ->
    Forall2 (unfolds config document local) body trees ->
    unfolds config document local (RTok (T_CustomCmdRef src n cl a b)) (MtMacro n cl trees).
Definition q_unfolds (cfg : parser_cfg) (q : queue) : recorded -> mtree -> Prop :=
  unfolds (cc_tokens (pc_custom cfg)) (cc_tokens (gs_cmds (q_gs q))) (cc_tokens (q_local q)).
(** The meaning of a name. *)
Definition means (cfg : parser_cfg) (q : queue) (name : str) (tree : mtree) : Prop :=
  q_unfolds cfg q (RTok (q_meaning cfg q name)) tree.

(** ** Histories *)

Record defn := mkDefn {
  df_name : str; df_args : nat; df_body : list recorded; df_class : option class; df_replace : bool; df_global : bool }.
(** The definitions in force: those of the snippet, those of the document, and what a name means
    otherwise. The newest one comes first. *)
Record scope := mkScope { sc_local : list (str * mtree); sc_document : list (str * mtree); sc_base : str -> mtree }.
Definition scope_lookup (s : scope) (name : str) : mtree :=
  match assoc_str name (sc_local s) with
  | Some t => t
  | None => match assoc_str name (sc_document s) with Some t => t | None => sc_base s name end
  end.
(** What a name means without any definitions: a configured macro, or a builtin command. *)
Definition plain_tree (r : recorded) : mtree := match r with RName n => MtName n | RTok t => MtTok t end.
Definition base_meaning (cfg : parser_cfg) (name : str) : mtree :=
  match assoc_str name (cc_map (pc_custom cfg)) with
  | Some d => MtMacro (cd_args d) (cd_class d)
      (map plain_tree (match slice_get (cc_tokens (pc_custom cfg)) (cd_start d) (cd_end d) with Some l => l | None => [] end))
  | None =>
      MtTok (match resolve_builtin (pc_allow_unreliable cfg) (pc_conventional cfg) name with Some t => t | None => T_UnresolvedCommand name end)
  end.
Definition scope_start (cfg : parser_cfg) : scope := mkScope [] [] (base_meaning cfg).
(** A definition whose body means [trees]. *)
Definition scope_define (name : str) (is_global : bool) (tree : mtree) (s : scope) : scope :=
  if is_global then
    mkScope (filter (fun e => negb (str_eqb name (fst e))) (sc_local s)) ((name, tree) :: sc_document s) (sc_base s)
  else mkScope ((name, tree) :: sc_local s) (sc_document s) (sc_base s).

(** A definition as the parser makes them. *)
Definition defn_ok (cfg : parser_cfg) (q : queue) (d : defn) : Prop :=
  df_args d <= 9 /\ params_below (df_args d) (df_body d) /\ Forall (rec_ok (q_refs cfg q)) (df_body d).
(** The stored commands are the same; numbers and labels may change. *)
Definition same_commands (q q' : queue) : Prop := q_local q' = q_local q /\ gs_cmds (q_gs q') = gs_cmds (q_gs q).
(** What happens to the definitions: a command is defined, or the next snippet begins, possibly after
    the definitions of the document have been reset. [history cfg l q s q' s']: the events [l] lead
    from the queue [q] to [q'], and from the definitions [s] to [s']; in between anything may happen
    that does not change the stored commands. *)
Inductive event := EvDefine (d : defn) | EvSnippet (reset : bool) (input : str).
Inductive history (cfg : parser_cfg) : list event -> queue -> scope -> queue -> scope -> Prop :=
| history_nil q s : history cfg [] q s q s
| history_define d l q q1 q2 s s2 trees : defn_ok cfg q d ->
    q_define cfg (df_name d) (df_args d) (df_body d) (df_class d) (df_replace d) (df_global d) q = (Ok true, q1) ->
    Forall2 (q_unfolds cfg q) (df_body d) trees ->
    history cfg l q1 (scope_define (df_name d) (df_global d || pc_global_group cfg) (MtMacro (df_args d) (df_class d) trees) s) q2 s2 ->
    history cfg (EvDefine d :: l) q s q2 s2
| history_snippet (reset : bool) input gs l q q1 q2 s s2 : forallb is_scalar input = true ->
    gs_cmds gs = (if reset then cmds_empty else gs_cmds (q_gs q)) -> queue_new cfg (lexer_new input) gs = (Ok tt, q1) ->
    history cfg l q1 (mkScope [] (if reset then [] else sc_document s) (sc_base s)) q2 s2 ->
    history cfg (EvSnippet reset input :: l) q s q2 s2
| history_other l q q1 q2 s s2 : same_commands q q1 -> sound_queue cfg q1 -> history cfg l q1 s q2 s2 -> history cfg l q s q2 s2.

(** An event after which a definition of [name] is still in force: nothing defines [name] again, and
    a global definition is not reset, a local one is in the same snippet. *)
Definition undisturbed (name : str) (is_global : bool) (e : event) : Prop :=
  match e with EvDefine d => df_name d <> name | EvSnippet reset _ => is_global = true /\ reset = false end.
Definition no_snippet (e : event) : Prop := match e with EvDefine _ => True | EvSnippet _ _ => False end.
Definition no_reset (e : event) : Prop := match e with EvSnippet true _ => False | _ => True end.

(** What a name stands for, by precedence. *)
Definition table_entry (c : custom_cmds) (name : str) (d : cmd_def) : Prop := assoc_str name (cc_map c) = Some d.
Definition no_entry (c : custom_cmds) (name : str) : Prop := assoc_str name (cc_map c) = None.
Definition ref_token (src : cmd_source) (d : cmd_def) : token := T_CustomCmdRef src (cd_args d) (cd_class d) (cd_start d) (cd_end d).
Inductive resolves (cfg : parser_cfg) (local document : custom_cmds) (name : str) : option token -> Prop :=
| resolves_local d : table_entry local name d -> resolves cfg local document name (Some (ref_token SrcLocal d))
| resolves_document d : no_entry local name -> table_entry document name d ->
    resolves cfg local document name (Some (ref_token SrcDocument d))
| resolves_config d : no_entry local name -> no_entry document name -> table_entry (pc_custom cfg) name d ->
    resolves cfg local document name (Some (ref_token SrcConfig d))
| resolves_builtin t : no_entry local name -> no_entry document name -> no_entry (pc_custom cfg) name ->
    resolve_builtin (pc_allow_unreliable cfg) (pc_conventional cfg) name = Some t -> resolves cfg local document name (Some t)
| resolves_unknown : no_entry local name -> no_entry document name -> no_entry (pc_custom cfg) name ->
    resolve_builtin (pc_allow_unreliable cfg) (pc_conventional cfg) name = None -> resolves cfg local document name None.

(** The queue of the first snippet. *)
Definition starts (cfg : parser_cfg) (q : queue) : Prop :=
  config_ok (pc_custom cfg) /\
  exists input, forallb is_scalar input = true /\ queue_new cfg (lexer_new input) gs_default = (Ok tt, q).
(** [d] is made in the state [q], which gives [q1]; its body means [trees]. *)
Definition defined_as (cfg : parser_cfg) (q : queue) (d : defn) (trees : list mtree) (q1 : queue) : Prop :=
  defn_ok cfg q d /\ Forall2 (q_unfolds cfg q) (df_body d) trees /\
  q_define cfg (df_name d) (df_args d) (df_body d) (df_class d) (df_replace d) (df_global d) q = (Ok true, q1).
Definition defn_global (cfg : parser_cfg) (d : defn) : bool := df_global d || pc_global_group cfg.
Definition defn_tree (d : defn) (trees : list mtree) : mtree := MtMacro (df_args d) (df_class d) trees.


(** For examples: [\def\b{x}\global\let\a=\b\def\c{\b}], and then another snippet. *)
Definition step_define (cfg : parser_cfg) (d : defn) (q : queue) : queue :=
  snd (q_define cfg (df_name d) (df_args d) (df_body d) (df_class d) (df_replace d) (df_global d) q).
Definition example_q0 : queue := queue_of (lit "\a").
Definition example_x : token := T_Letter 120%N MMathOrText.
Definition example_b : defn := mkDefn (lit "b") 0 [RTok example_x] None true false.
Definition example_q1 : queue := step_define plain_cfg example_b example_q0.
Definition example_a : defn := mkDefn (lit "a") 0 [RTok (q_meaning plain_cfg example_q1 (lit "b"))] None true true.
Definition example_q2 : queue := step_define plain_cfg example_a example_q1.
Definition example_c : defn := mkDefn (lit "c") 0 [RName (lit "b")] None true false.
Definition example_q3 : queue := step_define plain_cfg example_c example_q2.
Definition example_q4 : queue := snd (queue_new plain_cfg (lexer_new (lit "\b")) (q_gs example_q3)).
