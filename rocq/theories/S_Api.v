(** Specification vocabulary for the public interface. *)
From Verif Require Import Str M_Length M_Spec M_Ast M_Emit M_Output M_Token M_Env M_LatexError M_Lexer M_CustomCmds M_Queue
  M_Parser M_Api S_Lexer.

(** ** Calls of the interface and their answers *)
Inductive api_call :=
| ApiGlobal (latex : str) (d : math_display)
| ApiLocal (latex : str) (d : math_display)
| ApiAll (snippets : list (str * math_display))
| ApiReset.
Inductive api_reply := ReplyOne (r : res convert_result) | ReplyAll (l : list (res convert_result)) | ReplyNone.

Section Calls.
Context (usize_max : N) (fuel : nat).
Definition api_step (c : converter) (x : api_call) : api_reply * converter :=
  match x with
  | ApiGlobal latex d => let (r, c') := convert_with_global_state usize_max fuel c latex d in (ReplyOne r, c')
  | ApiLocal latex d => (ReplyOne (convert_with_local_state usize_max fuel c latex d), c)
  | ApiAll l => (ReplyAll (convert_all usize_max fuel c l), c)
  | ApiReset => (ReplyNone, reset_global_state c)
  end.
Fixpoint api_run (c : converter) (calls : list api_call) : list api_reply * converter :=
  match calls with
  | [] => ([], c)
  | x :: rest =>
      let (r, c1) := api_step c x in
      let (rs, c2) := api_run c1 rest in
      (r :: rs, c2)
  end.
(** The replies, and the converter in the end *)
Definition replies (c : converter) (calls : list api_call) : list api_reply := fst (api_run c calls).
Definition after (c : converter) (calls : list api_call) : converter := snd (api_run c calls).

(** The snippets one after the other with the global state. *)
Definition one_by_one (l : list (str * math_display)) : list api_call := map (fun s => ApiGlobal (fst s) (snd s)) l.
(** The global state after these snippets. *)
Definition state_after (pc : parser_cfg) (gs : global_state) (l : list (str * math_display)) : global_state :=
  fold_left (fun g s => snd (parse usize_max fuel pc g (fst s) (snd s))) l gs.
End Calls.

(** Two results are the same kind of failure, or both successful. *)
Definition same_outcome {A B} (a : res A) (b : res B) : Prop :=
  match a, b with
  | Ok _, Ok _ => True
  | Err e, Err e' => e = e'
  | Crash c, Crash c' => c = c'
  | _, _ => False
  end.

(** ** Macros of the configuration *)
Definition definition_tokens (definition : str) : list lexer_output * lex_end :=
  match tokenize (S (length definition)) (lexer_new definition) with
  | Some x => x
  | None => ([], LexEoi (mkSpan 0 0))
  end.
Definition definition_lexes (definition : str) : Prop := exists sp, snd (definition_tokens definition) = LexEoi sp.
(** The commands in a definition, with their places. *)
Definition commands_of (definition : str) : list (str * span) :=
  flat_map (fun o => match o with LexCmd n sp => [(n, sp)] | _ => [] end) (fst (definition_tokens definition)).
Definition known_command (unreliable conventional : bool) (macros : list (str * str)) (name : str) : Prop :=
  resolve_builtin unreliable conventional name <> None \/ In name (map fst macros).
(** A name: one character, or several ASCII letters. *)
Definition good_name (s : str) : Prop :=
  (exists c, s = [c]) \/ (s <> [] /\ Forall (fun c => is_ascii_alpha c = true) s).
(** Macros without any fault of their own. *)
Definition readable (m : str * str) : Prop := good_name (fst m) /\ definition_lexes (snd m).
Definition macro_fine (unreliable conventional : bool) (macros : list (str * str)) (m : str * str) : Prop :=
  readable m /\ forall n sp, In (n, sp) (commands_of (snd m)) -> known_command unreliable conventional macros n.

(** What a definition records: tokens as they are, parameters as parameters, commands by name. *)
Definition recorded_of (o : lexer_output) : recorded :=
  match o with
  | LexTok (T_CustomCmdArgInput n, _) => RTok (T_CustomCmdArg n)
  | LexTok (t, _) => RTok t
  | LexCmd n _ => RName n
  end.
Definition params_of (l : list lexer_output) : nat :=
  list_max (map (fun o => match o with LexTok (T_CustomCmdArgInput n, _) => S n | _ => O end) l).
Definition class_of (unreliable conventional : bool) (o : lexer_output) : option class :=
  match o with
  | LexTok (T_CustomCmdArgInput n, _) => None
  | LexTok (t, _) => token_class t
  | LexCmd n _ => match resolve_builtin unreliable conventional n with Some t => token_class t | None => None end
  end.
Fixpoint first_some {A} (l : list (option A)) : option A :=
  match l with [] => None | Some x :: _ => Some x | None :: r => first_some r end.
(** The number of parameters, the class and the body. *)
Definition macro_means (unreliable conventional : bool) (definition : str) : nat * option class * list recorded :=
  let l := fst (definition_tokens definition) in
  (params_of l, first_some (map (class_of unreliable conventional) l), map recorded_of l).
(** What a store of commands says about a name. *)
Definition meaning (c : custom_cmds) (name : str) : option (nat * option class * list recorded) :=
  match assoc_str name (cc_map c) with
  | Some d => option_map (fun b => (cd_args d, cd_class d, b)) (cmds_body c (cd_start d) (cd_end d))
  | None => None
  end.

(** ** A converter with the default settings, for examples *)
Definition plain_emitter : emitter_cfg := mkEmitterCfg PpNever false false (lit "u") (IndSpaces 4) [] (fun _ => lit "0").
Definition plain_config (macros : list (str * str)) : config := mkConfig macros false false false true 1000 plain_emitter.
Definition plain_converter (macros : list (str * str)) : converter :=
  match converter_new (plain_config macros) with NewOk c => c | _ => mkConverter plain_emitter gs_default (mkCfg cmds_empty false false false true 0) end.

