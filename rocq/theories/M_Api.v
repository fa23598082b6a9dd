(** Model of the public interface in crates/math-core/src/lib.rs. *)
From Verif Require Import Str M_Length M_Spec M_Ast M_Emit M_Output M_Token M_Env M_LatexError M_Lexer M_CustomCmds M_Queue
  M_Parser.

(** lib.rs:190-232 [MathCoreConfig]; the settings of the emitter are together in [co_emitter] *)
Record config := mkConfig {
  co_macros : list (str * str); co_ignore_unknown : bool; co_allow_unreliable : bool; co_global_group : bool;
  co_conventional : bool; co_max_expansions : nat; co_emitter : emitter_cfg }.

(** ** Macros of the configuration *)

(** What is known of a definition while it is being read *)
Record macro_body := mkMacro {
  mb_tokens : list recorded; mb_args : nat; mb_class : option class; mb_unresolved : list (str * span) }.
Definition macro_empty : macro_body := mkMacro [] 0 None [].
Definition first_class (old new : option class) : option class := match old with Some _ => old | None => new end.

(** lib.rs:563-598: one command of a definition *)
Definition macro_command (unreliable conventional : bool) (name : str) (sp : span) (m : macro_body) : macro_body :=
  match resolve_builtin unreliable conventional name with
  | Some t => mkMacro (mb_tokens m ++ [RName name]) (mb_args m) (first_class (mb_class m) (token_class t)) (mb_unresolved m)
  | None => mkMacro (mb_tokens m ++ [RName name]) (mb_args m) (mb_class m) (mb_unresolved m ++ [(name, sp)])
  end.
(** ... and one token *)
Definition macro_token (t : token) (m : macro_body) : macro_body :=
  match t with
  | T_CustomCmdArgInput n =>
      mkMacro (mb_tokens m ++ [RTok (T_CustomCmdArg n)]) (if (mb_args m <=? n)%nat then S n else mb_args m)
              (mb_class m) (mb_unresolved m)
  | _ => mkMacro (mb_tokens m ++ [RTok t]) (mb_args m) (first_class (mb_class m) (token_class t)) (mb_unresolved m)
  end.
(** lib.rs:558-606: the loop over the tokens of a definition *)
Fixpoint read_macro (fuel : nat) (unreliable conventional : bool) (l : lexer) (m : macro_body) : res macro_body :=
  match fuel with
  | O => Crash OutOfFuel
  | S f =>
      match next_token l with
      | (inr e, _) => Err e
      | (inl (LexTok (T_Eoi, _)), _) => Ok m
      | (inl (LexTok (t, _)), l') => read_macro f unreliable conventional l' (macro_token t m)
      | (inl (LexCmd name sp), l') => read_macro f unreliable conventional l' (macro_command unreliable conventional name sp m)
      end
  end.

(** lib.rs:273-275 [MacroParseError]: the error, the index of the macro and its definition *)
Definition macro_error : Type := latex_error * nat * str.
Inductive new_result (A : Type) := NewOk (a : A) | NewErr (e : macro_error) | NewCrash (c : crash).
Arguments NewOk {A} a.
Arguments NewErr {A} e.
Arguments NewCrash {A} c.

(** lib.rs:544-614: the loop over the macros. The duplicate of a macro is ignored. *)
Fixpoint read_macros (unreliable conventional : bool) (idx : nat) (macros : list (str * str)) (cmds : custom_cmds)
  (unresolved : list (nat * str * span)) : new_result (custom_cmds * list (nat * str * span)) :=
  match macros with
  | [] => NewOk (cmds, unresolved)
  | (name, definition) :: rest =>
      if is_valid_macro_name name then
        match read_macro (S (length definition)) unreliable conventional (lexer_new definition) macro_empty with
        | Ok m =>
            let cmds' := match cmds_insert cmds name (mb_args m) (mb_tokens m) (mb_class m) with
                         | Some c => c
                         | None => cmds
                         end in
            read_macros unreliable conventional (S idx) rest cmds'
              (unresolved ++ map (fun p => (idx, fst p, snd p)) (mb_unresolved m))
        | Err e => NewErr (e, idx, definition)
        | Crash c => NewCrash c
        end
      else NewErr (mkErr (mkSpan 0 0) (E_InvalidMacroName name), idx, definition)
  end.
(** lib.rs:528-623 [parse_custom_commands] *)
Definition parse_custom_commands (macros : list (str * str)) (conventional unreliable : bool) : new_result custom_cmds :=
  match read_macros unreliable conventional 0 macros cmds_empty [] with
  | NewOk (cmds, unresolved) =>
      match find (fun u => negb (cmds_has cmds (snd (fst u)))) unresolved with
      | Some (idx, name, sp) => NewErr (mkErr sp (E_UnknownCommand name), idx, nth idx (map snd macros) [])
      | None => NewOk cmds
      end
  | NewErr e => NewErr e
  | NewCrash c => NewCrash c
  end.

(** ** The converter *)

(** lib.rs:278-283 [LatexToMathML] *)
Record converter := mkConverter { cv_emitter : emitter_cfg; cv_state : global_state; cv_parser : parser_cfg }.
Definition cv_set_state (c : converter) (gs : global_state) : converter := mkConverter (cv_emitter c) gs (cv_parser c).

(** lib.rs:290-311 [new] *)
Definition converter_new (c : config) : new_result converter :=
  match parse_custom_commands (co_macros c) (co_conventional c) (co_allow_unreliable c) with
  | NewOk cmds =>
      NewOk (mkConverter (co_emitter c) gs_default
               (mkCfg cmds (co_ignore_unknown c) (co_allow_unreliable c) (co_global_group c) (co_conventional c)
                      (co_max_expansions c)))
  | NewErr e => NewErr e
  | NewCrash e => NewCrash e
  end.

(** lib.rs:509-512 *)
Definition display_style (d : math_display) : style := match d with Inline => StText | Block => StDisplay end.
Definition label_lookup (m : label_map) (name : str) : option str := assoc_str name m.

Section Convert.
Context (usize_max : N) (fuel : nat).

(** lib.rs:502-517 [parse] *)
Definition parse (pc : parser_cfg) (gs : global_state) (latex : str) (d : math_display) : res (list node) * global_state :=
  parse_snippet pc usize_max fuel gs latex (display_style d).

(** lib.rs:413-423 [convert] *)
Definition convert (ec : emitter_cfg) (pc : parser_cfg) (gs : global_state) (latex : str) (d : math_display)
  : res convert_result * global_state :=
  match parse pc gs latex d with
  | (Ok ast, gs') => (Ok (emit_document ec (label_lookup (gs_labels gs')) ast latex d), gs')
  | (Err e, gs') => (Err e, gs')
  | (Crash c, gs') => (Crash c, gs')
  end.

(** lib.rs:319-331 [convert_with_global_state] *)
Definition convert_with_global_state (c : converter) (latex : str) (d : math_display) : res convert_result * converter :=
  let (r, gs) := convert (cv_emitter c) (cv_parser c) (cv_state c) latex d in (r, cv_set_state c gs).
(** lib.rs:351-364 [convert_with_local_state] *)
Definition convert_with_local_state (c : converter) (latex : str) (d : math_display) : res convert_result :=
  fst (convert (cv_emitter c) (cv_parser c) gs_default latex d).
(** lib.rs:369-373 [reset_global_state] *)
Definition reset_global_state (c : converter) : converter :=
  cv_set_state c (mkGs 0 [] (cmds_clear (gs_cmds (cv_state c)))).

(** lib.rs:388-394: all snippets are parsed, one after the other *)
Fixpoint parse_each (pc : parser_cfg) (gs : global_state) (snippets : list (str * math_display))
  : list (res (list node) * str * math_display) * global_state :=
  match snippets with
  | [] => ([], gs)
  | (latex, d) :: rest =>
      let (r, gs1) := parse pc gs latex d in
      let (rs, gs2) := parse_each pc gs1 rest in
      ((r, latex, d) :: rs, gs2)
  end.
Definition emit_result (ec : emitter_cfg) (labels : label_map) (p : res (list node) * str * math_display) : res convert_result :=
  match p with
  | (Ok ast, latex, d) => Ok (emit_document ec (label_lookup labels) ast latex d)
  | (Err e, _, _) => Err e
  | (Crash c, _, _) => Crash c
  end.
(** lib.rs:382-410 [convert_all] *)
Definition convert_all (c : converter) (snippets : list (str * math_display)) : list (res convert_result) :=
  let (asts, gs) := parse_each (cv_parser c) gs_default snippets in
  map (emit_result (cv_emitter c) (gs_labels gs)) asts.
End Convert.
