(** Model of crates/math-core/src/token_queue.rs. *)
From Verif Require Import Str M_Ast M_Spec M_Token M_Commands M_Env M_LatexError M_Lexer M_CustomCmds.

(** The outcome of an operation. A [Crash] is what the types of the Rust code cannot express: more
    rounds of a loop than the model allows, or a panic or undefined behaviour ([Undefined]). *)
Inductive crash := OutOfFuel | Undefined.
Inductive res (A : Type) := Ok (a : A) | Err (e : latex_error) | Crash (c : crash).
Arguments Ok {A} a.
Arguments Err {A} e.
Arguments Crash {A} c.

(** token_queue.rs:58-125 [QueuedTok] *)
Record qtok := mkQt { qt_tok : token; qt_span : span; qt_name : option str }.
Definition qt_tokspan (t : qtok) : tokspan := (qt_tok t, qt_span t).
(** token_queue.rs:91-95 [with_token] *)
Definition qt_with (t : qtok) (tok : token) : qtok := mkQt tok (qt_span t) (qt_name t).
(** token_queue.rs:107-112 and token.rs:767-773 [From<Token>] *)
Definition qt_of_token (t : token) : qtok := mkQt t span_default None.
(** token_queue.rs:114-119 [From<TokSpan>] *)
Definition qt_of (ts : tokspan) : qtok := mkQt (fst ts) (snd ts) None.
(** token_queue.rs:98-103 [unwrap_math] *)
Definition qt_unwrap (t : qtok) : qtok := qt_with t (unwrap_math (qt_tok t)).
(** token_queue.rs:176-177 [EOI_TOK] *)
Definition EOI_TOK : qtok := mkQt T_Eoi (span_zero_width 0) None.

(** token_queue.rs:32-46 [TokenQueue] with the mutable [Stores] (131-139). The names of unresolved
    commands are in the tokens themselves instead of a string pool. *)
Record queue := mkQueue {
  q_lexer : lexer; q_toks : list qtok; q_eoi : bool; q_nnw : nat; q_local : custom_cmds; q_gs : global_state }.
Definition q_set_toks (q : queue) (l : list qtok) : queue :=
  mkQueue (q_lexer q) l (q_eoi q) (q_nnw q) (q_local q) (q_gs q).
Definition q_set_nnw (q : queue) (n : nat) : queue :=
  mkQueue (q_lexer q) (q_toks q) (q_eoi q) n (q_local q) (q_gs q).
Definition q_set_lexer (q : queue) (l : lexer) : queue :=
  mkQueue l (q_toks q) (q_eoi q) (q_nnw q) (q_local q) (q_gs q).
Definition q_set_eoi (q : queue) : queue :=
  mkQueue (q_lexer q) (q_toks q) true (q_nnw q) (q_local q) (q_gs q).
Definition q_set_stores (q : queue) (local : custom_cmds) (gs : global_state) : queue :=
  mkQueue (q_lexer q) (q_toks q) (q_eoi q) (q_nnw q) local gs.
Definition gs_set_cmds (gs : global_state) (c : custom_cmds) : global_state := mkGs (gs_count gs) (gs_labels gs) c.

Section Queue.
Context (cfg : parser_cfg).

(** token_queue.rs:149-163 [resolve_command] *)
Definition resolve_command (local document : custom_cmds) (name : str) : option token :=
  match cmds_get local name SrcLocal with
  | Some t => Some t
  | None =>
      match cmds_get document name SrcDocument with
      | Some t => Some t
      | None =>
          match cmds_get (pc_custom cfg) name SrcConfig with
          | Some t => Some t
          | None => resolve_builtin (pc_allow_unreliable cfg) (pc_conventional cfg) name
          end
      end
  end.
Definition q_resolve (q : queue) (name : str) : option token := resolve_command (q_local q) (gs_cmds (q_gs q)) name.
(** token_queue.rs:166-172 [get_body] *)
Definition q_body (q : queue) (src : cmd_source) (start stop : nat) : option (list recorded) :=
  match src with
  | SrcConfig => cmds_body (pc_custom cfg) start stop
  | SrcDocument => cmds_body (gs_cmds (q_gs q)) start stop
  | SrcLocal => cmds_body (q_local q) start stop
  end.

(** The meaning of a name, known or not. *)
Definition q_meaning (q : queue) (name : str) : token :=
  match q_resolve q name with Some t => t | None => T_UnresolvedCommand name end.
(** token_queue.rs:207-219 [resolve_lexed] *)
Definition resolve_lexed (q : queue) (o : lexer_output) : qtok :=
  match o with
  | LexTok ts => qt_of ts
  | LexCmd name sp => mkQt (q_meaning q name) sp (Some name)
  end.

Definition is_ws (t : token) : bool := match t with T_Whitespace => true | _ => false end.
Definition is_eoi (t : token) : bool := match t with T_Eoi => true | _ => false end.
(** token_queue.rs:966-972 [is_not_whitespace], [has_class] *)
Definition is_not_whitespace (idx : nat) (t : token) : option nat := if is_ws t then None else Some idx.
Definition has_class (idx : nat) (t : token) : option (nat * class) :=
  match token_class t with Some c => Some (idx, c) | None => None end.

(** token_queue.rs:246-264, the loop of [load_token]; [idx] is [starting_len + non_skipped_offset] *)
Fixpoint load_loop {T} (pred : nat -> token -> option T) (fuel idx : nat) (q : queue) : res (option T) * queue :=
  match fuel with
  | O => (Crash OutOfFuel, q)
  | S f =>
      match next_token (q_lexer q) with
      | (inr e, l') => (Err e, q_set_lexer q l')
      | (inl out, l') =>
          let t := resolve_lexed q out in
          let q' := q_set_toks (q_set_lexer q l') (q_toks q ++ [t]) in
          match pred idx (qt_tok t) with
          | Some x => (Ok (Some x), q')
          | None => if is_eoi (qt_tok t) then (Ok None, q_set_eoi q') else load_loop pred f (S idx) q'
          end
      end
  end.
(** token_queue.rs:235-265 [load_token]: every round but the last consumes some of the input *)
Definition load_token {T} (pred : nat -> token -> option T) (q : queue) : res (option T) * queue :=
  if q_eoi q then (Ok None, q)
  else load_loop pred (S (length (lx_rest (q_lexer q)))) (length (q_toks q)) q.
(** token_queue.rs:228-232 [load_token_skip_whitespace] *)
Definition load_skip_whitespace (q : queue) : res nat * queue :=
  match load_token is_not_whitespace q with
  | (Ok (Some i), q') => (Ok i, q')
  | (Ok None, q') => (Ok (length (q_toks q')), q')
  | (Err e, q') => (Err e, q')
  | (Crash c, q') => (Crash c, q')
  end.

(** token_queue.rs:267-272 [find_next_non_whitespace] *)
Fixpoint find_nnw (l : list qtok) : option nat :=
  match l with
  | [] => None
  | t :: r => if is_ws (qt_tok t) then match find_nnw r with Some n => Some (S n) | None => None end else Some O
  end.
(** token_queue.rs:274-289 [ensure_next_non_whitespace] *)
Definition ensure_nnw (q : queue) : res unit * queue :=
  match find_nnw (q_toks q) with
  | Some pos => (Ok tt, q_set_nnw q pos)
  | None =>
      match load_skip_whitespace q with
      | (Ok pos, q') => (Ok tt, q_set_nnw q' pos)
      | (Err e, q') => (Err e, q')
      | (Crash c, q') => (Crash c, q')
      end
  end.

(** token_queue.rs:179-200 [new] *)
Definition queue_new (l : lexer) (gs : global_state) : res unit * queue :=
  match load_skip_whitespace (mkQueue l [] false 0 cmds_empty gs) with
  | (Ok pos, q) => (Ok tt, q_set_nnw q pos)
  | (Err e, q) => (Err e, q)
  | (Crash c, q) => (Crash c, q)
  end.

(** token_queue.rs:298-308 [peek] *)
Definition q_peek (q : queue) : qtok := nth (q_nnw q) (q_toks q) EOI_TOK.
(** token_queue.rs:312-326 [peek_any_token], [peek_any_keeping_name] *)
Definition q_peek_any (q : queue) : qtok := hd EOI_TOK (q_toks q).

(** [enumerate().find_map()] *)
Fixpoint find_from {T} (pred : nat -> token -> option T) (idx : nat) (l : list qtok) : option T :=
  match l with
  | [] => None
  | t :: r => match pred idx (qt_tok t) with Some x => Some x | None => find_from pred (S idx) r end
  end.
(** token_queue.rs:334-365 [find_or_load_after_next] *)
Definition find_or_load_after_next {T} (pred : nat -> token -> option T) (q : queue) : res (option T) * queue :=
  let start := q_nnw q in
  if (start <? length (q_toks q))%nat then
    match find_from pred (S start) (skipn (S start) (q_toks q)) with
    | Some x => (Ok (Some x), q)
    | None => load_token pred q
    end
  else (Ok None, q).
(** token_queue.rs:368-378 [peek_second] *)
Definition q_peek_second (q : queue) : res qtok * queue :=
  match find_or_load_after_next is_not_whitespace q with
  | (Ok (Some idx), q') => (Ok (nth idx (q_toks q') EOI_TOK), q')
  | (Ok None, q') => (Ok EOI_TOK, q')
  | (Err e, q') => (Err e, q')
  | (Crash c, q') => (Crash c, q')
  end.
(** token_queue.rs:383-393 [peek_class_token] *)
Definition q_peek_class (q : queue) : res (nat * class) * queue :=
  match token_class (qt_tok (q_peek q)) with
  | Some c => (Ok (q_nnw q, c), q)
  | None =>
      match find_or_load_after_next has_class q with
      | (Ok (Some ic), q') => (Ok ic, q')
      | (Ok None, q') => (Ok (length (q_toks q'), ClEnd), q')
      | (Err e, q') => (Err e, q')
      | (Crash c, q') => (Crash c, q')
      end
  end.

(** token_queue.rs:402-414 [reject_unknown_command] *)
Definition reject_unknown (t : qtok) : option latex_error :=
  match qt_tok t with
  | T_UnresolvedCommand name =>
      if pc_ignore_unknown cfg then None else Some (mkErr (qt_span t) (E_UnknownCommand name))
  | _ => None
  end.
Definition rejecting (r : res qtok * queue) : res qtok * queue :=
  match r with
  | (Ok t, q) => match reject_unknown t with Some e => (Err e, q) | None => (Ok t, q) end
  | _ => r
  end.

(** token_queue.rs:436-459 [next_allowing_unresolved_command] *)
Definition q_next_unres (q : queue) : res qtok * queue :=
  match skipn (q_nnw q) (q_toks q) with
  | t :: r =>
      match ensure_nnw (q_set_toks q r) with
      | (Ok _, q') => (Ok (qt_unwrap t), q')
      | (Err e, q') => (Err e, q')
      | (Crash c, q') => (Crash c, q')
      end
  | [] => (Ok EOI_TOK, q_set_toks q [])
  end.
(** token_queue.rs:421-430 [next], [next_keeping_name] *)
Definition q_next (q : queue) : res qtok * queue := rejecting (q_next_unres q).
(** token_queue.rs:478-501 [next_any_token_allowing_unknown_command] *)
Definition q_next_any_unres (q : queue) : res qtok * queue :=
  match q_toks q with
  | t :: r =>
      match q_nnw q with
      | S n => (Ok t, q_set_nnw (q_set_toks q r) n)
      | O =>
          match ensure_nnw (q_set_toks q r) with
          | (Ok _, q') => (Ok t, q')
          | (Err e, q') => (Err e, q')
          | (Crash c, q') => (Crash c, q')
          end
      end
  | [] => (Ok EOI_TOK, q)
  end.
(** token_queue.rs:464-474 [next_any_token], [next_any_token_keeping_name] *)
Definition q_next_any (q : queue) : res qtok * queue := rejecting (q_next_any_unres q).

(** token_queue.rs:517-528 [update_next_non_whitespace] *)
Definition update_nnw (q : queue) : queue :=
  q_set_nnw q (match find_nnw (q_toks q) with Some n => n | None => length (q_toks q) end).
(** token_queue.rs:506-514 [queue_in_front] *)
Definition queue_in_front (l : list qtok) (q : queue) : queue := update_nnw (q_set_toks q (l ++ q_toks q)).

(** token_queue.rs:984-1019 [CmdArgs]: the tokens of all arguments, and where each of the nine ends *)
Record cmd_args := mkArgs { ca_tokens : list qtok; ca_offsets : list nat }.
Definition args_clear : cmd_args := mkArgs [] (repeat O 9).
Definition args_get (a : cmd_args) (n : nat) : list qtok :=
  let start := match n with O => O | S m => nth m (ca_offsets a) O end in
  let stop := nth n (ca_offsets a) (length (ca_tokens a)) in
  match slice_get (ca_tokens a) start stop with Some l => l | None => [] end.
Definition args_append (a : cmd_args) (l : list qtok) : cmd_args := mkArgs (ca_tokens a ++ l) (ca_offsets a).
Definition args_finish (a : cmd_args) (n : nat) : cmd_args :=
  mkArgs (ca_tokens a) (update_nth n (length (ca_tokens a)) (ca_offsets a)).

(** token_queue.rs:949-964 [push_arg_front]: what is put in front *)
Definition arg_front (arg : list qtok) (sp : span) : list qtok :=
  match arg with
  | [] => [mkQt T_GroupBegin sp None; mkQt T_GroupEnd sp None]
  | _ => arg
  end.
(** token_queue.rs:625-629 [queue_empty_body] *)
Definition empty_front (sp : span) : list qtok := [mkQt T_Relax sp None].

(** token_queue.rs:546-571 [queue_body_substituting] *)
Definition body_token (args : cmd_args) (sp : span) (t : token) : list qtok :=
  match t with T_CustomCmdArg n => arg_front (args_get args n) sp | _ => [qt_of_token t] end.
Definition queue_body (toks : list token) (args : cmd_args) (sp : span) (q : queue) : queue :=
  queue_in_front (match toks with [] => empty_front sp | _ => flat_map (body_token args sp) toks end) q.

(** token_queue.rs:584-621 [queue_stored_body_substituting]; the flag tells whether there is such a
    body *)
Definition recorded_token (q : queue) (args : cmd_args) (sp : span) (r : recorded) : list qtok :=
  match r with
  | RTok t => body_token args sp t
  | RName name =>
      [ match q_resolve q name with
        | Some t => qt_of_token t
        | None => mkQt (T_UnresolvedCommand name) sp None
        end ]
  end.
Definition queue_stored_body (src : cmd_source) (start stop : nat) (args : cmd_args) (sp : span) (q : queue) : bool * queue :=
  match q_body q src start stop with
  | None => (false, q)
  | Some [] => (true, queue_in_front (empty_front sp) q)
  | Some body => (true, queue_in_front (flat_map (recorded_token q args sp) body) q)
  end.
(** token_queue.rs:633-637 [queue_arg_in_front] *)
Definition queue_arg (arg : list qtok) (sp : span) (q : queue) : queue := queue_in_front (arg_front arg sp) q.

(** token_queue.rs:644-652 [resolve_buffered_unknown_commands] *)
Definition resolve_buffered_unknown (q : queue) : queue :=
  q_set_toks q (map (fun t => match qt_tok t with
                              | T_UnresolvedCommand name =>
                                  match q_resolve q name with Some tok => qt_with t tok | None => t end
                              | _ => t
                              end) (q_toks q)).
(** token_queue.rs:715-721 [resolve_buffered_redefined_command] *)
Definition opt_str_eqb (a : option str) (name : str) : bool := match a with Some n => str_eqb n name | None => false end.
Definition resolve_buffered_redefined (name : str) (tok : token) (q : queue) : queue :=
  q_set_toks q (map (fun t => if opt_str_eqb (qt_name t) name then qt_with t tok else t) (q_toks q)).

(** token_queue.rs:660-707 [define]; the flag is [false] if the name is taken and must not be *)
Definition q_define (name : str) (args : nat) (body : list recorded) (cl : option class) (replace is_global : bool)
  (q : queue) : res bool * queue :=
  let is_global := is_global || pc_global_group cfg in
  let document := gs_cmds (q_gs q) in
  let stored :=
    if is_global then
      if negb replace && cmds_has document name then Ok None
      else match cmds_insert_or_replace_copy document (q_local q) name args body cl with
           | Some d => Ok (Some (cmds_remove (q_local q) name, gs_set_cmds (q_gs q) d))
           | None => Crash OutOfFuel
           end
    else if replace then Ok (Some (cmds_insert_or_replace (q_local q) name args body cl, q_gs q))
    else match cmds_insert (q_local q) name args body cl with
         | Some l => Ok (Some (l, q_gs q))
         | None => Ok None
         end in
  match stored with
  | Ok None => (Ok false, q)
  | Ok (Some (local, gs)) =>
      let q' := q_set_stores q local gs in
      let tok := if is_global then cmds_get (gs_cmds gs) name SrcDocument else cmds_get local name SrcLocal in
      (Ok true,
       if replace then match tok with Some t => resolve_buffered_redefined name t q' | None => q' end
       else resolve_buffered_unknown q')
  | Err e => (Err e, q)
  | Crash c => (Crash c, q)
  end.

(** A bound on the number of tokens that can still be read. *)
Definition q_size (q : queue) : nat := S (length (q_toks q) + length (lx_rest (q_lexer q))).

(** token_queue.rs:745-771, the loop of [record_macro_body] *)
Fixpoint record_macro_loop (fuel nesting : nat) (acc : list qtok) (q : queue) : res (list qtok) * queue :=
  match fuel with
  | O => (Crash OutOfFuel, q)
  | S f =>
      let t := q_peek_any q in
      let continue n :=
        match q_next_any_unres q with
        | (Ok _, q') => record_macro_loop f n (acc ++ [t]) q'
        | (Err e, q') => (Err e, q')
        | (Crash c, q') => (Crash c, q')
        end in
      match qt_tok t with
      | T_GroupBegin => continue (S nesting)
      | T_GroupEnd => match nesting with O => (Ok acc, q) | S n => continue n end
      | T_Eoi => (Err (mkErr (qt_span t) (E_UnclosedGroup EtGroupClose)), q)
      | _ => continue nesting
      end
  end.
(** token_queue.rs:737-772 [record_macro_body] *)
Definition record_macro_body (q : queue) : res (list qtok) * queue :=
  match q_next q with
  | (Ok _, q') => record_macro_loop (S (q_size q')) 0 [] q'
  | (Err e, q') => (Err e, q')
  | (Crash c, q') => (Crash c, q')
  end.

(** token_queue.rs:778-797 [read_definition_name] *)
Definition read_definition_name (q : queue) : res str * queue :=
  match q_next_unres q with
  | (Ok t, q') =>
      match qt_tok t, qt_name t with
      | T_UnresolvedCommand name, _ => (Ok name, q')
      | _, Some name => (Ok name, q')
      | _, None => (Err (mkErr (qt_span t) E_ExpectedCommandName), q')
      end
  | (Err e, q') => (Err e, q')
  | (Crash c, q') => (Crash c, q')
  end.

(** token_queue.rs:800-860 [map_recorded_tokens] *)
Definition recorded_form (t : qtok) : recorded :=
  match qt_tok t, qt_name t with
  | T_UnresolvedCommand name, _ => RName name
  | _, Some name => RName name
  | tok, None => RTok tok
  end.
Fixpoint map_recorded (num_args : nat) (first : option class) (l : list qtok) : res (list recorded * option class) :=
  match l with
  | [] => Ok ([], first)
  | t :: r =>
      let cons x first' :=
        match map_recorded num_args first' r with
        | Ok (xs, c) => Ok (x :: xs, c)
        | e => e
        end in
      match qt_tok t with
      | T_CustomCmdArgInput n =>
          if (num_args <=? n)%nat then Err (mkErr (qt_span t) (E_ParameterNumberOutOfRange num_args (S n)))
          else cons (RTok (T_CustomCmdArg n)) first
      | T_NewCommand _ | T_Let | T_Def _ | T_Global => Err (mkErr (qt_span t) E_CannotBeUsedAsArgument)
      | tok => cons (recorded_form t) (match first with Some c => Some c | None => token_class tok end)
      end
  end.
Definition map_recorded_tokens (l : list qtok) (num_args : nat) : res (list recorded * option class) :=
  map_recorded num_args None l.

(** token_queue.rs:871-908, the loop of [record_group]: the tokens and the end of the closing brace *)
Fixpoint record_group_loop (preserve_all : bool) (fuel nesting : nat) (acc : list qtok) (q : queue)
  : res (list qtok * nat) * queue :=
  match fuel with
  | O => (Crash OutOfFuel, q)
  | S f =>
      match (if preserve_all then q_next_any q else q_next q) with
      | (Ok t, q') =>
          match qt_tok t with
          | T_GroupBegin => record_group_loop preserve_all f (S nesting) (acc ++ [t]) q'
          | T_GroupEnd =>
              match nesting with
              | O => (Ok (acc, sp_end (qt_span t)), q')
              | S n => record_group_loop preserve_all f n (acc ++ [t]) q'
              end
          | T_Eoi => (Err (mkErr (qt_span t) (E_UnclosedGroup EtGroupClose)), q')
          | _ => record_group_loop preserve_all f nesting (acc ++ [t]) q'
          end
      | (Err e, q') => (Err e, q')
      | (Crash c, q') => (Crash c, q')
      end
  end.
Definition record_group (preserve_all : bool) (q : queue) : res (list qtok * nat) * queue :=
  record_group_loop preserve_all (S (q_size q)) 0 [] q.

(** token_queue.rs:1022-1026 [MacroArgument] *)
Inductive macro_argument := MaToken (t : tokspan) | MaGroup (l : list tokspan) (sp : span).
(** token_queue.rs:915-937 [read_argument] *)
Definition read_argument (preserve_all : bool) (q : queue) : res macro_argument * queue :=
  match q_next q with
  | (Ok t, q') =>
      let first := if preserve_all then q_peek q else t in
      match qt_tok first with
      | T_GroupBegin =>
          match record_group preserve_all q' with
          | (Ok (l, stop), q2) => (Ok (MaGroup (map qt_tokspan l) (mkSpan (sp_start (qt_span first)) stop)), q2)
          | (Err e, q2) => (Err e, q2)
          | (Crash c, q2) => (Crash c, q2)
          end
      | _ => (Ok (MaToken (qt_tokspan first)), q')
      end
  | (Err e, q') => (Err e, q')
  | (Crash c, q') => (Crash c, q')
  end.

(** token_queue.rs:1030-1047 [into_one_or_none]; [inr] is the span of the empty group *)
Definition into_one_or_none (a : macro_argument) : res (tokspan + span) :=
  match a with
  | MaToken t => Ok (inl t)
  | MaGroup [] sp => Ok (inr sp)
  | MaGroup [t] _ => Ok (inl t)
  | MaGroup _ sp => Err (mkErr sp E_ExpectedAtMostOneToken)
  end.
(** token_queue.rs:1050-1065 [into_one] *)
Definition into_one (a : macro_argument) : res tokspan :=
  match a with
  | MaToken t => Ok t
  | MaGroup [t] _ => Ok t
  | MaGroup _ sp => Err (mkErr sp E_ExpectedExactlyOneToken)
  end.

(** parser.rs:2669-2694 [read_cmd_args] *)
Fixpoint read_args_loop (n : nat) (arg : nat) (a : cmd_args) (q : queue) : res cmd_args * queue :=
  match n with
  | O => (Ok a, q)
  | S n' =>
      match q_next q with
      | (Ok t, q') =>
          match qt_tok t with
          | T_GroupBegin =>
              match record_group true q' with
              | (Ok (l, _), q2) => read_args_loop n' (S arg) (args_finish (args_append a l) arg) q2
              | (Err e, q2) => (Err e, q2)
              | (Crash c, q2) => (Crash c, q2)
              end
          | T_Eoi => (Err (mkErr (qt_span t) E_ExpectedArgumentGotEOI), q')
          | _ => read_args_loop n' (S arg) (args_finish (args_append a [t]) arg) q'
          end
      | (Err e, q') => (Err e, q')
      | (Crash c, q') => (Crash c, q')
      end
  end.
Definition read_cmd_args (n : nat) (q : queue) : res cmd_args * queue := read_args_loop n 0 args_clear q.
End Queue.
