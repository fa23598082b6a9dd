(** Model of crates/math-core/src/custom_cmds.rs, of the parser configuration (lib.rs) and of
    global_state.rs, and of [resolve_builtin_cmd] (commands.rs). *)
From Verif Require Import Str M_Ast M_Spec M_Token M_Symbols M_Commands M_Env.

(** custom_cmds.rs:17-21 [RecordedToken] *)
Inductive recorded := RTok (t : token) | RName (name : str).

(** custom_cmds.rs:47-62 [CmdDef] *)
Record cmd_def := mkCmdDef { cd_args : nat; cd_class : option class; cd_start : nat; cd_end : nat }.

(** custom_cmds.rs:69-73 [CustomCmds]: the bodies of all commands in one list, and a hash map as an
    association list (the newest entry first, which hides older ones). *)
Record custom_cmds := mkCmds { cc_tokens : list recorded; cc_map : list (str * cmd_def) }.
Definition cmds_empty : custom_cmds := mkCmds [] [].

(** [slice::get] with a range *)
Definition slice_get {A} (l : list A) (start stop : nat) : option (list A) :=
  if ((start <=? stop) && (stop <=? length l))%nat then Some (firstn (stop - start) (skipn start l)) else None.

(** custom_cmds.rs:84-93 [get] *)
Definition cmds_get (c : custom_cmds) (name : str) (src : cmd_source) : option token :=
  match assoc_str name (cc_map c) with
  | Some d => Some (T_CustomCmdRef src (cd_args d) (cd_class d) (cd_start d) (cd_end d))
  | None => None
  end.
(** custom_cmds.rs:96-98 [body] *)
Definition cmds_body (c : custom_cmds) (start stop : nat) : option (list recorded) :=
  slice_get (cc_tokens c) start stop.
Definition cmds_has (c : custom_cmds) (name : str) : bool :=
  match assoc_str name (cc_map c) with Some _ => true | None => false end.

(** custom_cmds.rs:167-184 [register] *)
Definition cmds_register (c : custom_cmds) (name : str) (args : nat) (cl : option class) (start stop : nat) : custom_cmds :=
  mkCmds (cc_tokens c) ((name, mkCmdDef args cl start stop) :: cc_map c).
(** custom_cmds.rs:118-129 [insert_or_replace] *)
Definition cmds_insert_or_replace (c : custom_cmds) (name : str) (args : nat) (body : list recorded) (cl : option class)
  : custom_cmds :=
  let start := length (cc_tokens c) in
  let toks := cc_tokens c ++ body in
  cmds_register (mkCmds toks (cc_map c)) name args cl start (length toks).
(** custom_cmds.rs:101-113 [insert]: [None] if the name is taken *)
Definition cmds_insert (c : custom_cmds) (name : str) (args : nat) (body : list recorded) (cl : option class)
  : option custom_cmds :=
  if cmds_has c name then None else Some (cmds_insert_or_replace c name args body cl).
(** custom_cmds.rs:234-236 [remove] *)
Definition cmds_remove (c : custom_cmds) (name : str) : custom_cmds :=
  mkCmds (cc_tokens c) (filter (fun e => negb (str_eqb name (fst e))) (cc_map c)).
(** custom_cmds.rs:238-241 [clear] *)
Definition cmds_clear (c : custom_cmds) : custom_cmds := cmds_empty.

Fixpoint update_nth {A} (n : nat) (x : A) (l : list A) : list A :=
  match n, l with
  | _, [] => []
  | O, _ :: r => x :: r
  | S m, y :: r => y :: update_nth m x r
  end.

(** custom_cmds.rs:202-226, the loop of [absorb]: [None] if it takes more than [fuel] rounds *)
Fixpoint absorb_loop (fuel : nat) (local : custom_cmds) (toks : list recorded) (i : nat) : option (list recorded) :=
  if (i <? length toks)%nat then
    match fuel with
    | O => None
    | S f =>
        match nth_error toks i with
        | Some (RTok (T_CustomCmdRef SrcLocal args cl bs be)) =>
            let new_start := length toks in
            let toks1 := match cmds_body local bs be with Some b => toks ++ b | None => toks end in
            absorb_loop f local (update_nth i (RTok (T_CustomCmdRef SrcDocument args cl new_start (length toks1))) toks1) (S i)
        | _ => absorb_loop f local toks (S i)
        end
    end
  else Some toks.

(** How many rounds a recorded token makes the loop go: one for itself and those for the copy of
    the body it refers to. [depth] bounds the length of a chain of references, which always lead
    to earlier bodies. *)
Fixpoint absorb_rounds (depth : nat) (local : custom_cmds) (t : recorded) : nat :=
  match depth with
  | O => 1
  | S d =>
      match t with
      | RTok (T_CustomCmdRef SrcLocal _ _ bs be) =>
          match cmds_body local bs be with
          | Some b => S (list_sum (map (absorb_rounds d local) b))
          | None => 1
          end
      | _ => 1
      end
  end.
Definition absorb_fuel (local : custom_cmds) (body : list recorded) : nat :=
  list_sum (map (absorb_rounds (S (length (cc_tokens local))) local) body).

(** custom_cmds.rs:199-228 [absorb]; [None] stands for a loop that never ends (it does not happen
    for a store whose references lead backwards) *)
Definition absorb (c local : custom_cmds) (body : list recorded) : option (custom_cmds * nat * nat) :=
  let start := length (cc_tokens c) in
  let toks := cc_tokens c ++ body in
  match absorb_loop (absorb_fuel local body) local toks start with
  | Some toks' => Some (mkCmds toks' (cc_map c), start, length toks)
  | None => None
  end.
(** custom_cmds.rs:151-163 [insert_or_replace_and_copy_local] *)
Definition cmds_insert_or_replace_copy (c local : custom_cmds) (name : str) (args : nat) (body : list recorded)
  (cl : option class) : option custom_cmds :=
  match absorb c local body with
  | Some (c', start, stop) => Some (cmds_register c' name args cl start stop)
  | None => None
  end.

(** custom_cmds.rs:248-257 [is_valid_macro_name] *)
Definition is_valid_macro_name (s : str) : bool :=
  match s with
  | [] => false
  | [_] => true
  | _ => forallb is_ascii_alpha s
  end.

(** lib.rs:239-247 [ParserConfig]; [pc_conventional] tells whether the Unicode substitution is
    [Conventional] *)
Record parser_cfg := mkCfg {
  pc_custom : custom_cmds; pc_ignore_unknown : bool; pc_allow_unreliable : bool; pc_global_group : bool;
  pc_conventional : bool; pc_max_expansions : nat }.
(** global_state.rs:7-17 [GlobalState] *)
Record global_state := mkGs { gs_count : N; gs_labels : label_map; gs_cmds : custom_cmds }.
Definition gs_default : global_state := mkGs 0 [] cmds_empty.

(** commands.rs:952-994 [resolve_builtin_cmd], from the two settings it looks at *)
Definition UNRELIABLE : list (str * token) :=
  [ (lit "widecheck", T_Accent SYM_CARON true A_STRETCHY_TRUE);
    (lit "widetilde", T_Accent (ord_char SYM_TILDE) true A_STRETCHY_TRUE);
    (lit "utilde", T_Accent (ord_char SYM_TILDE) false A_EMPTY) ].
Definition SUBSTITUTED : list (str * token) :=
  [ (lit "Coloneq", T_Relation SYM_DOUBLE_COLON_EQUAL);
    (lit "Coloneqq", T_Relation SYM_DOUBLE_COLON_EQUAL);
    (lit "cdots", T_ForceMathInner (rel_as_op SYM_MIDLINE_HORIZONTAL_ELLIPSIS));
    (lit "coloneq", T_Relation SYM_COLON_EQUALS);
    (lit "coloneqq", T_Relation SYM_COLON_EQUALS);
    (lit "dashcolon", T_Relation SYM_EXCESS);
    (lit "dblcolon", T_Relation SYM_PROPORTION);
    (lit "eqcolon", T_Relation SYM_EQUALS_COLON);
    (lit "eqqcolon", T_Relation SYM_EQUALS_COLON) ].
Definition resolve_builtin (unreliable conventional : bool) (name : str) : option token :=
  match (if unreliable then assoc_str name UNRELIABLE else None) with
  | Some t => Some t
  | None =>
      match (if conventional then assoc_str name SUBSTITUTED else None) with
      | Some t => Some t
      | None =>
          match assoc_str name COMMANDS with
          | Some t => Some t
          | None => if existsb (str_eqb name) FUNCTIONS then Some (T_PseudoOperator name) else None
          end
      end
  end.
