(** Settings of which one allows more than the other. *)
From Verif Require Import Str M_Token M_LatexError M_Lexer M_CustomCmds M_Queue M_Api S_Api.

(** The same macros and the same reading of commands; the second may ignore unknown commands and may expand more macros. *)
Definition permits (a b : parser_cfg) : Prop :=
  pc_custom a = pc_custom b /\ pc_allow_unreliable a = pc_allow_unreliable b /\ pc_global_group a = pc_global_group b /\
  pc_conventional a = pc_conventional b /\ (pc_ignore_unknown a = true -> pc_ignore_unknown b = true) /\
  (pc_max_expansions a <= pc_max_expansions b)%nat.
(** The errors that the first setting may raise where the second raises none. Inside [\color[rgb]{...}] an unknown command is
    reported as a missing argument. *)
Definition lifted (a b : parser_cfg) (k : err_kind) : Prop :=
  match k with
  | E_UnknownCommand _ | E_ExpectedArgumentGotEOI => pc_ignore_unknown a = false /\ pc_ignore_unknown b = true
  | E_TooManyExpansions => (pc_max_expansions a < pc_max_expansions b)%nat
  | _ => False
  end.
(** The same for whole configurations. *)
Definition allows (a b : config) : Prop :=
  co_macros a = co_macros b /\ co_allow_unreliable a = co_allow_unreliable b /\ co_global_group a = co_global_group b /\
  co_conventional a = co_conventional b /\ co_emitter a = co_emitter b /\ (co_ignore_unknown a = true -> co_ignore_unknown b = true) /\
  (co_max_expansions a <= co_max_expansions b)%nat.
(** A converter with other settings for the parser. *)
Definition with_parser (c : converter) (p : parser_cfg) : converter := mkConverter (cv_emitter c) (cv_state c) p.
(** A reply with one of these errors. *)
Definition lifted_res {A} (a b : parser_cfg) (r : res A) : Prop := exists sp k, r = Err (mkErr sp k) /\ lifted a b k.
Definition lifted_reply (a b : parser_cfg) (r : api_reply) : Prop :=
  match r with ReplyOne x => lifted_res a b x | ReplyAll l => exists x, In x l /\ lifted_res a b x | ReplyNone => False end.
