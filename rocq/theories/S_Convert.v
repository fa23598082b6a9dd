(** Specification vocabulary for whole conversions. *)
From Verif Require Import Str M_SuperChar M_Transform M_Length M_Spec M_Ast M_Emit M_Output M_Token M_Symbols M_Commands M_Env
  M_LatexError M_Lexer M_CustomCmds M_Queue M_Spacing M_Leaf M_TextParser M_Parser M_Api S_Lexer S_Queue S_Store S_Api S_Run.

(** ** Text *)

(** Strings are made of Unicode scalar values. *)
Definition scalar_text (s : str) : Prop := forallb is_scalar s = true.
Definition scalar_config (c : config) : Prop := Forall (fun m => scalar_text (snd m)) (co_macros c).
Definition scalar_call (x : api_call) : Prop :=
  match x with
  | ApiGlobal latex _ | ApiLocal latex _ => scalar_text latex
  | ApiAll l => Forall (fun s => scalar_text (fst s)) l
  | ApiReset => True
  end.

(** ** Answers *)

(** A result or an error. *)
Definition answered {A} (r : res A) : Prop := match r with Crash _ => False | _ => True end.
Definition reply_answered (r : api_reply) : Prop :=
  match r with ReplyOne r => answered r | ReplyAll l => Forall answered l | ReplyNone => True end.

(** ** Runs *)

Section Run.
Context (cfg : parser_cfg) (usize_max : N).

(** The operations performed for a snippet, in order. *)
Definition snippet_trace (fuel : nat) (gs : global_state) (input : str) (st : style) : list performed :=
  match parser_new cfg gs input st with
  | (Ok _, s) => fst (trun cfg usize_max fuel (body (CSeq (SeqEnd EtEoi) ClOpen true)) s)
  | _ => []
  end.
End Run.

(** The use of a macro, builtin or stored. *)
Definition is_macro {A} (o : op A) : bool :=
  match o with OExpand _ _ _ | OExpandRef _ _ _ _ _ => true | _ => false end.
Definition macro_use (p : performed) : bool := match p with Performed o _ _ _ => is_macro o end.
Definition macro_uses (l : list performed) : nat := length (filter macro_use l).
Definition is_error (p : performed) (k : err_kind) : Prop :=
  match p with Performed _ _ (Err e) _ => err_kind_of e = k | _ => False end.

(** The macro that is used: the number of arguments, the body, and where it is used. *)
Definition macro_of {A} (cfg : parser_cfg) (q : queue) (o : op A) : option (nat * list recorded * span) :=
  match o with
  | OExpand n body sp => Some (n, map RTok body, sp)
  | OExpandRef src n start stop sp => option_map (fun b => (n, b, sp)) (q_body cfg q src start stop)
  | _ => None
  end.

(** ** Definitions *)

(** The stored commands are those after some events, beginning with the first snippet. *)
Definition arises (cfg : parser_cfg) (q : queue) : Prop :=
  exists q0 l q1 s, starts cfg q0 /\ history cfg l q0 (scope_start cfg) q1 s /\ same_commands q1 q.
Definition document_arises (cfg : parser_cfg) (gs : global_state) : Prop :=
  exists q, arises cfg q /\ gs_cmds gs = gs_cmds (q_gs q).

(** For examples. *)
Definition is_ok {A} (r : res A) : bool := match r with Ok _ => true | _ => false end.
(** What is to be read after each use of a macro. *)
Definition views_after (cfg : parser_cfg) (l : list performed) : list (list token) :=
  flat_map (fun p => match p with Performed o _ _ a => if is_macro o then [map qt_tok (fst (q_view cfg (ps_queue a)))] else [] end) l.
