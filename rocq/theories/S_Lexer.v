(** Specification vocabulary for the lexer. *)
From Verif Require Import Str M_Token M_LatexError M_Lexer.

(** A byte offset that is a character boundary of the input. *)
Definition boundary (input : str) (off : nat) : Prop := exists p q, input = p ++ q /\ off = blen p.
(** A byte range of the input. *)
Definition range_of (input : str) (sp : span) : Prop :=
  boundary input (sp_start sp) /\ boundary input (sp_end sp) /\ (sp_start sp <= sp_end sp <= blen input)%nat.

(** Reading tokens until the end of the input or an error; [None] if there are more than [fuel]. *)
Inductive lex_end := LexEoi (sp : span) | LexError (e : latex_error).
Fixpoint tokenize (fuel : nat) (l : lexer) : option (list lexer_output * lex_end) :=
  match fuel with
  | O => None
  | S f =>
      match next_token l with
      | (inr e, _) => Some ([], LexError e)
      | (inl (LexTok (T_Eoi, sp)), _) => Some ([], LexEoi sp)
      | (inl out, l') => option_map (fun '(ts, e) => (out :: ts, e)) (tokenize f l')
      end
  end.

Definition out_span (o : lexer_output) : span := match o with LexTok (_, sp) => sp | LexCmd _ sp => sp end.
Definition end_span (e : lex_end) : span := match e with LexEoi sp => sp | LexError e => err_span e end.

(** Consecutive ranges do not overlap and appear in order, starting at [from]. *)
Fixpoint ordered (from : nat) (l : list span) : Prop :=
  match l with
  | [] => True
  | s :: r => (from <= sp_start s <= sp_end s)%nat /\ ordered (sp_end s) r
  end.

Definition starts_blank (s : str) : bool := match s with c :: _ => is_ascii_ws c | [] => false end.
Definition blank (s : str) : Prop := Forall (fun c => is_ascii_ws c = true) s.

(** [name] is the command name at the front of [s], followed by [after]. *)
Inductive command_name : str -> str -> str -> Prop :=
| cn_letters name after : name <> [] -> Forall (fun c => is_ascii_alpha c = true) name ->
    match after with c :: _ => is_ascii_alpha c = false /\ c <> 42 | [] => True end ->
    command_name (name ++ after) name after
| cn_star letters after : Forall (fun c => is_ascii_alpha c = true) letters ->
    command_name (letters ++ 42 :: after) (letters ++ [42]) after
| cn_other c after : is_ascii_alpha c = false -> c <> 42 -> command_name (c :: after) [c] after
| cn_eoi : command_name [] [] [].

(** The lexer is somewhere in the input. *)
Definition lex_at (input : str) (l : lexer) : Prop := exists p, input = p ++ lx_rest l /\ lx_pos l = blen p.
