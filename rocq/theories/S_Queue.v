(** Specification vocabulary for the token queue: a stream of tokens without any buffering. *)
From Verif Require Import Str M_Token M_LatexError M_Lexer M_CustomCmds M_Queue S_Lexer.

(** What is still to be read: tokens, and then the end of the input or a character that the lexer
    rejects. *)
Definition stream : Type := list qtok * lex_end.

Definition eoi_at (sp : span) : qtok := mkQt T_Eoi sp None.
(** The end token, also with a text mode variant. *)
Fixpoint means_eoi (t : token) : bool := match t with T_Eoi => true | T_MathOrTextMode u _ => means_eoi u | _ => false end.
Definition not_eoi (t : qtok) : bool := negb (means_eoi (qt_tok t)).
Definition blank_tok (t : qtok) : bool := is_ws (qt_tok t).
Definition has_no_class (t : qtok) : bool := match token_class (qt_tok t) with Some _ => false | None => true end.

(** The tokens before the first one that does not satisfy [p], and the others. *)
Fixpoint split_while {A} (p : A -> bool) (l : list A) : list A * list A :=
  match l with
  | [] => ([], [])
  | x :: r => if p x then let (a, b) := split_while p r in (x :: a, b) else ([], l)
  end.
Definition skip_blank (l : list qtok) : list qtok := snd (split_while blank_tok l).

(** The first token of a stream. At the end of the input there is always another end token. *)
Definition front (s : stream) : res qtok :=
  match s with
  | (t :: _, _) => Ok t
  | ([], LexEoi sp) => Ok (eoi_at sp)
  | ([], LexError e) => Err e
  end.
(** The first token that is not a blank. *)
Definition ahead (s : stream) : res qtok := front (skip_blank (fst s), snd s).

(** Reading a token: the token after it that is not a blank must be readable, because the queue
    looks one token ahead. *)
Definition read_first (s : stream) : res qtok * stream :=
  match s with
  | (t :: r, e) => match ahead (r, e) with Ok _ => (Ok t, (r, e)) | Err err => (Err err, s) | Crash c => (Crash c, s) end
  | ([], _) => (front s, s)
  end.

(** Operations on the queue, and the replies. *)
Inductive queue_op :=
| QPeek | QPeekAny | QPeekSecond | QPeekClass | QNext | QNextUnres | QNextAny | QNextAnyUnres | QPush (l : list qtok).
Inductive queue_reply := QTok (t : qtok) | QClass (i : nat) (c : class) | QDone.

Section Machine.
Context (cfg : parser_cfg).

Definition known (t : qtok) : res queue_reply :=
  match reject_unknown cfg t with Some e => Err e | None => Ok (QTok t) end.
Definition reply_of (f : qtok -> res queue_reply) (r : res qtok * stream) : res queue_reply * stream :=
  (match fst r with Ok t => f t | Err e => Err e | Crash c => Crash c end, snd r).

(** The meaning of the operations for a stream. *)
Definition stream_step (o : queue_op) (s : stream) : res queue_reply * stream :=
  let (l, e) := s in
  let tok t := Ok (QTok t) in
  match o with
  | QPeek => reply_of tok (ahead s, s)
  | QPeekAny => reply_of tok (front s, s)
  | QPeekSecond => reply_of tok (match skip_blank l with _ :: r => ahead (r, e) | [] => ahead s end, s)
  | QPeekClass =>
      (* counting from the front of the stream *)
      let (bl, l1) := split_while blank_tok l in
      let (un, l2) := split_while has_no_class l1 in
      (match front (l2, e) with
       | Ok t => Ok (QClass (length bl + length un) (match token_class (qt_tok t) with Some c => c | None => ClEnd end))
       | Err err => Err err
       | Crash c => Crash c
       end, s)
  | QNext => reply_of (fun t => known (qt_unwrap t)) (read_first (skip_blank l, e))
  | QNextUnres => reply_of (fun t => tok (qt_unwrap t)) (read_first (skip_blank l, e))
  | QNextAny => reply_of known (read_first s)
  | QNextAnyUnres => reply_of tok (read_first s)
  | QPush new => (Ok QDone, (new ++ l, e))
  end.

Definition q_reply {A} (f : A -> queue_reply) (r : res A * queue) : res queue_reply * queue :=
  (match fst r with Ok x => Ok (f x) | Err e => Err e | Crash c => Crash c end, snd r).
(** The operations of the code. *)
Definition queue_step (o : queue_op) (q : queue) : res queue_reply * queue :=
  match o with
  | QPeek => (Ok (QTok (q_peek q)), q)
  | QPeekAny => (Ok (QTok (q_peek_any q)), q)
  | QPeekSecond => q_reply QTok (q_peek_second cfg q)
  | QPeekClass => q_reply (fun ic => QClass (fst ic) (snd ic)) (q_peek_class cfg q)
  | QNext => q_reply QTok (q_next cfg q)
  | QNextUnres => q_reply QTok (q_next_unres cfg q)
  | QNextAny => q_reply QTok (q_next_any cfg q)
  | QNextAnyUnres => q_reply QTok (q_next_any_unres cfg q)
  | QPush l => (Ok QDone, queue_in_front l q)
  end.

(** Running a sequence of operations up to the first error. *)
Fixpoint stream_run (ops : list queue_op) (s : stream) : list (res queue_reply) :=
  match ops with
  | [] => []
  | o :: r => match stream_step o s with (Ok x, s') => Ok x :: stream_run r s' | (x, _) => [x] end
  end.
Fixpoint queue_run (ops : list queue_op) (q : queue) : list (res queue_reply) :=
  match ops with
  | [] => []
  | o :: r => match queue_step o q with (Ok x, q') => Ok x :: queue_run r q' | (x, _) => [x] end
  end.

(** What the lexer still has to deliver, with the names resolved. *)
Definition lexed (q : queue) : stream :=
  match tokenize (S (length (lx_rest (q_lexer q)))) (q_lexer q) with
  | Some (ts, e) => (map (resolve_lexed cfg q) ts, e)
  | None => ([], LexEoi span_default)
  end.
(** What a queue still has to deliver: the queued tokens and then those of the lexer. *)
Definition q_view (q : queue) : stream :=
  (filter not_eoi (q_toks q) ++ fst (lexed q), snd (lexed q)).

(** The states of the queue. End tokens have been loaded only after everything else, and there is a
    token to peek at. *)
Definition good_queue (q : queue) : Prop :=
  q_eoi q = false /\
  find_nnw (q_toks q) = Some (q_nnw q) /\
  exists a n, q_toks q = a ++ repeat (eoi_at (span_zero_width (lx_pos (q_lexer q)))) n /\
    Forall (fun t => not_eoi t = true) a /\ (n <> O -> lx_rest (q_lexer q) = []).
Definition good_op (o : queue_op) : Prop := match o with QPush l => Forall (fun t => not_eoi t = true) l | _ => True end.
End Machine.

(** The command stores and the numbering are unchanged. *)
Definition stored_as (q q' : queue) : Prop := q_local q' = q_local q /\ q_gs q' = q_gs q.

(** Peeking, and the number of tokens that are read. *)
Definition is_peek (o : queue_op) : bool := match o with QPeek | QPeekAny | QPeekSecond | QPeekClass => true | _ => false end.
Definition is_read (o : queue_op) : bool := match o with QNextAnyUnres => true | _ => false end.
(** The replies of the reading operations among [ops]. *)
Fixpoint read_replies (ops : list queue_op) (l : list (res queue_reply)) : list (res queue_reply) :=
  match ops, l with
  | o :: ops, x :: l => if is_read o then x :: read_replies ops l else read_replies ops l
  | _, _ => []
  end.

(** ** Balanced groups *)

(** The depth of nesting after some tokens; [None] if a group is closed that has not been opened. *)
Fixpoint nest (d : nat) (l : list qtok) : option nat :=
  match l with
  | [] => Some d
  | t :: r =>
      match qt_tok t with
      | T_GroupBegin => nest (S d) r
      | T_GroupEnd => match d with O => None | S d' => nest d' r end
      | _ => nest d r
      end
  end.
Definition balanced (l : list qtok) : Prop := nest 0 l = Some O.

(** Tokens as they are read in math mode: without blanks, and without their text mode variants. *)
Definition math_form (l : list qtok) : list qtok := map qt_unwrap (filter (fun t => negb (blank_tok t)) l).
Definition read_form (preserve_all : bool) (l : list qtok) : list qtok := if preserve_all then l else math_form l.
Definition read_tok (preserve_all : bool) (t : qtok) : qtok := if preserve_all then t else qt_unwrap t.

(** The first [inner] of the stream is the inside of a group whose opening brace has been read;
    [close] is the closing brace and [rest] what comes after it. *)
Definition closes (preserve_all : bool) (l inner : list qtok) (close : qtok) (rest : list qtok) : Prop :=
  l = inner ++ close :: rest /\ balanced (read_form preserve_all inner) /\ blank_tok close = false /\
  qt_tok (read_tok preserve_all close) = T_GroupEnd.

(** No command that is an error by itself. *)
Definition all_known (cfg : parser_cfg) (l : list qtok) : Prop := Forall (fun t => reject_unknown cfg t = None) l.

(** ** Macro arguments *)

(** Taking one argument from the front of a stream: a token, or the inside of a group. *)
Inductive takes_arg : list qtok -> list qtok -> list qtok -> Prop :=
| takes_token bl x rest : Forall (fun t => blank_tok t = true) bl -> blank_tok x = false ->
    qt_tok (qt_unwrap x) <> T_GroupBegin -> qt_tok (qt_unwrap x) <> T_Eoi ->
    takes_arg (bl ++ x :: rest) [qt_unwrap x] rest
| takes_group bl open inner close rest : Forall (fun t => blank_tok t = true) bl -> blank_tok open = false ->
    qt_tok (qt_unwrap open) = T_GroupBegin -> balanced inner -> qt_tok close = T_GroupEnd ->
    takes_arg (bl ++ open :: inner ++ close :: rest) inner rest.
Inductive takes_args : list qtok -> list (list qtok) -> list qtok -> Prop :=
| takes_none l : takes_args l [] l
| takes_more l arg l1 args l2 : takes_arg l arg l1 -> takes_args l1 args l2 -> takes_args l (arg :: args) l2.

(** ** Macro expansion *)

(** A macro body with the arguments put in. An empty argument leaves an empty group, an empty body
    a token without effect. *)
Definition substituted (meaning : str -> token) (args : list (list qtok)) (sp : span) (r : recorded) : list qtok :=
  match r with
  | RTok (T_CustomCmdArg i) =>
      match nth i args [] with
      | [] => [mkQt T_GroupBegin sp None; mkQt T_GroupEnd sp None]
      | arg => arg
      end
  | RTok t => [mkQt t span_default None]
  | RName name =>
      match meaning name with
      | T_UnresolvedCommand n => [mkQt (T_UnresolvedCommand n) sp None]
      | t => [mkQt t span_default None]
      end
  end.
Definition expansion (meaning : str -> token) (args : list (list qtok)) (sp : span) (body : list recorded) : list qtok :=
  match body with
  | [] => [mkQt T_Relax sp None]
  | _ => flat_map (substituted meaning args sp) body
  end.
(** The parameters of a body are among the first [n]. *)
Definition params_below (n : nat) (body : list recorded) : Prop :=
  Forall (fun r => match r with RTok (T_CustomCmdArg i) => (i < n)%nat | _ => True end) body.
Definition not_means_eoi (r : recorded) : Prop := match r with RTok t => means_eoi t = false | RName _ => True end.

(** The first [n] arguments are taken from what is to be read, and the body with the arguments put in is
    there instead. Nothing else changes. *)
Definition expanded (cfg : parser_cfg) (q : queue) (n : nat) (body : list recorded) (sp : span) (q' : queue) : Prop :=
  exists args rest, length args = n /\ takes_args (fst (q_view cfg q)) args rest /\
    q_view cfg q' = (expansion (q_meaning cfg q) args sp body ++ rest, snd (q_view cfg q)) /\ stored_as q q'.

(** For examples: the queue of an input, with the default configuration. *)
Definition plain_cfg : parser_cfg := mkCfg cmds_empty false false false true 1000.
Definition queue_of (input : str) : queue := snd (queue_new plain_cfg (lexer_new input) gs_default).
