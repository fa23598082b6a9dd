(** Properties C44 and C45: the token queue. *)
From Verif Require Import Str M_SuperChar M_Ast M_Spec M_Token M_Commands M_Env M_LatexError M_Lexer M_CustomCmds M_Queue S_Lexer S_Queue L_Queue L_Args.
Local Open Scope nat_scope.

(** Every sequence of operations on the queue gives the replies of the unbuffered stream, whatever has
    been loaded ahead. *)
Theorem C45_faithful : forall cfg q ops, good_queue q -> Forall good_op ops ->
  queue_run cfg ops q = stream_run cfg ops (q_view cfg q).
Proof. intros cfg q ops G F. now apply run_spec. Qed.
(** A new queue is the stream of the resolved tokens of the input; it can only fail at a lexer error before
    the first token. *)
Theorem C45_new : forall cfg l gs,
  match queue_new cfg l gs with
  | (Ok _, q) => good_queue q /\ q_view cfg q = lexed cfg (mkQueue l [] false 0 cmds_empty gs) /\
      q_local q = cmds_empty /\ q_gs q = gs
  | (Err e, _) => ahead (lexed cfg (mkQueue l [] false 0 cmds_empty gs)) = Err e
  | (Crash _, _) => False
  end.
Proof.
  intros cfg l gs. pose proof (new_spec cfg l gs) as K. cbn zeta in K.
  destruct (ahead _) as [t|e|c]; [|destruct K as (q & ->); reflexivity|contradiction].
  destruct K as (q & -> & K). exact K.
Qed.
(** An operation does not lose or change anything: what is still to be read is what the stream says. *)
Theorem C45_view : forall cfg o q, good_queue q -> good_op o ->
  match queue_step cfg o q with
  | (Ok r, q') => stream_step cfg o (q_view cfg q) = (Ok r, q_view cfg q') /\ good_queue q' /\
      (is_peek o = true -> q_view cfg q' = q_view cfg q)
  | (Err e, _) => fst (stream_step cfg o (q_view cfg q)) = Err e
  | (Crash _, _) => False
  end.
Proof.
  intros cfg o q G H. pose proof (step_spec cfg o q G H) as K.
  assert (P : is_peek o = true -> snd (stream_step cfg o (q_view cfg q)) = q_view cfg q).
  { destruct (q_view cfg q) as [l e]. destruct o; try discriminate; intros _; try reflexivity.
    cbn [stream_step]. destruct (split_while blank_tok l), (split_while has_no_class _). reflexivity. }
  destruct (stream_step cfg o (q_view cfg q)) as [[x|e|c] s].
  - destruct K as (q' & -> & G' & <- & _). auto.
  - destruct K as (q' & ->). reflexivity.
  - contradiction.
Qed.
(** Reading with any peeks in between gives the queued tokens, the lexed tokens, and then end tokens for
    ever. *)
Theorem C45_read_all : forall cfg q ops l sp, good_queue q -> q_view cfg q = (l, LexEoi sp) ->
  Forall (fun o => is_peek o || is_read o = true) ops ->
  let n := length (filter is_read ops) in
  length (queue_run cfg ops q) = length ops /\
  read_replies ops (queue_run cfg ops q) = map (fun t => Ok (QTok t)) (firstn n (l ++ repeat (eoi_at sp) n)).
Proof.
  intros cfg q ops l sp G V F n. rewrite (run_spec cfg ops q G), V.
  2:{ eapply Forall_impl; [|exact F]. intros [ ]; cbn; try discriminate; auto. }
  subst n. clear G V q. revert l. induction F as [|o ops H F IH]; intros l; [split; reflexivity|].
  assert (A : exists t, ahead (l, LexEoi sp) = Ok t).
  { unfold ahead. cbn [fst snd front]. destruct (skip_blank l); cbn [front]; eauto. }
  destruct A as (t & A).
  assert (Pk : forall x, stream_step cfg o (l, LexEoi sp) = (Ok x, (l, LexEoi sp)) -> is_read o = false ->
    length (stream_run cfg (o :: ops) (l, LexEoi sp)) = length (o :: ops) /\
    read_replies (o :: ops) (stream_run cfg (o :: ops) (l, LexEoi sp)) =
    map (fun t => Ok (QTok t)) (firstn (length (filter is_read (o :: ops))) (l ++ repeat (eoi_at sp) (length (filter is_read (o :: ops)))))).
  { intros x E R. cbn [stream_run]. rewrite E. cbn [read_replies filter length]. rewrite R. destruct (IH l) as [I1 I2]. split; [now rewrite I1|exact I2]. }
  destruct o; try discriminate; cbn [filter is_read].
  - eapply Pk; [|reflexivity]. cbn [stream_step reply_of]. unfold reply_of. now rewrite A.
  - destruct l as [|x l]; (eapply Pk; [|reflexivity]); reflexivity.
  - destruct (skip_blank l) as [|x r] eqn:E.
    + eapply Pk; [|reflexivity]. cbn [stream_step]. rewrite E. unfold reply_of. now rewrite A.
    + assert (B : exists t, ahead (r, LexEoi sp) = Ok t). { unfold ahead. cbn [fst snd front]. destruct (skip_blank r); cbn [front]; eauto. }
      destruct B as (t' & B). eapply Pk; [|reflexivity]. cbn [stream_step]. rewrite E. unfold reply_of. now rewrite B.
  - cbn [stream_step] in Pk. destruct (split_while blank_tok l) as [bl l1]. destruct (split_while has_no_class l1) as [un [|x l2]];
      (eapply Pk; [|reflexivity]); cbn [front]; reflexivity.
  - cbn [stream_run stream_step]. destruct l as [|x l].
    + cbn [read_first front]. unfold reply_of. cbn [fst snd]. cbn [read_replies is_read length firstn app].
      destruct (IH []) as [I1 I2]. split; [now rewrite I1|]. rewrite I2. reflexivity.
    + assert (B : exists t, ahead (l, LexEoi sp) = Ok t). { unfold ahead. cbn [fst snd front]. destruct (skip_blank l); cbn [front]; eauto. }
      destruct B as (t' & B). cbn [read_first]. rewrite B. unfold reply_of. cbn [fst snd read_replies is_read length firstn app].
      destruct (IH l) as [I1 I2]. split; [now rewrite I1|]. rewrite I2. cbn [map]. f_equal. f_equal.
      cbn [repeat]. rewrite repeat_cons, app_assoc. rewrite (firstn_app_le _ _ [eoi_at sp]); [reflexivity|].
      rewrite app_length, repeat_length. lia.
Qed.

(** ** Arguments *)

(** An argument is the first token that is not a blank, or the inside of the balanced group that begins
    there; what follows is untouched. *)
Theorem C44_argument : forall cfg pa q arg q', good_queue q -> read_argument cfg pa q = (Ok arg, q') ->
  let (l, e) := q_view cfg q in
  good_queue q' /\ stored_as q q' /\
  ((exists bl x rest, l = bl ++ x :: rest /\ Forall (fun t => blank_tok t = true) bl /\ blank_tok x = false /\
     match arg with
     | MaToken t => qt_tok (read_tok pa x) <> T_GroupBegin /\ t = qt_tokspan (read_tok pa x) /\ q_view cfg q' = (rest, e)
     | MaGroup body sp => qt_tok (read_tok pa x) = T_GroupBegin /\
         exists inner close rest', closes pa rest inner close rest' /\ body = map qt_tokspan (read_form pa inner) /\
           sp = mkSpan (sp_start (qt_span x)) (sp_end (qt_span close)) /\ q_view cfg q' = (rest', e)
     end) \/
   (* the end of the input *)
   (exists sp, Forall (fun t => blank_tok t = true) l /\ e = LexEoi sp /\ arg = MaToken (T_Eoi, sp) /\ q_view cfg q' = ([], e))).
Proof.
  intros cfg pa q arg q' G E. pose proof (read_argument_spec cfg pa q G) as K. rewrite E in K. unfold argument_result in K.
  destruct (q_view cfg q) as [l e]. cbn [fst snd] in K. destruct (skip_blank_split l) as (bl & El & Fbl & Hx).
  destruct arg as [t|body sp].
  - destruct K as (x & R & N & _ & -> & G' & S'). split; [exact G'|]. split; [exact S'|].
    destruct (skip_blank l) as [|y r] eqn:Es.
    + right. rewrite app_nil_r in El. subst bl. destruct e as [sp|err]; cbn [read_first front] in R; [|discriminate].
      pose proof (f_equal fst R) as R1. pose proof (f_equal snd R) as R2. cbn [fst snd] in R1, R2. injection R1 as <-. exists sp.
      split; [exact Fbl|]. split; [reflexivity|]. split; [|now symmetry]. unfold read_tok, qt_unwrap. destruct pa; reflexivity.
    + left. cbn [read_first] in R. destruct (ahead (r, e)); try discriminate.
      pose proof (f_equal fst R) as R1. pose proof (f_equal snd R) as R2. cbn [fst snd] in R1, R2. injection R1 as <-.
      exists bl, y, r. repeat split; auto.
  - destruct K as (bl' & open & l1 & inner & close & rest & El' & Fbl' & O & C & _ & B & Sp & V & G' & S').
    split; [exact G'|]. split; [exact S'|]. left. exists bl', open, l1. repeat split; auto.
    { now apply (read_tok_blank pa). }
    exists inner, close, rest. auto.
Qed.
(** Conversely, a balanced group is always read as a whole. *)
Theorem C44_group : forall cfg pa q bl open l inner close rest e, good_queue q -> q_view cfg q = (bl ++ open :: l, e) ->
  Forall (fun t => blank_tok t = true) bl -> qt_tok (read_tok pa open) = T_GroupBegin -> closes pa l inner close rest ->
  all_known cfg (read_form pa inner) -> (forall err, ahead (rest, e) <> Err err) ->
  exists q', read_argument cfg pa q =
    (Ok (MaGroup (map qt_tokspan (read_form pa inner)) (mkSpan (sp_start (qt_span open)) (sp_end (qt_span close)))), q') /\
    q_view cfg q' = (rest, e) /\ good_queue q' /\ stored_as q q'.
Proof.
  intros cfg pa q bl open l inner close rest e G V Fbl O C Kn A.
  pose proof (read_argument_spec cfg pa q G) as K. unfold argument_result in K. rewrite V in K. cbn [fst snd] in K.
  pose proof (read_tok_blank pa _ O) as Bo.
  destruct (read_argument cfg pa q) as [[[t|body sp]|err|c] q'].
  - destruct K as (x & R & N & _). rewrite (skip_blank_app bl open l Fbl Bo) in R. cbn [read_first] in R.
    destruct (ahead (l, e)); try discriminate. pose proof (f_equal fst R) as R1. cbn [fst] in R1. injection R1 as <-. contradiction.
  - destruct K as (bl' & open' & l1 & inner' & close' & rest' & El & Fbl' & O' & C' & _ & -> & -> & V' & G' & S').
    assert (X : open :: l = open' :: l1).
    { rewrite <- (skip_blank_app bl open l Fbl Bo), <- (skip_blank_app bl' open' l1 Fbl' (read_tok_blank pa _ O')). now rewrite El. }
    injection X as <- <-. destruct (closing_unique pa 0 l _ _ _ _ _ _ C C') as (<- & <- & <-). exists q'. auto.
  - destruct K as (_ & K). destruct (K _ _ _ _ _ _ eq_refl Fbl O C Kn) as (err' & X). now apply A in X.
  - contradiction.
Qed.
(** There is at most one way to close a group. *)
Theorem C44_unique : forall pa l inner close rest inner' close' rest',
  closes pa l inner close rest -> closes pa l inner' close' rest' -> inner = inner' /\ close = close' /\ rest = rest'.
Proof. intros pa l i c r i' c' r' H H'. exact (closing_unique pa 0 l _ _ _ _ _ _ H H'). Qed.
(** Without a closing brace there is an error, which is about the missing brace unless there is an unknown
    command or a lexer error in the group. *)
Theorem C44_unclosed : forall cfg pa q bl open l e, good_queue q -> q_view cfg q = (bl ++ open :: l, e) ->
  Forall (fun t => blank_tok t = true) bl -> qt_tok (read_tok pa open) = T_GroupBegin ->
  (forall inner close rest, ~ closes pa l inner close rest) ->
  exists err q', read_argument cfg pa q = (Err err, q') /\
    (e = LexError err \/
     (exists t, In t (bl ++ open :: l) /\ (reject_unknown cfg t = Some err \/ reject_unknown cfg (qt_unwrap t) = Some err)) \/
     (exists sp, e = LexEoi sp /\ err = mkErr sp (E_UnclosedGroup EtGroupClose))).
Proof.
  intros cfg pa q bl open l e G V Fbl O N.
  pose proof (read_argument_spec cfg pa q G) as K. unfold argument_result in K. rewrite V in K. cbn [fst snd] in K.
  pose proof (read_tok_blank pa _ O) as Bo.
  destruct (read_argument cfg pa q) as [[[t|body sp]|err|c] q'].
  - destruct K as (x & R & N' & _). rewrite (skip_blank_app bl open l Fbl Bo) in R. cbn [read_first] in R.
    destruct (ahead (l, e)); try discriminate. pose proof (f_equal fst R) as R1. cbn [fst] in R1. injection R1 as <-. contradiction.
  - destruct K as (bl' & open' & l1 & inner' & close' & rest' & El & Fbl' & O' & C' & _).
    assert (X : open :: l = open' :: l1).
    { rewrite <- (skip_blank_app bl open l Fbl Bo), <- (skip_blank_app bl' open' l1 Fbl' (read_tok_blank pa _ O')). now rewrite El. }
    injection X as <- <-. now apply N in C'.
  - exists err, q'. split; [reflexivity|]. destruct K as ([K|[K|K]] & _); auto. right. right. destruct K as (sp & K1 & K2). eauto.
  - contradiction.
Qed.

(** The arguments of a macro are single tokens or the insides of balanced groups, one after the other. *)
Theorem C44_macro_args : forall cfg n q, good_queue q -> n <= 9 ->
  let (l, e) := q_view cfg q in
  match read_cmd_args cfg n q with
  | (Ok a, q') => exists args rest, takes_args l args rest /\ length args = n /\ (forall i, i < n -> args_get a i = nth i args []) /\
      q_view cfg q' = (rest, e) /\ good_queue q' /\ stored_as q q'
  | (Err _, _) => forall args rest, takes_args l args rest -> length args = n ->
      (exists t, In t l /\ (reject_unknown cfg t <> None \/ reject_unknown cfg (qt_unwrap t) <> None)) \/ (exists err, e = LexError err)
  | (Crash _, _) => False
  end.
Proof.
  intros cfg n q G L. pose proof (read_cmd_args_spec cfg n q G L) as K. unfold args_result in K.
  destruct (q_view cfg q) as [l e]. cbn [fst snd] in K. destruct (read_cmd_args cfg n q) as [[a|err|c] q'].
  - destruct K as (args & rest & K1 & K2 & K3 & K4 & K5). exists args, rest. split; [exact K2|]. split; [exact K1|].
    split; [|split; [exact K3|exact K5]]. intros i Hi. apply holds_get; [exact K4|lia|lia].
  - intros args rest H1 H2. now apply (K args rest).
  - exact K.
Qed.
Theorem C44_macro_args_unique : forall l args rest args' rest', takes_args l args rest -> takes_args l args' rest' ->
  length args = length args' -> args = args' /\ rest = rest'.
Proof. intros l args rest args' rest' H. apply takes_args_unique. exact H. Qed.

(** Some blanks are loaded together with the next token, the view is the whole input. *)
Example C45_nonvacuous :
  length (q_toks (queue_of (lit "  \text x"))) = 2%nat /\ length (fst (q_view plain_cfg (queue_of (lit "  \text x")))) = 3%nat /\
  map (fun r => match r with Ok (QTok t) => Some (qt_tok t) | _ => None end)
    (queue_run plain_cfg [QPeekSecond; QNextAnyUnres; QPeekClass; QNextAnyUnres; QNextAnyUnres; QNextAnyUnres; QNextAnyUnres] (queue_of (lit "a}"))) =
  [Some T_GroupEnd; Some (T_Letter (sc_from_char 97) MMathOrText); None; Some T_GroupEnd; Some T_Eoi; Some T_Eoi; Some T_Eoi].
Proof. repeat split; vm_compute; reflexivity. Qed.
Example C44_nonvacuous :
  good_queue (queue_of (lit " {a{b}c}d")) /\
  (match read_argument plain_cfg true (queue_of (lit " {a{b}c}d")) with
   | (Ok (MaGroup l _), q') => length l = 5%nat /\ length (fst (q_view plain_cfg q')) = 1%nat
   | _ => False
   end) /\
  fst (read_argument plain_cfg true (queue_of (lit "{a{b}c"))) = Err (mkErr (mkSpan 6 6) (E_UnclosedGroup EtGroupClose)) /\
  (match read_cmd_args plain_cfg 2 (queue_of (lit "x {yz}w")) with
   | (Ok a, q') => length (args_get a 0) = 1%nat /\ length (args_get a 1) = 2%nat /\ length (fst (q_view plain_cfg q')) = 1%nat
   | _ => False
   end).
Proof.
  split.
  - assert (E : queue_new plain_cfg (lexer_new (lit " {a{b}c}d")) gs_default = (Ok tt, queue_of (lit " {a{b}c}d"))) by (vm_compute; reflexivity).
    pose proof (C45_new plain_cfg (lexer_new (lit " {a{b}c}d")) gs_default) as K. rewrite E in K. exact (proj1 K).
  - vm_compute. repeat split.
Qed.
Print Assumptions C45_faithful.
Print Assumptions C45_new.
Print Assumptions C45_view.
Print Assumptions C45_read_all.
Print Assumptions C44_argument.
Print Assumptions C44_group.
Print Assumptions C44_unique.
Print Assumptions C44_unclosed.
Print Assumptions C44_macro_args.
Print Assumptions C44_macro_args_unique.
