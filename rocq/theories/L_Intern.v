(** Where the internal error can come from. *)
From Verif Require Import Str M_SuperChar M_Transform M_Length M_Spec M_Ast M_Token M_Symbols M_Commands M_Env
  M_LatexError M_Lexer M_CustomCmds M_Queue M_Spacing M_Colors M_Leaf M_TextParser M_Parser S_Lexer S_Queue S_Store S_Run S_Api S_Convert S_Names S_Intern L_Queue L_Reads L_Keep L_Store L_Sound L_Leaf L_Wp L_Expand L_Defs L_Weight L_Error L_Exec L_Run L_Convert L_Names.

Definition res_calm {A} (r : res A) : Prop := match r with Err e => internal e = false | _ => True end.
(** [m] does not raise the internal error. *)
Definition calm {S A} (m : St S A) : Prop := forall s, res_calm (fst (m s)).

Section Calm.
Context {S : Type}.
Lemma calm_ret {A} (a : A) : calm (@sret S A a).
Proof. intros s. exact I. Qed.
Lemma calm_fail {A} sp k : internal (mkErr sp k) = false -> calm (@sfail S A sp k).
Proof. intros H s. exact H. Qed.
Lemma calm_crash {A} c : calm (@scrash S A c).
Proof. intros s. exact I. Qed.
Lemma calm_res {A} (r : res A) : res_calm r -> calm (@sres S A r).
Proof. intros H s. exact H. Qed.
Lemma calm_get {A} (f : S -> A) : calm (sget f).
Proof. intros s. exact I. Qed.
Lemma calm_opt {A} (o : option A) : calm (@sopt S A o).
Proof. destruct o; intros s; exact I. Qed.
Lemma calm_bind {A B} (m : St S A) (k : A -> St S B) : calm m -> (forall a, calm (k a)) -> calm (sbind m k).
Proof. intros Hm Hk s. unfold sbind. specialize (Hm s). destruct (m s) as [[a|e|c] s']; cbn [fst] in *; auto. apply Hk. Qed.
Lemma calm_try {A} (m : St S A) : calm (stry m).
Proof. intros s. unfold stry. destruct (m s) as [[a|e|c] s']; exact I. Qed.
End Calm.

Ltac calm_step :=
  match goal with
    | H : calm ?m |- calm ?m => exact H
    | |- calm (sbind _ _) => apply calm_bind; [|intros ?]
    | |- calm (sret _) => apply calm_ret
    | |- calm (sfail _ _) => apply calm_fail; reflexivity
    | |- calm (scrash _) => apply calm_crash
    | |- calm (sres _) => apply calm_res
    | |- calm (sget _) => apply calm_get
    | |- calm (sopt _) => apply calm_opt
    | |- calm (stry _) => apply calm_try
    | |- calm (match ?x with _ => _ end) => destruct x
    | |- calm (if ?x then _ else _) => destruct x
    | |- calm (let (_, _) := ?x in _) => destruct x
    | |- forall _, _ => intro
    end.

(** ** The lexer *)

Definition lex_calm (r : (lexer_output + latex_error) * lexer) : Prop := match fst r with inr e => internal e = false | inl _ => True end.
Lemma env_marker_calm l sp cmd : lex_calm (parse_env_marker l sp cmd).
Proof.
  unfold parse_env_marker. destruct (_ || _); [|exact I]. destruct (skip_whitespace l) as [b l1].
  destruct (read_env_name l1) as [[[name e]|[[c|] esp]] l2]; try reflexivity. destruct (env_from_str name); [exact I|reflexivity].
Qed.
Lemma lex_char_calm l c r : lex_calm (lex_char l c r).
Proof.
  unfold lex_char. destruct (c =? 0); [reflexivity|]. destruct (c =? 35).
  { destruct r as [|d r]; [reflexivity|]. destruct (is_ascii_digit d); [|reflexivity]. destruct (d =? 48); [reflexivity|exact I]. }
  destruct (c =? 92); [|exact I]. destruct (read_command _) as [cmd l2]. destruct (skip_whitespace l2) as [b l3]. apply env_marker_calm.
Qed.
Lemma next_token_calm l : lex_calm (next_token l).
Proof.
  unfold next_token. destruct (skip_whitespace l) as [b l1]. destruct b; [exact I|]. 
  repeat match goal with |- lex_calm (match ?x with _ => _ end) => destruct x | |- lex_calm (let x := _ in _) => cbv zeta end; try exact I; try reflexivity; apply lex_char_calm.
Qed.

(** ** The queue *)

Section Queue.
Context (cfg : parser_cfg).

Lemma load_loop_calm {T} (pred : nat -> token -> option T) fuel : forall idx, calm (load_loop cfg pred fuel idx).
Proof.
  induction fuel as [|f IH]; intros idx q; cbn [load_loop]; [exact I|]. pose proof (next_token_calm (q_lexer q)) as H.
  destruct (next_token (q_lexer q)) as [[out|e] l']; [|exact H].
  destruct (pred _ _); [exact I|]. destruct (is_eoi _); [exact I|]. apply IH.
Qed.
Lemma load_token_calm {T} (pred : nat -> token -> option T) : calm (load_token cfg pred).
Proof. intros q. unfold load_token. destruct (q_eoi q); [exact I|apply load_loop_calm]. Qed.
Lemma load_skip_calm : calm (load_skip_whitespace cfg).
Proof. intros q. unfold load_skip_whitespace. pose proof (load_token_calm is_not_whitespace q) as H. now destruct (load_token _ _ q) as [[[i|]|e|c] q']. Qed.
Lemma ensure_nnw_calm : calm (ensure_nnw cfg).
Proof. intros q. unfold ensure_nnw. destruct (find_nnw (q_toks q)); [exact I|]. pose proof (load_skip_calm q) as H. now destruct (load_skip_whitespace cfg q) as [[i|e|c] q']. Qed.
Lemma queue_new_calm l gs : res_calm (fst (queue_new cfg l gs)).
Proof. unfold queue_new. pose proof (load_skip_calm (mkQueue l [] false 0 cmds_empty gs)) as H. now destruct (load_skip_whitespace _ _) as [[i|e|c] q']. Qed.
Lemma find_or_load_calm {T} (pred : nat -> token -> option T) : calm (find_or_load_after_next cfg pred).
Proof. intros q. unfold find_or_load_after_next. destruct (_ <? _)%nat; [|exact I]. destruct (find_from _ _ _); [exact I|apply load_token_calm]. Qed.
Lemma peek_second_calm : calm (q_peek_second cfg).
Proof. intros q. unfold q_peek_second. pose proof (find_or_load_calm is_not_whitespace q) as H. now destruct (find_or_load_after_next _ _ q) as [[[i|]|e|c] q']. Qed.
Lemma q_peek_class_calm : calm (q_peek_class cfg).
Proof. intros q. unfold q_peek_class. destruct (token_class _); [exact I|]. pose proof (find_or_load_calm has_class q) as H. now destruct (find_or_load_after_next _ _ q) as [[[i|]|e|c] q']. Qed.
Lemma rejecting_calm m : calm m -> calm (fun q => rejecting cfg (m q)).
Proof.
  intros H q. specialize (H q). unfold rejecting. destruct (m q) as [[t|e|c] q']; auto. unfold reject_unknown.
  destruct (qt_tok t); try exact I. now destruct (pc_ignore_unknown cfg).
Qed.
Lemma next_unres_calm : calm (q_next_unres cfg).
Proof. intros q. unfold q_next_unres. destruct (skipn _ _) as [|t r]; [exact I|]. pose proof (ensure_nnw_calm (q_set_toks q r)) as H. now destruct (ensure_nnw cfg _) as [[u|e|c] q']. Qed.
Lemma next_calm : calm (q_next cfg).
Proof. apply rejecting_calm, next_unres_calm. Qed.
Lemma next_any_unres_calm : calm (q_next_any_unres cfg).
Proof.
  intros q. unfold q_next_any_unres. destruct (q_toks q) as [|t r]; [exact I|]. destruct (q_nnw q); [|exact I].
  pose proof (ensure_nnw_calm (q_set_toks q r)) as H. now destruct (ensure_nnw cfg _) as [[u|e|c] q'].
Qed.
Lemma next_any_calm : calm (q_next_any cfg).
Proof. apply rejecting_calm, next_any_unres_calm. Qed.
Lemma record_macro_loop_calm fuel : forall n acc, calm (record_macro_loop cfg fuel n acc).
Proof.
  induction fuel as [|f IH]; intros n acc q; [exact I|].
  assert (C : forall m, res_calm (fst (match q_next_any_unres cfg q with
                        | (Ok _, q') => record_macro_loop cfg f m (acc ++ [q_peek_any q]) q'
                        | (Err e, q') => (Err e, q') | (Crash c, q') => (Crash c, q') end))).
  { intros m. pose proof (next_any_unres_calm q) as H. destruct (q_next_any_unres cfg q) as [[t|e|c] q']; auto. apply IH. }
  cbn [record_macro_loop]. destruct (qt_tok (q_peek_any q)); try apply C; try reflexivity. destruct n; [exact I|apply C].
Qed.
Lemma record_macro_body_calm : calm (record_macro_body cfg).
Proof. intros q. unfold record_macro_body. pose proof (next_calm q) as H. destruct (q_next cfg q) as [[t|e|c] q']; auto. apply record_macro_loop_calm. Qed.
Lemma read_definition_name_calm : calm (read_definition_name cfg).
Proof.
  intros q. unfold read_definition_name. pose proof (next_unres_calm q) as H.
  destruct (q_next_unres cfg q) as [[t|e|c] q']; auto. destruct (qt_tok t), (qt_name t); try exact I; reflexivity.
Qed.
Lemma record_group_loop_calm p fuel : forall n acc, calm (record_group_loop cfg p fuel n acc).
Proof.
  induction fuel as [|f IH]; intros n acc q; cbn [record_group_loop]; [exact I|].
  assert (H : res_calm (fst (if p then q_next_any cfg q else q_next cfg q))) by (destruct p; [apply next_any_calm|apply next_calm]).
  destruct (if p then _ else _) as [[t|e|c] q']; auto.
  destruct (qt_tok t); try apply IH; try reflexivity. destruct n; [exact I|apply IH].
Qed.
Lemma record_group_calm p : calm (record_group cfg p).
Proof. intros q. apply record_group_loop_calm. Qed.
Lemma read_argument_calm p : calm (read_argument cfg p).
Proof.
  intros q. unfold read_argument. pose proof (next_calm q) as H. destruct (q_next cfg q) as [[t|e|c] q']; auto.
  pose proof (record_group_calm p q') as G.
  destruct (qt_tok (if p then q_peek q else t)); try exact I. now destruct (record_group cfg p q') as [[[l s]|e|c] q2].
Qed.
Lemma read_args_loop_calm n : forall k a, calm (read_args_loop cfg n k a).
Proof.
  induction n as [|n IH]; intros k a q; cbn [read_args_loop]; [exact I|].
  pose proof (next_calm q) as H. destruct (q_next cfg q) as [[t|e|c] q']; auto.
  pose proof (record_group_calm true q') as G.
  destruct (qt_tok t); try apply IH; try reflexivity. destruct (record_group cfg true q') as [[[l s]|e|c] q2]; auto. apply IH.
Qed.
Lemma read_cmd_args_calm n : calm (read_cmd_args cfg n).
Proof. apply read_args_loop_calm. Qed.
Lemma define_calm n args body cl rep g : calm (q_define cfg n args body cl rep g).
Proof.
  intros q. unfold q_define. destruct (_ || _).
  - destruct (_ && _); [exact I|]. destruct (cmds_insert_or_replace_copy _ _ _ _ _ _); [|exact I]. exact I.
  - destruct rep; [exact I|]. destruct (cmds_insert _ _ _ _ _); exact I.
Qed.
Lemma map_recorded_calm n l : forall first, res_calm (map_recorded n first l).
Proof.
  induction l as [|t l IH]; intros first; cbn [map_recorded]; [exact I|].
  assert (C : forall x f, res_calm (match map_recorded n f l with Ok (xs, c) => Ok (x :: xs, c) | e => e end)) by (intros x f; specialize (IH f); now destruct (map_recorded n f l) as [[]| |]).
  destruct (qt_tok t); try apply C; try reflexivity. destruct (_ <=? _)%nat; [reflexivity|apply C].
Qed.

(** ** Leaf readers *)
Ltac calm_more :=
  match goal with
  | |- calm (q_next _) => apply next_calm
  | |- calm (q_next_any _) => apply next_any_calm
  | |- calm (q_next_unres _) => apply next_unres_calm
  | |- calm (q_peek_second _) => apply peek_second_calm
  | |- calm (read_argument _ _) => apply read_argument_calm
  | |- calm (record_macro_body _) => apply record_macro_body_calm
  | |- calm (read_definition_name _) => apply read_definition_name_calm
  | |- calm (q_define _ _ _ _ _ _ _) => apply define_calm
  | |- res_calm (map_recorded_tokens _ _) => apply map_recorded_calm
  | _ => calm_step
  end.
Ltac calmm := repeat calm_more.

Lemma ascii_of_calm l : res_calm (ascii_of l).
Proof.
  induction l as [|t l IH]; cbn [ascii_of]; [exact I|].
  destruct (recover_limited_ascii (fst t)); [|reflexivity]. now destruct (ascii_of l).
Qed.
Lemma string_literal_calm : calm (parse_string_literal cfg).
Proof. unfold parse_string_literal. calmm; apply ascii_of_calm. Qed.
Lemma digits_loop_calm fuel : forall acc, calm (digits_loop cfg fuel acc).
Proof. induction fuel as [|f IH]; intros acc; cbn [digits_loop]; calmm; try apply IH. Qed.
Lemma read_digits_calm d : calm (read_digits cfg d).
Proof. intros q. apply digits_loop_calm. Qed.
Lemma letters_loop_calm v fuel : forall acc, calm (letters_loop cfg v fuel acc).
Proof. induction fuel as [|f IH]; intros acc; cbn [letters_loop]; calmm; try apply IH. Qed.
Lemma merge_letters_calm tf : calm (merge_letters cfg tf).
Proof.
  intros q. unfold merge_letters. destruct tf as [v|]; [|exact I].
  match goal with |- res_calm (fst (?m q)) => enough (H : calm m) by apply H end. calmm. apply letters_loop_calm.
Qed.
Lemma primes_loop_calm fuel : forall acc, calm (primes_loop cfg fuel acc).
Proof. induction fuel as [|f IH]; intros acc; cbn [primes_loop]; calmm; try apply IH. Qed.
Lemma read_primes_calm k : calm (read_primes cfg k).
Proof. intros q. apply primes_loop_calm. Qed.
Lemma kern_digits_calm fuel : forall b acc st en, calm (kern_digits cfg fuel b acc st en).
Proof. induction fuel as [|f IH]; intros b acc st en; cbn [kern_digits]; calmm; try apply IH. Qed.
Lemma kern_calm k n : calm (parse_kern_or_skip cfg k n).
Proof.
  unfold parse_kern_or_skip. calmm.
  all: first [intros q; apply kern_digits_calm | idtac].
Qed.
Lemma color_type_loop_calm sp fuel : forall acc, calm (color_type_loop cfg fuel sp acc).
Proof. induction fuel as [|f IH]; intros acc; cbn [color_type_loop]; calmm; try apply IH. Qed.
Lemma color_calm sp : calm (parse_color cfg sp).
Proof. unfold parse_color. calmm; try apply string_literal_calm. intros q. apply color_type_loop_calm. Qed.
Lemma raise_length_calm s sp : res_calm (raise_length s sp).
Proof. unfold raise_length. destruct (parse_length_specification s) as [[[l u] []]|]; try reflexivity. Qed.
Lemma push_char_calm c st z vo s : match push_char c st z vo s with TrErr _ => False | _ => True end.
Proof. unfold push_char. destruct (sc_chars c); [|exact I]. now destruct (tx_builder s). Qed.
Lemma push_string_calm c st z vo s : match push_string c st z vo s with TrErr _ => False | _ => True end.
Proof. unfold push_string. now destruct (tx_builder s). Qed.
Definition step_calm (r : text_result) : Prop := match r with TrErr k => internal (mkErr (mkSpan 0 0) k) = false | _ => True end.
Lemma text_step_calm m t st vo s : step_calm (text_token_step m t st vo s).
Proof.
  assert (P : forall c z, step_calm (push_char c st z vo s)) by (intros c z; pose proof (push_char_calm c st z vo s); now destruct (push_char c st z vo s)).
  assert (Q : forall c z, step_calm (push_string c st z vo s)) by (intros c z; pose proof (push_string_calm c st z vo s); now destruct (push_string c st z vo s)).
  destruct t; cbv zeta beta iota delta [text_token_step];
    repeat first [exact I | reflexivity | apply P | apply Q
      | match goal with |- step_calm (match ?x with _ => _ end) => destruct x | |- step_calm (TrErr (match ?x with _ => _ end)) => destruct x end].
Qed.
Lemma text_loop_calm m fuel : forall s, calm (text_loop cfg m fuel s).
Proof.
  induction fuel as [|f IH]; intros s; cbn [text_loop]; destruct (tx_styles s) as [|[[? st] vo] ?]; try apply calm_ret; [apply calm_crash|].
  apply calm_bind; [destruct m; calmm|]. intros t. pose proof (text_step_calm m (qt_tok t) st vo s) as H. destruct (text_token_step _ _ _ _ _); calmm; try apply string_literal_calm; try apply IH; try apply raise_length_calm.
  apply calm_fail. exact H.
Qed.
Lemma text_calm m st vo : calm (extract_text cfg m st vo).
Proof. intros q. apply text_loop_calm. Qed.
Lemma skip_spaces_calm fuel : calm (skip_spaces cfg fuel).
Proof. induction fuel as [|f IH]; cbn [skip_spaces]; calmm. Qed.
Lemma param_loop_calm fuel : forall n, calm (param_loop cfg fuel n).
Proof. induction fuel as [|f IH]; intros n; cbn [param_loop]; calmm; try apply IH. Qed.
Lemma read_num_args_calm : calm (read_num_args cfg).
Proof. unfold read_num_args. calmm. Qed.
Lemma read_definition_body_calm : calm (read_definition_body cfg).
Proof. unfold read_definition_body. calmm. Qed.
Lemma definition_target_calm m t : res_calm (definition_target m t).
Proof. unfold definition_target. destruct (qt_tok t), m, (qt_name t); try exact I; reflexivity. Qed.
Lemma def_command_calm g : calm (def_command cfg g).
Proof. unfold def_command. calmm; intros q; first [apply skip_spaces_calm|apply param_loop_calm]. Qed.
Lemma let_command_calm g : calm (let_command cfg g).
Proof. unfold let_command. calmm. Qed.
Lemma global_loop_calm fuel : calm (global_loop cfg fuel).
Proof. induction fuel as [|f IH]; cbn [global_loop]; calmm; try apply let_command_calm; try apply def_command_calm. Qed.
Lemma global_prefix_calm : calm (global_prefix cfg).
Proof. intros q. apply global_loop_calm. Qed.
End Queue.

(** ** Definitions *)

Section Stale.
Context (cfg : parser_cfg).
Lemma definition_rest_calm b : calm (definition_rest cfg b).
Proof. unfold definition_rest. repeat calm_step; first [apply next_calm|apply read_num_args_calm|apply read_definition_body_calm|apply map_recorded_calm]. Qed.
Lemma taken_meaning n args body cl g q q' : q_define cfg n args body cl false g q = (Ok false, q') -> has_meaning cfg q n = true.
Proof.
  unfold q_define, has_meaning, q_resolve, resolve_command, cmds_get. cbn [negb andb]. destruct (g || pc_global_group cfg).
  - unfold cmds_has. destruct (assoc_str n (cc_map (gs_cmds (q_gs q)))).
    + intros _. now destruct (assoc_str n (cc_map (q_local q))).
    + destruct (cmds_insert_or_replace_copy _ _ _ _ _ _); discriminate.
  - unfold cmds_insert, cmds_has. now destruct (assoc_str n (cc_map (q_local q))).
Qed.
Lemma define_stale m q e : sound_queue cfg q -> fst (define_command cfg m q) = Err e -> internal e = true ->
  exists braced t q1 n, reads_name cfg q braced t q1 /\ qt_tok t = T_UnresolvedCommand n /\ has_meaning cfg q n = true.
Proof.
  intros Sq E Hi.
  assert (R : exists braced t q1, reads_name cfg q braced t q1).
  { revert E. unfold define_command. unfold sbind at 1, sget at 1. unfold reads_name. destruct (is_group_begin (qt_tok (q_peek q))).
    - unfold sbind at 1. unfold sbind at 1. pose proof (next_calm cfg q) as Hc. destruct (q_next cfg q) as [[u|e'|c] q0] eqn:E0; cbn [fst res_calm] in *; [|congruence|discriminate].
      unfold sret at 1. unfold sbind at 1. pose proof (next_unres_calm cfg q0) as Hc'. destruct (q_next_unres cfg q0) as [[t|e'|c] q1] eqn:E1; cbn [fst res_calm] in *; [|congruence|discriminate].
      intros _. exists true, t, q1. split; [reflexivity|]. exists q0. split; [now exists u|exact E1].
    - unfold sbind at 1, sret at 1. unfold sbind at 1. pose proof (next_unres_calm cfg q) as Hc'. destruct (q_next_unres cfg q) as [[t|e'|c] q1] eqn:E1; cbn [fst res_calm] in *; [|congruence|discriminate].
      intros _. exists false, t, q1. split; [reflexivity|]. exists q. now split. }
  destruct R as (braced & t & q1 & R). exists braced, t, q1. rewrite (define_parts cfg m q braced t q1 R) in E.
  pose proof (reads_name_keeps cfg q braced t q1 Sq R) as K. pose proof (reads_sound _ _ _ K) as Sq1. pose proof (definition_rest_sp cfg braced q1 Sq1) as D.
  pose proof (definition_target_calm m t) as Ct. pose proof (definition_rest_calm braced q1) as Cr. unfold L_Reads.sp in D.
  destruct (definition_target m t) as [[[n replace]|]|e'|c] eqn:Et; cbn [fst res_calm] in *; [| |congruence|discriminate].
  - unfold sbind in E. destruct (definition_rest cfg braced q1) as [[[args [body first]]|e'|c] q2]; cbn [fst res_calm] in *; [|congruence|discriminate].
    destruct D as (R2 & _). pose proof (define_calm cfg n args body first replace false q2) as Cd.
    destruct (q_define cfg n args body first replace false q2) as [[[]|e'|c] q3] eqn:Ed; cbn [fst res_calm sret] in *; try congruence.
    exists n. split; [exact R|]. assert (replace = false /\ qt_tok t = T_UnresolvedCommand n) as [-> T].
    { destruct replace; [exfalso|split; [reflexivity|]].
      - revert Ed. unfold q_define. cbn [negb andb]. destruct (_ || _); [|discriminate]. destruct (cmds_insert_or_replace_copy _ _ _ _ _ _); discriminate.
      - revert Et. unfold definition_target. destruct (qt_tok t), m, (qt_name t); congruence. }
    split; [exact T|]. apply taken_meaning in Ed. rewrite <- Ed. symmetry. apply meaning_stored, (reads_stored cfg), (reads_trans cfg _ _ _ K R2).
  - unfold sbind in E. destruct (definition_rest cfg braced q1) as [[x|e'|c] q2]; cbn [fst res_calm] in *; [discriminate E|congruence|discriminate].
Qed.
End Stale.

(** ** Operations and programs *)

Lemma on_queue_calm {A} (m : St queue A) : calm m -> calm (on_queue m).
Proof. intros H s. unfold on_queue. specialize (H (ps_queue s)). now destruct (m (ps_queue s)). Qed.
Lemma on_view_calm f : calm (on_view f).
Proof. intros s. exact I. Qed.
Lemma on_pure_calm f : calm (on_queue_pure f).
Proof. intros s. exact I. Qed.
Lemma stored_body_calm cfg src a b args sp : calm (fun q => let (b, q') := queue_stored_body cfg src a b args sp q in (Ok b, q')).
Proof. intros q. now destruct (queue_stored_body _ _ _ _ _ _ _). Qed.

Ltac calm_op :=
  match goal with
  | |- calm (on_view _) => apply on_view_calm
  | |- calm (on_queue_pure _) => apply on_pure_calm
  | |- calm view => apply calm_get
  | |- calm (on_queue (merge_letters _ _)) => apply on_queue_calm, merge_letters_calm
  | |- calm (on_queue (read_digits _ _)) => apply on_queue_calm, read_digits_calm
  | |- calm (on_queue (read_primes _ _)) => apply on_queue_calm, read_primes_calm
  | |- calm (on_queue (parse_string_literal _)) => apply on_queue_calm, string_literal_calm
  | |- calm (on_queue (read_argument _ _)) => apply on_queue_calm, read_argument_calm
  | |- calm (on_queue (parse_kern_or_skip _ _ _)) => apply on_queue_calm, kern_calm
  | |- calm (on_queue (parse_color _ _)) => apply on_queue_calm, color_calm
  | |- calm (on_queue (extract_text _ _ _ _)) => apply on_queue_calm, text_calm
  | |- calm (on_queue (def_command _ _)) => apply on_queue_calm, def_command_calm
  | |- calm (on_queue (let_command _ _)) => apply on_queue_calm, let_command_calm
  | |- calm (on_queue (global_prefix _)) => apply on_queue_calm, global_prefix_calm
  | |- calm (on_queue (q_next _)) => apply on_queue_calm, next_calm
  | |- calm (on_queue (q_next_any _)) => apply on_queue_calm, next_any_calm
  | |- calm (on_queue (q_peek_class _)) => apply on_queue_calm, q_peek_class_calm
  | |- calm (on_queue (read_cmd_args _ _)) => apply on_queue_calm, read_cmd_args_calm
  | |- calm (on_queue (sget _)) => apply on_queue_calm, calm_get
  | |- calm (on_queue (fun _ => _)) => apply on_queue_calm, stored_body_calm
  | |- calm (let x := _ in _) => cbv zeta
  | _ => calm_step
  end.
Ltac calmo := repeat calm_op.

(** The errors that a program raises itself. *)
Definition next_plain {A} (o : op A) : A -> Prop :=
  match o in op A return A -> Prop with ONext => fun t => math_plain (fst t) = true | _ => fun _ => True end.
Definition called {A} (c : call A) : Prop := match c with CTok t _ _ => math_plain (fst t) = true | _ => True end.
Fixpoint pcalm {B} (p : prog B) : Prop :=
  match p with
  | Fail e => internal e = false
  | Do o k => forall a, next_plain o a -> pcalm (k a)
  | Call c k => called c /\ forall a, pcalm (k a)
  | _ => True
  end.
Lemma pcalm_bind {A B} (p : prog A) (f : A -> prog B) : pcalm p -> (forall a, pcalm (f a)) -> pcalm (pbind p f).
Proof. intros Hp Hf. induction p as [b|e|c|C o k IH|C c k IH]; cbn [pbind pcalm] in *; auto. destruct Hp as [H1 H2]. split; auto. Qed.
Lemma pcalm_res {B} (r : res B) : res_calm r -> pcalm (pres r).
Proof. now destruct r. Qed.
Lemma extract_calm t m : res_calm (extract_delimiter t m).
Proof. unfold extract_delimiter. repeat first [exact I|reflexivity|match goal with |- res_calm (match ?x with _ => _ end) => destruct x end]. Qed.
Lemma genfrac_style_calm t : res_calm (genfrac_style t).
Proof. unfold genfrac_style. repeat first [exact I|reflexivity|match goal with |- res_calm (match ?x with _ => _ end) => destruct x end]. Qed.
Lemma no_limits_calm b : res_calm (ensure_no_limits b).
Proof. unfold ensure_no_limits. destruct (bl_limits b) as [[? ?]|]; [reflexivity|exact I]. Qed.
Lemma into_one_calm a : res_calm (into_one a).
Proof. destruct a as [t|[|t [|t' l]] sp]; try exact I; reflexivity. Qed.
Lemma into_one_or_none_calm a : res_calm (into_one_or_none a).
Proof. destruct a as [t|[|t [|t' l]] sp]; try exact I; reflexivity. Qed.
Lemma pcalm_do {A B} (o : op A) (k : A -> prog B) : (forall a, next_plain o a -> pcalm (k a)) -> pcalm (Do o k).
Proof. auto. Qed.
Lemma pcalm_call {A B} (c : call A) (k : A -> prog B) : called c -> (forall a, pcalm (k a)) -> pcalm (Call c k).
Proof. now split. Qed.
Ltac pc :=
  repeat match goal with
    | |- pcalm (pbind _ _) => apply pcalm_bind; [|intros ?]
    | |- pcalm (pres _) => apply pcalm_res
    | |- pcalm (Do _ _) => apply pcalm_do; intros ? ?
    | |- pcalm (Call _ _) => apply pcalm_call; [first [exact I|eassumption]|intros ?]
    | |- pcalm (fail _ _) => reflexivity
    | |- pcalm (Ret _) => exact I
    | |- pcalm (Stop _) => exact I
    | |- pcalm (match ?x with _ => _ end) => destruct x
    | |- pcalm (let x := _ in _) => cbv zeta
    | |- pcalm ((fun _ => _) _) => cbv beta
    | |- res_calm (extract_delimiter _ _) => apply extract_calm
    | |- res_calm (genfrac_style _) => apply genfrac_style_calm
    | |- res_calm (ensure_no_limits _) => apply no_limits_calm
    | |- res_calm (into_one _) => apply into_one_calm
    | |- res_calm (into_one_or_none _) => apply into_one_or_none_calm
    | |- res_calm (raise_length _ _) => apply raise_length_calm
    end.
Lemma parse_next_pcalm a : pcalm (parse_next a).
Proof. unfold parse_next. pc. Qed.
Lemma seq_if_pcalm a sp e p k : pcalm (seq_if_in_sequence a sp e p k).
Proof. unfold seq_if_in_sequence. pc. Qed.
Lemma mathop_spacing_pcalm a p e : pcalm (parse_mathop_spacing a p e).
Proof. unfold parse_mathop_spacing. pc. Qed.
Lemma get_bounds_pcalm f : pcalm (get_bounds f).
Proof. unfold get_bounds. pc. Qed.
Lemma script_node_pcalm : pcalm script_node.
Proof. unfold script_node. pc. Qed.
Lemma prime_script_pcalm k : pcalm (prime_script k).
Proof. unfold prime_script. pc. apply script_node_pcalm. Qed.
Lemma get_bounds_arg_pcalm : pcalm get_bounds_arg.
Proof. unfold get_bounds_arg. pc; first [apply get_bounds_pcalm|apply parse_next_pcalm]. Qed.
Lemma genfrac_delimiter_pcalm : pcalm genfrac_delimiter.
Proof. unfold genfrac_delimiter. pc. Qed.
Lemma fence_delimiter_pcalm m : pcalm (fence_delimiter m).
Proof. unfold fence_delimiter. pc. Qed.
Ltac pcs := repeat (pc; match goal with
  | |- pcalm (parse_next _) => apply parse_next_pcalm
  | |- pcalm (seq_if_in_sequence _ _ _ _ _) => apply seq_if_pcalm
  | |- pcalm (parse_mathop_spacing _ _ _) => apply mathop_spacing_pcalm
  | |- pcalm (get_bounds _) => apply get_bounds_pcalm
  | |- pcalm script_node => apply script_node_pcalm
  | |- pcalm (prime_script _) => apply prime_script_pcalm
  | |- pcalm get_bounds_arg => apply get_bounds_arg_pcalm
  | |- pcalm genfrac_delimiter => apply genfrac_delimiter_pcalm
  | |- pcalm (fence_delimiter _) => apply fence_delimiter_pcalm
  end).

Definition plain_tok (t : token) : Prop :=
  match t with T_Begin _ | T_Whitespace | T_MathOrTextMode _ _ | T_VerticalLineDef _ | T_CustomCmdArg _ => False | _ => True end.
Lemma tok_body_pcalm t a p : plain_tok (fst t) -> pcalm (tok_body t a p).
Proof. destruct t as [tk sp]. unfold tok_body. cbn [fst snd]. intros H. destruct tk; try (destruct H; fail); clear H; pcs. Qed.
Lemma body_pcalm A (c : call A) : match c with CTok _ _ _ => False | _ => True end -> pcalm (body c).
Proof. destruct c; cbn [body]; intros []; [unfold seq_body|unfold loop_body|unfold bounds_body]; pcs. Qed.

(** ** The end of an environment *)

Definition at_end (s : pstate) : Prop := exists e, qt_tok (q_peek (ps_queue s)) = T_End e.
Definition ends A (c : call A) : A -> pstate -> Prop :=
  match c in call A return A -> pstate -> Prop with
  | CSeq (SeqEnd EtEnd) _ true => fun _ s => at_end s
  | CLoop (SeqEnd EtEnd) _ _ _ => fun _ s => at_end s
  | _ => fun _ _ => True
  end.

Section Fine.
Context (cfg : parser_cfg) (usize_max : N).
Notation exec := (exec cfg usize_max).

Fixpoint pfine {B} (p : prog B) (Q : B -> pstate -> Prop) (s : pstate) : Prop :=
  match p with
  | Ret b => Q b s
  | Fail e => internal e = false
  | Stop _ => True
  | Do o k => forall a s', exec o s = (Ok a, s') -> next_plain o a -> pfine (k a) Q s'
  | Call c k => called c /\ forall a s', ends _ c a s' -> pfine (k a) Q s'
  end.
Lemma pfine_calm {B} (p : prog B) (Q : B -> pstate -> Prop) : (forall b s, Q b s) -> pcalm p -> forall s, pfine p Q s.
Proof. intros HQ. induction p as [b|e|c|C o k IH|C c k IH]; cbn [pcalm pfine]; auto. intros [H1 H2]. split; auto. Qed.
Lemma pfine_then {A B} (p : prog A) (f : A -> prog B) Q : pcalm p -> (forall a s, pfine (f a) Q s) -> forall s, pfine (pbind p f) Q s.
Proof. intros Hp Hf. induction p as [b|e|c|C o k IH|C c k IH]; cbn [pbind pcalm pfine] in *; auto. destruct Hp as [H1 H2]. split; auto. Qed.
Lemma pfine_bind {A B} (p : prog A) (f : A -> prog B) Q : forall s, pfine p (fun a s' => pfine (f a) Q s') s -> pfine (pbind p f) Q s.
Proof. induction p as [b|e|c|C o k IH|C c k IH]; intros s; cbn [pbind pfine] in *; auto. intros [H1 H2]. split; auto. Qed.
Lemma pfine_do {A B} (o : op A) (k : A -> prog B) Q s : (forall a s', next_plain o a -> pfine (k a) Q s') -> pfine (Do o k) Q s.
Proof. cbn [pfine]. auto. Qed.
Lemma pfine_call {A B} (c : call A) (k : A -> prog B) Q s : called c -> (forall a s', ends _ c a s' -> pfine (k a) Q s') -> pfine (Call c k) Q s.
Proof. now split. Qed.

Lemma set_queue {A} (o : op A) s a s' : match o with OSetStyle _ | OSetEnv _ | OView | OSetTransform _ => True | _ => False end ->
  exec o s = (Ok a, s') -> ps_queue s' = ps_queue s.
Proof. destruct o; intros []; cbn; intros H; now inversion H. Qed.
Lemma next_peek s t s' : exec ONext s = (Ok t, s') -> fst t = unwrap_math (qt_tok (q_peek (ps_queue s))).
Proof.
  cbn [M_Parser.exec]. unfold next_tok, sbind, on_queue, q_next, q_next_unres, q_peek, rejecting, sret. set (q := ps_queue s).
  assert (N : forall (l : list qtok) n, nth n l EOI_TOK = hd EOI_TOK (skipn n l)) by (induction l as [|x l IH]; intros [|n]; cbn; auto; now destruct n).
  rewrite N. destruct (skipn (q_nnw q) (q_toks q)) as [|u r]; cbn [hd].
  - destruct (reject_unknown cfg EOI_TOK); intros H; inversion H; reflexivity.
  - destruct (ensure_nnw cfg (q_set_toks q r)) as [[x|e|c] q']; [|discriminate|discriminate].
    destruct (reject_unknown cfg (qt_unwrap u)); intros H; inversion H; reflexivity.
Qed.

Lemma seq_fine e prev keep s : pfine (body (CSeq e prev keep)) (ends _ (CSeq e prev keep)) s.
Proof.
  destruct (match e, keep with SeqEnd EtEnd, true => true | _, _ => false end) eqn:E.
  2: { apply pfine_calm; [|now apply body_pcalm]. intros b s'. destruct e as [[]|], keep; try exact I; discriminate E. }
  destruct e as [[]|], keep; try discriminate E. clear E. cbn [body]. unfold seq_body. cbn [pbind]. apply pfine_do. intros v s1 _.
  apply pfine_call; [exact I|]. intros [nodes infix] s2 H. cbn [ends] in *. cbn [pfine]. intros [] s3 E3 _ [] s4 E4 _.
  apply set_queue in E3, E4; try exact I. unfold at_end in *. now rewrite E4, E3.
Qed.
Ltac walk :=
  repeat lazymatch goal with
    | |- pfine (pbind _ _) _ _ => apply pfine_then; [pcs|intros ? ?]
    | |- pfine (Do _ _) _ _ => apply pfine_do; intros ? ? ?
    | |- pfine (Call _ _) _ _ => apply pfine_call; [first [exact I|eassumption]|intros ? ? ?]
    | |- pfine (fail _ _) _ _ => reflexivity
    | |- pfine (Fail _) _ _ => reflexivity
    | |- pfine (Stop _) _ _ => exact I
    | |- pfine (Ret _) _ _ => assumption
    | |- pfine (match ?x with _ => _ end) _ _ => destruct x
    | |- pfine (let x := _ in _) _ _ => cbv zeta
    | |- pfine ((fun _ => _) _) _ _ => cbv beta
    end.
Lemma loop_fine e prev nodes infix s : pfine (body (CLoop e prev nodes infix)) (ends _ (CLoop e prev nodes infix)) s.
Proof.
  destruct (match e with SeqEnd EtEnd => true | _ => false end) eqn:E.
  2: { apply pfine_calm; [|now apply body_pcalm]. intros b s'. destruct e as [[]|]; try exact I; discriminate E. }
  destruct e as [[]|]; try discriminate E. clear E. cbn [body]. unfold loop_body. cbn [pbind]. intros t s1 E1 _.
  cbn [M_Parser.exec] in E1. destruct (seq_end_matches (SeqEnd EtEnd) (fst t)) eqn:M.
  - cbn [pfine]. cbn [ends]. unfold at_end. cbn in E1. inversion E1; subst. cbn in M. destruct (qt_tok (q_peek (ps_queue s))) eqn:Q; try discriminate M. cbn. eauto.
  - clear E1 M. cbv zeta. walk.
Qed.
Lemma begin_fine e sp a prev s : pfine (body (CTok (T_Begin e, sp) a prev)) (fun _ _ => True) s.
Proof.
  cbn [body]. unfold tok_body. cbn [fst snd]. apply pfine_do. intros cl s0 _. cbv beta. apply pfine_do. intros v s1 _. cbv beta zeta. apply pfine_then; [pcs|]. intros spec s2. cbv beta. apply pfine_then; [pcs|]. intros border s3.
  cbv beta zeta. apply pfine_do. intros [] s4 _. cbv beta. apply pfine_do. intros [] s5 _. cbv beta. apply pfine_bind. unfold seq_if_in_sequence.
  destruct (in_sequence a); [|reflexivity]. apply pfine_call; [exact I|]. intros content s6 H. cbn [ends] in H. cbn [pfine].
  intros [] s7 E7 _ v' s8 E8 _ [] s9 E9 _ t' s10 E10 _. apply set_queue in E7, E8, E9; try exact I. apply next_peek in E10. rewrite E9, E8, E7 in E10.
  destruct H as (e' & H). rewrite H in E10. cbn in E10. rewrite E10.
  apply pfine_calm; [easy|]. pcs.
Qed.
Lemma tok_fine t a prev s : misplaced (CTok t a prev) = false -> math_plain (fst t) = true -> (forall n, fst t <> T_CustomCmdArg n) -> pfine (body (CTok t a prev)) (fun _ _ => True) s.
Proof.
  destruct t as [tk sp]. intros M Pl N. cbn [fst] in N, Pl. destruct tk;
    lazymatch type of M with
    | misplaced (CTok (T_Begin _, _) _ _) = _ => apply begin_fine
    | misplaced (CTok (T_CustomCmdArg _, _) _ _) = _ => exfalso; now eapply N
    | _ => first [discriminate M|discriminate Pl|apply pfine_calm; [easy|]; apply tok_body_pcalm; exact I]
    end.
Qed.
Lemma bounds_fine first acc s : pfine (body (CBounds first acc)) (fun _ _ => True) s.
Proof. apply pfine_calm; [easy|now apply body_pcalm]. Qed.

(** ** Operations *)

Lemma exec_calm {A} (o : op A) : is_macro o = false -> match o with ODefine _ => False | _ => True end -> calm (exec o).
Proof.
  destruct o; cbn [is_macro M_Parser.exec]; try discriminate; intros _ []; unfold next_tok, peek_class, math_choice, new_row, env_end, record_row, next_tok; calmo.
Qed.
Context (G : queue -> Prop) (G_same : forall q q', same_commands q q' -> G q -> G q')
  (G_make : forall d q q', sound_queue cfg q -> makes cfg d q q' -> G q -> G q').
Lemma exec_plain {A} (o : op A) s a s' : steady cfg G s -> exec o s = (Ok a, s') -> next_plain o a.
Proof.
  intros Hs E. destruct o; try exact I. cbn [next_plain]. rewrite (next_peek _ _ _ E). destruct Hs as [Sq _]. pose proof Sq as ((_ & N & _) & _).
  apply (unwrap_plain (q_refs cfg (ps_queue s))); [apply peek_tok_ok, Sq|]. intros W. unfold q_peek in W. revert N W. generalize (q_nnw (ps_queue s)).
  induction (q_toks (ps_queue s)) as [|t l IH]; intros n N W; [discriminate N|]. cbn [find_nnw] in N.
  destruct (is_ws (qt_tok t)) eqn:B; [|injection N as <-; cbn [nth] in W; rewrite W in B; discriminate B].
  destruct (find_nnw l) as [m|]; [|discriminate N]. injection N as <-. exact (IH m eq_refl W).
Qed.
Lemma count_calm sp : calm (count_expansion sp).
Proof. unfold count_expansion. calmo. Qed.
Lemma exec_fine {A} (o : op A) s : op_pre cfg G A o s -> match o with ODefine _ => False | _ => True end -> res_calm (fst (exec o s)).
Proof.
  intros P D. destruct (is_macro o) eqn:E; [|now apply exec_calm]. destruct o; try discriminate E; clear E D; cbn [M_Parser.exec].
  - match goal with |- res_calm (fst (?m _)) => enough (H : calm m) by apply H end. unfold expand. calmo; try apply count_calm.
  - destruct P as [Hs Hr]. unfold expand_ref. unfold sbind at 1. pose proof (count_calm sp s) as H. destruct (count_expansion sp s) as [[[]|e|c] s1] eqn:Ec; cbn [fst] in *; auto.
    assert (Eq : ps_queue s1 = ps_queue s). { revert Ec. unfold count_expansion, sbind, view, sget. destruct (pv_left (ps_view s)); [discriminate|]. unfold on_view. intros X. now inversion X. }
    unfold sbind at 1. pose proof (args_sp cfg num_args (ps_queue s) (proj1 Hs) (proj1 Hr)) as Sp. pose proof (read_cmd_args_calm cfg num_args (ps_queue s)) as Ca.
    unfold on_queue at 1. rewrite Eq. unfold L_Reads.sp in Sp. destruct (read_cmd_args cfg num_args (ps_queue s)) as [[ca|e|c] q2]; cbn [fst] in *; auto.
    destruct Sp as (R & args & Ar). destruct (expand_stored cfg _ _ _ num_args _ _ sp args ca (proj1 Hs) Hr R Ar) as (body & q3 & B & Ex & _).
    unfold sbind, on_queue. cbn [ps_queue]. rewrite Ex. exact I.
Qed.

(** ** Runs *)

Lemma run_with_ret k f A (a : A) s : run_with cfg usize_max k f (Ret a) s = (Ok a, s). Proof. now destruct f. Qed.
Lemma run_with_fail k f A e s : run_with cfg usize_max k f (@Fail A e) s = (Err e, s). Proof. now destruct f. Qed.
Lemma run_with_stop k f A c s : run_with cfg usize_max k f (@Stop A c) s = (Crash c, s). Proof. now destruct f. Qed.
Lemma run_with_do k f A B (o : op B) (n : B -> prog A) s :
  run_with cfg usize_max k f (Do o n) s = match exec o s with (Ok a, s') => run_with cfg usize_max k f (n a) s' | (Err e, s') => (Err e, s') | (Crash c, s') => (Crash c, s') end.
Proof. now destruct f. Qed.
Lemma run_with_call k f A B (c : call B) (n : B -> prog A) s :
  run_with cfg usize_max k (S f) (Call c n) s = match run_with cfg usize_max k f (body_with k c) s with
    (Ok a, s') => run_with cfg usize_max k (S f) (n a) s' | (Err e, s') => (Err e, s') | (Crash c, s') => (Crash c, s') end.
Proof. reflexivity. Qed.

(** The result of the other parser, from the operations and the result of this one. *)
Definition related {B} (k : err_kind) (Q : B -> pstate -> Prop) (t : list performed * (res B * pstate)) (r' : res B * pstate) : Prop :=
  match fst (snd t) with
  | Ok b => Q b (snd (snd t)) /\ r' = snd t
  | Err e => if internal e then definition_failed cfg e (fst t) \/ r' = (Err (mkErr (err_span e) k), snd (snd t)) else r' = snd t
  | Crash _ => r' = snd t
  end.
Lemma related_app {B} k (Q : B -> pstate -> Prop) l t r' : related k Q t r' -> related k Q (l ++ fst t, snd t) r'.
Proof.
  unfold related. cbn [fst snd]. destruct (fst (snd t)) as [b|e|c]; auto. destruct (internal e); auto. intros [(l1 & m & b & a & H & H')|H]; [left|now right].
  exists (l ++ l1), m, b, a. split; [now rewrite H, app_assoc|exact H'].
Qed.
Lemma related_do k f A B (o : op A) (n : A -> prog B) Q s : op_pre cfg G A o s ->
  (forall a s', exec o s = (Ok a, s') -> next_plain o a -> related k Q (trun cfg usize_max f (n a) s') (run_with cfg usize_max k f (n a) s')) ->
  related k Q (trun cfg usize_max f (Do o n) s) (run_with cfg usize_max k f (Do o n) s).
Proof.
  intros P H. rewrite trun_do, run_with_do.
  assert (F : match o with ODefine _ => True | _ => res_calm (fst (exec o s)) end) by (pose proof (exec_fine o s P) as X; destruct o; auto).
  destruct (exec o s) as [[a|e|c] s'] eqn:E.
  - specialize (H a s' eq_refl (exec_plain o s a s' (proj1 P) E)). destruct (trun cfg usize_max f (n a) s') as [l r]. exact (related_app k Q [Performed o s (Ok a) s'] (l, r) _ H).
  - unfold related. cbn [fst snd]. destruct (internal e) eqn:I; [|reflexivity]. left.
    destruct o; cbn [fst res_calm] in F; try congruence. exists [], m, s, s'. split; [reflexivity|]. apply (define_stale cfg m _ e); [apply P| |exact I].
    cbn [M_Parser.exec] in E. unfold on_queue in E. destruct (define_command cfg m (ps_queue s)) as [x q2]. cbn [fst]. congruence.
  - reflexivity.
Qed.
Lemma related_relabel k f A B (o1 : op A) (o2 : op B) C sp (Q : C -> pstate -> Prop) s : calm (exec o1) -> calm (exec o2) ->
  related k Q (trun cfg usize_max f (Do o1 (fun _ => Do o2 (fun _ => fail sp E_Internal))) s)
    (run_with cfg usize_max k f (Do o1 (fun _ => Do o2 (fun _ => fail sp k))) s).
Proof.
  intros C1 C2. rewrite trun_do, run_with_do. specialize (C1 s). destruct (exec o1 s) as [[a|e|c] s1]; unfold related; cbn [fst snd res_calm] in *; [|now rewrite C1|reflexivity].
  rewrite trun_do, run_with_do. specialize (C2 s1). destruct (exec o2 s1) as [[b|e|c] s2]; cbn [fst snd res_calm] in *; [|now rewrite C2|reflexivity].
  unfold fail. rewrite trun_fail, run_with_fail. cbn. now right.
Qed.
Lemma trun_related k f : forall A (p : prog A) Q1 Q s,
  wp cfg usize_max (op_pre cfg G) (call_post cfg G) (fun _ s => failed cfg G s) (fun _ => False) (call_pre cfg G) p Q1 s -> pfine p Q s ->
  related k Q (trun cfg usize_max f p s) (run_with cfg usize_max k f p s).
Proof.
  induction f as [|f IH]; intros A p Q1 Q; induction p as [b|e|c|B o n IHn|B c n IHn]; intros s W F; cbn [wp pfine] in W, F;
    rewrite ?trun_ret, ?trun_fail, ?trun_stop, ?run_with_ret, ?run_with_fail, ?run_with_stop; try (unfold related; cbn [fst snd]; try rewrite F; auto; fail).
  - destruct W as [P W]. apply related_do; [exact P|]. intros a s' E Pl. rewrite E in W. apply IHn; [exact W|now apply F].
  - reflexivity.
  - destruct W as [P W]. apply related_do; [exact P|]. intros a s' E Pl. rewrite E in W. apply IHn; [exact W|now apply F].
  - destruct W as [P W], F as [Fc F]. rewrite trun_call, run_with_call.
    assert (K : related k (ends _ c) (trun cfg usize_max f (body c) s) (run_with cfg usize_max k f (body_with k c) s)).
    { unfold body_with. destruct (misplaced c) eqn:M.
      - destruct c as [| |t a prev|]; try discriminate M. destruct t as [tk sp]. destruct P as [Hs _]. cbn [body]. unfold tok_body. cbn [fst snd].
        destruct tk; try discriminate M; cbn [relabel].
        all: apply related_relabel; apply exec_calm; try reflexivity; exact I.
      - pose proof (bodies_any cfg usize_max G G_same G_make _ c s P) as Wb. apply (IH _ _ _ _ _ Wb). destruct c.
        + apply seq_fine.
        + apply loop_fine.
        + apply tok_fine; [exact M|exact Fc|]. intros i Ei. destruct P as [_ P]. unfold readies in P. rewrite Ei in P. cbn in P. discriminate P.
        + apply bounds_fine. }
    pose proof (trun_good cfg usize_max _ _ _ _ _ (bodies_any cfg usize_max G G_same G_make) f _ _ _ _ (bodies_any cfg usize_max G G_same G_make _ c s P)) as [_ T].
    destruct (trun cfg usize_max f (body c) s) as [l [[a|e|cr] s']] eqn:Et; unfold related in K; cbn [fst snd good_result] in K, T.
    + destruct K as [Ka ->]. specialize (IHn a s' (W a s' T) (F a s' Ka)). destruct (trun cfg usize_max (S f) (n a) s') as [l2 r2].
      exact (related_app k Q l (l2, r2) _ IHn).
    + unfold related. cbn [fst snd]. destruct (internal e); [|now rewrite K]. destruct K as [K|K]; [now left|right; now rewrite K].
    + unfold related. cbn [fst snd]. now rewrite K.
Qed.
End Fine.

Lemma snippet_intern cfg umax f gs input st k : config_ok (pc_custom cfg) -> gs_ok cfg gs -> scalar_text input ->
  (forall e, fst (parse_snippet cfg umax f gs input st) = Err e -> err_kind_of e = E_Internal ->
     definition_failed cfg e (snippet_trace cfg umax f gs input st) \/
     parse_snippet_with cfg umax k f gs input st = (Err (mkErr (err_span e) k), snd (parse_snippet cfg umax f gs input st))) /\
  ((forall e, fst (parse_snippet cfg umax f gs input st) = Err e -> err_kind_of e <> E_Internal) ->
   parse_snippet_with cfg umax k f gs input st = parse_snippet cfg umax f gs input st).
Proof.
  intros C D S. unfold snippet_trace, parse_snippet_with, parse_snippet, parser_new, parse_all. pose proof (queue_new_calm cfg (lexer_new input) gs) as N.
  destruct (queue_new cfg (lexer_new input) gs) as [[[]|e|c] q] eqn:E; cbn [fst snd res_calm] in *.
  2: { split; [|reflexivity]. intros e' He Hk. injection He as <-. unfold internal in N. rewrite Hk in N. discriminate. }
  2: { split; [discriminate|reflexivity]. }
  pose proof (start_pre cfg (fun _ => True) gs input st q C D S E I) as P. set (s := mkPs q _) in *.
  pose proof (bodies_any cfg umax (fun _ => True) (fun _ _ _ _ => I) (fun _ _ _ _ _ _ => I) _ (CSeq (SeqEnd EtEoi) ClOpen true) s P) as W.
  pose proof (trun_related cfg umax (fun _ => True) (fun _ _ _ _ => I) (fun _ _ _ _ _ _ => I) k f _ _ _ _ s W (seq_fine cfg umax _ _ _ s)) as R.
  rewrite <- trun_run.
  destruct (trun cfg umax f (body (CSeq (SeqEnd EtEoi) ClOpen true)) s) as [l [[r|e|c] s']]; unfold related in R; cbn [fst snd] in *.
  - destruct R as [_ R]. rewrite R. split; [discriminate|reflexivity].
  - unfold internal in R. split.
    + intros e' He Hk. injection He as <-. rewrite Hk in R. destruct R as [R|R]; [now left|right]. now rewrite R.
    + intros H. specialize (H e eq_refl). destruct (err_kind_of e); try (now rewrite R). congruence.
  - rewrite R. split; [discriminate|reflexivity].
Qed.
