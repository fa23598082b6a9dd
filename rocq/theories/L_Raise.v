(** Where the error about too many expansions can come from. *)
From Verif Require Import Str M_SuperChar M_Transform M_Length M_Spec M_Ast M_Token M_Symbols M_Commands M_Env
  M_LatexError M_Lexer M_CustomCmds M_Queue M_Spacing M_Leaf M_TextParser M_Parser S_Run S_Api S_Convert L_Wp L_Convert.

Definition too_many (e : latex_error) : bool := match err_kind_of e with E_TooManyExpansions => true | _ => false end.
Definition res_calm {A} (r : res A) : Prop := match r with Err e => too_many e = false | _ => True end.
(** [m] does not complain about too many expansions. *)
Definition calm {S A} (m : St S A) : Prop := forall s, res_calm (fst (m s)).

Section Calm.
Context {S : Type}.
Lemma calm_ret {A} (a : A) : calm (@sret S A a).
Proof. intros s. exact I. Qed.
Lemma calm_fail {A} sp k : too_many (mkErr sp k) = false -> calm (@sfail S A sp k).
Proof. intros H s. exact H. Qed.
Lemma calm_crash {A} c : calm (@scrash S A c).
Proof. intros s. exact I. Qed.
Lemma calm_res {A} (r : res A) : res_calm r -> calm (@sres S A r).
Proof. intros H s. exact H. Qed.
Lemma calm_get {A} (f : S -> A) : calm (sget f).
Proof. intros s. exact I. Qed.
Lemma calm_opt {A} (o : option A) : calm (@sopt S A o).
Proof. destruct o; intros s; exact I. Qed.
Lemma calm_bind {A B} (m : St S A) (k : A -> St S B) : calm m -> (forall a, calm (k a)) -> calm (sbind m k).
Proof. intros Hm Hk s. unfold sbind. specialize (Hm s). destruct (m s) as [[a|e|c] s']; cbn [fst] in *; auto. apply Hk. Qed.
Lemma calm_try {A} (m : St S A) : calm (stry m).
Proof. intros s. unfold stry. destruct (m s) as [[a|e|c] s']; exact I. Qed.
End Calm.

Ltac calm_step :=
  match goal with
    | H : calm ?m |- calm ?m => exact H
    | |- calm (sbind _ _) => apply calm_bind; [|intros ?]
    | |- calm (sret _) => apply calm_ret
    | |- calm (sfail _ _) => apply calm_fail; reflexivity
    | |- calm (scrash _) => apply calm_crash
    | |- calm (sres _) => apply calm_res
    | |- calm (sget _) => apply calm_get
    | |- calm (sopt _) => apply calm_opt
    | |- calm (stry _) => apply calm_try
    | |- calm (match ?x with _ => _ end) => destruct x
    | |- calm (if ?x then _ else _) => destruct x
    | |- calm (let (_, _) := ?x in _) => destruct x
    | |- forall _, _ => intro
    end.

(** ** The lexer *)

Definition lex_calm (r : (lexer_output + latex_error) * lexer) : Prop := match fst r with inr e => too_many e = false | inl _ => True end.
Lemma env_marker_calm l sp cmd : lex_calm (parse_env_marker l sp cmd).
Proof.
  unfold parse_env_marker. destruct (_ || _); [|exact I]. destruct (skip_whitespace l) as [b l1].
  destruct (read_env_name l1) as [[[name e]|[[c|] esp]] l2]; try reflexivity. destruct (env_from_str name); [exact I|reflexivity].
Qed.
Lemma lex_char_calm l c r : lex_calm (lex_char l c r).
Proof.
  unfold lex_char. destruct (c =? 0); [reflexivity|]. destruct (c =? 35).
  { destruct r as [|d r]; [reflexivity|]. destruct (is_ascii_digit d); [|reflexivity]. destruct (d =? 48); [reflexivity|exact I]. }
  destruct (c =? 92); [|exact I]. destruct (read_command _) as [cmd l2]. destruct (skip_whitespace l2) as [b l3]. apply env_marker_calm.
Qed.
Lemma next_token_calm l : lex_calm (next_token l).
Proof.
  unfold next_token. destruct (skip_whitespace l) as [b l1]. destruct b; [exact I|]. 
  repeat match goal with |- lex_calm (match ?x with _ => _ end) => destruct x | |- lex_calm (let x := _ in _) => cbv zeta end; try exact I; try reflexivity; apply lex_char_calm.
Qed.

(** ** The queue *)

Section Queue.
Context (cfg : parser_cfg).

Lemma load_loop_calm {T} (pred : nat -> token -> option T) fuel : forall idx, calm (load_loop cfg pred fuel idx).
Proof.
  induction fuel as [|f IH]; intros idx q; cbn [load_loop]; [exact I|]. pose proof (next_token_calm (q_lexer q)) as H.
  destruct (next_token (q_lexer q)) as [[out|e] l']; [|exact H].
  destruct (pred _ _); [exact I|]. destruct (is_eoi _); [exact I|]. apply IH.
Qed.
Lemma load_token_calm {T} (pred : nat -> token -> option T) : calm (load_token cfg pred).
Proof. intros q. unfold load_token. destruct (q_eoi q); [exact I|apply load_loop_calm]. Qed.
Lemma load_skip_calm : calm (load_skip_whitespace cfg).
Proof. intros q. unfold load_skip_whitespace. pose proof (load_token_calm is_not_whitespace q) as H. now destruct (load_token _ _ q) as [[[i|]|e|c] q']. Qed.
Lemma ensure_nnw_calm : calm (ensure_nnw cfg).
Proof. intros q. unfold ensure_nnw. destruct (find_nnw (q_toks q)); [exact I|]. pose proof (load_skip_calm q) as H. now destruct (load_skip_whitespace cfg q) as [[i|e|c] q']. Qed.
Lemma queue_new_calm l gs : res_calm (fst (queue_new cfg l gs)).
Proof. unfold queue_new. pose proof (load_skip_calm (mkQueue l [] false 0 cmds_empty gs)) as H. now destruct (load_skip_whitespace _ _) as [[i|e|c] q']. Qed.
Lemma find_or_load_calm {T} (pred : nat -> token -> option T) : calm (find_or_load_after_next cfg pred).
Proof. intros q. unfold find_or_load_after_next. destruct (_ <? _)%nat; [|exact I]. destruct (find_from _ _ _); [exact I|apply load_token_calm]. Qed.
Lemma peek_second_calm : calm (q_peek_second cfg).
Proof. intros q. unfold q_peek_second. pose proof (find_or_load_calm is_not_whitespace q) as H. now destruct (find_or_load_after_next _ _ q) as [[[i|]|e|c] q']. Qed.
Lemma q_peek_class_calm : calm (q_peek_class cfg).
Proof. intros q. unfold q_peek_class. destruct (token_class _); [exact I|]. pose proof (find_or_load_calm has_class q) as H. now destruct (find_or_load_after_next _ _ q) as [[[i|]|e|c] q']. Qed.
Lemma rejecting_calm m : calm m -> calm (fun q => rejecting cfg (m q)).
Proof.
  intros H q. specialize (H q). unfold rejecting. destruct (m q) as [[t|e|c] q']; auto. unfold reject_unknown.
  destruct (qt_tok t); try exact I. now destruct (pc_ignore_unknown cfg).
Qed.
Lemma next_unres_calm : calm (q_next_unres cfg).
Proof. intros q. unfold q_next_unres. destruct (skipn _ _) as [|t r]; [exact I|]. pose proof (ensure_nnw_calm (q_set_toks q r)) as H. now destruct (ensure_nnw cfg _) as [[u|e|c] q']. Qed.
Lemma next_calm : calm (q_next cfg).
Proof. apply rejecting_calm, next_unres_calm. Qed.
Lemma next_any_unres_calm : calm (q_next_any_unres cfg).
Proof.
  intros q. unfold q_next_any_unres. destruct (q_toks q) as [|t r]; [exact I|]. destruct (q_nnw q); [|exact I].
  pose proof (ensure_nnw_calm (q_set_toks q r)) as H. now destruct (ensure_nnw cfg _) as [[u|e|c] q'].
Qed.
Lemma next_any_calm : calm (q_next_any cfg).
Proof. apply rejecting_calm, next_any_unres_calm. Qed.
Lemma record_macro_loop_calm fuel : forall n acc, calm (record_macro_loop cfg fuel n acc).
Proof.
  induction fuel as [|f IH]; intros n acc q; [exact I|].
  assert (C : forall m, res_calm (fst (match q_next_any_unres cfg q with
                        | (Ok _, q') => record_macro_loop cfg f m (acc ++ [q_peek_any q]) q'
                        | (Err e, q') => (Err e, q') | (Crash c, q') => (Crash c, q') end))).
  { intros m. pose proof (next_any_unres_calm q) as H. destruct (q_next_any_unres cfg q) as [[t|e|c] q']; auto. apply IH. }
  cbn [record_macro_loop]. destruct (qt_tok (q_peek_any q)); try apply C; try reflexivity. destruct n; [exact I|apply C].
Qed.
Lemma record_macro_body_calm : calm (record_macro_body cfg).
Proof. intros q. unfold record_macro_body. pose proof (next_calm q) as H. destruct (q_next cfg q) as [[t|e|c] q']; auto. apply record_macro_loop_calm. Qed.
Lemma read_definition_name_calm : calm (read_definition_name cfg).
Proof.
  intros q. unfold read_definition_name. pose proof (next_unres_calm q) as H.
  destruct (q_next_unres cfg q) as [[t|e|c] q']; auto. destruct (qt_tok t), (qt_name t); try exact I; reflexivity.
Qed.
Lemma record_group_loop_calm p fuel : forall n acc, calm (record_group_loop cfg p fuel n acc).
Proof.
  induction fuel as [|f IH]; intros n acc q; cbn [record_group_loop]; [exact I|].
  assert (H : res_calm (fst (if p then q_next_any cfg q else q_next cfg q))) by (destruct p; [apply next_any_calm|apply next_calm]).
  destruct (if p then _ else _) as [[t|e|c] q']; auto.
  destruct (qt_tok t); try apply IH; try reflexivity. destruct n; [exact I|apply IH].
Qed.
Lemma record_group_calm p : calm (record_group cfg p).
Proof. intros q. apply record_group_loop_calm. Qed.
Lemma read_argument_calm p : calm (read_argument cfg p).
Proof.
  intros q. unfold read_argument. pose proof (next_calm q) as H. destruct (q_next cfg q) as [[t|e|c] q']; auto.
  pose proof (record_group_calm p q') as G.
  destruct (qt_tok (if p then q_peek q else t)); try exact I. now destruct (record_group cfg p q') as [[[l s]|e|c] q2].
Qed.
Lemma read_args_loop_calm n : forall k a, calm (read_args_loop cfg n k a).
Proof.
  induction n as [|n IH]; intros k a q; cbn [read_args_loop]; [exact I|].
  pose proof (next_calm q) as H. destruct (q_next cfg q) as [[t|e|c] q']; auto.
  pose proof (record_group_calm true q') as G.
  destruct (qt_tok t); try apply IH; try reflexivity. destruct (record_group cfg true q') as [[[l s]|e|c] q2]; auto. apply IH.
Qed.
Lemma read_cmd_args_calm n : calm (read_cmd_args cfg n).
Proof. apply read_args_loop_calm. Qed.
Lemma define_calm n args body cl rep g : calm (q_define cfg n args body cl rep g).
Proof.
  intros q. unfold q_define. destruct (_ || _).
  - destruct (_ && _); [exact I|]. destruct (cmds_insert_or_replace_copy _ _ _ _ _ _); [|exact I]. exact I.
  - destruct rep; [exact I|]. destruct (cmds_insert _ _ _ _ _); exact I.
Qed.
Lemma map_recorded_calm n l : forall first, res_calm (map_recorded n first l).
Proof.
  induction l as [|t l IH]; intros first; cbn [map_recorded]; [exact I|].
  assert (C : forall x f, res_calm (match map_recorded n f l with Ok (xs, c) => Ok (x :: xs, c) | e => e end)) by (intros x f; specialize (IH f); now destruct (map_recorded n f l) as [[]| |]).
  destruct (qt_tok t); try apply C; try reflexivity. destruct (_ <=? _)%nat; [reflexivity|apply C].
Qed.

(** ** Leaf readers *)
Ltac calm_more :=
  match goal with
  | |- calm (q_next _) => apply next_calm
  | |- calm (q_next_any _) => apply next_any_calm
  | |- calm (q_next_unres _) => apply next_unres_calm
  | |- calm (q_peek_second _) => apply peek_second_calm
  | |- calm (read_argument _ _) => apply read_argument_calm
  | |- calm (record_macro_body _) => apply record_macro_body_calm
  | |- calm (read_definition_name _) => apply read_definition_name_calm
  | |- calm (q_define _ _ _ _ _ _ _) => apply define_calm
  | |- res_calm (map_recorded_tokens _ _) => apply map_recorded_calm
  | _ => calm_step
  end.
Ltac calmm := repeat calm_more.

Lemma ascii_of_calm l : res_calm (ascii_of l).
Proof.
  induction l as [|t l IH]; cbn [ascii_of]; [exact I|].
  destruct (recover_limited_ascii (fst t)); [|reflexivity]. now destruct (ascii_of l).
Qed.
Lemma string_literal_calm : calm (parse_string_literal cfg).
Proof. unfold parse_string_literal. calmm; apply ascii_of_calm. Qed.
Lemma digits_loop_calm fuel : forall acc, calm (digits_loop cfg fuel acc).
Proof. induction fuel as [|f IH]; intros acc; cbn [digits_loop]; calmm; try apply IH. Qed.
Lemma read_digits_calm d : calm (read_digits cfg d).
Proof. intros q. apply digits_loop_calm. Qed.
Lemma letters_loop_calm v fuel : forall acc, calm (letters_loop cfg v fuel acc).
Proof. induction fuel as [|f IH]; intros acc; cbn [letters_loop]; calmm; try apply IH. Qed.
Lemma merge_letters_calm tf : calm (merge_letters cfg tf).
Proof.
  intros q. unfold merge_letters. destruct tf as [v|]; [|exact I].
  match goal with |- res_calm (fst (?m q)) => enough (H : calm m) by apply H end. calmm. apply letters_loop_calm.
Qed.
Lemma primes_loop_calm fuel : forall acc, calm (primes_loop cfg fuel acc).
Proof. induction fuel as [|f IH]; intros acc; cbn [primes_loop]; calmm; try apply IH. Qed.
Lemma read_primes_calm k : calm (read_primes cfg k).
Proof. intros q. apply primes_loop_calm. Qed.
Lemma kern_digits_calm fuel : forall b acc st en, calm (kern_digits cfg fuel b acc st en).
Proof. induction fuel as [|f IH]; intros b acc st en; cbn [kern_digits]; calmm; try apply IH. Qed.
Lemma kern_calm k n : calm (parse_kern_or_skip cfg k n).
Proof.
  unfold parse_kern_or_skip. calmm.
  all: first [intros q; apply kern_digits_calm | idtac].
Qed.
Lemma color_type_loop_calm sp fuel : forall acc, calm (color_type_loop cfg fuel sp acc).
Proof. induction fuel as [|f IH]; intros acc; cbn [color_type_loop]; calmm; try apply IH. Qed.
Lemma color_calm sp : calm (parse_color cfg sp).
Proof. unfold parse_color. calmm; try apply string_literal_calm. intros q. apply color_type_loop_calm. Qed.
Lemma raise_length_calm s sp : res_calm (raise_length s sp).
Proof. unfold raise_length. destruct (parse_length_specification s) as [[[l u] []]|]; try reflexivity. Qed.
Lemma push_char_calm c st z vo s : match push_char c st z vo s with TrErr _ => False | _ => True end.
Proof. unfold push_char. destruct (sc_chars c); [|exact I]. now destruct (tx_builder s). Qed.
Lemma push_string_calm c st z vo s : match push_string c st z vo s with TrErr _ => False | _ => True end.
Proof. unfold push_string. now destruct (tx_builder s). Qed.
Definition step_calm (r : text_result) : Prop := match r with TrErr k => too_many (mkErr (mkSpan 0 0) k) = false | _ => True end.
Lemma text_step_calm m t st vo s : step_calm (text_token_step m t st vo s).
Proof.
  assert (P : forall c z, step_calm (push_char c st z vo s)) by (intros c z; pose proof (push_char_calm c st z vo s); now destruct (push_char c st z vo s)).
  assert (Q : forall c z, step_calm (push_string c st z vo s)) by (intros c z; pose proof (push_string_calm c st z vo s); now destruct (push_string c st z vo s)).
  destruct t; cbv zeta beta iota delta [text_token_step];
    repeat first [exact I | reflexivity | apply P | apply Q
      | match goal with |- step_calm (match ?x with _ => _ end) => destruct x | |- step_calm (TrErr (match ?x with _ => _ end)) => destruct x end].
Qed.
Lemma text_loop_calm m fuel : forall s, calm (text_loop cfg m fuel s).
Proof.
  induction fuel as [|f IH]; intros s; cbn [text_loop]; destruct (tx_styles s) as [|[[? st] vo] ?]; try apply calm_ret; [apply calm_crash|].
  apply calm_bind; [destruct m; calmm|]. intros t. pose proof (text_step_calm m (qt_tok t) st vo s) as H. destruct (text_token_step _ _ _ _ _); calmm; try apply string_literal_calm; try apply IH; try apply raise_length_calm.
  apply calm_fail. exact H.
Qed.
Lemma text_calm m st vo : calm (extract_text cfg m st vo).
Proof. intros q. apply text_loop_calm. Qed.
Lemma skip_spaces_calm fuel : calm (skip_spaces cfg fuel).
Proof. induction fuel as [|f IH]; cbn [skip_spaces]; calmm. Qed.
Lemma param_loop_calm fuel : forall n, calm (param_loop cfg fuel n).
Proof. induction fuel as [|f IH]; intros n; cbn [param_loop]; calmm; try apply IH. Qed.
Lemma read_num_args_calm : calm (read_num_args cfg).
Proof. unfold read_num_args. calmm. Qed.
Lemma read_definition_body_calm : calm (read_definition_body cfg).
Proof. unfold read_definition_body. calmm. Qed.
Lemma definition_target_calm m t : res_calm (definition_target m t).
Proof. unfold definition_target. destruct (qt_tok t), m, (qt_name t); try exact I; reflexivity. Qed.
Lemma define_command_calm m : calm (define_command cfg m).
Proof. unfold define_command. calmm; try apply definition_target_calm; try apply read_num_args_calm; try apply read_definition_body_calm. Qed.
Lemma def_command_calm g : calm (def_command cfg g).
Proof. unfold def_command. calmm; intros q; first [apply skip_spaces_calm|apply param_loop_calm]. Qed.
Lemma let_command_calm g : calm (let_command cfg g).
Proof. unfold let_command. calmm. Qed.
Lemma global_loop_calm fuel : calm (global_loop cfg fuel).
Proof. induction fuel as [|f IH]; cbn [global_loop]; calmm; try apply let_command_calm; try apply def_command_calm. Qed.
Lemma global_prefix_calm : calm (global_prefix cfg).
Proof. intros q. apply global_loop_calm. Qed.
End Queue.

(** ** Operations and programs *)

Lemma on_queue_calm {A} (m : St queue A) : calm m -> calm (on_queue m).
Proof. intros H s. unfold on_queue. specialize (H (ps_queue s)). now destruct (m (ps_queue s)). Qed.
Lemma on_view_calm f : calm (on_view f).
Proof. intros s. exact I. Qed.
Lemma on_pure_calm f : calm (on_queue_pure f).
Proof. intros s. exact I. Qed.
Lemma stored_body_calm cfg src a b args sp : calm (fun q => let (b, q') := queue_stored_body cfg src a b args sp q in (Ok b, q')).
Proof. intros q. now destruct (queue_stored_body _ _ _ _ _ _ _). Qed.

Ltac calm_op :=
  match goal with
  | |- calm (on_view _) => apply on_view_calm
  | |- calm (on_queue_pure _) => apply on_pure_calm
  | |- calm view => apply calm_get
  | |- calm (on_queue (merge_letters _ _)) => apply on_queue_calm, merge_letters_calm
  | |- calm (on_queue (read_digits _ _)) => apply on_queue_calm, read_digits_calm
  | |- calm (on_queue (read_primes _ _)) => apply on_queue_calm, read_primes_calm
  | |- calm (on_queue (parse_string_literal _)) => apply on_queue_calm, string_literal_calm
  | |- calm (on_queue (read_argument _ _)) => apply on_queue_calm, read_argument_calm
  | |- calm (on_queue (parse_kern_or_skip _ _ _)) => apply on_queue_calm, kern_calm
  | |- calm (on_queue (parse_color _ _)) => apply on_queue_calm, color_calm
  | |- calm (on_queue (extract_text _ _ _ _)) => apply on_queue_calm, text_calm
  | |- calm (on_queue (define_command _ _)) => apply on_queue_calm, define_command_calm
  | |- calm (on_queue (def_command _ _)) => apply on_queue_calm, def_command_calm
  | |- calm (on_queue (let_command _ _)) => apply on_queue_calm, let_command_calm
  | |- calm (on_queue (global_prefix _)) => apply on_queue_calm, global_prefix_calm
  | |- calm (on_queue (q_next _)) => apply on_queue_calm, next_calm
  | |- calm (on_queue (q_next_any _)) => apply on_queue_calm, next_any_calm
  | |- calm (on_queue (q_peek_class _)) => apply on_queue_calm, q_peek_class_calm
  | |- calm (on_queue (read_cmd_args _ _)) => apply on_queue_calm, read_cmd_args_calm
  | |- calm (on_queue (sget _)) => apply on_queue_calm, calm_get
  | |- calm (on_queue (fun _ => _)) => apply on_queue_calm, stored_body_calm
  | |- calm (let x := _ in _) => cbv zeta
  | _ => calm_step
  end.
Ltac calmo := repeat calm_op.

Section Prog.
Context (cfg : parser_cfg) (usize_max : N).
Notation exec := (exec cfg usize_max).

Lemma exec_calm {A} (o : op A) : is_macro o = false -> calm (exec o).
Proof.
  destruct o; cbn [is_macro M_Parser.exec]; try discriminate; intros _; unfold next_tok, peek_class, math_choice, new_row, env_end, record_row, next_tok; calmo.
Qed.
(** The uses of macros, if there is something left. *)
Lemma exec_macro_calm {A} (o : op A) s : pv_left (ps_view s) <> O -> res_calm (fst (exec o s)).
Proof.
  intros L. destruct (is_macro o) eqn:E; [|now apply exec_calm].
  destruct o; try discriminate E; cbn [M_Parser.exec]; unfold expand, expand_ref; rewrite count_then; destruct (pv_left (ps_view s)); try easy.
  - match goal with |- res_calm (fst (?m _)) => enough (H : calm m) by apply H end. calmo.
  - match goal with |- res_calm (fst (?m _)) => enough (H : calm m) by apply H end. calmo.
Qed.

(** The errors that a program raises itself. *)
Fixpoint pcalm {B} (p : prog B) : Prop :=
  match p with
  | Fail e => too_many e = false
  | Do o k => forall a, pcalm (k a)
  | Call c k => forall a, pcalm (k a)
  | _ => True
  end.
Lemma pcalm_bind {A B} (p : prog A) (f : A -> prog B) : pcalm p -> (forall a, pcalm (f a)) -> pcalm (pbind p f).
Proof. intros Hp Hf. induction p as [b|e|c|C o k IH|C c k IH]; cbn [pbind pcalm] in *; auto. Qed.
Lemma pcalm_res {B} (r : res B) : res_calm r -> pcalm (pres r).
Proof. now destruct r. Qed.
Lemma extract_calm t m : res_calm (extract_delimiter t m).
Proof. unfold extract_delimiter. repeat first [exact I|reflexivity|match goal with |- res_calm (match ?x with _ => _ end) => destruct x end]. Qed.
Lemma genfrac_style_calm t : res_calm (genfrac_style t).
Proof. unfold genfrac_style. repeat first [exact I|reflexivity|match goal with |- res_calm (match ?x with _ => _ end) => destruct x end]. Qed.
Lemma no_limits_calm b : res_calm (ensure_no_limits b).
Proof. unfold ensure_no_limits. destruct (bl_limits b) as [[? ?]|]; [reflexivity|exact I]. Qed.
Lemma into_one_calm a : res_calm (into_one a).
Proof. destruct a as [t|[|t [|t' l]] sp]; try exact I; reflexivity. Qed.
Lemma into_one_or_none_calm a : res_calm (into_one_or_none a).
Proof. destruct a as [t|[|t [|t' l]] sp]; try exact I; reflexivity. Qed.
End Prog.
Lemma pcalm_do {A B} (o : op A) (k : A -> prog B) : (forall a, pcalm (k a)) -> pcalm (Do o k).
Proof. auto. Qed.
Lemma pcalm_call {A B} (c : call A) (k : A -> prog B) : (forall a, pcalm (k a)) -> pcalm (Call c k).
Proof. auto. Qed.
Ltac pc :=
  repeat match goal with
    | |- pcalm (pbind _ _) => apply pcalm_bind; [|intros ?]
    | |- pcalm (pres _) => apply pcalm_res
    | |- pcalm (Do _ _) => apply pcalm_do; intros ?
    | |- pcalm (Call _ _) => apply pcalm_call; intros ?
    | |- pcalm (fail _ _) => reflexivity
    | |- pcalm (Ret _) => exact I
    | |- pcalm (Stop _) => exact I
    | |- pcalm (match ?x with _ => _ end) => destruct x
    | |- pcalm (let x := _ in _) => cbv zeta
    | |- pcalm ((fun _ => _) _) => cbv beta
    | |- res_calm (extract_delimiter _ _) => apply extract_calm
    | |- res_calm (genfrac_style _) => apply genfrac_style_calm
    | |- res_calm (ensure_no_limits _) => apply no_limits_calm
    | |- res_calm (into_one _) => apply into_one_calm
    | |- res_calm (into_one_or_none _) => apply into_one_or_none_calm
    | |- res_calm (raise_length _ _) => apply raise_length_calm
    end.
Lemma parse_next_pcalm a : pcalm (parse_next a).
Proof. unfold parse_next. pc. Qed.
Lemma seq_if_pcalm a sp e p k : pcalm (seq_if_in_sequence a sp e p k).
Proof. unfold seq_if_in_sequence. pc. Qed.
Lemma mathop_spacing_pcalm a p e : pcalm (parse_mathop_spacing a p e).
Proof. unfold parse_mathop_spacing. pc. Qed.
Lemma get_bounds_pcalm f : pcalm (get_bounds f).
Proof. unfold get_bounds. pc. Qed.
Lemma script_node_pcalm : pcalm script_node.
Proof. unfold script_node. pc. Qed.
Lemma prime_script_pcalm k : pcalm (prime_script k).
Proof. unfold prime_script. pc. apply script_node_pcalm. Qed.
Lemma get_bounds_arg_pcalm : pcalm get_bounds_arg.
Proof. unfold get_bounds_arg. pc; first [apply get_bounds_pcalm|apply parse_next_pcalm]. Qed.
Lemma genfrac_delimiter_pcalm : pcalm genfrac_delimiter.
Proof. unfold genfrac_delimiter. pc. Qed.
Lemma fence_delimiter_pcalm m : pcalm (fence_delimiter m).
Proof. unfold fence_delimiter. pc. Qed.
Ltac pcs := repeat (pc; match goal with
  | |- pcalm (parse_next _) => apply parse_next_pcalm
  | |- pcalm (seq_if_in_sequence _ _ _ _ _) => apply seq_if_pcalm
  | |- pcalm (parse_mathop_spacing _ _ _) => apply mathop_spacing_pcalm
  | |- pcalm (get_bounds _) => apply get_bounds_pcalm
  | |- pcalm script_node => apply script_node_pcalm
  | |- pcalm (prime_script _) => apply prime_script_pcalm
  | |- pcalm get_bounds_arg => apply get_bounds_arg_pcalm
  | |- pcalm genfrac_delimiter => apply genfrac_delimiter_pcalm
  | |- pcalm (fence_delimiter _) => apply fence_delimiter_pcalm
  end).
Lemma tok_body_pcalm t a p : pcalm (tok_body t a p).
Proof. unfold tok_body. pcs. Qed.
Lemma body_pcalm A (c : call A) : pcalm (body c).
Proof. destruct c; cbn [body]; [unfold seq_body|unfold loop_body|apply tok_body_pcalm|unfold bounds_body]; pcs. Qed.

(** ** Runs *)

Section Runs.
Context (cfg : parser_cfg) (usize_max : N).

(** An error is either one of the program, or that of the last operation. *)
Definition last_failed (e : latex_error) (l : list performed) : Prop :=
  exists l1 p, l = l1 ++ [p] /\ match p with Performed _ _ (Err e') _ => e' = e | _ => False end.
Definition well_failed {A} (t : list performed * (res A * pstate)) : Prop :=
  match fst (snd t) with Err e => too_many e = false \/ last_failed e (fst t) | _ => True end.
Lemma last_failed_app e l l' : last_failed e l' -> last_failed e (l ++ l').
Proof. intros (l1 & p & -> & H). exists (l ++ l1), p. split; [now rewrite app_assoc|exact H]. Qed.
Lemma well_failed_do f {A B} (o : op A) (k : A -> prog B) s : (forall a s, well_failed (trun cfg usize_max f (k a) s)) -> well_failed (trun cfg usize_max f (Do o k) s).
Proof.
  intros H. rewrite trun_do. destruct (exec cfg usize_max o s) as [[a|e|c] s'].
  - specialize (H a s'). destruct (trun cfg usize_max f (k a) s') as [l [[b|e|c] s2]]; try exact I. destruct H as [H|H]; [now left|right]. exact (last_failed_app _ [_] _ H).
  - right. exists [], (Performed o s (Err e) s'). now split.
  - exact I.
Qed.
Lemma trun_well_failed f : forall A (p : prog A) s, pcalm p -> well_failed (trun cfg usize_max f p s).
Proof.
  induction f as [|f IH]; intros A p; induction p as [b|e|c|B o k IHk|B c k IHk]; intros s Hp.
  all: try (apply well_failed_do; intros; now apply IHk).
  all: try (rewrite ?trun_ret, ?trun_fail, ?trun_stop; try exact I; now left).
  rewrite trun_call. specialize (IH _ (body c) s (body_pcalm _ c)). destruct (trun _ _ f (body c) s) as [l1 [[a|e|cr] s']]; try exact IH.
  specialize (IHk a s' (Hp a)). destruct (trun _ _ _ (k a) s') as [l [[b|e|cr] s2]]; try exact I.
  destruct IHk as [H|H]; [now left|right]. now apply last_failed_app.
Qed.
End Runs.
