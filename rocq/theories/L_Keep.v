(** Relations kept by everything the parser does. *)
From Verif Require Import Str M_SuperChar M_Transform M_Length M_Spec M_Ast M_Token M_Symbols M_Commands M_Env
  M_LatexError M_Lexer M_CustomCmds M_Queue M_Spacing M_Leaf M_TextParser M_Parser.

Definition keeps {S A} (R : S -> S -> Prop) (m : St S A) : Prop := forall s, R s (snd (m s)).

Section Keeps.
Context {S : Type} (R : S -> S -> Prop) (Rrefl : forall s, R s s) (Rtrans : forall a b c, R a b -> R b c -> R a c).

Lemma keeps_ret {A} (a : A) : keeps R (sret a).
Proof. intros s. apply Rrefl. Qed.
Lemma keeps_fail {A} sp k : keeps R (@sfail S A sp k).
Proof. intros s. apply Rrefl. Qed.
Lemma keeps_crash {A} c : keeps R (@scrash S A c).
Proof. intros s. apply Rrefl. Qed.
Lemma keeps_res {A} (r : res A) : keeps R (sres r).
Proof. intros s. apply Rrefl. Qed.
Lemma keeps_get {A} (f : S -> A) : keeps R (sget f).
Proof. intros s. apply Rrefl. Qed.
Lemma keeps_opt {A} (o : option A) : keeps R (@sopt S A o).
Proof. destruct o; [apply keeps_ret|apply keeps_crash]. Qed.
Lemma keeps_bind {A B} (m : St S A) (k : A -> St S B) : keeps R m -> (forall a, keeps R (k a)) -> keeps R (sbind m k).
Proof.
  intros Hm Hk s. unfold sbind. specialize (Hm s). destruct (m s) as [[a|e|c] s']; cbn [snd] in *; auto.
  exact (Rtrans _ _ _ Hm (Hk a s')).
Qed.
Lemma keeps_try {A} (m : St S A) : keeps R m -> keeps R (stry m).
Proof. intros Hm s. unfold stry. specialize (Hm s). now destruct (m s) as [[a|e|c] s']. Qed.
(** The same with the function the state was passed to. *)
Lemma keeps_fun {A} (f : S -> nat) (m : nat -> St S A) : (forall n, keeps R (m n)) -> keeps R (fun s => m (f s) s).
Proof. intros H s. apply H. Qed.
End Keeps.

(** ** What does not touch the definitions and the numbering *)

Definition same_stores (a b : queue) : Prop := q_local a = q_local b /\ q_gs a = q_gs b.
Lemma same_refl a : same_stores a a.
Proof. now split. Qed.
Lemma same_trans a b c : same_stores a b -> same_stores b c -> same_stores a c.
Proof. intros [H1 H2] [H3 H4]. split; congruence. Qed.

Ltac keep_step :=
  first
  [ apply same_refl
  | assumption
  | match goal with
    | |- keeps _ (sbind _ _) => apply keeps_bind; [exact same_trans| |intros ?]
    | |- keeps _ (sret _) => apply keeps_ret
    | |- keeps _ (sfail _ _) => apply keeps_fail
    | |- keeps _ (scrash _) => apply keeps_crash
    | |- keeps _ (sres _) => apply keeps_res
    | |- keeps _ (sget _) => apply keeps_get
    | |- keeps _ (sopt _) => apply keeps_opt
    | |- keeps _ (stry _) => apply keeps_try
    | |- keeps _ (fun s => ?m (?f s) _ s) => idtac
    | |- keeps _ (match ?x with _ => _ end) => destruct x
    | |- keeps _ (if ?x then _ else _) => destruct x
    | |- keeps _ (let (_, _) := ?x in _) => destruct x
    | |- forall _, _ => intro
    end ].
Ltac keep := repeat keep_step.

Section Same.
Context (cfg : parser_cfg).
Notation ks m := (keeps same_stores m).

Lemma load_loop_same {T} (pred : nat -> token -> option T) fuel : forall idx, ks (load_loop cfg pred fuel idx).
Proof.
  induction fuel as [|f IH]; intros idx q; cbn [load_loop]; [apply same_refl|].
  destruct (next_token (q_lexer q)) as [[out|e] l']; [|now split].
  destruct (pred _ _); [now split|]. destruct (is_eoi _); [now split|].
  eapply same_trans; [|apply IH]. now split.
Qed.
Lemma load_token_same {T} (pred : nat -> token -> option T) : ks (load_token cfg pred).
Proof. intros q. unfold load_token. destruct (q_eoi q); [apply same_refl|apply load_loop_same]. Qed.
Lemma load_skip_same : ks (load_skip_whitespace cfg).
Proof.
  intros q. unfold load_skip_whitespace. pose proof (load_token_same is_not_whitespace q) as H.
  now destruct (load_token _ _ q) as [[[i|]|e|c] q'].
Qed.
Lemma ensure_nnw_same : ks (ensure_nnw cfg).
Proof.
  intros q. unfold ensure_nnw. destruct (find_nnw (q_toks q)); [now split|].
  pose proof (load_skip_same q) as H. now destruct (load_skip_whitespace cfg q) as [[i|e|c] q'].
Qed.
Lemma queue_new_stores l gs : q_local (snd (queue_new cfg l gs)) = cmds_empty /\ q_gs (snd (queue_new cfg l gs)) = gs.
Proof.
  unfold queue_new. pose proof (load_skip_same (mkQueue l [] false 0 cmds_empty gs)) as H.
  destruct (load_skip_whitespace _ _) as [[i|e|c] q']; cbn in *; destruct H; auto.
Qed.
Lemma find_or_load_same {T} (pred : nat -> token -> option T) : ks (find_or_load_after_next cfg pred).
Proof.
  intros q. unfold find_or_load_after_next. destruct (_ <? _)%nat; [|apply same_refl].
  destruct (find_from _ _ _); [apply same_refl|apply load_token_same].
Qed.
Lemma peek_second_same : ks (q_peek_second cfg).
Proof.
  intros q. unfold q_peek_second. pose proof (find_or_load_same is_not_whitespace q) as H.
  now destruct (find_or_load_after_next _ _ q) as [[[i|]|e|c] q'].
Qed.
Lemma q_peek_class_same : ks (q_peek_class cfg).
Proof.
  intros q. unfold q_peek_class. destruct (token_class _); [apply same_refl|].
  pose proof (find_or_load_same has_class q) as H. now destruct (find_or_load_after_next _ _ q) as [[[i|]|e|c] q'].
Qed.
Lemma rejecting_same m : ks m -> ks (fun q => rejecting cfg (m q)).
Proof.
  intros H q. specialize (H q). unfold rejecting. destruct (m q) as [[t|e|c] q']; auto. now destruct (reject_unknown cfg t).
Qed.
Lemma next_unres_same : ks (q_next_unres cfg).
Proof.
  intros q. unfold q_next_unres. destruct (skipn _ _) as [|t r]; [now split|].
  pose proof (ensure_nnw_same (q_set_toks q r)) as H. now destruct (ensure_nnw cfg _) as [[u|e|c] q'].
Qed.
Lemma next_same : ks (q_next cfg).
Proof. apply rejecting_same, next_unres_same. Qed.
Lemma next_any_unres_same : ks (q_next_any_unres cfg).
Proof.
  intros q. unfold q_next_any_unres. destruct (q_toks q) as [|t r]; [now split|]. destruct (q_nnw q); [|now split].
  pose proof (ensure_nnw_same (q_set_toks q r)) as H. now destruct (ensure_nnw cfg _) as [[u|e|c] q'].
Qed.
Lemma next_any_same : ks (q_next_any cfg).
Proof. apply rejecting_same, next_any_unres_same. Qed.
Lemma in_front_same l q : same_stores q (queue_in_front l q).
Proof. now split. Qed.

Lemma record_macro_loop_same fuel : forall n acc, ks (record_macro_loop cfg fuel n acc).
Proof.
  induction fuel as [|f IH]; intros n acc q; [apply same_refl|].
  assert (C : forall m, same_stores q (snd (match q_next_any_unres cfg q with
                        | (Ok _, q') => record_macro_loop cfg f m (acc ++ [q_peek_any q]) q'
                        | (Err e, q') => (Err e, q') | (Crash c, q') => (Crash c, q') end))).
  { intros m. pose proof (next_any_unres_same q) as H. destruct (q_next_any_unres cfg q) as [[t|e|c] q']; auto.
    eapply same_trans; [exact H|apply IH]. }
  cbn [record_macro_loop]. destruct (qt_tok (q_peek_any q)); try apply C; try apply same_refl.
  destruct n; [apply same_refl|apply C].
Qed.
Lemma record_macro_body_same : ks (record_macro_body cfg).
Proof.
  intros q. unfold record_macro_body. pose proof (next_same q) as H. destruct (q_next cfg q) as [[t|e|c] q']; auto.
  eapply same_trans; [exact H|apply record_macro_loop_same].
Qed.
Lemma read_definition_name_same : ks (read_definition_name cfg).
Proof.
  intros q. unfold read_definition_name. pose proof (next_unres_same q) as H.
  destruct (q_next_unres cfg q) as [[t|e|c] q']; auto. destruct (qt_tok t), (qt_name t); exact H.
Qed.
Lemma record_group_loop_same p fuel : forall n acc, ks (record_group_loop cfg p fuel n acc).
Proof.
  induction fuel as [|f IH]; intros n acc q; cbn [record_group_loop]; [apply same_refl|].
  assert (H : same_stores q (snd (if p then q_next_any cfg q else q_next cfg q))) by (destruct p; [apply next_any_same|apply next_same]).
  destruct (if p then _ else _) as [[t|e|c] q']; auto.
  assert (C : forall m l, same_stores q (snd (record_group_loop cfg p f m l q'))).
  { intros m l. eapply same_trans; [exact H|apply IH]. }
  destruct (qt_tok t); try apply C; try exact H. destruct n; [exact H|apply C].
Qed.
Lemma record_group_same p : ks (record_group cfg p).
Proof. intros q. apply record_group_loop_same. Qed.
Lemma read_argument_same p : ks (read_argument cfg p).
Proof.
  intros q. unfold read_argument. pose proof (next_same q) as H. destruct (q_next cfg q) as [[t|e|c] q']; auto.
  assert (G : same_stores q (snd (record_group cfg p q'))) by (eapply same_trans; [exact H|apply record_group_same]).
  destruct (qt_tok (if p then q_peek q else t)); try exact H. now destruct (record_group cfg p q') as [[[l s]|e|c] q2].
Qed.
Lemma read_args_loop_same n : forall k a, ks (read_args_loop cfg n k a).
Proof.
  induction n as [|n IH]; intros k a q; cbn [read_args_loop]; [apply same_refl|].
  pose proof (next_same q) as H. destruct (q_next cfg q) as [[t|e|c] q']; auto.
  assert (C : forall m l q2, same_stores q q2 -> same_stores q (snd (read_args_loop cfg n m l q2))).
  { intros m l q2 H2. eapply same_trans; [exact H2|apply IH]. }
  pose proof (same_trans _ _ _ H (record_group_same true q')) as G.
  destruct (qt_tok t); try (now apply C); try exact H. destruct (record_group cfg true q') as [[[l s]|e|c] q2]; auto.
Qed.
Lemma read_cmd_args_same n : ks (read_cmd_args cfg n).
Proof. apply read_args_loop_same. Qed.
Lemma queue_body_same l a sp q : same_stores q (queue_body l a sp q).
Proof. now split. Qed.
Lemma queue_stored_body_same src a b args sp q : same_stores q (snd (queue_stored_body cfg src a b args sp q)).
Proof. unfold queue_stored_body. destruct (q_body cfg q src a b) as [[|t l]|]; now split. Qed.
Lemma queue_arg_same l sp q : same_stores q (queue_arg l sp q).
Proof. now split. Qed.

(** Leaf readers *)
Ltac keep_more :=
  first
  [ apply next_same | apply next_any_same | apply next_unres_same | apply peek_second_same | apply read_argument_same
  | apply record_macro_body_same | apply read_definition_name_same
  | keep_step ].
Ltac keepm := repeat keep_more.

Lemma string_literal_same : ks (parse_string_literal cfg).
Proof. unfold parse_string_literal. keepm. Qed.
Lemma digits_loop_same fuel : forall acc, ks (digits_loop cfg fuel acc).
Proof.
  induction fuel as [|f IH]; intros acc; cbn [digits_loop]; keepm; try apply IH.
Qed.
Lemma read_digits_same d : ks (read_digits cfg d).
Proof. intros q. apply digits_loop_same. Qed.
Lemma letters_loop_same v fuel : forall acc, ks (letters_loop cfg v fuel acc).
Proof. induction fuel as [|f IH]; intros acc; cbn [letters_loop]; keepm; try apply IH. Qed.
Lemma merge_letters_same tf : ks (merge_letters cfg tf).
Proof.
  intros q. unfold merge_letters. destruct tf as [v|]; [|apply same_refl].
  match goal with |- same_stores _ (snd (?m q)) => enough (H : ks m) by apply H end. keepm. apply letters_loop_same.
Qed.
Lemma primes_loop_same fuel : forall acc, ks (primes_loop cfg fuel acc).
Proof. induction fuel as [|f IH]; intros acc; cbn [primes_loop]; keepm; try apply IH. Qed.
Lemma read_primes_same k : ks (read_primes cfg k).
Proof. intros q. apply primes_loop_same. Qed.
Lemma kern_digits_same fuel : forall b acc st en, ks (kern_digits cfg fuel b acc st en).
Proof. induction fuel as [|f IH]; intros b acc st en; cbn [kern_digits]; keepm; try apply IH. Qed.
Lemma kern_same k n : ks (parse_kern_or_skip cfg k n).
Proof.
  unfold parse_kern_or_skip. keepm.
  all: first [intros q; apply kern_digits_same | idtac].
Qed.
Lemma color_type_loop_same sp fuel : forall acc, ks (color_type_loop cfg fuel sp acc).
Proof. induction fuel as [|f IH]; intros acc; cbn [color_type_loop]; keepm; try apply IH. Qed.
Lemma color_same sp : ks (parse_color cfg sp).
Proof.
  unfold parse_color. keepm; try apply string_literal_same. intros q. apply color_type_loop_same.
Qed.
Lemma text_loop_same m fuel : forall s, ks (text_loop cfg m fuel s).
Proof.
  induction fuel as [|f IH]; intros s; cbn [text_loop]; keepm; try apply string_literal_same; try apply IH.
Qed.
Lemma text_same m st vo : ks (extract_text cfg m st vo).
Proof. intros q. apply text_loop_same. Qed.
Lemma skip_spaces_same fuel : ks (skip_spaces cfg fuel).
Proof. induction fuel as [|f IH]; cbn [skip_spaces]; keepm. Qed.
Lemma param_loop_same fuel : forall n, ks (param_loop cfg fuel n).
Proof. induction fuel as [|f IH]; intros n; cbn [param_loop]; keepm; try apply IH. Qed.
Lemma read_num_args_same : ks (read_num_args cfg).
Proof. unfold read_num_args. keepm. Qed.
Lemma read_definition_body_same : ks (read_definition_body cfg).
Proof. unfold read_definition_body. keepm. Qed.
End Same.

(** ** Any relation kept by definitions and the numbering *)

Section Rel.
Context (cfg : parser_cfg) (usize_max : N) (R : queue -> queue -> Prop)
  (Rtrans : forall a b c, R a b -> R b c -> R a c)
  (Rsame : forall a b, same_stores a b -> R a b)
  (Rdef : forall n args body cl rep g, keeps R (q_define cfg n args body cl rep g))
  (Rrow : forall q ne is_last info ne' count labels,
      finish_row usize_max ne (gs_count (q_gs q)) (gs_labels (q_gs q)) is_last = Some (info, ne', count, labels) ->
      R q (q_set_stores q (q_local q) (mkGs count labels (gs_cmds (q_gs q))))).
Let Rrefl a : R a a := Rsame a a (same_refl a).

Lemma from_same {A} (m : St queue A) : keeps same_stores m -> keeps R m.
Proof. intros H q. apply Rsame, H. Qed.

Ltac rel_step :=
  first
  [ assumption
  | apply Rdef
  | match goal with
    | |- keeps R (sbind _ _) => apply (keeps_bind R Rtrans); [|intros ?]
    | |- keeps R (match ?x with _ => _ end) => destruct x
    | |- keeps R (if ?x then _ else _) => destruct x
    | |- keeps R (let (_, _) := ?x in _) => destruct x
    | |- keeps R (sret _) => apply (keeps_ret R Rrefl)
    | |- keeps R (sfail _ _) => apply (keeps_fail R Rrefl)
    | |- keeps R (scrash _) => apply (keeps_crash R Rrefl)
    | |- keeps R (sres _) => apply (keeps_res R Rrefl)
    | |- keeps R (sget _) => apply (keeps_get R Rrefl)
    end
  | apply from_same; first [ apply next_same | apply next_any_same | apply next_unres_same | apply read_num_args_same
      | apply read_definition_body_same | apply record_macro_body_same | apply read_definition_name_same ]
  | apply from_same; intros ?; first [apply skip_spaces_same | apply param_loop_same] ].
Ltac rel := repeat rel_step.

Lemma define_command_rel m : keeps R (define_command cfg m).
Proof. unfold define_command. rel. Qed.
Lemma def_command_rel g : keeps R (def_command cfg g).
Proof. unfold def_command. rel. Qed.
Lemma let_command_rel g : keeps R (let_command cfg g).
Proof. unfold let_command. rel. Qed.
Lemma global_loop_rel fuel : keeps R (global_loop cfg fuel).
Proof. induction fuel as [|f IH]; cbn [global_loop]; rel; [apply let_command_rel|apply def_command_rel]. Qed.
Lemma global_prefix_rel : keeps R (global_prefix cfg).
Proof. intros q. apply global_loop_rel. Qed.

Definition Rp (a b : pstate) : Prop := R (ps_queue a) (ps_queue b).
Lemma Rp_trans a b c : Rp a b -> Rp b c -> Rp a c.
Proof. apply Rtrans. Qed.
Lemma Rp_refl a : Rp a a.
Proof. apply Rrefl. Qed.
Lemma on_queue_rel {A} (m : St queue A) : keeps R m -> keeps Rp (on_queue m).
Proof. intros H s. unfold on_queue, Rp. specialize (H (ps_queue s)). now destruct (m (ps_queue s)). Qed.
Lemma on_view_rel f : keeps Rp (on_view f).
Proof. intros s. apply Rrefl. Qed.
Lemma on_pure_rel f : (forall q, same_stores q (f q)) -> keeps Rp (on_queue_pure f).
Proof. intros H s. unfold Rp. cbn. apply Rsame, H. Qed.
Lemma view_rel : keeps Rp view.
Proof. intros s. apply Rrefl. Qed.

Ltac relp_step :=
  first
  [ assumption
  | match goal with
    | |- keeps Rp (sbind _ _) => apply (keeps_bind Rp Rp_trans); [|intros ?]
    | |- keeps Rp (match ?x with _ => _ end) => destruct x
    | |- keeps Rp (if ?x then _ else _) => destruct x
    | |- keeps Rp (let (_, _) := ?x in _) => destruct x
    | |- keeps Rp (sret _) => apply (keeps_ret Rp Rp_refl)
    | |- keeps Rp (sfail _ _) => apply (keeps_fail Rp Rp_refl)
    | |- keeps Rp (scrash _) => apply (keeps_crash Rp Rp_refl)
    | |- keeps Rp (sres _) => apply (keeps_res Rp Rp_refl)
    | |- keeps Rp (sget _) => apply (keeps_get Rp Rp_refl)
    | |- keeps Rp (on_view _) => apply on_view_rel
    | |- keeps Rp view => apply view_rel
    | |- keeps Rp (on_queue (sget _)) => apply on_queue_rel, (keeps_get R Rrefl)
    end
  | apply on_queue_rel, from_same; first [ apply next_same | apply next_any_same | apply q_peek_class_same | apply read_cmd_args_same ] ].
Ltac relp := repeat relp_step.

Lemma next_tok_rel : keeps Rp (next_tok cfg).
Proof. unfold next_tok. relp. Qed.
Lemma count_rel sp : keeps Rp (count_expansion sp).
Proof. unfold count_expansion. relp. Qed.
Lemma record_row_rel ne is_last sp : keeps Rp (record_row usize_max ne is_last sp).
Proof.
  intros s. unfold record_row, sbind, sget. destruct (finish_row _ _ _ _ _) as [[[[info ne'] count] labels]|] eqn:E; [|apply Rp_refl].
  cbn. unfold Rp. cbn. exact (Rrow _ _ _ _ _ _ _ E).
Qed.

Lemma exec_rel {A} (o : op A) : keeps Rp (exec cfg usize_max o).
Proof.
  destruct o; cbn [exec]; relp; try apply next_tok_rel; try apply on_view_rel;
    try (apply on_queue_rel, from_same; intros q0;
         first [ apply merge_letters_same | apply read_digits_same | apply read_primes_same
               | apply string_literal_same | apply read_argument_same | apply kern_same | apply color_same | apply text_same ]);
    try (apply on_queue_rel; first [apply define_command_rel | apply def_command_rel | apply let_command_rel | apply global_prefix_rel]).
  - unfold peek_class. relp.
  - unfold expand. relp; [apply count_rel|]. apply on_pure_rel. intros q. apply queue_body_same.
  - unfold expand_ref. relp; [apply count_rel|]. apply on_queue_rel, from_same. intros q.
    pose proof (queue_stored_body_same cfg src start stop a0 sp q) as H. now destruct (queue_stored_body _ _ _ _ _ _ _).
  - apply on_pure_rel. intros q. apply in_front_same.
  - unfold math_choice. relp. apply on_pure_rel. intros q. apply queue_arg_same.
  - apply on_pure_rel. intros q. apply in_front_same.
  - unfold new_row. relp; try apply next_tok_rel; try apply record_row_rel.
  - unfold env_end. relp. apply record_row_rel.
Qed.

Lemma run_rel fuel : forall A (p : prog A), keeps Rp (run cfg usize_max fuel p).
Proof.
  induction fuel as [|f IH]; intros A p.
  - induction p as [b|e|c|B o k IHk|B c k IHk]; intros s; try apply Rp_refl.
    cbn. pose proof (exec_rel o s) as H. destruct (exec cfg usize_max o s) as [[a|e|c] s']; auto.
    eapply Rp_trans; [exact H|]. apply (IHk a s').
  - induction p as [b|e|c|B o k IHk|B c k IHk]; intros s; try apply Rp_refl.
    + cbn. pose proof (exec_rel o s) as H. destruct (exec cfg usize_max o s) as [[a|e|c] s']; auto.
      eapply Rp_trans; [exact H|]. apply (IHk a s').
    + cbn. pose proof (IH _ (body c) s) as H. destruct (run cfg usize_max f (body c) s) as [[a|e|cr] s']; auto.
      eapply Rp_trans; [exact H|]. apply (IHk a s').
Qed.
End Rel.
