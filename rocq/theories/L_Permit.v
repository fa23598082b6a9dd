(** What settings that allow more change. *)
From Verif Require Import Str M_SuperChar M_Transform M_Length M_Spec M_Ast M_Token M_Symbols M_Commands M_Env
  M_LatexError M_Lexer M_CustomCmds M_Queue M_Spacing M_Leaf M_TextParser M_Parser M_Output M_Emit M_Api S_Api S_Permit L_Wp L_Ends.

Section Permit.
Context (custom : custom_cmds) (i1 i2 ur gg cv : bool) (n1 d : nat) (le_i : i1 = true -> i2 = true).
Notation a := (mkCfg custom i1 ur gg cv n1).
Notation b := (mkCfg custom i2 ur gg cv (n1 + d)).

(** ** The queue *)

Definition refused (e : latex_error) : Prop :=
  (i1 = false /\ i2 = true) /\ ((exists n, err_kind_of e = E_UnknownCommand n) \/ err_kind_of e = E_ExpectedArgumentGotEOI).
Definition less {A} (m m' : St queue A) : Prop := forall q, m q = m' q \/ exists e q', m q = (Err e, q') /\ refused e.
Lemma less_same {A} (m m' : St queue A) : m = m' -> less m m'.
Proof. intros -> q. now left. Qed.
Lemma less_bind {A B} (m m' : St queue A) (k k' : A -> St queue B) : less m m' -> (forall x, less (k x) (k' x)) -> less (sbind m k) (sbind m' k').
Proof.
  intros Hm Hk q. unfold sbind. destruct (Hm q) as [<-|(e & q' & -> & R)]; [|right; now exists e, q'].
  destruct (m q) as [[x|e|c] q']; [apply Hk|now left|now left].
Qed.
(** The calls in the queue spell out the monad. *)
Lemma less_match {A B} (m m' : St queue A) (k k' : A -> St queue B) : less m m' -> (forall x, less (k x) (k' x)) -> forall q,
  (match m q with (Ok x, q') => k x q' | (Err e, q') => (Err e, q') | (Crash c, q') => (Crash c, q') end) =
  (match m' q with (Ok x, q') => k' x q' | (Err e, q') => (Err e, q') | (Crash c, q') => (Crash c, q') end) \/
  exists e q', (match m q with (Ok x, q') => k x q' | (Err e, q') => (Err e, q') | (Crash c, q') => (Crash c, q') end) = (Err e, q') /\ refused e.
Proof. intros Hm Hk q. exact (less_bind m m' k k' Hm Hk q). Qed.

Lemma rejecting_step (r : res qtok * queue) : rejecting a r = rejecting b r \/
  exists t n q', r = (Ok t, q') /\ qt_tok t = T_UnresolvedCommand n /\ rejecting a r = (Err (mkErr (qt_span t) (E_UnknownCommand n)), q') /\ rejecting b r = (Ok t, q') /\ i1 = false /\ i2 = true.
Proof.
  destruct r as [[t|e|c] q']; [|now left|now left]. unfold rejecting, reject_unknown. cbn [pc_ignore_unknown].
  destruct (qt_tok t) eqn:E; try (left; reflexivity). destruct i1, i2; try (left; reflexivity); [specialize (le_i eq_refl); discriminate|].
  right. exists t. eexists _, q'. repeat split. exact E.
Qed.
Lemma next_step q : q_next a q = q_next b q \/
  exists t n q', qt_tok t = T_UnresolvedCommand n /\ q_next a q = (Err (mkErr (qt_span t) (E_UnknownCommand n)), q') /\ q_next b q = (Ok t, q') /\ i1 = false /\ i2 = true.
Proof.
  unfold q_next. change (q_next_unres b q) with (q_next_unres a q). destruct (rejecting_step (q_next_unres a q)) as [H|(t & n & q' & _ & E & H)]; [now left|]. right. exists t, n, q'. now split.
Qed.
Lemma next_less : less (q_next a) (q_next b).
Proof. intros q. destruct (next_step q) as [H|(t & n & q' & E & H & _ & I)]; [now left|]. right. eexists _, q'. split; [exact H|]. split; [exact I|]. left. now exists n. Qed.
Lemma next_any_less : less (q_next_any a) (q_next_any b).
Proof.
  intros q. unfold q_next_any. change (q_next_any_unres b q) with (q_next_any_unres a q). destruct (rejecting_step (q_next_any_unres a q)) as [H|(t & n & q' & _ & E & H & _ & I)]; [now left|].
  right. eexists _, q'. split; [exact H|]. split; [exact I|]. left. now exists n.
Qed.
Lemma next_unres_less : less (q_next_unres a) (q_next_unres b).
Proof. apply less_same. reflexivity. Qed.
Lemma next_any_unres_less : less (q_next_any_unres a) (q_next_any_unres b).
Proof. apply less_same. reflexivity. Qed.
Lemma record_macro_loop_less fuel : forall n acc, less (record_macro_loop a fuel n acc) (record_macro_loop b fuel n acc).
Proof.
  induction fuel as [|f IH]; intros n acc; [now apply less_same|]. intros q. cbn [record_macro_loop]. cbv zeta.
  pose proof (fun m => less_match _ _ (fun _ => record_macro_loop a f m (acc ++ [q_peek_any q])) (fun _ => record_macro_loop b f m (acc ++ [q_peek_any q])) next_any_unres_less (fun _ => IH m _) q) as C.
  destruct (qt_tok (q_peek_any q)); try apply C; try (match goal with |- context [match n with O => _ | S _ => _ end] => destruct n; [now left|apply C] end); now left.
Qed.
Lemma record_macro_body_less : less (record_macro_body a) (record_macro_body b).
Proof. exact (less_match _ _ (fun _ q' => record_macro_loop a (S (q_size q')) 0 [] q') (fun _ q' => record_macro_loop b (S (q_size q')) 0 [] q') next_less (fun _ q' => record_macro_loop_less _ _ _ q')). Qed.
Lemma read_definition_name_less : less (read_definition_name a) (read_definition_name b).
Proof. apply less_same. reflexivity. Qed.
Lemma record_group_loop_less p fuel : forall n acc, less (record_group_loop a p fuel n acc) (record_group_loop b p fuel n acc).
Proof.
  induction fuel as [|f IH]; intros n acc; [now apply less_same|]. intros q. cbn [record_group_loop].
  assert (H : less (fun q => if p then q_next_any a q else q_next a q) (fun q => if p then q_next_any b q else q_next b q)) by (destruct p; [exact next_any_less|exact next_less]).
  refine (less_match _ _ (fun t q' => match qt_tok t with T_GroupBegin => _ | T_GroupEnd => _ | T_Eoi => _ | _ => _ end) (fun t q' => match qt_tok t with T_GroupBegin => _ | T_GroupEnd => _ | T_Eoi => _ | _ => _ end) H _ q).
  intros t q'. destruct (qt_tok t); try apply IH; try (match goal with |- context [match n with O => _ | S _ => _ end] => destruct n; [now left|apply IH] end); now left.
Qed.
Lemma record_group_less p : less (record_group a p) (record_group b p).
Proof. intros q. apply record_group_loop_less. Qed.
Lemma read_argument_less p : less (read_argument a p) (read_argument b p).
Proof.
  intros q. unfold read_argument.
  refine (less_match _ _ (fun t q' => let first := if p then q_peek q else t in match qt_tok first with T_GroupBegin => _ | _ => _ end) (fun t q' => let first := if p then q_peek q else t in match qt_tok first with T_GroupBegin => _ | _ => _ end) next_less _ q).
  intros t q'. cbv zeta. destruct (qt_tok (if p then q_peek q else t)); try (lazymatch goal with |- context [record_group a] => fail | _ => now left end).
  exact (less_match _ _ (fun (ls : list qtok * nat) q2 => let (l, stop) := ls in (Ok (MaGroup (map qt_tokspan l) (mkSpan (sp_start (qt_span (if p then q_peek q else t))) stop)), q2)) (fun (ls : list qtok * nat) q2 => let (l, stop) := ls in (Ok (MaGroup (map qt_tokspan l) (mkSpan (sp_start (qt_span (if p then q_peek q else t))) stop)), q2)) (record_group_less p) (fun ls => less_same _ _ eq_refl) q').
Qed.
Lemma read_args_loop_less n : forall k x, less (read_args_loop a n k x) (read_args_loop b n k x).
Proof.
  induction n as [|n IH]; intros k x; [now apply less_same|]. intros q. cbn [read_args_loop].
  refine (less_match _ _ (fun t q' => match qt_tok t with T_GroupBegin => _ | T_Eoi => _ | _ => _ end) (fun t q' => match qt_tok t with T_GroupBegin => _ | T_Eoi => _ | _ => _ end) next_less _ q).
  intros t q'. destruct (qt_tok t); try apply IH; try (lazymatch goal with |- context [record_group a] => fail | _ => now left end).
  exact (less_match _ _ (fun (ls : list qtok * nat) q2 => let (l, _) := ls in read_args_loop a n (S k) (args_finish (args_append x l) k) q2) (fun (ls : list qtok * nat) q2 => let (l, _) := ls in read_args_loop b n (S k) (args_finish (args_append x l) k) q2) (record_group_less true) (fun ls => match ls with (_, _) => fun q2 => IH _ _ q2 end) q').
Qed.
Lemma read_cmd_args_less n : less (read_cmd_args a n) (read_cmd_args b n).
Proof. apply read_args_loop_less. Qed.
Lemma define_less n args body cl rep g : less (q_define a n args body cl rep g) (q_define b n args body cl rep g).
Proof. apply less_same. reflexivity. Qed.

(** ** Leaf readers *)
Ltac less_step :=
  match goal with
  | H : less ?m ?k |- less ?m ?k => exact H
  | |- less (sbind _ _) (sbind _ _) => apply less_bind; [|intros ?]
  | |- less (q_next _) _ => exact next_less
  | |- less (q_next_any _) _ => exact next_any_less
  | |- less (q_next_unres _) _ => exact next_unres_less
  | |- less (read_argument _ _) _ => apply read_argument_less
  | |- less (record_macro_body _) _ => exact record_macro_body_less
  | |- less (read_definition_name _) _ => exact read_definition_name_less
  | |- less (q_define _ _ _ _ _ _ _) _ => apply define_less
  | |- less (sret _) _ => now apply less_same
  | |- less (sfail _ _) _ => now apply less_same
  | |- less (scrash _) _ => now apply less_same
  | |- less (sres _) _ => now apply less_same
  | |- less (sget _) _ => now apply less_same
  | |- less (sopt _) _ => now apply less_same
  | |- less (match ?x with _ => _ end) _ => destruct x
  | |- less (if ?x then _ else _) _ => destruct x
  | |- less (let (_, _) := ?x in _) _ => destruct x
  | |- forall _, _ => intro
  end.
Ltac lesss := repeat less_step.
Lemma string_literal_less : less (parse_string_literal a) (parse_string_literal b).
Proof. unfold parse_string_literal. lesss. Qed.
Lemma peek_second_less : less (q_peek_second a) (q_peek_second b).
Proof. apply less_same. reflexivity. Qed.
Lemma digits_loop_less fuel : forall acc, less (digits_loop a fuel acc) (digits_loop b fuel acc).
Proof. induction fuel as [|f IH]; intros acc; cbn [digits_loop]; lesss; first [apply IH|apply peek_second_less|idtac]; lesss; apply IH. Qed.
Lemma read_digits_less x : less (read_digits a x) (read_digits b x).
Proof. intros q. apply digits_loop_less. Qed.
Lemma letters_loop_less v fuel : forall acc, less (letters_loop a v fuel acc) (letters_loop b v fuel acc).
Proof. induction fuel as [|f IH]; intros acc; cbn [letters_loop]; cbv zeta; lesss; apply IH. Qed.
Lemma merge_letters_less tf : less (merge_letters a tf) (merge_letters b tf).
Proof.
  intros q. unfold merge_letters. destruct tf as [v|]; [|now left].
  match goal with |- ?m q = ?m' q \/ _ => enough (H : less m m') by apply H end. lesss. apply letters_loop_less.
Qed.
Lemma primes_loop_less fuel : forall acc, less (primes_loop a fuel acc) (primes_loop b fuel acc).
Proof. induction fuel as [|f IH]; intros acc; cbn [primes_loop]; lesss; apply IH. Qed.
Lemma read_primes_less k : less (read_primes a k) (read_primes b k).
Proof. intros q. apply primes_loop_less. Qed.
Lemma kern_digits_less fuel : forall y acc st en, less (kern_digits a fuel y acc st en) (kern_digits b fuel y acc st en).
Proof. induction fuel as [|f IH]; intros y acc st en; cbn [kern_digits]; cbv zeta; lesss; apply IH. Qed.
Lemma kern_less k n : less (parse_kern_or_skip a k n) (parse_kern_or_skip b k n).
Proof.
  unfold parse_kern_or_skip. cbv zeta. apply less_bind; [now apply less_same|]. intros t. apply less_bind; [lesss|]. intros [start stop].
  apply less_bind; [intros q; apply kern_digits_less|]. intros x. lesss.
Qed.
Lemma color_type_loop_less sp fuel : forall acc, less (color_type_loop a fuel sp acc) (color_type_loop b fuel sp acc).
Proof.
  induction fuel as [|f IH]; intros acc; [now apply less_same|]. intros q. cbn [color_type_loop]. unfold sbind, stry.
  destruct (next_step q) as [->|(t & n & q' & E & -> & -> & _)]; [|left; cbn [option_map]; now rewrite E].
  destruct (q_next b q) as [[t|e|c] q']; [|now left|now left]. cbn [option_map]. destruct (qt_tok t); try (lazymatch goal with |- context [sopt] => fail | _ => now left end).
  unfold sopt. destruct (sc_chars _); [apply IH|now left].
Qed.
Lemma color_less sp : less (parse_color a sp) (parse_color b sp).
Proof.
  unfold parse_color. apply less_bind; [now apply less_same|]. intros t. destruct (qt_tok t); try (solve [apply less_bind; [apply string_literal_less|intros ?; lesss]]).
  apply less_bind; [exact next_less|intros _]. apply less_bind; [intros q; apply color_type_loop_less|intros type_name].
  - intros q. unfold sbind, stry. destruct (string_literal_less q) as [->|(e & q' & -> & [I _])].
    + destruct (parse_string_literal b q) as [[[desc sp']|e|c] q']; now left.
    + right. eexists _, q'. split; [reflexivity|]. split; [exact I|]. now right.
Qed.
Lemma text_loop_less m fuel : forall s, less (text_loop a m fuel s) (text_loop b m fuel s).
Proof.
  induction fuel as [|f IH]; intros s; cbn [text_loop]; (destruct (tx_styles s) as [|[[? st] vo] ?]; [now apply less_same|]); [now apply less_same|].
  apply less_bind; [destruct m; lesss|]. intros t. destruct (text_token_step _ _ _ _ _); lesss; first [apply string_literal_less|apply IH].
Qed.
Lemma text_less m st vo : less (extract_text a m st vo) (extract_text b m st vo).
Proof. intros q. apply text_loop_less. Qed.
Lemma skip_spaces_less fuel : less (skip_spaces a fuel) (skip_spaces b fuel).
Proof. induction fuel as [|f IH]; cbn [skip_spaces]; lesss. Qed.
Lemma param_loop_less fuel : forall n, less (param_loop a fuel n) (param_loop b fuel n).
Proof. induction fuel as [|f IH]; intros n; cbn [param_loop]; lesss; apply IH. Qed.
Lemma read_num_args_less : less (read_num_args a) (read_num_args b).
Proof. unfold read_num_args. lesss. Qed.
Lemma read_definition_body_less : less (read_definition_body a) (read_definition_body b).
Proof. unfold read_definition_body. lesss. Qed.
Lemma define_command_less m : less (define_command a m) (define_command b m).
Proof. unfold define_command. cbv zeta. lesss; first [apply read_num_args_less|apply read_definition_body_less]. Qed.
Lemma def_command_less g : less (def_command a g) (def_command b g).
Proof. unfold def_command. lesss; intros q; first [apply skip_spaces_less|apply param_loop_less]. Qed.
Lemma let_command_less g : less (let_command a g) (let_command b g).
Proof. unfold let_command. lesss. Qed.
Lemma global_loop_less fuel : less (global_loop a fuel) (global_loop b fuel).
Proof. induction fuel as [|f IH]; cbn [global_loop]; lesss; first [apply let_command_less|apply def_command_less]. Qed.
Lemma global_prefix_less : less (global_prefix a) (global_prefix b).
Proof. intros q. apply global_loop_less. Qed.

(** ** Operations *)

(** The state with more expansions left. *)
Definition up (s : pstate) : pstate := mkPs (ps_queue s) (pv_set_left (pv_left (ps_view s) + d) (ps_view s)).
Definition lost (e : latex_error) : Prop := refused e \/ (err_kind_of e = E_TooManyExpansions /\ d <> O).
Definition plift {A} (m m' : St pstate A) : Prop :=
  forall s, m' (up s) = (fst (m s), up (snd (m s))) \/ exists e s', m s = (Err e, s') /\ lost e.
Lemma plift_bind {A B} (m m' : St pstate A) (k k' : A -> St pstate B) : plift m m' -> (forall x, plift (k x) (k' x)) -> plift (sbind m k) (sbind m' k').
Proof.
  intros Hm Hk s. unfold sbind. destruct (Hm s) as [->|(e & s' & -> & R)]; [|right; now exists e, s'].
  destruct (m s) as [[x|e|c] s']; cbn [fst snd]; [apply Hk|now left|now left].
Qed.
Lemma plift_queue {A} (m m' : St queue A) : less m m' -> plift (on_queue m) (on_queue m').
Proof.
  intros H s. unfold on_queue. cbn [up ps_queue]. destruct (H (ps_queue s)) as [<-|(e & q' & -> & R)]; [left; now destruct (m (ps_queue s))|].
  right. exists e. eexists. split; [reflexivity|now left].
Qed.
Lemma plift_ret {A} (x : A) : plift (sret x) (sret x).
Proof. intros s. now left. Qed.
Lemma plift_fail {A} sp k : plift (@sfail _ A sp k) (sfail sp k).
Proof. intros s. now left. Qed.
Lemma plift_view f : (forall v n, f (pv_set_left n v) = pv_set_left n (f v)) -> (forall v, pv_left (f v) = pv_left v) -> plift (on_view f) (on_view f).
Proof. intros H1 H2 s. left. unfold on_view, up. cbn [ps_queue ps_view fst snd]. now rewrite H1, H2. Qed.
Lemma plift_seen {A} (k k' : pview -> St pstate A) : (forall v n, plift (k v) (k' (pv_set_left n v))) -> plift (sbind view k) (sbind view k').
Proof. intros H s. unfold sbind, view, sget. cbn [up ps_view]. apply H. Qed.
Lemma plift_get_queue {A} (k k' : queue -> St pstate A) : (forall q, plift (k q) (k' q)) -> plift (sbind (sget ps_queue) k) (sbind (sget ps_queue) k').
Proof. intros H s. unfold sbind, sget. cbn [up ps_queue]. apply H. Qed.
Lemma count_lift sp : plift (count_expansion sp) (count_expansion sp).
Proof.
  intros s. unfold count_expansion, sbind, view, sget. cbn [up ps_view pv_set_left pv_left]. destruct (pv_left (ps_view s)) as [|n] eqn:E.
  - destruct d as [|d'] eqn:Ed.
    + left. unfold sfail, up. cbn [fst snd plus]. rewrite E. cbn [plus]. now rewrite Ed.
    + right. eexists _, s. split; [reflexivity|]. right. split; [reflexivity|]. now rewrite Ed.
  - left. reflexivity.
Qed.
Ltac lift_step :=
  match goal with
  | |- plift (sbind view _) _ => apply plift_seen; intros ? ?; cbn [pv_set_left pv_transform pv_hack pv_env pv_style pv_vld]
  | |- plift (sbind (sget ps_queue) _) _ => apply plift_get_queue; intros ?
  | |- plift (sbind _ _) _ => apply plift_bind; [|intros ?]
  | |- plift (sret _) _ => apply plift_ret
  | |- plift (sfail _ _) _ => apply plift_fail
  | |- plift (count_expansion _) _ => apply count_lift
  | |- plift (on_view _) _ => apply plift_view; reflexivity
  | |- plift (on_queue_pure _) _ => apply plift_queue; now apply less_same
  | |- plift (on_queue (sget _)) _ => apply plift_queue; now apply less_same
  | |- plift (on_queue (merge_letters _ _)) _ => apply plift_queue, merge_letters_less
  | |- plift (on_queue (read_digits _ _)) _ => apply plift_queue, read_digits_less
  | |- plift (on_queue (read_primes _ _)) _ => apply plift_queue, read_primes_less
  | |- plift (on_queue (parse_string_literal _)) _ => apply plift_queue, string_literal_less
  | |- plift (on_queue (read_argument _ _)) _ => apply plift_queue, read_argument_less
  | |- plift (on_queue (parse_kern_or_skip _ _ _)) _ => apply plift_queue, kern_less
  | |- plift (on_queue (parse_color _ _)) _ => apply plift_queue, color_less
  | |- plift (on_queue (extract_text _ _ _ _)) _ => apply plift_queue, text_less
  | |- plift (on_queue (define_command _ _)) _ => apply plift_queue, define_command_less
  | |- plift (on_queue (def_command _ _)) _ => apply plift_queue, def_command_less
  | |- plift (on_queue (let_command _ _)) _ => apply plift_queue, let_command_less
  | |- plift (on_queue (global_prefix _)) _ => apply plift_queue, global_prefix_less
  | |- plift (on_queue (q_next _)) _ => apply plift_queue, next_less
  | |- plift (on_queue (q_next_any _)) _ => apply plift_queue, next_any_less
  | |- plift (on_queue (q_peek_class _)) _ => apply plift_queue; now apply less_same
  | |- plift (on_queue (read_cmd_args _ _)) _ => apply plift_queue, read_cmd_args_less
  | |- plift (on_queue (fun _ => _)) _ => apply plift_queue; now apply less_same
  | |- plift (match ?x with _ => _ end) _ => destruct x
  | |- plift (let x := _ in _) _ => cbv zeta
  end.
Context (usize_max : N).
Lemma exec_lift {A} (o : op A) : match o with OView => False | _ => True end -> plift (exec a usize_max o) (exec b usize_max o).
Proof.
  destruct o; intros N; try (now destruct N); cbn [exec]; unfold next_tok, peek_class, math_choice, new_row, env_end, record_row, next_tok, expand, expand_ref; repeat lift_step.
Qed.

(** ** Programs do not look at the number of expansions left *)
Fixpoint blind {B} (p : prog B) : Prop :=
  match p with
  | Do o k => (forall x, blind (k x)) /\ match o in op A return (A -> prog B) -> Prop with OView => fun k => forall v n, k (pv_set_left n v) = k v | _ => fun _ => True end k
  | Call c k => forall x, blind (k x)
  | _ => True
  end.
Lemma blind_bind {A B} (p : prog A) (f : A -> prog B) : blind p -> (forall x, blind (f x)) -> blind (pbind p f).
Proof.
  intros Hp Hf. induction p as [x|e|c|C o k IH|C c k IH]; cbn [pbind blind] in *; auto. destruct Hp as [H1 H2]. split; [intros x; apply IH, H1|].
  destruct o; try exact I. intros v n. now rewrite H2.
Qed.
Lemma blind_res {B} (r : res B) : blind (pres r).
Proof. now destruct r. Qed.
Lemma blind_view {B} (k : pview -> prog B) : (forall v n, k (pv_set_left n v) = k v) -> (forall v, blind (k v)) -> blind (Do OView k).
Proof. intros H1 H2. now split. Qed.
Lemma blind_do {A B} (o : op A) (k : A -> prog B) : match o with OView => False | _ => True end -> (forall x, blind (k x)) -> blind (Do o k).
Proof. intros N H. split; [exact H|]. now destruct o. Qed.
Lemma blind_call {A B} (c : call A) (k : A -> prog B) : (forall x, blind (k x)) -> blind (Call c k).
Proof. auto. Qed.
Ltac bl :=
  repeat match goal with
    | |- blind (pbind _ _) => apply blind_bind; [|intros ?]
    | |- blind (pres _) => apply blind_res
    | |- blind (Do OView _) => apply blind_view; [intros [] ?; reflexivity|intros ?]
    | |- blind (Do _ _) => apply blind_do; [exact Logic.I|intros ?]
    | |- blind (Call _ _) => apply blind_call; intros ?
    | |- blind (fail _ _) => exact Logic.I
    | |- blind (Ret _) => exact Logic.I
    | |- blind (Stop _) => exact Logic.I
    | |- blind (match ?x with _ => _ end) => destruct x
    | |- blind (let x := _ in _) => cbv zeta
    | |- blind ((fun _ => _) _) => cbv beta
    end.
Lemma parse_next_blind x : blind (parse_next x).
Proof. unfold parse_next. bl. Qed.
Lemma seq_if_blind x sp e p k : blind (seq_if_in_sequence x sp e p k).
Proof. unfold seq_if_in_sequence. bl. Qed.
Lemma mathop_spacing_blind x p e : blind (parse_mathop_spacing x p e).
Proof. unfold parse_mathop_spacing. bl. Qed.
Lemma get_bounds_blind f : blind (get_bounds f).
Proof. unfold get_bounds. bl. Qed.
Lemma script_node_blind : blind script_node.
Proof. unfold script_node. bl. Qed.
Lemma prime_script_blind k : blind (prime_script k).
Proof. unfold prime_script. bl. apply script_node_blind. Qed.
Lemma get_bounds_arg_blind : blind get_bounds_arg.
Proof. unfold get_bounds_arg. bl; first [apply get_bounds_blind|apply parse_next_blind]. Qed.
Lemma genfrac_delimiter_blind : blind genfrac_delimiter.
Proof. unfold genfrac_delimiter. bl. Qed.
Lemma fence_delimiter_blind m : blind (fence_delimiter m).
Proof. unfold fence_delimiter. bl. Qed.
Ltac bls := repeat (bl; match goal with
  | |- blind (parse_next _) => apply parse_next_blind
  | |- blind (seq_if_in_sequence _ _ _ _ _) => apply seq_if_blind
  | |- blind (parse_mathop_spacing _ _ _) => apply mathop_spacing_blind
  | |- blind (get_bounds _) => apply get_bounds_blind
  | |- blind script_node => apply script_node_blind
  | |- blind (prime_script _) => apply prime_script_blind
  | |- blind get_bounds_arg => apply get_bounds_arg_blind
  | |- blind genfrac_delimiter => apply genfrac_delimiter_blind
  | |- blind (fence_delimiter _) => apply fence_delimiter_blind
  end).
Lemma tok_body_blind t x p : blind (tok_body t x p).
Proof. unfold tok_body. bls. Qed.
Lemma body_blind A (c : call A) : blind (body c).
Proof. destruct c; cbn [body]; [unfold seq_body|unfold loop_body|apply tok_body_blind|unfold bounds_body]; bls. Qed.

Lemma run_lift f : forall A (p : prog A), blind p -> plift (run a usize_max f p) (run b usize_max f p).
Proof.
  induction f as [|f IH]; intros A p; induction p as [x|e|c|B o k IHk|B c k IHk]; intros Bp s; try (now left).
  1, 2: rewrite !run_do; destruct Bp as [Bk Bv];
    (assert (K : (match o with OView => False | _ => True end) \/ (match o with OView => True | _ => False end)) by (destruct o; auto);
     destruct K as [K|K];
     [destruct (exec_lift o K s) as [->|(e & s' & -> & L)]; [|right; now exists e, s'];
      destruct (exec a usize_max o s) as [[x|e|c] s']; cbn [fst snd]; [apply IHk, Bk|now left|now left]
     |destruct o; try (now destruct K); cbn [exec]; unfold view, sget; cbn [up ps_view]; rewrite Bv; apply IHk, Bk]).
  - rewrite !run_call. destruct (IH _ (body c) (body_blind _ c) s) as [->|(e & s' & -> & L)]; [|right; now exists e, s'].
    destruct (run a usize_max f (body c) s) as [[x|e|cr] s']; cbn [fst snd]; [apply IHk, Bp|now left|now left].
Qed.
Lemma snippet_lift f gs input st : parse_snippet a usize_max f gs input st = parse_snippet b usize_max f gs input st \/
  exists e gs', parse_snippet a usize_max f gs input st = (Err e, gs') /\ lost e.
Proof.
  unfold parse_snippet, parser_new. change (queue_new b (lexer_new input) gs) with (queue_new a (lexer_new input) gs).
  destruct (queue_new a (lexer_new input) gs) as [[u|e|c] q]; try (now left). cbn [pc_max_expansions]. unfold parse_all.
  destruct (run_lift f _ _ (body_blind _ (CSeq (SeqEnd EtEoi) ClOpen true)) (mkPs q (mkPv None false env_state_default st None n1))) as [H|(e & s' & -> & L)].
  - change (up (mkPs q (mkPv None false env_state_default st None n1))) with (mkPs q (mkPv None false env_state_default st None (n1 + d))) in H. rewrite H.
    left. now destruct (run a usize_max f _ _) as [r s'].
  - right. eexists e, _. split; [reflexivity|exact L].
Qed.
End Permit.

(** ** Converters *)

Lemma parsed_lift a b um f gs input st : permits a b ->
  parse_snippet a um f gs input st = parse_snippet b um f gs input st \/
  exists sp k gs', parse_snippet a um f gs input st = (Err (mkErr sp k), gs') /\ lifted a b k.
Proof.
  destruct a as [c1 i1 u1 g1 v1 n1], b as [c2 i2 u2 g2 v2 n2]. intros (H1 & H2 & H3 & H4 & H5 & H6). cbn [pc_custom pc_ignore_unknown pc_allow_unreliable pc_global_group pc_conventional pc_max_expansions] in *. subst c2 u2 g2 v2.
  replace n2 with (n1 + (n2 - n1))%nat by lia.
  destruct (snippet_lift c1 i1 i2 u1 g1 v1 n1 (n2 - n1) H5 um f gs input st) as [H|([sp k] & gs' & H & L)]; [now left|]. right. exists sp, k, gs'. split; [exact H|].
  unfold lost, refused in L. cbn [err_kind_of] in L. destruct L as [[I [[n ->]| ->]]|[-> D]]; cbn [lifted pc_ignore_unknown pc_max_expansions]; [exact I|exact I|lia].
Qed.
Section Converters.
Context (um : N) (f : nat) (a b : parser_cfg) (P : permits a b).
Lemma convert_lift ec gs latex d : convert um f ec a gs latex d = convert um f ec b gs latex d \/ lifted_res a b (fst (convert um f ec a gs latex d)).
Proof.
  unfold convert, parse. destruct (parsed_lift a b um f gs latex (display_style d) P) as [->|(sp & k & gs' & -> & L)]; [now left|]. right. cbn [fst]. now exists sp, k.
Qed.
Lemma each_lift l : forall gs, parse_each um f a gs l = parse_each um f b gs l \/ exists r, In r (fst (parse_each um f a gs l)) /\ lifted_res a b (fst (fst r)).
Proof.
  induction l as [|[latex d] l IH]; intros gs; cbn [parse_each]; [now left|]. unfold parse.
  destruct (parsed_lift a b um f gs latex (display_style d) P) as [->|(sp & k & gs' & -> & L)].
  - destruct (parse_snippet b um f gs latex (display_style d)) as [r gs1]. destruct (IH gs1) as [->|(x & I & L)]; [now left|].
    right. exists x. destruct (parse_each um f a gs1 l) as [rs gs2]. split; [right; exact I|exact L].
  - right. destruct (parse_each um f a gs' l) as [rs gs2]. eexists. split; [left; reflexivity|]. now exists sp, k.
Qed.
Lemma all_lift c l : convert_all um f (with_parser c a) l = convert_all um f (with_parser c b) l \/ exists r, In r (convert_all um f (with_parser c a) l) /\ lifted_res a b r.
Proof.
  unfold convert_all. cbn [with_parser cv_parser cv_emitter]. destruct (each_lift l gs_default) as [->|(x & I & L)]; [now left|].
  right. destruct (parse_each um f a gs_default l) as [asts gs]. exists (emit_result (cv_emitter c) (gs_labels gs) x). split; [now apply in_map|].
  destruct x as [[r latex] d], L as (sp & k & E & L). cbn [fst] in E. subst r. now exists sp, k.
Qed.
Lemma step_lift c x : (fst (api_step um f (with_parser c a) x) = fst (api_step um f (with_parser c b) x) /\
    exists c', snd (api_step um f (with_parser c a) x) = with_parser c' a /\ snd (api_step um f (with_parser c b) x) = with_parser c' b) \/
  lifted_reply a b (fst (api_step um f (with_parser c a) x)).
Proof.
  destruct x as [latex d|latex d|l|]; cbn [api_step].
  - unfold convert_with_global_state. cbn [with_parser cv_emitter cv_parser cv_state].
    destruct (convert_lift (cv_emitter c) (cv_state c) latex d) as [->|L].
    + left. destruct (convert um f (cv_emitter c) b (cv_state c) latex d) as [r gs]. split; [reflexivity|]. exists (cv_set_state c gs). now split.
    + right. now destruct (convert um f (cv_emitter c) a (cv_state c) latex d).
  - unfold convert_with_local_state. cbn [with_parser cv_emitter cv_parser cv_state].
    destruct (convert_lift (cv_emitter c) gs_default latex d) as [->|L]; [left; split; [reflexivity|]; now exists c|now right].
  - destruct (all_lift c l) as [E|L]; [left; cbn [fst snd]; rewrite E; split; [reflexivity|]; now exists c|right; exact L].
  - left. split; [reflexivity|]. exists (reset_global_state c). now split.
Qed.
Lemma run_lifted calls : forall c, (replies um f (with_parser c a) calls = replies um f (with_parser c b) calls /\
    exists c', after um f (with_parser c a) calls = with_parser c' a /\ after um f (with_parser c b) calls = with_parser c' b) \/
  exists r, In r (replies um f (with_parser c a) calls) /\ lifted_reply a b r.
Proof.
  unfold replies, after. induction calls as [|x calls IH]; intros c; cbn [api_run]; [left; split; [reflexivity|]; now exists c|].
  destruct (step_lift c x) as [[E (c' & E1 & E2)]|L].
  - destruct (api_step um f (with_parser c a) x) as [r1 ca], (api_step um f (with_parser c b) x) as [r2 cb]. cbn [fst snd] in *. subst r2 ca cb.
    specialize (IH c'). destruct (api_run um f (with_parser c' a) calls) as [rs1 c1], (api_run um f (with_parser c' b) calls) as [rs2 c2]. cbn [fst snd] in *.
    destruct IH as [[-> H]|(r & I & L)]; [left; now split|]. right. exists r. split; [now right|exact L].
  - right. destruct (api_step um f (with_parser c a) x) as [r1 ca]. destruct (api_run um f ca calls) as [rs1 c1]. exists r1. split; [now left|exact L].
Qed.
End Converters.
Lemma new_lift a b : allows a b ->
  match converter_new a, converter_new b with
  | NewOk x, NewOk y => y = with_parser x (cv_parser y) /\ permits (cv_parser x) (cv_parser y)
  | NewErr e, NewErr e' => e = e'
  | NewCrash c, NewCrash c' => c = c'
  | _, _ => False
  end.
Proof.
  intros (H1 & H2 & H3 & H4 & H5 & H6 & H7). unfold converter_new. rewrite <- H1, <- H2, <- H4.
  destruct (parse_custom_commands _ _ _) as [cmds|e|c]; [|reflexivity|reflexivity]. unfold with_parser, permits. cbn. rewrite H3, H5. repeat split; assumption.
Qed.
