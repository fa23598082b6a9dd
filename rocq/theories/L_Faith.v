(** What is read leaves the names that were typed with their meanings. *)
From Verif Require Import Str M_SuperChar M_Transform M_Length M_Spec M_Ast M_Token M_Symbols M_Commands M_Env
  M_LatexError M_Lexer M_CustomCmds M_Queue M_Spacing M_Colors M_Leaf M_TextParser M_Parser
  S_SuperChar S_Transform S_Lexer S_Queue S_Store S_Names S_Run L_SuperChar L_Lexer L_Queue L_Args L_Store L_Sound L_Define L_Meaning L_Keep L_Reads L_Leaf L_Text L_Defs L_Wp L_Names.
Local Open Scope nat_scope.

Section Faith.
Context (cfg : parser_cfg).
Notation faithful := (faithful cfg).
Notation faithful_tok := (faithful_tok cfg).

Lemma faithful_tok_same q q' t : same_stores q q' -> faithful_tok q t -> faithful_tok q' t.
Proof. intros [H1 H2]. unfold S_Names.faithful_tok, q_meaning, q_resolve. now rewrite H1, H2. Qed.
Lemma faithful_same q q' : same_stores q q' -> incl (q_toks q') (q_toks q) -> faithful q -> faithful q'.
Proof.
  intros H I F. apply Forall_forall. intros t T. apply (faithful_tok_same q _ _ H). exact (proj1 (Forall_forall _ _) F t (I t T)).
Qed.
Definition calls_faith (a b : queue) : Prop := same_stores a b /\ (faithful a -> faithful b).
Notation kf m := (keeps calls_faith m).
Lemma cf_refl a : calls_faith a a.
Proof. split; [apply same_refl|auto]. Qed.
Lemma cf_trans a b c : calls_faith a b -> calls_faith b c -> calls_faith a c.
Proof. intros [H1 H2] [H3 H4]. split; [eapply same_trans; eassumption|auto]. Qed.
Lemma cf_less a b : same_stores a b -> incl (q_toks b) (q_toks a) -> calls_faith a b.
Proof. intros H I. split; [exact H|]. now apply faithful_same. Qed.

Lemma resolve_lexed_faith q o : faithful_tok q (resolve_lexed cfg q o).
Proof. destruct o as [[t sp]|n sp]; [exact I|]. cbn. destruct (q_meaning cfg q n); now left. Qed.
Lemma load_loop_faith {T} (pred : nat -> token -> option T) fuel : forall idx, kf (load_loop cfg pred fuel idx).
Proof.
  induction fuel as [|f IH]; intros idx q; cbn [load_loop]; [apply cf_refl|].
  destruct (next_token (q_lexer q)) as [[out|e] l']; [|apply cf_less; [now split|intros x X; exact X]].
  assert (A : calls_faith q (q_set_toks (q_set_lexer q l') (q_toks q ++ [resolve_lexed cfg q out]))).
  { split; [now split|]. intros F. apply Forall_app. split; [exact F|]. constructor; [apply (faithful_tok_same q); [now split|apply resolve_lexed_faith]|constructor]. }
  destruct (pred _ _); [exact A|]. destruct (is_eoi _); [exact A|]. eapply cf_trans; [exact A|apply IH].
Qed.
Lemma load_token_faith {T} (pred : nat -> token -> option T) : kf (load_token cfg pred).
Proof. intros q. unfold load_token. destruct (q_eoi q); [apply cf_refl|apply load_loop_faith]. Qed.
Lemma load_skip_faith : kf (load_skip_whitespace cfg).
Proof.
  intros q. unfold load_skip_whitespace. pose proof (load_token_faith is_not_whitespace q) as H.
  now destruct (load_token _ _ q) as [[[i|]|e|c] q'].
Qed.
Lemma ensure_nnw_faith : kf (ensure_nnw cfg).
Proof.
  intros q. unfold ensure_nnw. destruct (find_nnw (q_toks q)); [apply cf_less; [now split|intros x X; exact X]|].
  pose proof (load_skip_faith q) as H. now destruct (load_skip_whitespace cfg q) as [[i|e|c] q'].
Qed.
Lemma queue_new_faith l gs : faithful (snd (queue_new cfg l gs)).
Proof.
  unfold queue_new. pose proof (load_skip_faith (mkQueue l [] false 0 cmds_empty gs)) as H.
  destruct H as [_ H]. specialize (H (Forall_nil _)). now destruct (load_skip_whitespace _ _) as [[i|e|c] q'].
Qed.
Lemma find_or_load_faith {T} (pred : nat -> token -> option T) : kf (find_or_load_after_next cfg pred).
Proof.
  intros q. unfold find_or_load_after_next. destruct (_ <? _)%nat; [|apply cf_refl].
  destruct (find_from _ _ _); [apply cf_refl|apply load_token_faith].
Qed.
Lemma peek_second_faith : kf (q_peek_second cfg).
Proof.
  intros q. unfold q_peek_second. pose proof (find_or_load_faith is_not_whitespace q) as H.
  now destruct (find_or_load_after_next _ _ q) as [[[i|]|e|c] q'].
Qed.
Lemma q_peek_class_faith : kf (q_peek_class cfg).
Proof.
  intros q. unfold q_peek_class. destruct (token_class _); [apply cf_refl|].
  pose proof (find_or_load_faith has_class q) as H. now destruct (find_or_load_after_next _ _ q) as [[[i|]|e|c] q'].
Qed.
(** The tokens that are read have their meanings. *)
Definition gives_faith (m : St queue qtok) : Prop :=
  forall q, calls_faith q (snd (m q)) /\ forall t, fst (m q) = Ok t -> faithful q -> faithful_tok q t.
Lemma gives_keeps m : gives_faith m -> kf m.
Proof. intros H q. apply H. Qed.
Lemma rejecting_faith m : gives_faith m -> gives_faith (fun q => rejecting cfg (m q)).
Proof.
  intros H q. specialize (H q). unfold rejecting. destruct (m q) as [[t|e|c] q']; auto. cbn [fst snd] in H. destruct (reject_unknown cfg t); [|auto].
  split; [apply H|discriminate].
Qed.
Lemma incl_skip {A} (l : list A) n t r : skipn n l = t :: r -> In t l /\ incl r l.
Proof.
  intros E. rewrite <- (firstn_skipn n l), E. split; [apply in_or_app; right; now left|]. intros x X. apply in_or_app. right. now right.
Qed.
Lemma in_math_refl t : in_math t t.
Proof. destruct t; now left. Qed.
Lemma in_math_unwrap m t : in_math m t -> in_math m (unwrap_math t).
Proof.
  induction m; cbn [in_math]; intros [H|H]; try easy; try (subst; now left); try (right; auto; fail).
  subst. cbn. right. apply in_math_refl.
Qed.
Lemma faithful_unwrap q t : faithful_tok q t -> faithful_tok q (qt_unwrap t).
Proof.
  unfold S_Names.faithful_tok, qt_unwrap. destruct t as [tok sp [n|]]; [|auto]. cbn. apply in_math_unwrap.
Qed.
Lemma next_unres_faith : gives_faith (q_next_unres cfg).
Proof.
  intros q. unfold q_next_unres. destruct (skipn _ _) as [|t r] eqn:E.
  { split; [apply cf_less; [now split|intros x []]|]. intros t X. apply (f_equal (fun r => match r with Ok x => x | _ => t end)) in X. cbn in X. subst t. intros _. exact I. }
  apply incl_skip in E as [E1 E2].
  assert (A : calls_faith q (q_set_toks q r)) by (apply cf_less; [now split|exact E2]).
  pose proof (cf_trans _ _ _ A (ensure_nnw_faith (q_set_toks q r))) as H. destruct (ensure_nnw cfg _) as [[u|e|c] q']; split; try exact H; try discriminate.
  intros t' X F. apply (f_equal (fun r => match r with Ok x => x | _ => t end)) in X. cbn [fst] in X. subst t'. apply faithful_unwrap. exact (proj1 (Forall_forall _ _) F t E1).
Qed.
Lemma next_faith_tok : gives_faith (q_next cfg).
Proof. apply rejecting_faith, next_unres_faith. Qed.
Lemma next_faith : kf (q_next cfg).
Proof. apply gives_keeps, next_faith_tok. Qed.
Lemma next_any_unres_faith : gives_faith (q_next_any_unres cfg).
Proof.
  intros q. unfold q_next_any_unres. destruct (q_toks q) as [|t r] eqn:E.
  { split; [apply cf_refl|]. intros t X. apply (f_equal (fun r => match r with Ok x => x | _ => t end)) in X. cbn in X. subst t. intros _. exact I. }
  assert (A : calls_faith q (q_set_toks q r)) by (apply cf_less; [now split|rewrite E; intros x X; now right]).
  assert (B : forall u, @Ok qtok t = Ok u -> faithful q -> faithful_tok q u).
  { intros u X F. apply (f_equal (fun r => match r with Ok x => x | _ => t end)) in X. subst u. unfold S_Names.faithful in F. rewrite E in F. now inversion F. }
  destruct (q_nnw q).
  - pose proof (cf_trans _ _ _ A (ensure_nnw_faith (q_set_toks q r))) as H. destruct (ensure_nnw cfg _) as [[u|e|c] q']; split; try exact H; try discriminate. exact B.
  - split; [|exact B]. eapply cf_trans; [exact A|]. apply cf_less; [now split|intros x X; exact X].
Qed.
Lemma next_any_faith_tok : gives_faith (q_next_any cfg).
Proof. apply rejecting_faith, next_any_unres_faith. Qed.
Lemma next_any_faith : kf (q_next_any cfg).
Proof. apply gives_keeps, next_any_faith_tok. Qed.

Lemma find_nnw_toks q l : faithful q -> Forall (faithful_tok q) l -> faithful (queue_in_front l q).
Proof. intros F H. unfold S_Names.faithful, queue_in_front, update_nnw. cbn. apply Forall_app. split; [exact H|exact F]. Qed.
Lemma record_macro_loop_faith fuel : forall n acc, kf (record_macro_loop cfg fuel n acc).
Proof.
  induction fuel as [|f IH]; intros n acc q; [apply cf_refl|].
  assert (C : forall m, calls_faith q (snd (match q_next_any_unres cfg q with
                        | (Ok _, q') => record_macro_loop cfg f m (acc ++ [q_peek_any q]) q'
                        | (Err e, q') => (Err e, q') | (Crash c, q') => (Crash c, q') end))).
  { intros m. pose proof (gives_keeps _ next_any_unres_faith q) as H. destruct (q_next_any_unres cfg q) as [[t|e|c] q']; auto.
    eapply cf_trans; [exact H|apply IH]. }
  cbn [record_macro_loop]. destruct (qt_tok (q_peek_any q)); try apply C; try apply cf_refl.
  destruct n; [apply cf_refl|apply C].
Qed.
Lemma record_macro_body_faith : kf (record_macro_body cfg).
Proof.
  intros q. unfold record_macro_body. pose proof (next_faith q) as H. destruct (q_next cfg q) as [[t|e|c] q']; auto.
  eapply cf_trans; [exact H|apply record_macro_loop_faith].
Qed.
Lemma read_definition_name_faith : kf (read_definition_name cfg).
Proof.
  intros q. unfold read_definition_name. pose proof (gives_keeps _ next_unres_faith q) as H.
  destruct (q_next_unres cfg q) as [[t|e|c] q']; auto. destruct (qt_tok t), (qt_name t); exact H.
Qed.
Lemma record_group_loop_faith p fuel : forall n acc, kf (record_group_loop cfg p fuel n acc).
Proof.
  induction fuel as [|f IH]; intros n acc q; cbn [record_group_loop]; [apply cf_refl|].
  assert (H : calls_faith q (snd (if p then q_next_any cfg q else q_next cfg q))) by (destruct p; [apply next_any_faith|apply next_faith]).
  destruct (if p then _ else _) as [[t|e|c] q']; auto.
  assert (C : forall m l, calls_faith q (snd (record_group_loop cfg p f m l q'))).
  { intros m l. eapply cf_trans; [exact H|apply IH]. }
  destruct (qt_tok t); try apply C; try exact H. destruct n; [exact H|apply C].
Qed.
Lemma record_group_faith p : kf (record_group cfg p).
Proof. intros q. apply record_group_loop_faith. Qed.
Lemma read_argument_faith p : kf (read_argument cfg p).
Proof.
  intros q. unfold read_argument. pose proof (next_faith q) as H. destruct (q_next cfg q) as [[t|e|c] q']; auto.
  assert (G : calls_faith q (snd (record_group cfg p q'))) by (eapply cf_trans; [exact H|apply record_group_faith]).
  destruct (qt_tok (if p then q_peek q else t)); try exact H. now destruct (record_group cfg p q') as [[[l s]|e|c] q2].
Qed.

Definition all_faith (q : queue) (a : cmd_args) : Prop := Forall (faithful_tok q) (ca_tokens a).
Lemma record_group_loop_toks p fuel : forall n acc q l e, faithful q -> Forall (faithful_tok q) acc ->
  fst (record_group_loop cfg p fuel n acc q) = Ok (l, e) -> Forall (faithful_tok q) l.
Proof.
  induction fuel as [|f IH]; intros n acc q l e F A; cbn [record_group_loop]; [discriminate|].
  assert (M : exists m, gives_faith m /\ (if p then q_next_any cfg q else q_next cfg q) = m q).
  { destruct p; [exists (q_next_any cfg); split; [apply next_any_faith_tok|reflexivity]|exists (q_next cfg); split; [apply next_faith_tok|reflexivity]]. }
  destruct M as (m & H & ->). specialize (H q). destruct (m q) as [[t|er|c] q']; try discriminate. cbn [fst snd] in H. destruct H as [[S1 H1] H2]. specialize (H2 t eq_refl F).
  assert (C : forall j, fst (record_group_loop cfg p f j (acc ++ [t]) q') = Ok (l, e) -> Forall (faithful_tok q) l).
  { intros j X. apply IH in X; [|now apply H1|].
    - eapply Forall_impl; [|exact X]. intros u U. apply (faithful_tok_same q'); [destruct S1; now split|exact U].
    - apply Forall_app. split; [|constructor; [|constructor]].
      + eapply Forall_impl; [|exact A]. intros u. now apply faithful_tok_same.
      + now apply (faithful_tok_same q). }
  destruct (qt_tok t); try apply C; try discriminate. destruct n; [|apply C].
  intros X. apply (f_equal (fun r => match r with Ok x => fst x | _ => [] end)) in X. cbn [fst] in X. now subst.
Qed.
Lemma read_args_loop_faith n : forall k a q, calls_faith q (snd (read_args_loop cfg n k a q)) /\
  forall a', fst (read_args_loop cfg n k a q) = Ok a' -> faithful q -> all_faith q a -> all_faith q a'.
Proof.
  induction n as [|n IH]; intros k a q; cbn [read_args_loop].
  { split; [apply cf_refl|]. intros a' X. apply (f_equal (fun r => match r with Ok x => x | _ => a end)) in X. cbn [fst] in X. now subst. }
  pose proof (next_faith_tok q) as H. destruct (q_next cfg q) as [[t|e|c] q']; cbn [fst snd] in H |- *; try (split; [apply H|discriminate]).
  destruct H as [H1 H2]. specialize (H2 t eq_refl).
  assert (C : forall l q2, calls_faith q q2 -> (faithful q -> Forall (faithful_tok q) l) ->
    let b := args_finish (args_append a l) k in
    calls_faith q (snd (read_args_loop cfg n (S k) b q2)) /\
    forall a', fst (read_args_loop cfg n (S k) b q2) = Ok a' -> faithful q -> all_faith q a -> all_faith q a').
  { intros l q2 K L b. destruct (IH (S k) b q2) as [I1 I2]. split; [eapply cf_trans; eassumption|].
    intros a' X F A. destruct K as [S1 K]. specialize (I2 a' X (K F)).
    eapply Forall_impl; [|apply I2].
    - intros u U. apply (faithful_tok_same q2); [destruct S1; now split|exact U].
    - unfold all_faith. cbn. apply Forall_app. split; (eapply Forall_impl; [|first [exact A|exact (L F)]]); intros u; now apply faithful_tok_same. }
  assert (Single : calls_faith q (snd (read_args_loop cfg n (S k) (args_finish (args_append a [t]) k) q')) /\
    forall a', fst (read_args_loop cfg n (S k) (args_finish (args_append a [t]) k) q') = Ok a' -> faithful q -> all_faith q a -> all_faith q a').
  { apply C; [exact H1|]. intros F. constructor; [now apply H2|constructor]. }
  destruct (qt_tok t); try exact Single; try (split; [exact H1|discriminate]).
  pose proof (cf_trans _ _ _ H1 (record_group_faith true q')) as G.
  assert (L : forall l e, fst (record_group cfg true q') = Ok (l, e) -> faithful q -> Forall (faithful_tok q) l).
  { intros l e X F. destruct H1 as [S1 H1]. pose proof (record_group_loop_toks true _ 0 [] q' l e (H1 F) (Forall_nil _) X) as K.
    eapply Forall_impl; [|exact K]. intros u U. apply (faithful_tok_same q'); [destruct S1; now split|exact U]. }
  destruct (record_group cfg true q') as [[[l s]|e|c] q2]; cbn [fst snd] in G |- *; try (split; [exact G|discriminate]).
  apply C; [exact G|]. exact (L l s eq_refl).
Qed.
Lemma read_cmd_args_faith n q a q' : read_cmd_args cfg n q = (Ok a, q') -> faithful q -> same_stores q q' /\ faithful q' /\ all_faith q' a.
Proof.
  intros E F. destruct (read_args_loop_faith n 0 args_clear q) as [H1 H2]. unfold read_cmd_args in E. rewrite E in H1, H2.
  destruct H1 as [S1 H1]. split; [exact S1|]. split; [now apply H1|]. specialize (H2 a eq_refl F (Forall_nil _)).
  eapply Forall_impl; [|exact H2]. intros u. now apply faithful_tok_same.
Qed.

Ltac keep_step :=
  first
  [ apply cf_refl
  | assumption
  | match goal with
    | |- keeps _ (sbind _ _) => apply keeps_bind; [exact cf_trans| |intros ?]
    | |- keeps _ (sret _) => apply keeps_ret
    | |- keeps _ (sfail _ _) => apply keeps_fail
    | |- keeps _ (scrash _) => apply keeps_crash
    | |- keeps _ (sres _) => apply keeps_res
    | |- keeps _ (sget _) => apply keeps_get
    | |- keeps _ (sopt _) => apply keeps_opt
    | |- keeps _ (stry _) => apply keeps_try
    | |- keeps _ (match ?x with _ => _ end) => destruct x
    | |- keeps _ (if ?x then _ else _) => destruct x
    | |- keeps _ (let (_, _) := ?x in _) => destruct x
    | |- forall _, _ => intro
    end ].

(** Leaf readers *)
Ltac keep_more :=
  first
  [ apply next_faith | apply next_any_faith | apply (gives_keeps _ next_unres_faith) | apply peek_second_faith | apply read_argument_faith
  | apply record_macro_body_faith | apply read_definition_name_faith
  | keep_step ].
Ltac keepm := repeat keep_more.

Lemma string_literal_faith : kf (parse_string_literal cfg).
Proof. unfold parse_string_literal. keepm. Qed.
Lemma digits_loop_faith fuel : forall acc, kf (digits_loop cfg fuel acc).
Proof.
  induction fuel as [|f IH]; intros acc; cbn [digits_loop]; keepm; try apply IH.
Qed.
Lemma read_digits_faith d : kf (read_digits cfg d).
Proof. intros q. apply digits_loop_faith. Qed.
Lemma letters_loop_faith v fuel : forall acc, kf (letters_loop cfg v fuel acc).
Proof. induction fuel as [|f IH]; intros acc; cbn [letters_loop]; keepm; try apply IH. Qed.
Lemma merge_letters_faith tf : kf (merge_letters cfg tf).
Proof.
  intros q. unfold merge_letters. destruct tf as [v|]; [|apply cf_refl].
  match goal with |- calls_faith _ (snd (?m q)) => enough (H : kf m) by apply H end. keepm. apply letters_loop_faith.
Qed.
Lemma primes_loop_faith fuel : forall acc, kf (primes_loop cfg fuel acc).
Proof. induction fuel as [|f IH]; intros acc; cbn [primes_loop]; keepm; try apply IH. Qed.
Lemma read_primes_faith k : kf (read_primes cfg k).
Proof. intros q. apply primes_loop_faith. Qed.
Lemma kern_digits_faith fuel : forall b acc st en, kf (kern_digits cfg fuel b acc st en).
Proof. induction fuel as [|f IH]; intros b acc st en; cbn [kern_digits]; keepm; try apply IH. Qed.
Lemma kern_faith k n : kf (parse_kern_or_skip cfg k n).
Proof.
  unfold parse_kern_or_skip. keepm.
  all: first [intros q; apply kern_digits_faith | idtac].
Qed.
Lemma color_type_loop_faith sp fuel : forall acc, kf (color_type_loop cfg fuel sp acc).
Proof. induction fuel as [|f IH]; intros acc; cbn [color_type_loop]; keepm; try apply IH. Qed.
Lemma color_faith sp : kf (parse_color cfg sp).
Proof.
  unfold parse_color. keepm; try apply string_literal_faith. intros q. apply color_type_loop_faith.
Qed.
Lemma text_loop_faith m fuel : forall s, kf (text_loop cfg m fuel s).
Proof.
  induction fuel as [|f IH]; intros s; cbn [text_loop]; keepm; try apply string_literal_faith; try apply IH.
Qed.
Lemma text_faith m st vo : kf (extract_text cfg m st vo).
Proof. intros q. apply text_loop_faith. Qed.
Lemma skip_spaces_faith fuel : kf (skip_spaces cfg fuel).
Proof. induction fuel as [|f IH]; cbn [skip_spaces]; keepm. Qed.
Lemma param_loop_faith fuel : forall n, kf (param_loop cfg fuel n).
Proof. induction fuel as [|f IH]; intros n; cbn [param_loop]; keepm; try apply IH. Qed.
Lemma read_num_args_faith : kf (read_num_args cfg).
Proof. unfold read_num_args. keepm. Qed.
Lemma read_definition_body_faith : kf (read_definition_body cfg).
Proof. unfold read_definition_body. keepm. Qed.

(** ** Definitions *)

Lemma assoc_cons_neq {A} n name (x : A) m : str_eqb n name = false -> assoc_str n ((name, x) :: m) = assoc_str n m.
Proof. intros E. cbn. now rewrite E. Qed.
Lemma assoc_cons_eq {A} name (x : A) m : assoc_str name ((name, x) :: m) = Some x.
Proof. cbn. now rewrite str_eqb_refl. Qed.
Lemma faithful_redefined q q1 name tok : faithful q -> q_toks q1 = q_toks q -> q_meaning cfg q1 name = tok ->
  (forall n, str_eqb n name = false -> q_meaning cfg q1 n = q_meaning cfg q n) ->
  faithful (resolve_buffered_redefined name tok q1).
Proof.
  intros F T N O. unfold S_Names.faithful, resolve_buffered_redefined. cbn [q_set_toks q_toks]. rewrite T. apply Forall_forall. intros t X.
  apply in_map_iff in X as (u & <- & U). pose proof (proj1 (Forall_forall _ _) F u U) as H. unfold S_Names.faithful_tok in *.
  destruct u as [tk sp nm]. cbn [qt_name qt_tok] in *. destruct nm as [n|]; cbn [opt_str_eqb]; [|exact I].
  destruct (str_eqb n name) eqn:E; cbn [qt_with qt_name qt_tok].
  - apply str_eqb_eq in E. subst n. change (q_meaning cfg (q_set_toks q1 _) name) with (q_meaning cfg q1 name). rewrite N. apply in_math_refl.
  - change (q_meaning cfg (q_set_toks q1 _) n) with (q_meaning cfg q1 n). now rewrite (O _ E).
Qed.
Lemma faithful_unknown q q1 name : faithful q -> q_toks q1 = q_toks q -> has_meaning cfg q name = false ->
  (forall n, str_eqb n name = false -> q_meaning cfg q1 n = q_meaning cfg q n) ->
  faithful (resolve_buffered_unknown cfg q1).
Proof.
  intros F T N O. unfold S_Names.faithful, resolve_buffered_unknown. cbn [q_set_toks q_toks]. rewrite T. apply Forall_forall. intros t X.
  apply in_map_iff in X as (u & <- & U). pose proof (proj1 (Forall_forall _ _) F u U) as H. unfold S_Names.faithful_tok in *.
  destruct u as [tk sp nm]. cbn [qt_name qt_tok] in *.
  destruct nm as [n|]; [|cbn [qt_name]; destruct tk; try exact I; now destruct (q_resolve cfg q1 _)].
  assert (M : q_meaning cfg q1 n = q_meaning cfg q n \/ tk = T_UnresolvedCommand n).
  { destruct (str_eqb n name) eqn:E; [|left; now apply O]. apply str_eqb_eq in E. subst n. right.
    unfold has_meaning in N. unfold q_meaning in H. destruct (q_resolve cfg q name); [discriminate|]. exact (in_math_unresolved _ _ H). }
  assert (Known : (exists m, tk = T_UnresolvedCommand m) \/ ((exists m, tk = T_UnresolvedCommand m) -> False)).
  { destruct tk; try (right; intros [? [=]]; fail). left. eauto. }
  destruct Known as [[m ->]|K].
  - assert (m = n).
    { destruct M as [M|M]; [|congruence]. unfold q_meaning in H at 1. destruct (q_resolve cfg q n) eqn:R.
      - pose proof (in_math_known _ _ H (q_resolve_known cfg _ _ _ R)). discriminate.
      - apply in_math_unresolved in H. congruence. }
    subst m. destruct (q_resolve cfg q1 n) eqn:R; cbn [qt_with qt_name qt_tok];
      change (q_meaning cfg (q_set_toks q1 _) n) with (q_meaning cfg q1 n); unfold q_meaning; rewrite R; apply in_math_refl.
  - destruct M as [M|M]; [|exfalso; eauto]. rewrite <- M in H. destruct tk; try exact H. exfalso. eauto.
Qed.
Lemma define_faith q n args body cl (rep g : bool) : faithful q -> (rep = false -> has_meaning cfg q n = false) ->
  faithful (snd (q_define cfg n args body cl rep g q)).
Proof.
  intros F H. unfold q_define.
  assert (Local : forall l, l = cmds_insert_or_replace (q_local q) n args body cl ->
    let q1 := q_set_stores q l (q_gs q) in
    (forall m, str_eqb m n = false -> q_meaning cfg q1 m = q_meaning cfg q m) /\
    exists t, cmds_get l n SrcLocal = Some t /\ q_meaning cfg q1 n = t).
  { intros l -> q1. split.
    - intros m E. unfold q_meaning, q_resolve, resolve_command, cmds_get. cbn [q1 q_set_stores q_local q_gs cmds_insert_or_replace cmds_register cc_map].
      now rewrite assoc_cons_neq.
    - unfold q_meaning, q_resolve, resolve_command, cmds_get. cbn [q1 q_set_stores q_local q_gs cmds_insert_or_replace cmds_register cc_map].
      rewrite assoc_cons_eq. eauto. }
  destruct (g || pc_global_group cfg).
  - destruct (_ && _); [exact F|]. destruct (cmds_insert_or_replace_copy _ _ _ _ _ _) as [d|] eqn:E; [|exact F]. cbn [snd].
    assert (Em : exists x, cc_map d = (n, x) :: cc_map (gs_cmds (q_gs q))).
    { unfold cmds_insert_or_replace_copy, absorb in E. destruct (absorb_loop _ _ _ _); [|discriminate]. injection E as <-. cbn. eauto. }
    destruct Em as (x & Em). set (q1 := q_set_stores _ _ _).
    assert (O : forall m, str_eqb m n = false -> q_meaning cfg q1 m = q_meaning cfg q m).
    { intros m X. unfold q_meaning, q_resolve, resolve_command, cmds_get. cbn [q1 q_set_stores q_local q_gs cmds_remove cc_map gs_set_cmds gs_cmds].
      now rewrite Em, assoc_cons_neq, assoc_filter_other. }
    destruct rep.
    + unfold cmds_get at 1. cbn [gs_set_cmds gs_cmds]. rewrite Em, assoc_cons_eq. apply (faithful_redefined q q1); auto.
      unfold q_meaning, q_resolve, resolve_command, cmds_get. cbn [q1 q_set_stores q_local q_gs cmds_remove cc_map gs_set_cmds gs_cmds].
      now rewrite assoc_remove, Em, assoc_cons_eq.
    + apply (faithful_unknown q q1 n); auto.
  - destruct rep.
    + destruct (Local _ eq_refl) as (O & t & E & M). cbn [snd]. rewrite E. apply (faithful_redefined q); auto.
    + unfold cmds_insert. destruct (cmds_has _ _); [exact F|]. cbn [snd]. destruct (Local _ eq_refl) as (O & t & E & M). apply (faithful_unknown q _ n); auto.
Qed.

(** The readers that do not define anything without a name that was typed. *)
Definition faith_on (a b : queue) : Prop := faithful a -> faithful b.
Lemma fo_refl a : faith_on a a.
Proof. now intros H. Qed.
Lemma fo_trans a b c : faith_on a b -> faith_on b c -> faith_on a c.
Proof. unfold faith_on. auto. Qed.
Lemma fo_of {A} (m : St queue A) : kf m -> keeps faith_on m.
Proof. intros H q. exact (proj2 (H q)). Qed.
Lemma fo_define n args body cl g : keeps faith_on (q_define cfg n args body cl true g).
Proof. intros q F. now apply define_faith. Qed.
Ltac fo_step :=
  first
  [ assumption
  | apply fo_define
  | match goal with
    | |- keeps _ (sbind _ _) => apply (keeps_bind _ fo_trans); [|intros ?]
    | |- keeps _ (match ?x with _ => _ end) => destruct x
    | |- keeps _ (if ?x then _ else _) => destruct x
    | |- keeps _ (let (_, _) := ?x in _) => destruct x
    | |- keeps _ (sret _) => apply (keeps_ret _ fo_refl)
    | |- keeps _ (sfail _ _) => apply (keeps_fail _ fo_refl)
    | |- keeps _ (scrash _) => apply (keeps_crash _ fo_refl)
    | |- keeps _ (sres _) => apply (keeps_res _ fo_refl)
    | |- keeps _ (sget _) => apply (keeps_get _ fo_refl)
    end
  | apply fo_of; first [ apply next_faith | apply next_any_faith | apply (gives_keeps _ next_unres_faith) | apply read_num_args_faith
      | apply read_definition_body_faith | apply record_macro_body_faith | apply read_definition_name_faith ]
  | apply fo_of; intros ?; first [apply skip_spaces_faith | apply param_loop_faith] ].
Ltac fo := repeat fo_step.
Lemma def_command_faith g : keeps faith_on (def_command cfg g).
Proof. unfold def_command. fo. Qed.
Lemma let_command_faith g : keeps faith_on (let_command cfg g).
Proof. unfold let_command. fo. Qed.
Lemma global_loop_faith fuel : keeps faith_on (global_loop cfg fuel).
Proof. induction fuel as [|f IH]; cbn [global_loop]; fo; [apply let_command_faith|apply def_command_faith]. Qed.
Lemma global_prefix_faith : keeps faith_on (global_prefix cfg).
Proof. intros q. apply global_loop_faith. Qed.
Lemma definition_rest_faith braced : kf (definition_rest cfg braced).
Proof.
  unfold definition_rest. repeat first [keep_step | apply next_faith | apply read_num_args_faith | apply read_definition_body_faith].
Qed.
Lemma faithful_names q t : faithful_tok q t -> forall n, qt_name t = Some n -> names cfg q t n.
Proof. intros H n E. unfold S_Names.faithful_tok in H. rewrite E in H. now split. Qed.
Lemma reads_faithful q braced t q1 : faithful q -> reads_name cfg q braced t q1 -> forall n, qt_name t = Some n -> names cfg q t n.
Proof.
  intros F (-> & q0 & H0 & H1).
  assert (K0 : calls_faith q q0).
  { destruct (is_group_begin _); [|subst; apply cf_refl]. destruct H0 as (u & E). pose proof (next_faith q) as K. now rewrite E in K. }
  pose proof (next_unres_faith q0) as [_ Kt]. rewrite H1 in Kt. specialize (Kt t eq_refl (proj2 K0 F)).
  apply faithful_names. apply (faithful_tok_same q0); [destruct K0 as [[] _]; now split|exact Kt].
Qed.
Lemma define_command_faith m q : faithful q -> typed_name cfg q -> faithful (snd (define_command cfg m q)).
Proof.
  intros F Ty. set (braced := is_group_begin (qt_tok (q_peek q))).
  destruct ((if braced then q_next cfg ;* sret tt else sret tt) q) as [r q0] eqn:E0.
  assert (K0 : calls_faith q q0).
  { assert (X : kf (if braced then q_next cfg ;* sret tt else sret tt)) by (destruct braced; repeat first [keep_step|apply next_faith]).
    specialize (X q). now rewrite E0 in X. }
  pose proof (next_unres_faith q0) as K1. destruct (q_next_unres cfg q0) as [r1 q1] eqn:E1. cbn [fst snd] in K1. destruct K1 as [K1 Kt].
  assert (Stop : (forall t, r <> Ok tt \/ r1 <> Ok t) -> faithful (snd (define_command cfg m q))).
  { intros N. unfold define_command. unfold sbind at 1, sget at 1. fold braced. unfold sbind at 1. rewrite E0.
    destruct r as [[]|e|c]; [|now apply K0|now apply K0]. unfold sbind at 1. rewrite E1.
    destruct r1 as [t|e|c]; [|apply K1; now apply K0|apply K1; now apply K0]. now destruct (N t). }
  destruct r as [[]|e|c]; [|apply Stop; left; discriminate|apply Stop; left; discriminate].
  destruct r1 as [t|e|c]; [|apply Stop; right; discriminate|apply Stop; right; discriminate]. clear Stop.
  assert (R : reads_name cfg q braced t q1).
  { split; [reflexivity|]. exists q0. split; [|exact E1]. fold braced. destruct braced.
    - unfold sbind in E0. destruct (q_next cfg q) as [[u|e|c] q']; try discriminate. injection E0 as <-. eauto.
    - now injection E0. }
  rewrite (define_parts cfg m q braced t q1 R). pose proof (Ty _ _ _ R) as Named. destruct (qt_name t) as [n|] eqn:En; [|easy].
  assert (F0 : faithful q0) by now apply K0. assert (F1 : faithful q1) by now apply K1.
  assert (Nm : names cfg q1 t n).
  { apply faithful_names; [|exact En]. apply (faithful_tok_same q0); [apply K1|]. now apply Kt. }
  rewrite (target_of cfg m q1 t n Nm).
  assert (Rest : forall (k : nat * (list recorded * option class) -> St queue unit), (forall x q', same_stores q1 q' -> faithful q' -> faithful (snd (k x q'))) ->
    faithful (snd (sbind (definition_rest cfg braced) k q1))).
  { intros k Hk. unfold sbind. pose proof (definition_rest_faith braced q1) as [Ks Kf].
    destruct (definition_rest cfg braced q1) as [[x|e|c] q']; cbn [snd] in *; auto. }
  assert (Def : forall rep, (rep = false -> has_meaning cfg q1 n = false) ->
     faithful (snd (sbind (definition_rest cfg braced) (fun x => let (args, b) := x in let (body, first) := b in
       let* ok := q_define cfg n args body first rep false in if (ok : bool) then sret tt else sfail (qt_span t) E_Internal) q1))).
  { intros rep Hr. apply Rest. intros [args [body cl]] q' S1 F'. unfold sbind.
    assert (D : faithful (snd (q_define cfg n args body cl rep false q'))).
    { apply define_faith; [exact F'|]. intros X. rewrite (meaning_stored cfg q1 q' n); [now apply Hr|]. destruct S1; now split. }
    destruct (q_define _ _ _ _ _ _ _ _) as [[b|e|c] q2]; [|exact D|exact D]. cbn [snd] in D. now destruct b. }
  destruct (has_meaning cfg q1 n) eqn:Hm; destruct m; try exact F1; try (apply Def; easy).
  apply Rest. auto.
Qed.

(** ** Operations and runs *)

Context (usize_max : N).
Definition keeps_p {A} (m : St pstate A) : Prop := forall s, faithful (ps_queue s) -> faithful (ps_queue (snd (m s))).
Lemma kp_queue {A} (m : St queue A) : keeps faith_on m -> keeps_p (on_queue m).
Proof. intros H s F. unfold on_queue. specialize (H (ps_queue s) F). now destruct (m (ps_queue s)). Qed.
Lemma kp_bind {A B} (m : St pstate A) (k : A -> St pstate B) : keeps_p m -> (forall a, keeps_p (k a)) -> keeps_p (sbind m k).
Proof. intros Hm Hk s F. unfold sbind. specialize (Hm s F). destruct (m s) as [[a|e|c] s']; cbn [snd] in *; auto. now apply Hk. Qed.
Lemma kp_same {A} (m : St pstate A) : (forall s, ps_queue (snd (m s)) = ps_queue s) -> keeps_p m.
Proof. intros H s F. now rewrite H. Qed.
Ltac kp :=
  repeat match goal with
  | |- keeps_p (sbind _ _) => apply kp_bind; [|intros ?]
  | |- keeps_p (match ?x with _ => _ end) => destruct x
  | |- keeps_p (sret _) => now apply kp_same
  | |- keeps_p (sfail _ _) => now apply kp_same
  | |- keeps_p (sget _) => now apply kp_same
  | |- keeps_p (on_view _) => now apply kp_same
  | |- keeps_p view => now apply kp_same
  | |- keeps_p (on_queue (q_next _)) => apply kp_queue, fo_of, next_faith
  | |- keeps_p (on_queue (q_next_any _)) => apply kp_queue, fo_of, next_any_faith
  | |- keeps_p (on_queue (q_peek_class _)) => apply kp_queue, fo_of, q_peek_class_faith
  | |- keeps_p (on_queue (sget _)) => now apply kp_same
  end.
Lemma arg_front_faith q l sp : Forall (faithful_tok q) l -> Forall (faithful_tok q) (arg_front l sp).
Proof. intros H. unfold arg_front. destruct l; [|exact H]. repeat constructor. Qed.
Lemma args_get_faith q a n : all_faith q a -> Forall (faithful_tok q) (args_get a n).
Proof.
  intros H. unfold args_get, slice_get. destruct (_ && _); [|constructor]. apply Forall_forall. intros t T.
  apply (proj1 (Forall_forall _ _) H). rewrite <- (firstn_skipn (match n with O => O | S m => nth m (ca_offsets a) O end) (ca_tokens a)).
  apply in_or_app. right. rewrite <- (firstn_skipn (nth n (ca_offsets a) (length (ca_tokens a)) - match n with O => O | S m => nth m (ca_offsets a) O end) (skipn _ _)).
  apply in_or_app. now left.
Qed.
Lemma body_token_faith q a sp t : all_faith q a -> Forall (faithful_tok q) (body_token a sp t).
Proof. intros H. destruct t; try (repeat constructor; fail). apply arg_front_faith, args_get_faith, H. Qed.
Lemma flat_faith {A} q (f : A -> list qtok) l : (forall x, Forall (faithful_tok q) (f x)) -> Forall (faithful_tok q) (flat_map f l).
Proof. intros H. induction l as [|x l IH]; cbn; [constructor|]. apply Forall_app. now split. Qed.
Lemma cmd_args_then {B} n (k : cmd_args -> St pstate B) : (forall a s, faithful (ps_queue s) -> all_faith (ps_queue s) a -> faithful (ps_queue (snd (k a s)))) ->
  keeps_p (let* a := on_queue (read_cmd_args cfg n) in k a).
Proof.
  intros H s F. unfold sbind, on_queue. pose proof (proj1 (read_args_loop_faith n 0 args_clear (ps_queue s))) as [_ K]. specialize (K F).
  pose proof (fun a q' X => read_cmd_args_faith n (ps_queue s) a q' X F) as G.
  unfold read_cmd_args in *. destruct (read_args_loop cfg n 0 args_clear (ps_queue s)) as [[a|e|c] q']; [|exact K|exact K].
  destruct (G a q' eq_refl) as (_ & G1 & G2). apply H; assumption.
Qed.
Lemma exec_faith {A} (o : op A) s : faithful (ps_queue s) -> match o with ODefine _ => typed_name cfg (ps_queue s) | _ => True end ->
  faithful (ps_queue (snd (exec cfg usize_max o s))).
Proof.
  assert (Count : forall sp, keeps_p (count_expansion sp)) by (intros sp; unfold count_expansion; kp).
  assert (Row : forall ne l sp, keeps_p (record_row usize_max ne l sp)).
  { intros ne l sp s0 F. unfold record_row, sbind, sget. destruct (finish_row _ _ _ _ _) as [[[[info ne'] count] labels]|]; [|exact F]. exact F. }
  intros F T. destruct o; cbn [exec]; try exact F;
    try (match goal with |- context [define_command cfg ?m] => unfold on_queue; pose proof (define_command_faith m _ F T) as K; destruct (define_command cfg m (ps_queue s)); exact K end);
    try match goal with |- faithful (ps_queue (snd (?m s))) => enough (K : keeps_p m) by exact (K s F) end;
    try (apply kp_queue, fo_of; intros q0; first [ apply merge_letters_faith | apply read_digits_faith | apply read_primes_faith
               | apply string_literal_faith | apply read_argument_faith | apply kern_faith | apply color_faith | apply text_faith ]; fail);
    try (apply kp_queue; first [apply def_command_faith | apply let_command_faith | apply global_prefix_faith]; fail);
    try (unfold next_tok, peek_class; kp; fail).
  - apply kp_bind; [now apply kp_same|]. intros v. apply kp_queue, fo_of. intros q0. apply merge_letters_faith.
  - unfold expand. apply kp_bind; [apply Count|]. intros _. apply cmd_args_then. intros a s0 F0 A0. cbn. apply find_nnw_toks; [exact F0|].
    destruct body; [repeat constructor|]. apply flat_faith. intros x. now apply body_token_faith.
  - unfold expand_ref. apply kp_bind; [apply Count|]. intros _. apply cmd_args_then. intros a s0 F0 A0. unfold sbind, on_queue, queue_stored_body.
    destruct (q_body _ _ _ _ _) as [[|r l]|]; cbn [snd ps_queue]; [| |exact F0]; apply find_nnw_toks; try exact F0; [repeat constructor|].
    apply flat_faith. intros x. destruct x as [t|nm]; [now apply body_token_faith|]. cbn. destruct (q_resolve _ _ _); repeat constructor.
  - clear s F T. intros s F. cbn. apply find_nnw_toks; [exact F|]. apply Forall_forall. intros t X. apply in_map_iff in X as (u & <- & _). exact I.
  - unfold math_choice. apply kp_bind; [now apply kp_same|]. intros v. apply cmd_args_then. intros a s0 F0 A0. cbn. apply find_nnw_toks; [exact F0|].
    apply arg_front_faith, args_get_faith, A0.
  - clear s F T. intros s F. cbn. apply find_nnw_toks; [exact F|]. destruct t. repeat constructor.
  - unfold new_row. kp; try apply Row; try (unfold next_tok; kp).
  - unfold env_end. kp. apply Row.
Qed.

Lemma app_split {A} (a b l1 : list A) e l2 : a ++ b = l1 ++ e :: l2 ->
  (exists m, a = l1 ++ e :: m) \/ (exists m, l1 = a ++ m /\ b = m ++ e :: l2).
Proof.
  revert l1. induction a as [|x a IH]; intros l1 H.
  - right. exists l1. now split.
  - destruct l1 as [|y l1]; cbn in H; injection H as -> H.
    + left. exists a. reflexivity.
    + destruct (IH l1 H) as [(m & ->)|(m & -> & ->)]; [left; now exists m|right; exists m; now split].
Qed.
Definition run_faith {A} (tr : list performed * (res A * pstate)) : Prop :=
  (Forall (typed_define cfg) (fst tr) -> faithful (ps_queue (snd (snd tr)))) /\
  (forall l1 e l2, fst tr = l1 ++ e :: l2 -> Forall (typed_define cfg) l1 -> faithful (queue_before e)).
Lemma run_faith_nil {A} (r : res A) s : faithful (ps_queue s) -> run_faith ([], (r, s)).
Proof. intros F. split; [auto|]. intros [|x l1] e l2 H; discriminate. Qed.
Lemma run_faith_do f {A B} (o : op A) (k : A -> prog B) s : faithful (ps_queue s) ->
  (forall a s', faithful (ps_queue s') -> run_faith (trun cfg usize_max f (k a) s')) -> run_faith (trun cfg usize_max f (Do o k) s).
Proof.
  intros F H. rewrite trun_do. pose proof (exec_faith o s F) as E. destruct (exec cfg usize_max o s) as [[a|e|c] s']; cbn [snd] in E.
  - specialize (H a s'). destruct (trun cfg usize_max f (k a) s') as [l r] eqn:Er. split.
    + cbn [fst snd]. intros T. inversion T as [|x y T1 T2]; subst. apply H; [apply E, T1|exact T2].
    + intros [|x l1] e l2 X T; cbn [fst app] in X; injection X as <- X; [exact F|]. inversion T as [|x' y T1 T2]; subst x' y.
      exact (proj2 (H (E T1)) l1 e l2 X T2).
  - split.
    + cbn [fst snd]. intros T. inversion T. now apply E.
    + intros [|x l1] e' l2 X T; cbn [fst app] in X; injection X as <- X; [exact F|]. now destruct l1.
  - split.
    + cbn [fst snd]. intros T. inversion T. now apply E.
    + intros [|x l1] e' l2 X T; cbn [fst app] in X; injection X as <- X; [exact F|]. now destruct l1.
Qed.
Lemma trun_faith f : forall A (p : prog A) s, faithful (ps_queue s) -> run_faith (trun cfg usize_max f p s).
Proof.
  induction f as [|f IH]; intros A p; induction p as [b|e|c|B o k IHk|B c k IHk]; intros s F.
  all: try (apply run_faith_do; [exact F|]; intros; now apply IHk).
  all: try (rewrite ?trun_ret, ?trun_fail, ?trun_stop; now apply run_faith_nil).
  rewrite trun_call. pose proof (IH _ (body c) s F) as [H1 H2]. destruct (trun _ _ f (body c) s) as [l1 [[a|e|cr] s']]; [|now split|now split].
  cbn [fst snd] in H1. pose proof (fun F' => IHk a s' F') as H. destruct (trun _ _ _ (k a) s') as [l r]. split.
  - cbn [fst snd]. intros T. apply Forall_app in T as [T1 T2]. now apply (H (H1 T1)).
  - cbn [fst]. intros la e lb X T. apply app_split in X as [(m & X)|(m & X & Y)].
    + exact (H2 _ _ _ X T).
    + subst la. apply Forall_app in T as [T1 T2]. exact (proj2 (H (H1 T1)) _ _ _ Y T2).
Qed.
End Faith.
