(** Proofs about the positions of errors. *)
From Verif Require Import Str M_SuperChar M_Transform M_Length M_Spec M_Ast M_Token M_Symbols M_Commands M_Env
  M_LatexError M_Lexer M_CustomCmds M_Queue M_Spacing M_Colors M_Leaf M_TextParser M_Parser M_Output M_Api S_Lexer S_Run S_Convert S_Span
  L_Lexer L_Wp.
Local Open Scope nat_scope.

Section Placed.
Context (input : str).
Notation G := (range_of input).
Notation H := (within input).
Notation fine := (placed_error input).

Lemma G_H sp : G sp -> H sp.
Proof. intros (A & B & _). now split. Qed.
Lemma boundary_0 : boundary input 0.
Proof. exists [], input. now split. Qed.
Lemma G_0 : G (mkSpan 0 0).
Proof. repeat split; try apply boundary_0; cbn; lia. Qed.
Lemma G_zero n : boundary input n -> G (span_zero_width n).
Proof. intros B. repeat split; try exact B; cbn; [lia|]. destruct B as (p & q & -> & ->). rewrite blen_app. lia. Qed.
Lemma G_start sp : G sp -> boundary input (sp_start sp).
Proof. now intros []. Qed.
Lemma G_end sp : G sp -> boundary input (sp_end sp).
Proof. now intros (? & ? & _). Qed.
Lemma H_start sp : H sp -> boundary input (sp_start sp).
Proof. now intros []. Qed.
Lemma H_end sp : H sp -> boundary input (sp_end sp).
Proof. now intros []. Qed.
Lemma H_mk a b : boundary input a -> boundary input b -> H (mkSpan a b).
Proof. now split. Qed.
Lemma fine_G sp k : G sp -> fine (mkErr sp k).
Proof. intros X. split; [now apply G_H|auto]. Qed.
Lemma fine_H sp k : spanning k = true -> H sp -> fine (mkErr sp k).
Proof. intros E X. split; [exact X|]. cbn. congruence. Qed.

(** ** Computations that keep the invariant *)

Definition lands {A} (r : res A) (R : A -> Prop) : Prop :=
  match r with Ok a => R a | Err e => fine e | Crash _ => True end.
Definition tri {S A} (J : S -> Prop) (m : St S A) (R : A -> Prop) : Prop :=
  forall s, J s -> J (snd (m s)) /\ lands (fst (m s)) R.

Section Tri.
Context {S : Type} (J : S -> Prop).
Lemma tri_ret {A} (a : A) (R : A -> Prop) : R a -> tri J (sret a) R.
Proof. now intros X s Hs. Qed.
Lemma tri_fail {A} sp k (R : A -> Prop) : fine (mkErr sp k) -> tri J (sfail sp k) R.
Proof. now intros X s Hs. Qed.
Lemma tri_crash {A} c (R : A -> Prop) : tri J (scrash c) R.
Proof. now intros s Hs. Qed.
Lemma tri_res {A} (r : res A) R : lands r R -> tri J (sres r) R.
Proof. now intros X s Hs. Qed.
Lemma tri_get {A} (f : S -> A) (R : A -> Prop) : (forall s, J s -> R (f s)) -> tri J (sget f) R.
Proof. intros X s Hs. split; [exact Hs|now apply X]. Qed.
Lemma tri_opt {A} (o : option A) : tri J (sopt o) (fun _ => True).
Proof. now destruct o. Qed.
Lemma tri_bind {A B} (m : St S A) (k : A -> St S B) (P : A -> Prop) (R : B -> Prop) :
  tri J m P -> (forall a, P a -> tri J (k a) R) -> tri J (sbind m k) R.
Proof.
  intros Hm Hk s Hs. unfold sbind. destruct (Hm s Hs) as [I1 L1]. destruct (m s) as [[a|e|c] s']; cbn [fst snd lands] in *; auto.
  now apply Hk.
Qed.
Lemma tri_weaken {A} (m : St S A) (P R : A -> Prop) : tri J m P -> (forall a, P a -> R a) -> tri J m R.
Proof. intros Hm X s Hs. destruct (Hm s Hs) as [I1 L1]. split; [exact I1|]. destruct (fst (m s)); cbn [lands] in *; auto. Qed.
Lemma tri_try {A} (m : St S A) (P : A -> Prop) :
  tri J m P -> tri J (stry m) (fun o => match o with Some a => P a | None => True end).
Proof. intros Hm s Hs. unfold stry. destruct (Hm s Hs) as [I1 L1]. now destruct (m s) as [[a|e|c] s']. Qed.
Lemma tri_eta {A} (m : St S A) R : tri J m R -> tri J (fun s => m s) R.
Proof. auto. Qed.
End Tri.

(** ** The queue *)

Definition okt (t : qtok) : Prop := G (qt_span t).
Definition qp (q : queue) : Prop := lex_at input (q_lexer q) /\ Forall okt (q_toks q).

Lemma okt_eoi : okt EOI_TOK.
Proof. exact G_0. Qed.
Lemma okt_of t : okt (qt_of_token t).
Proof. exact G_0. Qed.
Lemma okt_unwrap t : okt t -> okt (qt_unwrap t).
Proof. auto. Qed.
Lemma nth_okt l n : Forall okt l -> okt (nth n l EOI_TOK).
Proof. intros X. destruct (nth_in_or_default n l EOI_TOK) as [I|E0]; [|rewrite E0; exact okt_eoi]. rewrite Forall_forall in X. auto. Qed.
Lemma peek_okt q : qp q -> okt (q_peek q).
Proof. intros [_ X]. now apply nth_okt. Qed.
Lemma peek_any_okt q : qp q -> okt (q_peek_any q).
Proof. intros [_ X]. unfold q_peek_any. destruct X; [exact okt_eoi|assumption]. Qed.
Lemma Forall_skipn {A} (P : A -> Prop) n l : Forall P l -> Forall P (skipn n l).
Proof. revert l. induction n; intros l X; cbn; [exact X|]. destruct X; [constructor|auto]. Qed.
Lemma Forall_firstn {A} (P : A -> Prop) n l : Forall P l -> Forall P (firstn n l).
Proof. revert l. induction n; intros l X; cbn; [constructor|]. destruct X; constructor; auto. Qed.
Lemma qp_toks q l : qp q -> Forall okt l -> qp (q_set_toks q l).
Proof. now intros [X _] Y. Qed.
Lemma qp_nnw q n : qp q -> qp (q_set_nnw q n).
Proof. auto. Qed.
Lemma qp_stores q l g : qp q -> qp (q_set_stores q l g).
Proof. auto. Qed.
Lemma qp_front q l : qp q -> Forall okt l -> qp (queue_in_front l q).
Proof. intros X Y. unfold queue_in_front, update_nnw. apply qp_nnw, qp_toks; [exact X|]. apply Forall_app. split; [exact Y|apply X]. Qed.

Section Queue.
Context (cfg : parser_cfg).

Definition lex_fine (r : (lexer_output + latex_error) * lexer) : Prop :=
  lex_at input (snd r) /\ match fst r with inl o => G (out_span o) | inr e => fine e end.
Lemma next_token_fine l : lex_at input l -> lex_fine (next_token l).
Proof.
  intros X. destruct (next_token_ok input l X) as [[[a Ca] K] _]. split; [now apply (consumed_at _ _ _ _ X Ca)|].
  destruct (fst (next_token l)) as [o|e]; destruct K as [K _]; [exact K|]. destruct e. now apply fine_G.
Qed.
Lemma resolve_okt q o : G (out_span o) -> okt (resolve_lexed cfg q o).
Proof. destruct o as [[t sp]|n sp]; auto. Qed.
Lemma load_loop_tri {T} (pred : nat -> token -> option T) fuel : forall idx, tri qp (load_loop cfg pred fuel idx) (fun _ => True).
Proof.
  induction fuel as [|f IH]; intros idx q Hq; cbn [load_loop]; [now split|].
  destruct (next_token_fine (q_lexer q) (proj1 Hq)) as [N1 N2]. destruct (next_token (q_lexer q)) as [[out|e] l']; cbn [fst snd] in N1, N2.
  2: { split; [|exact N2]. split; [exact N1|apply Hq]. }
  assert (X : qp (q_set_toks (q_set_lexer q l') (q_toks q ++ [resolve_lexed cfg q out]))).
  { split; [exact N1|]. cbn. apply Forall_app. split; [apply Hq|]. constructor; [now apply resolve_okt|constructor]. }
  destruct (pred _ _); [now split|]. destruct (is_eoi _); [now split|]. now apply IH.
Qed.
Lemma load_token_tri {T} (pred : nat -> token -> option T) : tri qp (load_token cfg pred) (fun _ => True).
Proof. intros q Hq. unfold load_token. destruct (q_eoi q); [now split|now apply load_loop_tri]. Qed.
Ltac follow L a q Y Z := let X := fresh in
  pose proof L as X; match type of X with _ /\ lands (fst ?m) _ => destruct m as [[a|?|?] q]; cbn [fst snd lands] in X; destruct X as [Y Z]; try (split; [exact Y|exact Z]) end.
Lemma load_skip_tri : tri qp (load_skip_whitespace cfg) (fun _ => True).
Proof. intros q Hq. unfold load_skip_whitespace. follow (load_token_tri is_not_whitespace q Hq) a q1 Y1 Z1. destruct a; now split. Qed.
Lemma ensure_nnw_tri : tri qp (ensure_nnw cfg) (fun _ => True).
Proof. intros q Hq. unfold ensure_nnw. destruct (find_nnw (q_toks q)); [now split|]. now follow (load_skip_tri q Hq) a q1 Y1 Z1. Qed.
Lemma queue_new_tri l gs : lex_at input l -> qp (snd (queue_new cfg l gs)) /\ lands (fst (queue_new cfg l gs)) (fun _ => True).
Proof. intros X. unfold queue_new. assert (Hq : qp (mkQueue l [] false 0 cmds_empty gs)) by (split; [exact X|constructor]). now follow (load_skip_tri _ Hq) a q1 Y1 Z1. Qed.
Lemma find_or_load_tri {T} (pred : nat -> token -> option T) : tri qp (find_or_load_after_next cfg pred) (fun _ => True).
Proof. intros q Hq. unfold find_or_load_after_next. destruct (_ <? _); [|now split]. destruct (find_from _ _ _); [now split|now apply load_token_tri]. Qed.
Lemma peek_second_tri : tri qp (q_peek_second cfg) okt.
Proof. intros q Hq. unfold q_peek_second. follow (find_or_load_tri is_not_whitespace q Hq) a q1 Y1 Z1. destruct a; split; auto; cbn [fst lands]; [apply nth_okt, Y1|apply okt_eoi]. Qed.
Lemma q_peek_class_tri : tri qp (q_peek_class cfg) (fun _ => True).
Proof. intros q Hq. unfold q_peek_class. destruct (token_class _); [now split|]. follow (find_or_load_tri has_class q Hq) a q1 Y1 Z1. destruct a; now split. Qed.
Lemma rejecting_tri m : tri qp m okt -> tri qp (fun q => rejecting cfg (m q)) okt.
Proof.
  intros X q Hq. unfold rejecting. follow (X q Hq) a q1 Y1 Z1. unfold reject_unknown. destruct (qt_tok a); try (now split).
  destruct (pc_ignore_unknown cfg); [now split|]. split; [assumption|]. now apply fine_G.
Qed.
Lemma next_unres_tri : tri qp (q_next_unres cfg) okt.
Proof.
  intros q Hq. unfold q_next_unres. pose proof (Forall_skipn okt (q_nnw q) _ (proj2 Hq)) as X.
  destruct (skipn _ _) as [|t r]; [split; [now apply qp_toks|apply okt_eoi]|]. inversion X; subst.
  assert (Y : qp (q_set_toks q r)) by now apply qp_toks. follow (ensure_nnw_tri _ Y) a q1 Y1 Z1. split; auto.
Qed.
Lemma next_tri : tri qp (q_next cfg) okt.
Proof. apply rejecting_tri, next_unres_tri. Qed.
Lemma next_any_unres_tri : tri qp (q_next_any_unres cfg) okt.
Proof.
  intros q Hq. unfold q_next_any_unres. pose proof (proj2 Hq) as X.
  destruct (q_toks q) as [|t r]; [split; [exact Hq|apply okt_eoi]|]. inversion X; subst.
  assert (Y : qp (q_set_toks q r)) by now apply qp_toks. destruct (q_nnw q); [|now split]. follow (ensure_nnw_tri _ Y) a q1 Y1 Z1. split; auto.
Qed.
Lemma next_any_tri : tri qp (q_next_any cfg) okt.
Proof. apply rejecting_tri, next_any_unres_tri. Qed.
Lemma record_macro_loop_tri fuel : forall n acc, Forall okt acc -> tri qp (record_macro_loop cfg fuel n acc) (Forall okt).
Proof.
  induction fuel as [|f IH]; intros n acc Ha q Hq; [now split|].
  pose proof (peek_any_okt q Hq) as Hp.
  assert (C : forall m, let r := match q_next_any_unres cfg q with
                        | (Ok _, q') => record_macro_loop cfg f m (acc ++ [q_peek_any q]) q'
                        | (Err e, q') => (Err e, q') | (Crash c, q') => (Crash c, q') end in qp (snd r) /\ lands (fst r) (Forall okt)).
  { intros m. follow (next_any_unres_tri q Hq) a q1 Y1 Z1. apply IH; [|assumption]. apply Forall_app. split; [exact Ha|]. now constructor. }
  cbn [record_macro_loop]. destruct (qt_tok (q_peek_any q)); try apply C; try (split; [exact Hq|]; now apply fine_G).
  destruct n; [now split|apply C].
Qed.
Lemma record_macro_body_tri : tri qp (record_macro_body cfg) (Forall okt).
Proof. intros q Hq. unfold record_macro_body. follow (next_tri q Hq) a q1 Y1 Z1. now apply record_macro_loop_tri. Qed.
Lemma read_definition_name_tri : tri qp (read_definition_name cfg) (fun _ => True).
Proof.
  intros q Hq. unfold read_definition_name. follow (next_unres_tri q Hq) a q1 Y1 Z1.
  destruct (qt_tok a), (qt_name a); try (now split); (split; [assumption|now apply fine_G]).
Qed.
Definition ok_group (p : list qtok * nat) : Prop := Forall okt (fst p) /\ boundary input (snd p).
Lemma record_group_loop_tri p fuel : forall n acc, Forall okt acc -> tri qp (record_group_loop cfg p fuel n acc) ok_group.
Proof.
  induction fuel as [|f IH]; intros n acc Ha q Hq; cbn [record_group_loop]; [now split|].
  assert (X : qp (snd (if p then q_next_any cfg q else q_next cfg q)) /\ lands (fst (if p then q_next_any cfg q else q_next cfg q)) okt)
    by (destruct p; [now apply next_any_tri|now apply next_tri]).
  destruct (if p then _ else _) as [[t|e|c] q']; cbn [fst snd lands] in X; destruct X as [X1 X2]; try (now split).
  assert (Y : Forall okt (acc ++ [t])) by (apply Forall_app; split; [exact Ha|now constructor]).
  destruct (qt_tok t); try (now apply IH); try (split; [exact X1|now apply fine_G]).
  destruct n; [|now apply IH]. split; [exact X1|]. split; [exact Ha|]. now apply G_end.
Qed.
Lemma record_group_tri p : tri qp (record_group cfg p) ok_group.
Proof. intros q Hq. now apply record_group_loop_tri. Qed.
Definition ok_arg (a : macro_argument) : Prop :=
  match a with MaToken t => G (snd t) | MaGroup l sp => Forall (fun t => G (snd t)) l /\ H sp end.
Lemma read_argument_tri p : tri qp (read_argument cfg p) ok_arg.
Proof.
  intros q Hq. unfold read_argument. follow (next_tri q Hq) a q1 Y1 Z1.
  assert (F : okt (if p then q_peek q else a)) by (destruct p; [now apply peek_okt|assumption]).
  set (first := if p then _ else _) in *.
  destruct (qt_tok first); try (split; [assumption|exact F]).
  follow (record_group_tri p q1 Y1) a0 q2 Y2 Z2. destruct a0 as [l stop]. destruct Z2 as [L B]. split; [assumption|]. split.
  - rewrite Forall_map. exact L.
  - apply H_mk; [now apply G_start|exact B].
Qed.
Definition ok_args (a : cmd_args) : Prop := Forall okt (ca_tokens a).
Lemma read_args_loop_tri n : forall k a, ok_args a -> tri qp (read_args_loop cfg n k a) ok_args.
Proof.
  induction n as [|n IH]; intros k a Ha q Hq; cbn [read_args_loop]; [now split|].
  follow (next_tri q Hq) a0 q1 Y1 Z1.
  assert (Z : forall l, Forall okt l -> ok_args (args_finish (args_append a l) k)) by (intros l Hl; apply Forall_app; now split).
  destruct (qt_tok a0); try (apply IH; [apply Z; now constructor|assumption]); try (split; [assumption|now apply fine_G]).
  follow (record_group_tri true q1 Y1) a1 q2 Y2 Z2. destruct a1 as [l stop]. apply IH; [|assumption]. apply Z, Z2.
Qed.
Lemma read_cmd_args_tri n : tri qp (read_cmd_args cfg n) ok_args.
Proof. apply read_args_loop_tri. constructor. Qed.
Lemma args_get_ok a n : ok_args a -> Forall okt (args_get a n).
Proof.
  intros X. unfold args_get. destruct (slice_get _ _ _) as [l|] eqn:E; [|constructor].
  unfold slice_get in E. destruct (_ && _) in E; [|discriminate]. injection E as <-.
  apply Forall_firstn, Forall_skipn, X.
Qed.
Lemma front_okt arg sp : G sp -> Forall okt arg -> Forall okt (arg_front arg sp).
Proof. intros X Y. destruct arg; [|exact Y]. constructor; [exact X|constructor; [exact X|constructor]]. Qed.
Lemma empty_okt sp : G sp -> Forall okt (empty_front sp).
Proof. intros X. constructor; [exact X|constructor]. Qed.
Lemma body_token_okt args sp t : G sp -> ok_args args -> Forall okt (body_token args sp t).
Proof. intros X Y. destruct t; try (constructor; [apply okt_of|constructor]). apply front_okt; [exact X|now apply args_get_ok]. Qed.
Lemma Forall_flat_map {A B} (P : B -> Prop) (f : A -> list B) l : (forall x, Forall P (f x)) -> Forall P (flat_map f l).
Proof. intros X. induction l; cbn; [constructor|]. apply Forall_app. now split. Qed.
Lemma queue_body_qp toks args sp q : G sp -> ok_args args -> qp q -> qp (queue_body toks args sp q).
Proof.
  intros X Y Hq. unfold queue_body. apply qp_front; [exact Hq|].
  destruct toks as [|t toks]; [now apply empty_okt|]. apply Forall_flat_map. intros x. now apply body_token_okt.
Qed.
Lemma stored_body_tri src a b args sp : G sp -> ok_args args ->
  tri qp (fun q => let (b, q') := queue_stored_body cfg src a b args sp q in (Ok b, q')) (fun _ => True).
Proof.
  intros X Y q Hq. unfold queue_stored_body. destruct (q_body cfg q src a b) as [[|r body]|]; try (now split).
  - split; [|exact I]. apply qp_front; [exact Hq|now apply empty_okt].
  - split; [|exact I]. apply qp_front; [exact Hq|]. apply Forall_flat_map. intros [t|n]; cbn [recorded_token]; [now apply body_token_okt|].
    constructor; [|constructor]. destruct (q_resolve cfg q n); [apply okt_of|exact X].
Qed.
Lemma redefined_qp name tok q : qp q -> qp (resolve_buffered_redefined name tok q).
Proof. intros Hq. apply qp_toks; [exact Hq|]. rewrite Forall_map. eapply Forall_impl; [|apply Hq]. intros t X. now destruct (opt_str_eqb _ _). Qed.
Lemma unknown_qp q : qp q -> qp (resolve_buffered_unknown cfg q).
Proof.
  intros Hq. apply qp_toks; [exact Hq|]. rewrite Forall_map. eapply Forall_impl; [|apply Hq]. intros t X.
  destruct (qt_tok t); try exact X. now destruct (q_resolve _ _ _).
Qed.
Lemma define_tri n args body cl rep g : tri qp (q_define cfg n args body cl rep g) (fun _ => True).
Proof.
  intros q Hq. unfold q_define.
  assert (Z : forall l gs tok, qp (if rep then match tok with Some t => resolve_buffered_redefined n t (q_set_stores q l gs) | None => q_set_stores q l gs end
                               else resolve_buffered_unknown cfg (q_set_stores q l gs))).
  { intros l gs tok. pose proof (qp_stores q l gs Hq) as X. destruct rep; [|now apply unknown_qp]. destruct tok; [now apply redefined_qp|exact X]. }
  match goal with |- context [match ?x with Ok _ => _ | Err _ => _ | Crash _ => _ end] =>
    assert (E : match x with Err _ => False | _ => True end); [|destruct x as [[[l gs]|]|e|c]; [split; [apply Z|exact I]|now split|easy|now split]] end.
  destruct (_ || _).
  - destruct (_ && _); [exact I|]. now destruct (cmds_insert_or_replace_copy _ _ _ _ _ _).
  - destruct rep; [exact I|]. now destruct (cmds_insert _ _ _ _ _).
Qed.
Lemma map_recorded_lands n l : Forall okt l -> forall first, lands (map_recorded n first l) (fun _ => True).
Proof.
  induction 1 as [|t l Ht Hl IH]; intros first; cbn [map_recorded]; [exact I|].
  assert (C : forall x f, lands (match map_recorded n f l with Ok (xs, c) => Ok (x :: xs, c) | e => e end) (fun _ => True)) by (intros x f; specialize (IH f); now destruct (map_recorded n f l) as [[]| |]).
  destruct (qt_tok t); try apply C; try (now apply fine_G). destruct (_ <=? _); [now apply fine_G|apply C].
Qed.

(** ** Leaf readers *)

Ltac okfine := first [ apply fine_G; solve [eauto using G_zero, G_start, G_end] | apply fine_H; [reflexivity|solve [eauto using G_H, H_mk, G_start, G_end, H_start, H_end]] ].
Ltac tri_step :=
  match goal with
  | |- tri _ (sbind (sget q_peek) _) _ => eapply tri_bind; [apply tri_get, peek_okt|intros ? ?]
  | |- tri _ (sbind (sget q_peek_any) _) _ => eapply tri_bind; [apply tri_get, peek_any_okt|intros ? ?]
  | |- tri _ (sbind (q_next _) _) _ => eapply tri_bind; [apply next_tri|intros ? ?]
  | |- tri _ (sbind (q_next_any _) _) _ => eapply tri_bind; [apply next_any_tri|intros ? ?]
  | |- tri _ (sbind (q_next_unres _) _) _ => eapply tri_bind; [apply next_unres_tri|intros ? ?]
  | |- tri _ (sbind (q_peek_second _) _) _ => eapply tri_bind; [apply peek_second_tri|intros ? ?]
  | |- tri _ (sbind (record_macro_body _) _) _ => eapply tri_bind; [apply record_macro_body_tri|intros ? ?]
  | |- tri _ (sbind (read_definition_name _) _) _ => eapply tri_bind; [apply read_definition_name_tri|intros ? ?]
  | |- tri _ (sbind (q_define _ _ _ _ _ _ _) _) _ => eapply tri_bind; [apply define_tri|intros ? ?]
  | |- tri _ (sbind (sopt _) _) _ => eapply tri_bind; [apply tri_opt|intros ? ?]
  | |- tri _ (sret _) _ => apply tri_ret; try exact I; try assumption
  | |- tri _ (sfail _ _) _ => apply tri_fail; try okfine
  | |- tri _ (scrash _) _ => apply tri_crash
  | |- tri _ (match ?x with _ => _ end) _ => destruct x eqn:?
  end.
Ltac tris := repeat tri_step.

Lemma ascii_of_lands l : Forall (fun t => G (snd t)) l -> lands (ascii_of l) (fun _ => True).
Proof.
  induction 1 as [|t l Ht Hl IH]; cbn [ascii_of]; [exact I|].
  destruct (recover_limited_ascii (fst t)); [|now apply fine_G]. now destruct (ascii_of l).
Qed.
Lemma string_literal_tri : tri qp (parse_string_literal cfg) (fun p => H (snd p)).
Proof.
  unfold parse_string_literal. eapply tri_bind; [apply read_argument_tri|]. intros [t|l sp] X.
  - destruct t as [tok sp]. cbn [ok_arg snd] in X.
    assert (Y : tri qp (let* s := sres (ascii_of [(tok, sp)]) in sret (s, snd (tok, sp))) (fun p => H (snd p))).
    { eapply tri_bind; [apply tri_res, ascii_of_lands; constructor; [exact X|constructor]|]. intros s _. apply tri_ret. now apply G_H. }
    destruct tok; try exact Y. apply tri_ret. now apply G_H.
  - destruct X as [X1 X2]. eapply tri_bind; [now apply tri_res, ascii_of_lands|]. intros s _. now apply tri_ret.
Qed.
Lemma digits_loop_tri fuel : forall acc, tri qp (digits_loop cfg fuel acc) (fun _ => True).
Proof. induction fuel as [|f IH]; intros acc; cbn [digits_loop]; tris; apply IH. Qed.
Lemma read_digits_tri d : tri qp (read_digits cfg d) (fun _ => True).
Proof. intros q. apply digits_loop_tri. Qed.
Lemma letters_loop_tri v fuel : forall acc, tri qp (letters_loop cfg v fuel acc) (fun _ => True).
Proof. induction fuel as [|f IH]; intros acc; cbn [letters_loop]; tris; apply IH. Qed.
Lemma merge_letters_tri tf : tri qp (merge_letters cfg tf) (fun _ => True).
Proof.
  intros q Hq. unfold merge_letters. destruct tf as [v|]; [|now split]. revert q Hq.
  match goal with |- forall q, qp q -> qp (snd (?m q)) /\ lands _ ?R => enough (X : forall n, tri qp (let* l := letters_loop cfg v n [] in match l with [] => sret None | [c] => sret (Some (IdentifierChar c (match v with MvNormal => ForcedUpright | _ => LDefault end))) | _ => let* s := sopt (sc_string l) in sret (Some (IdentifierStr s)) end) (fun _ => True)) by (intros q; apply X) end.
  intros n. eapply tri_bind; [apply letters_loop_tri|]. intros l _. tris.
Qed.
Lemma primes_loop_tri fuel : forall acc, tri qp (primes_loop cfg fuel acc) (fun _ => True).
Proof. induction fuel as [|f IH]; intros acc; cbn [primes_loop]; tris; apply IH. Qed.
Lemma read_primes_tri k : tri qp (read_primes cfg k) (fun _ => True).
Proof. intros q. apply primes_loop_tri. Qed.

Definition ok_ends (p : option nat * nat) : Prop := (forall n, fst p = Some n -> boundary input n) /\ boundary input (snd p).
Lemma kern_digits_tri fuel : forall b acc st en, ok_ends (st, en) ->
  tri qp (kern_digits cfg fuel b acc st en) (fun p => ok_ends (snd p)).
Proof.
  induction fuel as [|f IH]; intros b acc st en X; cbn [kern_digits]; [tris|].
  eapply tri_bind; [apply (tri_get qp _ okt); destruct b; intros; [now apply peek_any_okt|now apply peek_okt]|]. intros t Ht.
  assert (Y : forall c, tri qp (let* u := q_next cfg in kern_digits cfg f true (acc ++ [c]) (Some (or_else st (sp_start (qt_span u)))) (sp_end (qt_span u)))
                (fun p => ok_ends (snd p))).
  { intros c. eapply tri_bind; [apply next_tri|]. intros u Hu. apply IH. split; [|now apply G_end].
    cbn [fst]. intros n [= <-]. destruct st as [m|]; [now apply X|now apply G_start]. }
  repeat first [apply Y | tri_step].
Qed.
Lemma or_else_ok st d : (forall n, st = Some n -> boundary input n) -> boundary input d -> boundary input (or_else st d).
Proof. destruct st; auto. Qed.
Lemma kern_tri k n : boundary input n -> tri qp (parse_kern_or_skip cfg k n) (fun _ => True).
Proof.
  intros Bn. unfold parse_kern_or_skip. eapply tri_bind; [apply tri_get, peek_okt|]. intros t Ht. cbv zeta.
  eapply tri_bind with (P := ok_ends).
  { match goal with |- tri _ (match ?x with _ => _ end) _ => destruct x end.
    - eapply tri_bind; [apply next_tri|]. intros u Hu. apply tri_ret. split; [|now apply G_end]. intros m [= <-]. now apply G_start.
    - apply tri_ret. split; [discriminate|exact Bn]. }
  intros [st en] X. eapply tri_bind with (P := fun p => ok_ends (snd p)).
  { intros q. now apply kern_digits_tri. }
  intros [value [st' en']] [X1 X2]. cbn [fst snd] in X1, X2. clear X.
  pose proof (or_else_ok st' n X1 Bn) as X3. tris.
Qed.
Lemma color_type_loop_tri sp fuel : G sp -> forall acc, tri qp (color_type_loop cfg fuel sp acc) (fun _ => True).
Proof.
  intros X. induction fuel as [|f IH]; intros acc; cbn [color_type_loop]; [tris|].
  eapply tri_bind; [eapply tri_try, next_tri|]. intros o Ho. tris. apply IH.
Qed.
Lemma color_tri sp : G sp -> tri qp (parse_color cfg sp) (fun _ => True).
Proof.
  intros X. unfold parse_color. eapply tri_bind; [apply tri_get, peek_okt|]. intros t Ht.
  assert (Y : tri qp (let* '(name, sp') := parse_string_literal cfg in match get_color name with Some c => sret c | None => sfail sp' (E_UnknownColor name) end) (fun _ => True)).
  { eapply tri_bind; [apply string_literal_tri|]. intros [name sp'] Hs. cbn [snd] in Hs. tris. }
  destruct (qt_tok t); try exact Y.
  eapply tri_bind; [apply next_tri|]. intros u Hu.
  eapply tri_bind; [intros q; now apply color_type_loop_tri|]. intros ty _.
  eapply tri_bind; [eapply tri_try, string_literal_tri|]. intros [[desc sp']|] Hd; cbn [snd] in Hd; tris.
Qed.
Lemma raise_length_lands s sp : H sp -> lands (raise_length s sp) (fun _ => True).
Proof. intros X. unfold raise_length. destruct (parse_length_specification s) as [[[l u] []]|]; try exact I; cbn [lands]; now apply fine_H. Qed.
Lemma text_loop_tri m fuel : forall s, tri qp (text_loop cfg m fuel s) (fun _ => True).
Proof.
  induction fuel as [|f IH]; intros s; cbn [text_loop]; destruct (tx_styles s) as [|[[? st] vo] ?]; try (now apply tri_ret); [apply tri_crash|].
  eapply tri_bind with (P := okt); [destruct m; [apply next_any_tri|apply next_tri]|]. intros t Ht.
  destruct (text_token_step _ _ _ _ _); tris; try apply IH.
  eapply tri_bind; [apply string_literal_tri|]. intros [spec sp] Hs. cbn [snd] in Hs.
  eapply tri_bind; [now apply tri_res, raise_length_lands|]. intros new _. apply IH.
Qed.
Lemma text_tri m st vo : tri qp (extract_text cfg m st vo) (fun _ => True).
Proof. intros q. apply text_loop_tri. Qed.
Lemma skip_spaces_tri fuel : tri qp (skip_spaces cfg fuel) (fun _ => True).
Proof. induction fuel as [|f IH]; cbn [skip_spaces]; tris; apply IH. Qed.
Lemma param_loop_tri fuel : forall n, tri qp (param_loop cfg fuel n) (fun _ => True).
Proof. induction fuel as [|f IH]; intros n; cbn [param_loop]; tris; apply IH. Qed.
Lemma read_num_args_tri : tri qp (read_num_args cfg) (fun _ => True).
Proof. unfold read_num_args. tris. Qed.
Lemma read_definition_body_tri : tri qp (read_definition_body cfg) (Forall okt).
Proof. unfold read_definition_body. tris. constructor; [assumption|constructor]. Qed.
Lemma definition_target_lands m t : okt t -> lands (definition_target m t) (fun _ => True).
Proof. intros X. unfold definition_target. destruct (qt_tok t), m, (qt_name t); try exact I; now apply fine_G. Qed.
Lemma define_command_tri m : tri qp (define_command cfg m) (fun _ => True).
Proof.
  unfold define_command. tri_step. cbv zeta. eapply tri_bind with (P := fun _ => True); [tris|]. intros _ _.
  tri_step. eapply tri_bind; [apply tri_res, definition_target_lands; eassumption|]. intros tg _.
  eapply tri_bind with (P := fun _ => True); [tris|]. intros _ _.
  eapply tri_bind; [apply read_num_args_tri|]. intros n _. eapply tri_bind; [apply read_definition_body_tri|]. intros l Hl.
  eapply tri_bind; [now apply tri_res, map_recorded_lands|]. intros [body first] _. tris.
Qed.
Lemma def_command_tri g : tri qp (def_command cfg g) (fun _ => True).
Proof.
  unfold def_command. tri_step. eapply tri_bind; [intros q; apply skip_spaces_tri|]. intros _ _.
  eapply tri_bind; [intros q; apply param_loop_tri|]. intros n _. tri_step. tri_step.
  eapply tri_bind; [now apply tri_res, map_recorded_lands|]. intros [body first] _. tris.
Qed.
Lemma let_command_tri g : tri qp (let_command cfg g) (fun _ => True).
Proof. unfold let_command. tri_step. tri_step. eapply tri_bind with (P := fun _ => True); [tris|]. intros _ _. tris. Qed.
Lemma global_loop_tri fuel : tri qp (global_loop cfg fuel) (fun _ => True).
Proof. induction fuel as [|f IH]; cbn [global_loop]; tris; [apply let_command_tri|apply def_command_tri|apply IH]. Qed.
Lemma global_prefix_tri : tri qp (global_prefix cfg) (fun _ => True).
Proof. intros q. apply global_loop_tri. Qed.

(** ** Operations *)

Definition sj (s : pstate) : Prop := qp (ps_queue s).
Definition opre {A} (o : M_Parser.op A) : Prop :=
  match o with
  | OKern _ n => boundary input n
  | OColor sp | OExpand _ _ sp | OExpandRef _ _ _ _ sp | OChoice sp | ORow sp | OEnvEnd sp _ => G sp
  | OChosen t => G (snd t)
  | _ => True
  end.
Definition opost {A} (o : M_Parser.op A) : A -> Prop :=
  match o in M_Parser.op A return A -> Prop with
  | ONext | OPeek => fun t => G (snd t)
  | OLiteral => fun p => H (snd p)
  | OArgument => ok_arg
  | _ => fun _ => True
  end.

Lemma on_queue_tri {A} (m : St queue A) R : tri qp m R -> tri sj (on_queue m) R.
Proof. intros X s Hs. unfold on_queue. specialize (X (ps_queue s) Hs). now destruct (m (ps_queue s)). Qed.
Lemma on_view_tri f : tri sj (on_view f) (fun _ => True).
Proof. now intros s Hs. Qed.
Lemma on_pure_tri f : (forall q, qp q -> qp (f q)) -> tri sj (on_queue_pure f) (fun _ => True).
Proof. intros X s Hs. split; [|exact I]. now apply X. Qed.
Lemma view_tri : tri sj view (fun _ => True).
Proof. apply tri_get. auto. Qed.

Context (usize_max : N).
Lemma next_tok_tri : tri sj (next_tok cfg) (fun t => G (snd t)).
Proof. unfold next_tok. eapply tri_bind; [apply on_queue_tri, next_tri|]. intros t Ht. now apply tri_ret. Qed.
Lemma peek_class_tri b : tri sj (peek_class cfg b) (fun _ => True).
Proof.
  unfold peek_class. destruct b; [|now apply tri_ret]. eapply tri_bind; [apply on_queue_tri, q_peek_class_tri|]. intros [idx c] _.
  eapply tri_bind; [apply view_tri|]. intros v _. eapply tri_bind; [now apply (tri_get sj _ (fun _ => True))|]. intros q _. tris.
Qed.
Lemma count_tri sp : G sp -> tri sj (count_expansion sp) (fun _ => True).
Proof. intros X. unfold count_expansion. eapply tri_bind; [apply view_tri|]. intros v _. destruct (pv_left v); [tris|apply on_view_tri]. Qed.
Lemma record_row_tri ne b sp : G sp -> tri sj (record_row usize_max ne b sp) (fun _ => True).
Proof.
  intros X. unfold record_row. eapply tri_bind; [now apply (tri_get sj _ (fun _ => True))|]. intros q _. cbv zeta.
  destruct (finish_row _ _ _ _ _) as [[[[info ne'] count] labels]|]; [|tris].
  eapply tri_bind; [apply on_pure_tri; intros; now apply qp_stores|]. intros _ _. now apply tri_ret.
Qed.
Lemma exec_tri {A} (o : M_Parser.op A) : opre o -> tri sj (exec cfg usize_max o) (opost o).
Proof.
  destruct o; cbn [opre opost exec]; intros X; try apply on_view_tri.
  - apply next_tok_tri.
  - eapply tri_bind; [apply on_queue_tri, tri_get, peek_okt|]. intros t Ht. now apply tri_ret.
  - apply peek_class_tri.
  - apply view_tri.
  - eapply tri_bind; [apply view_tri|]. intros v _. apply on_queue_tri, merge_letters_tri.
  - apply on_queue_tri, read_digits_tri.
  - apply on_queue_tri, read_primes_tri.
  - eapply tri_bind; [apply on_queue_tri, next_any_tri|]. intros t Ht. now apply tri_ret.
  - apply on_queue_tri, string_literal_tri.
  - apply on_queue_tri, read_argument_tri.
  - now apply on_queue_tri, kern_tri.
  - now apply on_queue_tri, color_tri.
  - apply on_queue_tri, text_tri.
  - apply on_queue_tri, define_command_tri.
  - apply on_queue_tri, def_command_tri.
  - apply on_queue_tri, let_command_tri.
  - apply on_queue_tri, global_prefix_tri.
  - unfold expand. eapply tri_bind; [now apply count_tri|]. intros _ _. eapply tri_bind; [apply on_queue_tri, read_cmd_args_tri|]. intros args Ha.
    apply on_pure_tri. intros q Hq. now apply queue_body_qp.
  - unfold expand_ref. eapply tri_bind; [now apply count_tri|]. intros _ _. eapply tri_bind; [apply on_queue_tri, read_cmd_args_tri|]. intros args Ha.
    eapply tri_bind; [apply on_queue_tri; now apply stored_body_tri|]. intros b _. destruct b; tris.
  - apply on_pure_tri. intros q Hq. apply qp_front; [exact Hq|]. rewrite Forall_map. apply Forall_forall. intros t _. apply okt_of.
  - unfold math_choice. eapply tri_bind; [apply view_tri|]. intros v _. eapply tri_bind; [apply on_queue_tri, read_cmd_args_tri|]. intros args Ha.
    apply on_pure_tri. intros q Hq. apply qp_front; [exact Hq|]. apply front_okt; [exact X|now apply args_get_ok].
  - apply on_pure_tri. intros q Hq. apply qp_front; [exact Hq|]. constructor; [exact X|constructor].
  - unfold new_row. eapply tri_bind; [apply view_tri|]. intros v _. destruct (es_meaningful_newlines _); [|now apply tri_ret].
    eapply tri_bind with (P := fun _ => True).
    { destruct (es_allow_hlines _); [|now apply tri_ret]. eapply tri_bind; [apply on_queue_tri, tri_get, peek_okt|]. intros t Ht.
      destruct (qt_tok t); try (now apply tri_ret). eapply tri_bind; [apply next_tok_tri|]. intros. now apply tri_ret. }
    intros border _. destruct (es_numbered _) as [ne|]; [|now apply tri_ret]. destruct (bump_rows ne); [|tris].
    eapply tri_bind; [now apply record_row_tri|]. intros [info ne2] _. eapply tri_bind; [apply on_view_tri|]. intros _ _. now apply tri_ret.
  - unfold env_end. destruct ne as [n|]; [|now apply tri_ret]. eapply tri_bind; [now apply record_row_tri|]. intros [info n'] _. now apply tri_ret.
Qed.

(** ** Programs *)

Definition okbl (b : bounds_limits) : Prop := match bl_limits b with Some (_, sp) => G sp | None => True end.
Definition okfirst (o : option tokspan) : Prop := match o with Some t => G (snd t) | None => True end.
Definition cpre {A} (c : call A) : Prop :=
  match c with CTok t _ _ => G (snd t) | CBounds first acc => okfirst first /\ okbl acc | _ => True end.
Definition cpost {A} (c : call A) : A -> Prop :=
  match c in call A return A -> Prop with CBounds _ _ => okbl | _ => fun _ => True end.
Fixpoint pfine {B} (p : prog B) (R : B -> Prop) : Prop :=
  match p with
  | Ret b => R b
  | Fail e => fine e
  | Stop _ => True
  | Do o k => opre o /\ forall a, opost o a -> pfine (k a) R
  | Call c k => cpre c /\ forall a, cpost c a -> pfine (k a) R
  end.
Lemma pfine_bind {A B} (p : prog A) (f : A -> prog B) (P : A -> Prop) (R : B -> Prop) :
  pfine p P -> (forall a, P a -> pfine (f a) R) -> pfine (pbind p f) R.
Proof.
  intros Hp Hf. induction p as [b|e|c|C o k IH|C c k IH]; cbn [pbind pfine] in *; auto.
  - destruct Hp as [X Y]. split; [exact X|]. intros a Ha. apply IH. now apply Y.
  - destruct Hp as [X Y]. split; [exact X|]. intros a Ha. apply IH. now apply Y.
Qed.
Lemma pfine_res {B} (r : res B) R : lands r R -> pfine (pres r) R.
Proof. now destruct r. Qed.
Lemma pfine_do {A B} (o : M_Parser.op A) (k : A -> prog B) R : opre o -> (forall a, opost o a -> pfine (k a) R) -> pfine (Do o k) R.
Proof. now split. Qed.
Lemma pfine_call {A B} (c : call A) (k : A -> prog B) R : cpre c -> (forall a, cpost c a -> pfine (k a) R) -> pfine (Call c k) R.
Proof. now split. Qed.

Lemma extract_lands t m : G (snd t) -> lands (extract_delimiter t m) (fun _ => True).
Proof. intros X. unfold extract_delimiter. repeat first [exact I|apply fine_G; exact X|match goal with |- lands (match ?x with _ => _ end) _ => destruct x end]. Qed.
Lemma genfrac_style_lands t : match t with inl t => G (snd t) | inr _ => True end -> lands (genfrac_style t) (fun _ => True).
Proof.
  intros X. destruct t as [[tok sp]|sp]; [|exact I]. cbn [snd] in X. unfold genfrac_style.
  repeat first [exact I|apply fine_G; exact X|match goal with |- lands (match ?x with _ => _ end) _ => destruct x end].
Qed.
Lemma no_limits_lands b : okbl b -> lands (ensure_no_limits b) (fun _ => True).
Proof. unfold okbl, ensure_no_limits. destruct (bl_limits b) as [[k sp]|]; [|easy]. intros X. now apply fine_G. Qed.
Lemma into_one_lands a : ok_arg a -> lands (into_one a) (fun t => G (snd t)).
Proof.
  destruct a as [t|[|t [|t' l]] sp]; cbn [ok_arg into_one lands]; auto; intros [X Y]; try (now apply fine_H). now inversion X.
Qed.
Lemma into_one_or_none_lands a : ok_arg a -> lands (into_one_or_none a) (fun t => match t with inl t => G (snd t) | inr _ => True end).
Proof.
  destruct a as [t|[|t [|t' l]] sp]; cbn [ok_arg into_one_or_none lands]; auto; intros [X Y]; try (now apply fine_H). now inversion X.
Qed.

Ltac pf_post := cbn [opost cpost okbl bl_limits bl_none fst snd] in *.
Ltac pfside := cbn [opre cpre snd fst]; first [exact I | assumption | eapply G_end; assumption | split; [exact I|exact I] | split; assumption | split; [exact I|assumption] | split; [assumption|exact I] | okfine].
Ltac pf :=
  match goal with
  | |- pfine (pbind (pres (extract_delimiter _ _)) _) _ => eapply pfine_bind; [apply pfine_res, extract_lands; assumption|intros ? _]
  | |- pfine (pbind (pres (genfrac_style _)) _) _ => eapply pfine_bind; [apply pfine_res, genfrac_style_lands; assumption|intros ? _]
  | |- pfine (pbind (pres (ensure_no_limits _)) _) _ => eapply pfine_bind; [apply pfine_res, no_limits_lands; assumption|intros ? _]
  | |- pfine (pbind (pres (into_one _)) _) _ => eapply pfine_bind; [apply pfine_res, into_one_lands; assumption|intros ? ?]
  | |- pfine (pbind (pres (into_one_or_none _)) _) _ => eapply pfine_bind; [apply pfine_res, into_one_or_none_lands; assumption|intros ? ?]
  | |- pfine (pbind (pres (raise_length _ _)) _) _ => eapply pfine_bind; [apply pfine_res, raise_length_lands; assumption|intros ? _]
  | |- pfine (Do _ _) _ => apply pfine_do; [try pfside|intros ? ?; pf_post]
  | |- pfine (Call _ _) _ => apply pfine_call; [try pfside|intros ? ?; pf_post]
  | |- pfine (fail _ _) _ => try okfine
  | |- pfine (Ret _) _ => cbn [pfine]; try exact I; try assumption
  | |- pfine (Stop _) _ => exact I
  | |- pfine (match ?x with _ => _ end) _ => destruct x
  | |- pfine (let x := _ in _) _ => cbv zeta
  | |- pfine ((fun _ => _) _) _ => cbv beta
  end.
Notation any := (fun _ => True).
Lemma parse_next_fine a : pfine (parse_next a) any.
Proof. unfold parse_next. repeat pf. Qed.
Lemma seq_if_fine a sp e p k : G sp -> pfine (seq_if_in_sequence a sp e p k) any.
Proof. intros X. unfold seq_if_in_sequence. repeat pf. Qed.
Lemma mathop_spacing_fine a p e : pfine (parse_mathop_spacing a p e) any.
Proof. unfold parse_mathop_spacing. repeat pf. Qed.
Lemma get_bounds_fine f : okfirst f -> pfine (get_bounds f) okbl.
Proof. intros X. unfold get_bounds. repeat pf. Qed.
Lemma script_node_fine : pfine script_node any.
Proof. unfold script_node. repeat pf. Qed.
Lemma prime_script_fine k : pfine (prime_script k) any.
Proof. unfold prime_script. repeat pf. eapply pfine_bind; [apply script_node_fine|]. intros n _. repeat pf. Qed.
Lemma get_bounds_arg_fine : pfine get_bounds_arg (fun p => okbl (fst p)).
Proof.
  unfold get_bounds_arg. pf. cbv beta.
  repeat first [pf | eapply pfine_bind; [apply get_bounds_fine; exact I|intros ? ?] | eapply pfine_bind; [apply parse_next_fine|intros ? ?]]; try exact I; assumption.
Qed.
Lemma genfrac_delimiter_fine : pfine genfrac_delimiter any.
Proof. unfold genfrac_delimiter. repeat pf. Qed.
Lemma fence_delimiter_fine m : pfine (fence_delimiter m) any.
Proof. unfold fence_delimiter. repeat pf. Qed.
Ltac pfs :=
  repeat first
  [ match goal with
    | |- pfine (pbind (parse_next _) _) _ => eapply pfine_bind; [apply parse_next_fine|intros ? _]
    | |- pfine (pbind (seq_if_in_sequence _ _ _ _ _) _) _ => eapply pfine_bind; [apply seq_if_fine; assumption|intros ? _]
    | |- pfine (pbind (parse_mathop_spacing _ _ _) _) _ => eapply pfine_bind; [apply mathop_spacing_fine|intros ? _]
    | |- pfine (pbind (get_bounds _) _) _ => eapply pfine_bind; [apply get_bounds_fine; first [exact I|assumption]|intros ? ?]
    | |- pfine (get_bounds None) _ => apply get_bounds_fine; exact I
    | |- pfine (pbind script_node _) _ => eapply pfine_bind; [apply script_node_fine|intros ? _]
    | |- pfine (pbind (prime_script _) _) _ => eapply pfine_bind; [apply prime_script_fine|intros ? _]
    | |- pfine (pbind get_bounds_arg _) _ => eapply pfine_bind; [apply get_bounds_arg_fine|intros [? ?] ?; cbn [fst] in *]
    | |- pfine (pbind genfrac_delimiter _) _ => eapply pfine_bind; [apply genfrac_delimiter_fine|intros ? _]
    | |- pfine (pbind (fence_delimiter _) _) _ => eapply pfine_bind; [apply fence_delimiter_fine|intros ? _]
    end
  | pf
  | match goal with |- pfine (pbind (match _ with PcC => _ | _ => _ end) _) _ => eapply pfine_bind with (P := okbl) end; [|intros ? ?]
  | match goal with |- pfine (pbind _ _) _ => eapply pfine_bind with (P := any) end; [|intros ? _] ].
Lemma tok_body_fine t a p : G (snd t) -> pfine (tok_body t a p) any.
Proof. intros X. unfold tok_body. cbv zeta. do 2 pf. destruct (fst t). all: cbv zeta. all: pfs. all: try exact I. Qed.

Lemma seq_body_fine e p k : pfine (seq_body e p k) any.
Proof. unfold seq_body. cbv zeta. pfs. Qed.
Lemma loop_body_fine e p nodes infix : pfine (loop_body e p nodes infix) any.
Proof. unfold loop_body. cbv zeta. pfs. Qed.
Lemma bounds_body_fine first acc : okfirst first -> okbl acc -> pfine (bounds_body first acc) okbl.
Proof.
  intros X Y. unfold bounds_body. eapply pfine_bind with (P := fun t => G (snd t)).
  { destruct first; [exact X|]. pf. pf. }
  intros t Ht. cbv zeta. destruct (unwrap_math (fst t)), first; cbn [okfirst] in X; pfs.
Qed.
Lemma body_fine A (c : call A) : cpre c -> pfine (body c) (cpost c).
Proof.
  destruct c; cbn [cpre cpost body]; intros X; [apply seq_body_fine|apply loop_body_fine|now apply tok_body_fine|].
  destruct X. now apply bounds_body_fine.
Qed.
Lemma run_tri f : forall A (p : prog A) R, pfine p R -> tri sj (run cfg usize_max f p) R.
Proof.
  induction f as [|f IH]; intros A p R; induction p as [b|e|c|C o k IHk|C c k IHk]; intros Hp s Hs; cbn [pfine] in Hp.
  all: rewrite ?run_ret, ?run_fail, ?run_stop; try (split; [exact Hs|first [exact Hp|exact I]]).
  all: try (destruct Hp as [Ho Hk]; rewrite run_do; destruct (exec_tri o Ho s Hs) as [X Y];
            destruct (exec cfg usize_max o s) as [[a|e|c] s']; cbn [fst snd lands] in *; [exact (IHk a (Hk a Y) s' X)|now split|now split]).
  destruct Hp as [Hc Hk]. rewrite run_call. destruct (IH _ (body c) _ (body_fine _ c Hc) s Hs) as [X Y].
  destruct (run cfg usize_max f (body c) s) as [[a|e|cr] s']; cbn [fst snd lands] in *; [|now split|now split].
  exact (IHk a (Hk a Y) s' X).
Qed.
Lemma snippet_lands f gs st : lands (fst (parse_snippet cfg usize_max f gs input st)) any.
Proof.
  unfold parse_snippet, parser_new. destruct (queue_new_tri (lexer_new input) gs (lex_at_new input)) as [X Y].
  destruct (queue_new cfg (lexer_new input) gs) as [[u|e|c] q]; cbn [fst snd lands] in *; try exact Y.
  unfold parse_all. set (s := mkPs q _). assert (Hs : sj s) by exact X.
  destruct (run_tri f _ _ _ (body_fine _ (CSeq (SeqEnd EtEoi) ClOpen true) I) s Hs) as [_ Z].
  destruct (run cfg usize_max f (body _) s) as [r s']. exact Z.
Qed.
End Queue.
End Placed.

(** ** Conversions and configurations *)

Lemma convert_placed um f ec pc gs latex d e : fst (convert um f ec pc gs latex d) = Err e -> placed_error latex e.
Proof.
  unfold convert, parse. pose proof (snippet_lands latex pc um f gs (display_style d)) as X.
  destruct (parse_snippet pc um f gs latex (display_style d)) as [[l|e'|c] gs']; cbn [fst lands] in *; try discriminate.
  now intros [= <-].
Qed.
Lemma read_macro_placed def u c : forall fuel l m, lex_at def l ->
  match read_macro fuel u c l m with
  | Err e => range_of def (err_span e)
  | Ok m' => Forall (fun p => range_of def (snd p)) (mb_unresolved m) -> Forall (fun p => range_of def (snd p)) (mb_unresolved m')
  | Crash _ => True
  end.
Proof.
  induction fuel as [|f IH]; intros l m X; cbn [read_macro]; [exact I|].
  destruct (next_token_ok def l X) as [[[a Ca] K] _]. pose proof (consumed_at _ _ _ _ X Ca) as X'.
  destruct (next_token l) as [[[[t sp]|name sp]|e] l']; cbn [fst snd] in *; [| |apply K].
  - assert (E : mb_unresolved (macro_token t m) = mb_unresolved m) by (now destruct t).
    pose proof (IH l' (macro_token t m) X') as Y. rewrite E in Y. destruct t; try exact Y. auto.
  - pose proof (IH l' (macro_command u c name sp m) X') as Y. destruct (read_macro f u c l' _) as [m'|e|cr]; auto.
    intros Z. apply Y. unfold macro_command. destruct (resolve_builtin u c name); [exact Z|]. cbn [mb_unresolved]. apply Forall_app.
    split; [exact Z|]. constructor; [apply K|constructor].
Qed.

Lemma read_macros_placed u c macros : forall idx pre rest cmds un, macros = pre ++ rest -> idx = length pre ->
  Forall (fun p => exists def, nth_error (map snd macros) (fst (fst p)) = Some def /\ range_of def (snd p)) un ->
  match read_macros u c idx rest cmds un with
  | NewErr e => placed_macro macros e
  | NewOk (_, un') => Forall (fun p => exists def, nth_error (map snd macros) (fst (fst p)) = Some def /\ range_of def (snd p)) un'
  | NewCrash _ => True
  end.
Proof.
  intros idx pre rest. revert idx pre. induction rest as [|[name def] rest IH]; intros idx pre cmds un E L U; cbn [read_macros]; [exact U|].
  assert (N : nth_error (map snd macros) idx = Some def).
  { rewrite E, L, map_app, nth_error_app2 by (rewrite map_length; lia). now rewrite map_length, Nat.sub_diag. }
  destruct (is_valid_macro_name name).
  2: { split; [exact N|]. apply G_0. }
  pose proof (read_macro_placed def u c (S (length def)) (lexer_new def) macro_empty (lex_at_new def)) as R.
  destruct (read_macro _ u c (lexer_new def) macro_empty) as [m|e|cr]; [|now split|exact I].
  apply (IH (S idx) (pre ++ [(name, def)])).
  - now rewrite <- app_assoc.
  - rewrite app_length. cbn. lia.
  - apply Forall_app. split; [exact U|]. rewrite Forall_map. eapply Forall_impl; [|apply R; constructor].
    intros p Hp. exists def. cbn [fst snd]. now split.
Qed.
Lemma new_placed c e : converter_new c = NewErr e -> placed_macro (co_macros c) e.
Proof.
  unfold converter_new, parse_custom_commands.
  pose proof (read_macros_placed (co_allow_unreliable c) (co_conventional c) (co_macros c) 0 [] (co_macros c) cmds_empty [] eq_refl eq_refl (Forall_nil _)) as R.
  destruct (read_macros _ _ _ _ _ _) as [[cmds un]|e'|cr]; try discriminate; [|now intros [= <-]].
  destruct (find _ un) as [[[idx name] sp]|] eqn:F; [|discriminate]. intros [= <-].
  apply find_some in F as [F _]. rewrite Forall_forall in R. destruct (R _ F) as (def & N & G). cbn [fst snd] in *.
  split; [|cbn [err_span]].
  - rewrite N. f_equal. symmetry. now apply nth_error_nth.
  - enough (X : nth idx (map snd (co_macros c)) [] = def) by now rewrite X. now apply nth_error_nth.
Qed.
