(** Properties C17 to C22: conversions one after the other, in a batch, and configured macros. *)
From Coq Require Import Permutation.
From Verif Require Import Str M_Length M_Spec M_Ast M_Emit M_Output M_Token M_Env M_LatexError M_Lexer M_CustomCmds M_Queue
  M_Parser M_Api S_Lexer S_Api L_Api.

(** A batch has one result per snippet, in order. Each snippet is parsed in the state its
    predecessors left, and printed with the labels which are known after the last snippet. *)
Theorem C17_final_labels : forall umax fuel c l i latex d, nth_error l i = Some (latex, d) ->
  nth_error (convert_all umax fuel c l) i =
    Some (match fst (parse umax fuel (cv_parser c) (state_after umax fuel (cv_parser c) gs_default (firstn i l)) latex d) with
          | Ok ast =>
              Ok (emit_document (cv_emitter c)
                    (label_lookup (gs_labels (state_after umax fuel (cv_parser c) gs_default l))) ast latex d)
          | Err e => Err e
          | Crash x => Crash x
          end).
Proof.
  intros umax fuel c l i latex d H. rewrite (convert_all_nth umax fuel c l i latex d H). unfold emit_result.
  now destruct (fst _).
Qed.

(** A label which is there after any number of the snippets is there for every snippet. *)
Theorem C17_labels_of_all_snippets : forall umax fuel c l i name,
  assoc_str name (gs_labels (state_after umax fuel (cv_parser c) gs_default (firstn i l))) <> None ->
  label_lookup (gs_labels (state_after umax fuel (cv_parser c) gs_default l)) name <> None.
Proof.
  intros umax fuel c l i name H. unfold label_lookup. rewrite <- (firstn_skipn i l), state_after_app.
  now apply state_after_labels.
Qed.

Example C17_nonvacuous :
  nth_error (convert_all 1000 60 (plain_converter [])
    [(lit "\eqref{a}", Inline); (lit "\begin{align}x\label{a}\end{align}", Block)]) 0 =
  Some (Ok (mkConvertResult (lit "<math><mtext><a href=""#a"">(1)</a></mtext></math>") warn_none)).
Proof. vm_compute. reflexivity. Qed.

(** A conversion with a local state gives the same result after any history ... *)
Theorem C18_same_result : forall umax fuel c history latex d,
  replies umax fuel (after umax fuel c history) [ApiLocal latex d] = replies umax fuel c [ApiLocal latex d].
Proof.
  intros umax fuel c history latex d. unfold replies, after. cbn. unfold convert_with_local_state.
  destruct (run_config umax fuel history c) as [-> ->]. reflexivity.
Qed.
(** ... and the other calls answer as if it had not been there. *)
Theorem C18_no_influence : forall umax fuel c before latex d later,
  replies umax fuel c (before ++ ApiLocal latex d :: later) =
    replies umax fuel c before ++ replies umax fuel c [ApiLocal latex d] ++
    skipn (length before) (replies umax fuel c (before ++ later)).
Proof.
  intros umax fuel c before latex d later. rewrite <- (C18_same_result umax fuel c before latex d).
  assert (L : forall l x, length (replies umax fuel x l) = length l).
  { induction l as [|y l IH]; intros x; [reflexivity|]. unfold replies in *. cbn. destruct (api_step umax fuel x y) as [r c1].
    specialize (IH c1). destruct (api_run umax fuel c1 l). cbn in *. now rewrite IH. }
  assert (E : forall a b, replies umax fuel c (a ++ b) = replies umax fuel c a ++ replies umax fuel (after umax fuel c a) b).
  { intros a b. unfold replies at 1. now rewrite api_run_app. }
  rewrite !E. rewrite skipn_app, L, Nat.sub_diag, skipn_all2 by (rewrite L; lia). cbn [app skipn]. f_equal.
  unfold replies. cbn [api_run api_step]. now destruct (api_run umax fuel (after umax fuel c before) later).
Qed.
Example C18_nonvacuous :
  replies 1000 60 (plain_converter []) [ApiGlobal (lit "\gdef\a{x}") Inline; ApiLocal (lit "\a") Inline] =
  [ReplyOne (Ok (mkConvertResult (lit "<math></math>") warn_none));
   ReplyOne (Err (mkErr (mkSpan 0 2) (E_UnknownCommand (lit "a"))))].
Proof. vm_compute. reflexivity. Qed.

(** After a reset the converter is the new one. *)
Theorem C19_reset : forall umax fuel cfg c history later, converter_new cfg = NewOk c ->
  reset_global_state (after umax fuel c history) = c /\
  replies umax fuel c (history ++ ApiReset :: later) =
    replies umax fuel c history ++ ReplyNone :: replies umax fuel c later.
Proof.
  intros umax fuel cfg c history later H.
  assert (R : reset_global_state (after umax fuel c history) = c).
  { unfold converter_new in H. destruct (parse_custom_commands _ _ _) as [cmds|e|x]; try discriminate. injection H as <-.
    unfold after, reset_global_state. set (c0 := mkConverter _ _ _). destruct (run_config umax fuel history c0) as [H1 H2].
    destruct (snd (api_run umax fuel c0 history)) as [em st pa]. cbn in *. now subst. }
  split; [exact R|]. unfold replies at 1. rewrite api_run_app. cbn [fst]. f_equal.
  unfold replies at 1. cbn [api_run api_step]. rewrite R. now destruct (api_run umax fuel c later) as [a b] eqn:E; unfold replies; rewrite E.
Qed.
Example C19_nonvacuous :
  replies 1000 60 (plain_converter []) [ApiGlobal (lit "\gdef\a{x}") Inline; ApiGlobal (lit "\a") Inline; ApiReset; ApiGlobal (lit "\a") Inline] =
  [ReplyOne (Ok (mkConvertResult (lit "<math></math>") warn_none));
   ReplyOne (Ok (mkConvertResult (lit "<math><mi>x</mi></math>") warn_none)); ReplyNone;
   ReplyOne (Err (mkErr (mkSpan 0 2) (E_UnknownCommand (lit "a"))))].
Proof. vm_compute. reflexivity. Qed.

(** A batch, at any time in the life of a converter, against the snippets converted one after the
    other on a new converter: as many results, the same failures at the same places with the same
    errors, and where both succeed the results come from the same tree. *)
Theorem C20_batch_is_sequence : forall umax fuel cfg c history l, converter_new cfg = NewOk c ->
  let batch := convert_all umax fuel (after umax fuel c history) l in
  length batch = length l /\
  forall i latex d, nth_error l i = Some (latex, d) ->
    exists a b, nth_error batch i = Some a /\ nth_error (replies umax fuel c (one_by_one l)) i = Some (ReplyOne b) /\
      same_outcome a b /\
      match a, b with
      | Ok x, Ok y => exists ast labels labels',
          x = emit_document (cv_emitter c) labels ast latex d /\ y = emit_document (cv_emitter c) labels' ast latex d
      | _, _ => True
      end.
Proof.
  intros umax fuel cfg c history l H batch. split; [apply convert_all_length|]. intros i latex d Hi.
  destruct (run_config umax fuel history c) as [H1 H2].
  assert (G : cv_state c = gs_default).
  { unfold converter_new in H. destruct (parse_custom_commands _ _ _); try discriminate. now injection H as <-. }
  unfold batch. rewrite (convert_all_nth _ _ _ _ _ _ _ Hi), (one_by_one_nth _ _ _ c i latex d Hi). unfold after. rewrite H1, H2, G.
  do 2 eexists. split; [reflexivity|]. split; [reflexivity|]. unfold convert, emit_result.
  destruct (parse umax fuel (cv_parser c) (state_after umax fuel (cv_parser c) gs_default (firstn i l)) latex d) as [[ast|e|x] gs']; cbn; auto.
  split; [exact I|]. do 3 eexists. split; reflexivity.
Qed.
Example C20_nonvacuous :
  map (fun r => match r with Ok _ => true | _ => false end)
      (convert_all 1000 60 (plain_converter []) [(lit "x", Inline); (lit "{", Inline); (lit "y", Block)]) = [true; false; true] /\
  nth_error (convert_all 1000 60 (plain_converter []) [(lit "x", Inline); (lit "{", Inline); (lit "y", Block)]) 1 =
    Some (Err (mkErr (mkSpan 1 1) (E_UnclosedGroup EtGroupClose))).
Proof. split; vm_compute; reflexivity. Qed.

(** A failed conversion may change what later conversions give: here a definition made before the
    error stays, so that the command of the second snippet is known. *)
Theorem C21_refuted : exists cfg c bad e good d,
  converter_new cfg = NewOk c /\ replies 1000 60 c [ApiGlobal bad d] = [ReplyOne (Err e)] /\
  (exists r, replies 1000 60 (after 1000 60 c [ApiGlobal bad d]) [ApiGlobal good d] = [ReplyOne (Ok r)]) /\
  (exists e', replies 1000 60 c [ApiGlobal good d] = [ReplyOne (Err e')]).
Proof.
  exists (plain_config []), (plain_converter []), (lit "\gdef\a{x}}"). eexists. exists (lit "\a"), Inline.
  split; [vm_compute; reflexivity|]. split; [vm_compute; reflexivity|].
  split; eexists; vm_compute; reflexivity.
Qed.
(** Equation numbers are used up by a failed conversion, too. *)
Theorem C21_numbers_refuted : exists cfg c bad e good d,
  converter_new cfg = NewOk c /\ replies 1000 60 c [ApiGlobal bad d] = [ReplyOne (Err e)] /\
  gs_count (cv_state c) = 0 /\
  (exists r, replies 1000 60 c [ApiGlobal good d] = [ReplyOne (Ok r)] /\
             replies 1000 60 (after 1000 60 c [ApiGlobal bad d]) [ApiGlobal good d] <> [ReplyOne (Ok r)]) /\
  gs_count (cv_state (after 1000 60 c [ApiGlobal bad d])) = 1.
Proof.
  exists (plain_config []), (plain_converter []), (lit "\begin{align}x\end{align}}"). eexists.
  exists (lit "\begin{align}x\end{align}"), Inline.
  split; [vm_compute; reflexivity|]. split; [vm_compute; reflexivity|]. split; [vm_compute; reflexivity|].
  split; [|vm_compute; reflexivity]. eexists. split; [vm_compute; reflexivity|]. vm_compute. discriminate.
Qed.
(** Nothing but the global state changes, and neither conversions with a local state nor batches see
    the difference. *)
Theorem C21_only_global_partial : forall umax fuel c latex d other d' l,
  let c' := after umax fuel c [ApiGlobal latex d] in
  cv_emitter c' = cv_emitter c /\ cv_parser c' = cv_parser c /\
  replies umax fuel c' [ApiLocal other d'; ApiAll l] = replies umax fuel c [ApiLocal other d'; ApiAll l].
Proof.
  intros umax fuel c latex d other d' l c'. destruct (run_config umax fuel [ApiGlobal latex d] c) as [H1 H2].
  fold (after umax fuel c [ApiGlobal latex d]) in H1, H2. fold c' in H1, H2. repeat split; auto.
  unfold replies. cbn. unfold convert_with_local_state, convert_all. now rewrite H1, H2.
Qed.

(** Creating a converter succeeds exactly if every macro is fine: its name is one character or ASCII
    letters, its definition consists of tokens, and every command in it is builtin or configured. *)
Theorem C22_accepts : forall cfg,
  (exists c, converter_new cfg = NewOk c) <->
  Forall (macro_fine (co_allow_unreliable cfg) (co_conventional cfg) (co_macros cfg)) (co_macros cfg).
Proof.
  intros cfg. unfold converter_new.
  pose proof (new_outcome_holds (co_allow_unreliable cfg) (co_conventional cfg) (co_macros cfg)) as H.
  destruct H as [H|i m e H1 H2 H3|i m n sp H1 H2 H3 H4 H5].
  - split; [auto|]. intros _. eauto.
  - split; [intros [c Hc]; discriminate|]. intros H. exfalso. apply (bad_not_readable m e H3).
    rewrite Forall_forall in H. apply H. now apply nth_error_In in H1.
  - split; [intros [c Hc]; discriminate|]. intros H. exfalso. rewrite Forall_forall in H.
    apply nth_error_In in H2. destruct (H m H2) as [_ K]. now apply H5, (K n sp).
Qed.
(** Otherwise there is an error (never anything else), and it is about the macro whose index it has:
    the first one with a bad name or text, or, if there is none, the first with an unknown command. *)
Theorem C22_reports : forall cfg, (forall c, converter_new cfg <> NewOk c) ->
  exists e i m, converter_new cfg = NewErr (e, i, snd m) /\ nth_error (co_macros cfg) i = Some m /\
    let fine := macro_fine (co_allow_unreliable cfg) (co_conventional cfg) (co_macros cfg) in
    ((Forall readable (firstn i (co_macros cfg)) /\ ~ good_name (fst m) /\ err_kind_of e = E_InvalidMacroName (fst m)) \/
     (Forall readable (firstn i (co_macros cfg)) /\ good_name (fst m) /\ snd (definition_tokens (snd m)) = LexError e) \/
     (Forall readable (co_macros cfg) /\ Forall fine (firstn i (co_macros cfg)) /\
      exists n sp, In (n, sp) (commands_of (snd m)) /\
        ~ known_command (co_allow_unreliable cfg) (co_conventional cfg) (co_macros cfg) n /\ e = mkErr sp (E_UnknownCommand n))).
Proof.
  intros cfg. unfold converter_new.
  pose proof (new_outcome_holds (co_allow_unreliable cfg) (co_conventional cfg) (co_macros cfg)) as H.
  destruct H as [H|i m e H1 H2 H3|i m n sp H1 H2 H3 H4 H5]; intros N.
  - contradiction (N _ eq_refl).
  - exists e, i, m. repeat split; auto. destruct H3 as [H3|e H3 H4]; [left|right; left]; auto.
  - eexists _, i, m. repeat split; auto. right. right. repeat split; auto. exists n, sp. auto.
Qed.
(** A successful configuration gives each name the meaning of its (first) definition ... *)
Theorem C22_meanings : forall cfg c, converter_new cfg = NewOk c -> forall n,
  meaning (pc_custom (cv_parser c)) n =
    option_map (macro_means (co_allow_unreliable cfg) (co_conventional cfg)) (assoc_str n (co_macros cfg)).
Proof.
  intros cfg c. unfold converter_new.
  pose proof (new_outcome_holds (co_allow_unreliable cfg) (co_conventional cfg) (co_macros cfg)) as H.
  destruct H as [H|i m e H1 H2 H3|i m n sp H1 H2 H3 H4 H5]; intros N; try discriminate.
  injection N as <-. intros n. apply table_meaning.
Qed.
(** ... and so the order of the definitions does not matter if their names differ. *)
Theorem C22_order : forall cfg macros', Permutation (co_macros cfg) macros' -> NoDup (map fst macros') ->
  let cfg' := mkConfig macros' (co_ignore_unknown cfg) (co_allow_unreliable cfg) (co_global_group cfg) (co_conventional cfg)
                       (co_max_expansions cfg) (co_emitter cfg) in
  ((exists c, converter_new cfg = NewOk c) <-> (exists c, converter_new cfg' = NewOk c)) /\
  forall c c', converter_new cfg = NewOk c -> converter_new cfg' = NewOk c' ->
    forall n, meaning (pc_custom (cv_parser c)) n = meaning (pc_custom (cv_parser c')) n.
Proof.
  intros cfg macros' P D cfg'. split.
  - rewrite !C22_accepts. cbn [cfg' co_macros co_allow_unreliable co_conventional].
    assert (K : forall n, known_command (co_allow_unreliable cfg) (co_conventional cfg) (co_macros cfg) n <->
                          known_command (co_allow_unreliable cfg) (co_conventional cfg) macros' n).
    { intros n. unfold known_command. assert (In n (map fst (co_macros cfg)) <-> In n (map fst macros')) as ->; [|tauto].
      split; apply Permutation_in; [now apply Permutation_map|symmetry; now apply Permutation_map]. }
    rewrite !Forall_forall. split; intros H m Hm.
    + destruct (H m (Permutation_in _ (Permutation_sym P) Hm)) as [H1 H2]. split; [exact H1|]. intros n sp Hn. apply K. eauto.
    + destruct (H m (Permutation_in _ P Hm)) as [H1 H2]. split; [exact H1|]. intros n sp Hn. apply K. eauto.
  - intros c c' H H' n. rewrite (C22_meanings _ _ H), (C22_meanings _ _ H'). cbn [cfg' co_macros co_allow_unreliable co_conventional].
    f_equal.
    assert (D0 : NoDup (map fst (co_macros cfg))).
    { eapply Permutation_NoDup; [|exact D]. symmetry. now apply Permutation_map. }
    destruct (assoc_str n (co_macros cfg)) as [v|] eqn:E.
    + apply L_Spec.assoc_str_iff in E; [|exact D0]. symmetry. apply L_Spec.assoc_str_iff; [exact D|]. now apply (Permutation_in _ P).
    + apply assoc_none_iff in E. symmetry. apply assoc_none_iff. intros I. apply E.
      eapply Permutation_in; [|exact I]. symmetry. now apply Permutation_map.
Qed.
Example C22_nonvacuous :
  (exists c, converter_new (plain_config [(lit "a", lit "\b#1\frac"); (lit "b", lit "x")]) = NewOk c /\
             meaning (pc_custom (cv_parser c)) (lit "a") =
               Some (1%nat, Some ClDefault, [RName (lit "b"); RTok (T_CustomCmdArg 0); RName (lit "frac")])) /\
  converter_new (plain_config [(lit "a", lit "x"); (lit "b", lit "\nope")]) =
    NewErr (mkErr (mkSpan 0 5) (E_UnknownCommand (lit "nope")), 1%nat, lit "\nope") /\
  converter_new (plain_config [(lit "a", lit "\nope"); (lit "b1", lit "x")]) =
    NewErr (mkErr (mkSpan 0 0) (E_InvalidMacroName (lit "b1")), 1%nat, lit "x").
Proof. split; [eexists; split|split]; vm_compute; reflexivity. Qed.
Print Assumptions C17_final_labels.
Print Assumptions C17_labels_of_all_snippets.
Print Assumptions C18_same_result.
Print Assumptions C18_no_influence.
Print Assumptions C19_reset.
Print Assumptions C20_batch_is_sequence.
Print Assumptions C21_refuted.
Print Assumptions C21_numbers_refuted.
Print Assumptions C21_only_global_partial.
Print Assumptions C22_accepts.
Print Assumptions C22_reports.
Print Assumptions C22_meanings.
Print Assumptions C22_order.
