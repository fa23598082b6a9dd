(** What [\mathchoice] does to the tokens. *)
From Verif Require Import Str M_SuperChar M_Transform M_Length M_Spec M_Ast M_Emit M_Output M_Token M_Symbols M_Commands M_Env
  M_LatexError M_Lexer M_CustomCmds M_Queue M_Spacing M_Colors M_Leaf M_TextParser M_Parser M_Api
  S_Lexer S_Queue S_Store S_Tree S_Run S_Api S_Convert S_Choice
  L_Queue L_Args L_Store L_Sound L_Meaning L_Reads L_Weight L_Wp L_Exec L_Run L_Convert.
Local Open Scope nat_scope.

Lemma choice_eq cfg umax sp b : exec cfg umax (OChoice sp) b =
  match read_cmd_args cfg 4 (ps_queue b) with
  | (Ok ca, q') => (Ok tt, mkPs (queue_in_front (arg_front (args_get ca (style_index (pv_style (ps_view b)))) sp) q') (ps_view b))
  | (Err e, q') => (Err e, mkPs q' (ps_view b))
  | (Crash c, q') => (Crash c, mkPs q' (ps_view b))
  end.
Proof.
  change (exec cfg umax (OChoice sp) b) with (math_choice cfg sp b). unfold math_choice, view, sget, sbind, on_queue_pure, on_queue.
  destruct (read_cmd_args cfg 4 (ps_queue b)) as [[ca|e|c] q']; reflexivity.
Qed.
Lemma choice_expansion meaning args sp i : expansion meaning args sp [RTok (T_CustomCmdArg i)] = arg_front (nth i args []) sp.
Proof. unfold expansion. cbn [flat_map substituted]. rewrite app_nil_r. unfold arg_front. destruct (nth i args []); reflexivity. Qed.
Lemma choice_index st : style_index st = choice_place st.
Proof. now destruct st. Qed.
Lemma style_below st : choice_place st < 4.
Proof. destruct st; cbn; lia. Qed.

Lemma choice_made cfg n i sp v b x a : good_queue (ps_queue b) -> i < n -> n <= 9 ->
  match read_cmd_args cfg n (ps_queue b) with
  | (Ok ca, q') => (Ok tt, mkPs (queue_in_front (arg_front (args_get ca i) sp) q') v)
  | (Err e, q') => (Err e, mkPs q' v)
  | (Crash c, q') => (Crash c, mkPs q' v)
  end = (x, a) ->
  match x with
  | Ok _ => expanded cfg (ps_queue b) n [RTok (T_CustomCmdArg i)] sp (ps_queue a) /\ ps_view a = v
  | Err _ => args_missing cfg n (ps_queue b)
  | Crash _ => False
  end.
Proof.
  intros G Hi L9. pose proof (read_cmd_args_spec cfg n (ps_queue b) G L9) as K. unfold args_result in K.
  destruct (read_cmd_args cfg n (ps_queue b)) as [[ca|e|c] q'] eqn:E.
  - destruct K as (args & rest & L & T & V & H & G' & St). intros X. injection X as <- <-. cbn [ps_queue ps_view]. split; [|reflexivity].
    assert (Ga : args_get ca i = nth i args []) by (apply holds_get; [exact H|lia|cbn [app]; lia]).
    assert (Na : Forall (fun t => not_eoi t = true) (arg_front (nth i args []) sp)).
    { destruct (takes_args_no_eoi _ _ _ T (view_no_eoi cfg (ps_queue b))) as [Na _]. rewrite Forall_forall in Na. apply front_no_eoi, Na, nth_In. lia. }
    rewrite Ga. destruct (push_spec cfg _ q' G' Na) as (_ & V' & St'). exists args, rest. split; [exact L|]. split; [exact T|].
    split.
    + rewrite V', V, choice_expansion. reflexivity.
    + destruct St as [S1 S2], St' as [S3 S4]. split; congruence.
  - intros X. injection X as <- <-. eapply args_fail; [exact G|lia|exact E].
  - destruct K.
Qed.
Lemma choice_does cfg umax sp b x a : good_queue (ps_queue b) -> exec cfg umax (OChoice sp) b = (x, a) ->
  match x with
  | Ok _ => expanded cfg (ps_queue b) 4 [RTok (T_CustomCmdArg (choice_place (pv_style (ps_view b))))] sp (ps_queue a) /\ ps_view a = ps_view b
  | Err _ => args_missing cfg 4 (ps_queue b)
  | Crash _ => False
  end.
Proof. intros G. rewrite choice_eq, choice_index. apply choice_made; [exact G|apply style_below|lia]. Qed.
