(** Property C57: [\mathchoice]. *)
From Verif Require Import Str M_SuperChar M_Transform M_Length M_Spec M_Ast M_Emit M_Output M_Token M_Symbols M_Commands M_Env
  M_LatexError M_Lexer M_CustomCmds M_Queue M_Spacing M_Colors M_Leaf M_TextParser M_Parser M_Api
  S_Lexer S_Queue S_Store S_Tree S_Run S_Api S_Convert S_Choice
  L_Queue L_Args L_Store L_Sound L_Meaning L_Reads L_Weight L_Wp L_Exec L_Run L_Convert L_Raise L_Api L_Choice.
Local Open Scope nat_scope.

(** Wherever [\mathchoice] is met in a conversion, it stands for a macro with four parameters, and its body is
    the parameter that belongs to the style in force: the first in display style, then text, script and
    scriptscript style. The other three arguments are gone. Nothing else changes, and it is not counted as an
    expansion. It fails only if the four arguments cannot be read. *)
Theorem C57_choice : forall cfg usize_max f gs input st sp b x a, config_ok (pc_custom cfg) -> gs_ok cfg gs -> scalar_text input ->
  In (Performed (OChoice sp) b x a) (snippet_trace cfg usize_max f gs input st) ->
  match x with
  | Ok _ => expanded cfg (ps_queue b) 4 [RTok (T_CustomCmdArg (choice_place (pv_style (ps_view b))))] sp (ps_queue a) /\ ps_view a = ps_view b
  | Err _ =>
      let (l, e) := q_view cfg (ps_queue b) in
      forall args rest, takes_args l args rest -> length args = 4 ->
        (exists t, In t l /\ (reject_unknown cfg t <> None \/ reject_unknown cfg (qt_unwrap t) <> None)) \/ (exists err, e = LexError err)
  | Crash _ => False
  end.
Proof.
  intros cfg umax f gs input st sp b x a C D S I0.
  destruct (snippet_good cfg umax (fun _ => True) (fun _ _ _ _ => I) (fun _ _ _ _ _ _ => I) f gs input st C D S (fun _ _ => I)) as [H _].
  rewrite Forall_forall in H. specialize (H _ I0). cbn [good_event] in H.
  assert (X : exec cfg umax (OChoice sp) b = (x, a)).
  { apply in_split in I0 as (l1 & l2 & I0). unfold snippet_trace, parser_new in I0. destruct (queue_new cfg (lexer_new input) gs) as [[[]|e|c] q]; try (destruct l1; discriminate).
    destruct (trun_tracked cfg umax f _ (body (CSeq (SeqEnd EtEoi) ClOpen true)) (mkPs q (mkPv None false env_state_default st None (pc_max_expansions cfg)))) as [T _].
    specialize (T l1 _ l2 I0). exact (proj1 (proj2 T)). }
  exact (choice_does cfg umax sp b x a (proj1 (proj1 (proj1 H))) X).
Qed.
(** The style in force is that of the place: a script, a fraction, a switch. *)
Example C57_nonvacuous :
  let tree (st : style) (i : string) := fst (parse_snippet plain_cfg 1000 200 gs_default (lit i) st) in
  let choice := "\mathchoice{a}{b}{c}{}"%string in
  let same (st : style) (pre post branch : string) := tree st (String.append pre (String.append choice post)) = tree st (String.append pre (String.append branch post)) in
  same StDisplay ""%string "^2"%string "a"%string /\ same StText ""%string "^2"%string "b"%string /\ same StText "x^"%string ""%string "c"%string /\ same StText "x^{y_{z"%string "}}"%string "{}"%string /\ same StDisplay "\frac{"%string "}2"%string "b"%string /\
  same StText "\displaystyle "%string ""%string "a"%string /\ tree StText "a"%string <> tree StText "b"%string /\
  length (filter (fun p => match p with Performed (OChoice _) _ (Ok _) _ => true | _ => false end) (snippet_trace plain_cfg 1000 200 gs_default (lit (String.append choice choice)) StText)) = 2 /\
  match tree StText "\mathchoice{a}{b}{c}"%string with Err _ => True | _ => False end.
Proof. vm_compute. repeat split; discriminate. Qed.
Print Assumptions C57_choice.
