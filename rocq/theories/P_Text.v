(** Text (C46). *)
From Verif Require Import Str M_SuperChar M_Transform M_Length M_Spec M_Ast M_Token M_Symbols M_Commands M_Env
  M_LatexError M_Lexer M_CustomCmds M_Queue M_Spacing M_Leaf M_TextParser M_Parser
  S_SuperChar S_Run S_Lexer S_Queue S_Store S_Convert S_Text L_Convert L_TextScope.
Local Open Scope nat_scope.

(** The snippets of a text argument show the characters that reading it piece by piece gives, each with the look
    that is in force there: a style or a raised box reaches to the end of its argument, and a size to the end of the
    group or argument. Nothing else is accepted. *)
Theorem C46_scoped : forall cfg text_mode st vo q l q', sound_queue cfg q ->
  (exists sn, extract_text cfg text_mode st vo q = (Ok sn, q') /\ all_shown sn = l) <->
  (exists a, reads_arg cfg text_mode (mkLook st None vo) None q l a q').
Proof. intros cfg m st vo q l q' Sq. now apply text_exact. Qed.
(** Without accents and raised boxes, the texts of the snippets are together the text of the tokens. *)
Theorem C46_typed : forall cfg st vo q sn q', sound_queue cfg q -> extract_text cfg true st vo q = (Ok sn, q') ->
  exists ts, fst (q_view cfg q) = ts ++ fst (q_view cfg q') /\
    (Forall (fun t => plain_text_tok true t = true) ts -> flat_map sn_text sn = flat_map (typed_text true) ts).
Proof. exact text_typed. Qed.
(** This is so for all texts of a conversion. *)
Theorem C46_conversion : forall cfg usize_max f gs input st ts vo text_mode b x a, config_ok (pc_custom cfg) -> gs_ok cfg gs -> scalar_text input ->
  In (Performed (OText ts vo text_mode) b (Ok x) a) (snippet_trace cfg usize_max f gs input st) ->
  exists acc, reads_arg cfg text_mode (mkLook ts None vo) None (ps_queue b) (all_shown x) acc (ps_queue a).
Proof.
  intros cfg umax f gs input st ts vo m b x a C D S I0.
  destruct (snippet_good cfg umax (fun _ => True) (fun _ _ _ _ => I) (fun _ _ _ _ _ _ => I) f gs input st C D S (fun _ _ => I)) as [H _].
  rewrite Forall_forall in H. specialize (H _ I0). destruct H as [[Sq _] _].
  assert (X : exec cfg umax (OText ts vo m) b = (Ok x, a)).
  { apply in_split in I0 as (l1 & l2 & I0). unfold snippet_trace, parser_new in I0. destruct (queue_new cfg (lexer_new input) gs) as [[[]|e|c] q]; try (destruct l1; discriminate).
    destruct (trun_tracked cfg umax f _ (body (CSeq (SeqEnd EtEoi) ClOpen true)) (mkPs q (mkPv None false env_state_default st None (pc_max_expansions cfg)))) as [T _].
    specialize (T l1 _ l2 I0). exact (proj1 (proj2 T)). }
  cbn [exec] in X. unfold on_queue in X. destruct (extract_text cfg m ts vo (ps_queue b)) as [r q'] eqn:E. injection X as -> <-.
  apply (text_exact cfg m ts vo (ps_queue b) q' (all_shown x) Sq). now exists x.
Qed.
Example C46_nonvacuous :
  let parse s := fst (parse_snippet plain_cfg 1000 100 gs_default s StText) in
  parse (lit "\text{a{\large b\textbf{c\textit d}e}f}") =
    Ok [Row [Text None None (lit "a"); Text None (Some Size120) (lit "b"); Text (Some TsBold) (Some Size120) (lit "c");
             Text (Some TsBoldItalic) (Some Size120) (lit "d"); Text None (Some Size120) (lit "e"); Text None None (lit "f")] (mkRowAttrs None None false)].
Proof. vm_compute. reflexivity. Qed.
(** An accent can go to a character outside the group after it, or be lost; and a style command that stands without
    braces as the argument of a text command takes the text up to the next closing brace into the argument. *)
Theorem C46_refuted :
  let parse s := fst (parse_snippet plain_cfg 1000 100 gs_default s StText) in
  parse (lit "\text{\'{\textbf a}b}") =
    Ok [Row [Text (Some TsBold) None (lit "a"); Text None None (lit "b" ++ [769%N])] (mkRowAttrs None None false)] /\
  parse (lit "\text{a\'}") = Ok [Text None None (lit "a")] /\
  parse (lit "\text\textbf{y}z}") =
    Ok [Row [Text (Some TsBold) None (lit "y"); Text None None (lit "z")] (mkRowAttrs None None false)] /\
  is_ok (parse (lit "\text\textbf{y}")) = false.
Proof. vm_compute. repeat split. Qed.
Print Assumptions C46_scoped.
Print Assumptions C46_typed.
Print Assumptions C46_conversion.
Print Assumptions C46_refuted.
