(** Properties C23, C28 and C29: macros in whole conversions. *)
From Verif Require Import Str M_SuperChar M_Transform M_Length M_Spec M_Ast M_Emit M_Output M_Token M_Symbols M_Commands M_Env
  M_LatexError M_Lexer M_CustomCmds M_Queue M_Spacing M_Colors M_Leaf M_TextParser M_Parser M_Api
  S_Lexer S_Queue S_Store S_Tree S_Run S_Api S_Convert
  L_Queue L_Args L_Store L_Sound L_Meaning L_Reads L_Weight L_Wp L_Exec L_Run L_Convert L_Raise L_Api P_Store.
Local Open Scope nat_scope.

(** ** C29: every conversion comes to an end *)

(** Whatever the input is and whatever has been defined, the parser stops with a result or an error; more
    steps do not change it. The stored commands stay in order. *)
Theorem C29_snippet : forall cfg usize_max gs input st, config_ok (pc_custom cfg) -> gs_ok cfg gs -> scalar_text input ->
  exists F r, (forall f, F <= f -> parse_snippet cfg usize_max f gs input st = r) /\ answered (fst r) /\ gs_ok cfg (snd r).
Proof.
  intros cfg umax gs input st C D S. destruct (snippet_halts cfg umax gs input st C D S) as (F & r & H1 & H2).
  exists F, r. split; [exact H1|]. destruct r as [[l|e|c] gs']; cbn [fst snd answered]; [split; [exact I|apply H2]|split; [exact I|exact H2]|destruct H2].
Qed.
(** A converter answers every sequence of calls, whatever macros are configured. *)
Theorem C29_session : forall usize_max config c calls, scalar_config config -> converter_new config = NewOk c -> Forall scalar_call calls ->
  exists F rs, (forall f, F <= f -> replies usize_max f c calls = rs) /\ Forall reply_answered rs.
Proof.
  intros umax config c calls S E F0. destruct (run_halts umax calls F0 c (new_cv_ok config c S E)) as (F & r & H1 & H2 & _).
  exists F, (fst r). split; [|exact H2]. intros f L. unfold replies. now rewrite H1.
Qed.
(** Macros that use themselves, or each other. *)
Example C29_nonvacuous :
  replies 1000 5000 (plain_converter [(lit "a", lit "\b\b"); (lit "b", lit "\a")]) [ApiGlobal (lit "\def\x{\x\x}") Inline; ApiGlobal (lit "\a") Inline; ApiLocal (lit "\def\x{y\x}\x") Inline] =
  [ReplyOne (Ok (mkConvertResult (lit "<math></math>") warn_none)); ReplyOne (Err (mkErr (mkSpan 0 0) E_TooManyExpansions)); ReplyOne (Err (mkErr (mkSpan 0 0) E_TooManyExpansions))].
Proof. vm_compute. reflexivity. Qed.

(** ** C28: the number of expansions *)

(** A macro is used only if fewer than [max_expansions] macros have been used before; otherwise this is
    reported as an error. *)
Theorem C28_limit : forall cfg usize_max f gs input st l1 p l2,
  snippet_trace cfg usize_max f gs input st = l1 ++ p :: l2 -> macro_use p = true ->
  macro_uses l1 <= pc_max_expansions cfg /\ (is_error p E_TooManyExpansions <-> macro_uses l1 = pc_max_expansions cfg).
Proof.
  intros cfg umax f gs input st l1 p l2 E M. unfold snippet_trace, parser_new in E. destruct (queue_new cfg (lexer_new input) gs) as [[[]|e|c] q]; try (destruct l1; discriminate).
  set (s := mkPs q _) in E. destruct (trun_tracked cfg umax f _ (body (CSeq (SeqEnd EtEoi) ClOpen true)) s) as [T _]. specialize (T l1 p l2 E).
  destruct p as [C o b x a]. cbn [event_fits macro_use is_error] in *. destruct T as (T1 & T2 & T3). change (pv_left (ps_view s)) with (pc_max_expansions cfg) in T1.
  split; [lia|]. pose proof (exec_macro cfg umax o b M) as K. pose proof (exec_macro_calm cfg umax o b) as Q. rewrite T2 in K, Q. cbn [fst snd] in K, Q. split.
  - intros X. destruct (pv_left (ps_view b)) eqn:L; [lia|]. specialize (Q ltac:(discriminate)). destruct x as [y|e|c]; [destruct X| |destruct X]. unfold res_calm, too_many in Q. now rewrite X in Q.
  - intros X. assert (L : pv_left (ps_view b) = 0) by lia. rewrite L in K. destruct K as [sn K]. apply (f_equal fst) in K. cbn [fst] in K. now subst x.
Qed.
(** The conversion ends with this error exactly if a macro is used after that many others. *)
Theorem C28_error : forall cfg usize_max f gs input st,
  (exists sp, fst (parse_snippet cfg usize_max f gs input st) = Err (mkErr sp E_TooManyExpansions)) <->
  (exists l p, snippet_trace cfg usize_max f gs input st = l ++ [p] /\ macro_use p = true /\ macro_uses l = pc_max_expansions cfg).
Proof.
  intros cfg umax f gs input st. unfold parse_snippet, snippet_trace, parser_new, parse_all.
  pose proof (queue_new_calm cfg (lexer_new input) gs) as QC.
  destruct (queue_new cfg (lexer_new input) gs) as [[[]|e|c] q]; cbn [fst] in *.
  2,3: split; [intros [sp X]; try discriminate; injection X as ->; discriminate QC|intros (l & p & X & _); destruct l; discriminate].
  set (s := mkPs q _). set (start := body _).
  destruct (trun_tracked cfg umax f _ start s) as [T _]. pose proof (trun_well_failed cfg umax f _ start s (body_pcalm _ _)) as W.
  rewrite <- trun_run. unfold well_failed in W. destruct (trun cfg umax f start s) as [l [r s']]. cbn [fst snd] in *. split.
  - intros [sp X]. destruct r as [a|e|c]; cbn [fst] in X; try discriminate. injection X as ->. destruct W as [W|(l1 & p & -> & W)]; [discriminate W|].
    exists l1, p. split; [reflexivity|]. specialize (T l1 p [] eq_refl). destruct p as [C o b x a]. cbn [event_fits macro_use] in *. destruct T as (T1 & T2 & _).
    destruct x as [y|e|c]; [destruct W| |destruct W]. subst e. change (pv_left (ps_view s)) with (pc_max_expansions cfg) in T1.
    destruct (is_macro o) eqn:M; [split; [reflexivity|]|].
    + pose proof (exec_macro_calm cfg umax o b) as Q. rewrite T2 in Q. destruct (pv_left (ps_view b)); [lia|]. now specialize (Q ltac:(discriminate)).
    + pose proof (exec_calm cfg umax o M b) as Q. rewrite T2 in Q. discriminate Q.
  - intros (l1 & p & -> & M & U). specialize (T l1 p [] eq_refl). destruct p as [C o b x a]. cbn [event_fits macro_use] in *. destruct T as (T1 & T2 & T3).
    change (pv_left (ps_view s)) with (pc_max_expansions cfg) in T1. pose proof (exec_macro cfg umax o b M) as K. rewrite T2 in K. replace (pv_left (ps_view b)) with 0 in K by lia.
    destruct K as [sn K]. apply (f_equal fst) in K. cbn [fst] in K. subst x. destruct T3 as [_ T3]. exists sn. exact T3.
Qed.
(** Three uses are allowed here. *)
Example C28_nonvacuous :
  let cfg := mkCfg cmds_empty false false false true 3 in
  let uses input := (macro_uses (snippet_trace cfg 1000 100 gs_default input StText), is_ok (fst (parse_snippet cfg 1000 100 gs_default input StText))) in
  uses (lit "\def\x{y}\x\x\x") = (3, true) /\ uses (lit "\def\x{y}\x\x\x\x") = (4, false) /\ uses (lit "\def\x{y}\def\z{\x\x}\z\z") = (4, false).
Proof. vm_compute. repeat split. Qed.

(** ** C23: what a use of a macro does *)

(** Wherever a macro is used: the arguments are taken from what is to be read, and the body with the
    arguments put in is there instead. It fails only if no expansion is left, or if the arguments cannot be
    read. *)
Theorem C23_use : forall cfg usize_max f gs input st A (o : op A) b x a, config_ok (pc_custom cfg) -> gs_ok cfg gs -> scalar_text input ->
  In (Performed o b x a) (snippet_trace cfg usize_max f gs input st) -> is_macro o = true ->
  exists n body sp, macro_of cfg (ps_queue b) o = Some (n, body, sp) /\ n <= 9 /\ params_below n body /\
    match x with
    | Ok _ => expanded cfg (ps_queue b) n body sp (ps_queue a) /\ S (pv_left (ps_view a)) = pv_left (ps_view b) /\ ps_view a = pv_set_left (pv_left (ps_view a)) (ps_view b)
    | Err _ => pv_left (ps_view b) = 0 \/
        let (l, e) := q_view cfg (ps_queue b) in
        forall args rest, takes_args l args rest -> length args = n ->
          (exists t, In t l /\ (reject_unknown cfg t <> None \/ reject_unknown cfg (qt_unwrap t) <> None)) \/ (exists err, e = LexError err)
    | Crash _ => False
    end.
Proof.
  intros cfg umax f gs input st A o b x a C D S I0 M.
  destruct (snippet_good cfg umax (fun _ => True) (fun _ _ _ _ => I) (fun _ _ _ _ _ _ => I) f gs input st C D S (fun _ _ => I)) as [H _].
  rewrite Forall_forall in H. specialize (H _ I0). cbn [good_event] in H.
  assert (X : exec cfg umax o b = (x, a)).
  { apply in_split in I0 as (l1 & l2 & I0). unfold snippet_trace, parser_new in I0. destruct (queue_new cfg (lexer_new input) gs) as [[[]|e|c] q]; try (destruct l1; discriminate).
    destruct (trun_tracked cfg umax f _ (body (CSeq (SeqEnd EtEoi) ClOpen true)) (mkPs q (mkPv None false env_state_default st None (pc_max_expansions cfg)))) as [T _].
    specialize (T l1 _ l2 I0). exact (proj1 (proj2 T)). }
  clear I0. destruct o; try discriminate M; destruct H as [Hs Hp]; cbn [op_pre] in Hp.
  - exists num_args, (map RTok body), sp. pose proof (exec_expand cfg umax (fun _ => True) (fun _ _ _ _ => I) num_args body sp b Hs Hp) as K. unfold L_Reads.sp in K. rewrite X in K.
    split; [reflexivity|]. split; [apply Hp|]. split.
    { unfold params_below. rewrite Forall_map. destruct Hp as [_ Hp]. eapply Forall_impl; [|exact Hp]. intros [] K0; try exact I. exact K0. }
    destruct x as [y|e|c]; [|eapply expand_fails; [exact Hs|apply Hp|exact X]|exact K]. unfold left_of in K. destruct K as (_ & K1 & K2 & K3). split; [exact K3|]. now split.
  - pose proof Hp as (L & body & K1 & K2).
    pose proof (exec_expand_ref cfg umax (fun _ => True) (fun _ _ _ _ => I) src num_args start stop sp b Hs Hp) as K. unfold L_Reads.sp in K. rewrite X in K.
    assert (B : q_body cfg (ps_queue b) src start stop = Some body) by (unfold q_body; destruct src; exact K1).
    exists num_args, body, sp. split; [cbn [macro_of]; now rewrite B|]. split; [exact L|]. split; [exact K2|].
    destruct x as [y|e|c]; [|eapply expand_ref_fails; [exact Hs|exact L|exact B|exact X]|exact K]. unfold left_of in K. destruct K as (_ & K4 & K5 & body' & K6 & K7). rewrite B in K6. injection K6 as <-. split; [exact K7|]. now split.
Qed.
(** This determines what is to be read afterwards. *)
Theorem C23_unique : forall cfg q n body sp q1 q2, expanded cfg q n body sp q1 -> expanded cfg q n body sp q2 ->
  q_view cfg q1 = q_view cfg q2 /\ stored_as q1 q2.
Proof.
  intros cfg q n body sp q1 q2 (a1 & r1 & L1 & T1 & V1 & S1 & S2) (a2 & r2 & L2 & T2 & V2 & S3 & S4).
  destruct (takes_args_unique _ _ _ T1 _ _ T2 ltac:(congruence)) as [-> ->]. split; [congruence|split; congruence].
Qed.
(** [\a{\a}{}z] with [#2x#1]: the inner [\a] and the marker in the first argument stay as they are, the empty argument is a group. *)
Example C23_nonvacuous :
  map (map (fun t => match t with T_CustomCmdRef _ _ _ _ _ => lit "a" | T_Letter c _ => [c] | T_GroupBegin => lit "{" | T_GroupEnd => lit "}" | T_CustomCmdArgInput i => lit "#" | _ => lit "?" end))
    (views_after plain_cfg (snippet_trace plain_cfg 1000 100 gs_default (lit "\def\a#1#2{#2x#1}\a{#1\a}{}z") StText)) =
  [[lit "{"; lit "}"; lit "x"; lit "#"; lit "a"; lit "z"]].
Proof. vm_compute. reflexivity. Qed.

(** ** C24 and C26 in conversions *)

(** Before every operation of a conversion, the stored commands are those of a history, and so every name means
    what the last definition of it says. *)
Theorem C24_conversion : forall cfg usize_max f gs input st A (o : op A) b x a, config_ok (pc_custom cfg) -> document_arises cfg gs -> scalar_text input ->
  In (Performed o b x a) (snippet_trace cfg usize_max f gs input st) ->
  exists q0 l s, starts cfg q0 /\ history cfg l q0 (scope_start cfg) (ps_queue b) s /\
    forall name t, means cfg (ps_queue b) name t <-> t = scope_lookup s name.
Proof.
  intros cfg umax f gs input st A o b x a C D S I0. destruct (snippet_arises cfg umax f gs input st C D S) as [H _].
  rewrite Forall_forall in H. specialize (H _ I0). destruct H as [(Sq & Ar & _) _].
  destruct (arises_history cfg _ Sq Ar) as (q0 & l & s & H1 & H2). exists q0, l, s. split; [exact H1|]. split; [exact H2|]. exact (P_Store.C24_history cfg q0 l _ s H1 H2).
Qed.
(** The state of a converter after any calls that have been answered is one that definitions give. *)
Theorem C26_session : forall usize_max f config c calls, scalar_config config -> converter_new config = NewOk c -> Forall scalar_call calls ->
  Forall reply_answered (replies usize_max f c calls) ->
  config_ok (pc_custom (cv_parser c)) /\ document_arises (cv_parser c) (cv_state (after usize_max f c calls)).
Proof.
  intros umax f config c calls S E F0 R. pose proof (new_cv_arises config c S E) as K.
  split; [apply K|]. pose proof (run_arises umax f calls F0 c K R) as [_ H]. unfold after in *. now rewrite (proj2 (L_Api.run_config umax f calls c)) in H.
Qed.
Example C26_session_nonvacuous :
  let c := plain_converter [(lit "k", lit "z")] in
  Forall reply_answered (replies 1000 100 c [ApiGlobal (lit "\gdef\a{x}\def\b{y}\a\b") Inline; ApiGlobal (lit "\a") Inline; ApiGlobal (lit "\b") Inline]) /\
  length (cc_map (gs_cmds (cv_state (after 1000 100 c [ApiGlobal (lit "\gdef\a{x}\def\b{y}\a\b") Inline; ApiGlobal (lit "\a") Inline; ApiGlobal (lit "\b") Inline])))) = 1.
Proof. vm_compute. repeat constructor. Qed.
Print Assumptions C29_snippet.
Print Assumptions C29_session.
Print Assumptions C28_limit.
Print Assumptions C28_error.
Print Assumptions C23_use.
Print Assumptions C23_unique.
Print Assumptions C24_conversion.
Print Assumptions C26_session.
