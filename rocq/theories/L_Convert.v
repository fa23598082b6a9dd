(** Whole conversions: they come to an end, keep the stored commands sound, and change them only by
    definitions. *)
From Verif Require Import Str M_SuperChar M_Transform M_Length M_Spec M_Ast M_Emit M_Output M_Token M_Symbols M_Commands M_Env
  M_LatexError M_Lexer M_CustomCmds M_Queue M_Spacing M_Colors M_Leaf M_TextParser M_Parser M_Api
  S_SuperChar S_Transform S_Lexer S_Queue S_Store S_Node S_Emit S_Tree S_Run S_Api S_Convert
  L_SuperChar L_Transform L_Lexer L_Queue L_Args L_Store L_Sound L_Define L_Meaning L_Keep L_Reads L_Leaf L_Text L_Defs L_Weight L_Tree L_Wp L_Error L_Exec L_Run.
Local Open Scope nat_scope.

(** ** Configured macros *)

Notation no_refs := (fun (_ : cmd_source) (_ _ _ : nat) => False).
Definition macro_ok (m : macro_body) : Prop :=
  Forall (rec_ok no_refs) (mb_tokens m) /\ params_below (mb_args m) (mb_tokens m) /\ mb_args m <= 9.
Lemma params_below_le n n' body : n <= n' -> params_below n body -> params_below n' body.
Proof. intros L. apply Forall_impl. intros [t|name]; [|auto]. destruct t; auto. lia. Qed.
Lemma macro_command_ok u c name sn m : scalars name -> macro_ok m -> macro_ok (macro_command u c name sn m).
Proof.
  intros N (H1 & H2 & H3). unfold macro_command. destruct (resolve_builtin u c name); (split; [|split; [|exact H3]]);
    (apply Forall_app; split; [assumption|]; constructor; [exact N || exact I|constructor]).
Qed.
Lemma macro_token_ok t m : tok_okb t = true -> means_eoi t = false -> macro_ok m -> macro_ok (macro_token t m).
Proof.
  intros T E (H1 & H2 & H3).
  assert (D : forall cl u, (forall i, t <> T_CustomCmdArgInput i) -> macro_ok (mkMacro (mb_tokens m ++ [RTok t]) (mb_args m) cl u)).
  { intros cl u N. split; [|split; [|exact H3]]; (apply Forall_app; split; [assumption|]; constructor; [|constructor]).
    - assert (K : tok_ok no_refs t /\ means_eoi t = false) by (split; [now apply tok_okb_ok|exact E]). cbn [rec_ok]. destruct t; auto.
    - destruct t; try exact I. discriminate T. }
  assert (X : forall i, t = T_CustomCmdArgInput i -> macro_ok (macro_token t m)).
  { intros i ->. cbn [tok_okb] in T. apply andb_prop in T as [_ T]. apply Nat.ltb_lt in T. cbn [macro_token]. set (n := if mb_args m <=? i then S i else mb_args m).
    assert (L : mb_args m <= n /\ i < n /\ n <= 9) by (unfold n; destruct (mb_args m <=? i) eqn:X; [apply Nat.leb_le in X|apply Nat.leb_gt in X]; lia).
    destruct L as (L1 & L2 & L3). split; [|split; [|exact L3]]; cbn [mb_tokens mb_args]; apply Forall_app; (split; [|constructor; [|constructor]]).
    - exact H1.
    - exact I.
    - exact (params_below_le _ _ _ L1 H2).
    - exact L2. }
  destruct t; try (apply D; discriminate). now apply (X n).
Qed.
Lemma read_macro_ok u c f : forall l m m', scalars (lx_rest l) -> macro_ok m -> read_macro f u c l m = Ok m' -> macro_ok m'.
Proof.
  induction f as [|f IH]; intros l m m' Hl Hm; cbn [read_macro]; [discriminate|]. destruct (next_token_sound l Hl) as [N1 N2]. pose proof (next_token_unwrap l) as N3.
  destruct (next_token l) as [[[[t sn]|name sn]|e] l']; cbn [fst snd out_okb] in *; [| |discriminate].
  - assert (D : is_eoi t = false -> read_macro f u c l' (macro_token t m) = Ok m' -> macro_ok m').
    { intros E. apply IH; [exact N1|]. apply macro_token_ok; [exact N2| |exact Hm]. rewrite (N3 _ _ _ eq_refl). exact E. }
    destruct t; try (apply D; reflexivity). intros X. now injection X as <-.
  - apply IH; [exact N1|]. now apply macro_command_ok.
Qed.
Lemma config_ok_insert c name m cl : config_ok c -> macro_ok m -> config_ok (cmds_insert_or_replace c name (mb_args m) (mb_tokens m) cl).
Proof.
  intros [C1 C2] (H1 & H2 & H3). unfold cmds_insert_or_replace, cmds_register. split; cbn [cc_tokens cc_map].
  - now apply Forall_app.
  - unfold map_ok. cbn [cc_tokens cc_map]. constructor; cbn [fst snd cd_args cd_start cd_end]; [now apply body_at_new|].
    eapply Forall_impl; [|exact C2]. intros e. apply body_at_prefix.
Qed.
Lemma macro_empty_ok : macro_ok macro_empty.
Proof. split; [constructor|]. split; [constructor|]. cbn. lia. Qed.
Lemma read_macros_config u c macros : forall idx cmds un r, Forall (fun m => scalar_text (snd m)) macros -> config_ok cmds ->
  read_macros u c idx macros cmds un = NewOk r -> config_ok (fst r).
Proof.
  induction macros as [|[name def] macros IH]; intros idx cmds un r F C; cbn [read_macros].
  - intros X. now injection X as <-.
  - inversion F as [|? ? F1 F2]; subst. cbn [snd] in F1. destruct (is_valid_macro_name name); [|discriminate].
    destruct (read_macro (S (length def)) u c (lexer_new def) macro_empty) as [m|e|k] eqn:E; try discriminate. apply IH; [exact F2|].
    apply read_macro_ok in E; [|exact F1|apply macro_empty_ok]. unfold cmds_insert. destruct (cmds_has cmds name); [exact C|]. now apply config_ok_insert.
Qed.
Lemma config_empty : config_ok cmds_empty.
Proof. split; constructor. Qed.
Lemma new_config_ok cfg c : scalar_config cfg -> converter_new cfg = NewOk c ->
  config_ok (pc_custom (cv_parser c)) /\ cv_state c = gs_default.
Proof.
  intros F. unfold converter_new, parse_custom_commands. destruct (read_macros _ _ _ _ _ _) as [[cmds un]|e|k] eqn:E; try discriminate.
  apply read_macros_config in E; [|exact F|apply config_empty]. cbn [fst] in E. destruct (find _ un) as [[[? ?] ?]|]; [discriminate|].
  intros X. injection X as <-. now split.
Qed.

(** ** One snippet *)

Section Snippet.
Context (cfg : parser_cfg) (usize_max : N).
Notation start_call := (CSeq (SeqEnd EtEoi) ClOpen true).

(** *** With any invariant of the stored commands *)
Section G.
Context (G : queue -> Prop) (G_same : forall q q', same_commands q q' -> G q -> G q')
  (G_make : forall d q q', sound_queue cfg q -> makes cfg d q q' -> G q -> G q').

Lemma start_pre gs input st q : config_ok (pc_custom cfg) -> gs_ok cfg gs -> scalars input -> queue_new cfg (lexer_new input) gs = (Ok tt, q) -> G q ->
  call_pre cfg G _ start_call (mkPs q (mkPv None false env_state_default st None (pc_max_expansions cfg))).
Proof.
  intros C D S E Hq. destruct (new_sound cfg input gs q C D S E) as (Sq & _ & _). split; [|exact I]. split; [exact Sq|]. split; [exact Hq|]. exact I.
Qed.
Lemma snippet_good f gs input st : config_ok (pc_custom cfg) -> gs_ok cfg gs -> scalars input ->
  (forall q, queue_new cfg (lexer_new input) gs = (Ok tt, q) -> G q) ->
  Forall (good_event (op_pre cfg G)) (snippet_trace cfg usize_max f gs input st) /\
  match parse_snippet cfg usize_max f gs input st with
  | (Ok l, gs') => (exists q, gs' = q_gs q /\ G q /\ stores_ok cfg q) /\ trees l
  | (Err _, gs') => gs' = gs \/ exists q, gs' = q_gs q /\ G q /\ stores_ok cfg q
  | (Crash c, _) => c = OutOfFuel
  end.
Proof.
  intros C D S Hq. unfold snippet_trace, parse_snippet, parser_new, parse_all. pose proof (new_spec cfg (lexer_new input) gs) as N. cbn zeta in N.
  pose proof (queue_new_stores cfg (lexer_new input) gs) as [_ Eg].
  destruct (queue_new cfg (lexer_new input) gs) as [[[]|e|c] q] eqn:E; cbn [snd ps_queue] in *.
  - pose proof (start_pre gs input st q C D S E (Hq q eq_refl)) as P. set (s := mkPs q _) in *.
    pose proof (bodies_any cfg usize_max G G_same G_make _ start_call s P) as W.
    pose proof (trun_good cfg usize_max _ _ _ _ _ (bodies_any cfg usize_max G G_same G_make) f _ _ _ _ W) as [T1 T2]. split; [exact T1|].
    rewrite <- trun_run. destruct (trun cfg usize_max f (body start_call) s) as [l [[r|e|c] s']]; cbn [fst snd good_result] in *.
    + destruct T2 as [[(H1 & H2 & _) _] T3]. split; [|exact T3]. exists (ps_queue s'). split; [reflexivity|]. split; [exact H2|apply H1].
    + right. exists (ps_queue s'). destruct T2. auto.
    + now destruct T2.
  - split; [constructor|]. now left.
  - destruct (ahead _); [destruct N as (? & N & _)|destruct N as [? N]|destruct N]; discriminate.
Qed.
End G.

Lemma snippet_halts gs input st : config_ok (pc_custom cfg) -> gs_ok cfg gs -> scalars input ->
  exists F r, (forall f, F <= f -> parse_snippet cfg usize_max f gs input st = r) /\
    match r with (Ok l, gs') => trees l /\ gs_ok cfg gs' | (Err _, gs') => gs_ok cfg gs' | (Crash _, _) => False end.
Proof.
  intros C D S. unfold parse_snippet, parser_new, parse_all. pose proof (new_spec cfg (lexer_new input) gs) as N. cbn zeta in N.
  pose proof (queue_new_stores cfg (lexer_new input) gs) as [_ Eg]. set (G := fun _ : queue => True).
  destruct (queue_new cfg (lexer_new input) gs) as [[[]|e|c] q] eqn:E; cbn [snd ps_queue] in *.
  - pose proof (start_pre G gs input st q C D S E I) as P. set (s := mkPs q _) in *.
    assert (B : forall A (c : call A) s, call_pre cfg G A c s -> wp cfg usize_max (op_pre cfg G) (call_post cfg G) (fun _ s => failed cfg G s) (fun _ => False)
      (below (call_pre cfg G) (mu cfg) (mu cfg A c s)) (body c) (call_post cfg G A c s) s) by (apply bodies_wp; auto; intros; exact I).
    destruct (call_halts cfg usize_max _ _ _ _ _ _ B _ _ start_call s eq_refl P) as (F & r & H1 & H2).
    exists F, (let (r, s') := r in (r, q_gs (ps_queue s'))). split; [intros f L; rewrite H1 by exact L; now destruct r|].
    destruct r as [[r|e|c] s']; cbn [good_result] in H2.
    + destruct H2 as [[((_ & (_ & H & _) & _) & _) _] T]. now split.
    + destruct H2 as [(_ & H & _) _]. exact H.
    + exact H2.
  - exists 0. eexists. split; [intros f _; reflexivity|]. cbn. now rewrite Eg.
  - destruct (ahead _); [destruct N as (? & N & _)|destruct N as [? N]|destruct N]; discriminate.
Qed.

(** *** Histories *)

Lemma arises_same q q' : same_commands q q' -> arises cfg q -> arises cfg q'.
Proof. intros X (q0 & l & q1 & s & H1 & H2 & Y). exists q0, l, q1, s. split; [exact H1|]. split; [exact H2|]. exact (same_commands_trans _ _ _ Y X). Qed.
Lemma starts_valid q : starts cfg q -> valid cfg q (scope_start cfg).
Proof. intros (C & input & I & E). now apply (valid_scope_start cfg input). Qed.
Lemma arises_make d q q' : sound_queue cfg q -> makes cfg d q q' -> arises cfg q -> arises cfg q'.
Proof.
  intros Sq [D E] (q0 & l & q1 & s & H1 & H2 & Y). pose proof (history_valid cfg _ _ _ _ _ H2 (starts_valid _ H1)) as V1.
  pose proof (valid_other cfg _ _ _ Y Sq V1) as (_ & U & _).
  destruct (body_unfolds cfg q (df_body d) (proj1 (proj2 Sq)) U (proj2 (proj2 D))) as [trees F].
  exists q0, (l ++ [EvDefine d]), q'. eexists. split; [exact H1|].
  split; [eapply history_trans; [exact H2|]; eapply history_other; [exact Y|exact Sq|]; eapply history_define; [exact D|exact E|exact F|constructor]|apply same_commands_refl].
Qed.
Lemma arises_history q : sound_queue cfg q -> arises cfg q -> exists q0 l s, starts cfg q0 /\ history cfg l q0 (scope_start cfg) q s.
Proof.
  intros Sq (q0 & l & q1 & s & H1 & H2 & Y). exists q0, (l ++ []), s. split; [exact H1|]. eapply history_trans; [exact H2|]. eapply history_other; [exact Y|exact Sq|constructor].
Qed.
Lemma document_gs_ok gs : document_arises cfg gs -> gs_ok cfg gs.
Proof.
  intros (q & (q0 & l & q1 & s & H1 & H2 & [_ Y]) & E). destruct (history_valid cfg _ _ _ _ _ H2 (starts_valid _ H1)) as ((_ & (_ & H & _) & _) & _).
  unfold gs_ok. now rewrite E, Y.
Qed.
Lemma document_default : config_ok (pc_custom cfg) -> forall gs, gs_cmds gs = cmds_empty -> document_arises cfg gs.
Proof.
  intros C gs E. pose proof (new_spec cfg (lexer_new []) gs_default) as N. cbn zeta in N.
  assert (A : exists t, ahead (lexed cfg (mkQueue (lexer_new []) [] false 0 cmds_empty gs_default)) = Ok t) by (vm_compute; eexists; reflexivity).
  destruct A as [t A]. rewrite A in N. destruct N as (q & Eq & _ & _ & _ & Gs).
  exists q. split; [|now rewrite E, Gs]. exists q, [], q, (scope_start cfg). split; [split; [exact C|]; exists []; now split|]. split; [constructor|apply same_commands_refl].
Qed.
Lemma new_arises gs input q : document_arises cfg gs -> scalars input -> queue_new cfg (lexer_new input) gs = (Ok tt, q) -> arises cfg q.
Proof.
  intros (q1 & (q0 & l & q2 & s & H1 & H2 & [Y1 Y2]) & E) S N.
  exists q0, (l ++ [EvSnippet false input]), q. eexists. split; [exact H1|]. split; [|apply same_commands_refl].
  eapply history_trans; [exact H2|]. eapply history_snippet; [exact S| |exact N|constructor]. now rewrite E, Y2.
Qed.
Lemma snippet_arises f gs input st : config_ok (pc_custom cfg) -> document_arises cfg gs -> scalars input ->
  Forall (good_event (op_pre cfg (arises cfg))) (snippet_trace cfg usize_max f gs input st) /\
  (answered (fst (parse_snippet cfg usize_max f gs input st)) -> document_arises cfg (snd (parse_snippet cfg usize_max f gs input st))).
Proof.
  intros C D S. destruct (snippet_good (arises cfg) arises_same arises_make f gs input st C (document_gs_ok gs D) S (fun q => new_arises gs input q D S)) as [H1 H2].
  split; [exact H1|]. destruct (parse_snippet cfg usize_max f gs input st) as [[l|e|c] gs']; cbn [fst snd answered].
  - intros _. destruct H2 as [(q & -> & A & _) _]. now exists q.
  - intros _. destruct H2 as [->|(q & -> & A & _)]; [exact D|now exists q].
  - intros [].
Qed.
End Snippet.

(** ** Calls of the interface *)

Section Api.
Context (usize_max : N).
Definition cv_ok (c : converter) : Prop := config_ok (pc_custom (cv_parser c)) /\ gs_ok (cv_parser c) (cv_state c).

Lemma default_gs_ok pc : gs_ok pc gs_default.
Proof. apply document_empty. Qed.
Lemma parse_halts pc gs latex d : config_ok (pc_custom pc) -> gs_ok pc gs -> scalars latex ->
  exists F r, (forall f, F <= f -> parse usize_max f pc gs latex d = r) /\ answered (fst r) /\ gs_ok pc (snd r).
Proof.
  intros C D S. destruct (snippet_halts pc usize_max gs latex (display_style d) C D S) as (F & r & H1 & H2). exists F, r. split; [exact H1|].
  destruct r as [[l|e|c] gs']; cbn [fst snd answered] in *; tauto.
Qed.
Lemma convert_halts ec pc gs latex d : config_ok (pc_custom pc) -> gs_ok pc gs -> scalars latex ->
  exists F r, (forall f, F <= f -> convert usize_max f ec pc gs latex d = r) /\ answered (fst r) /\ gs_ok pc (snd r).
Proof.
  intros C D S. destruct (parse_halts pc gs latex d C D S) as (F & r & H1 & H2). unfold convert. exists F. eexists. split; [intros f L; rewrite H1 by exact L; reflexivity|].
  destruct r as [[l|e|c] gs']; cbn [fst snd answered] in *; exact H2.
Qed.
Lemma parse_each_halts pc l : config_ok (pc_custom pc) -> Forall (fun s => scalar_text (fst s)) l -> forall gs, gs_ok pc gs ->
  exists F r, (forall f, F <= f -> parse_each usize_max f pc gs l = r) /\ Forall (fun x => answered (fst (fst x))) (fst r) /\ gs_ok pc (snd r).
Proof.
  intros C. induction 1 as [|[latex d] l S0 F0 IH]; intros gs D; cbn [parse_each].
  - exists 0. eexists. split; [reflexivity|]. split; [constructor|exact D].
  - destruct (parse_halts pc gs latex d C D S0) as (F1 & [r1 gs1] & H1 & H2 & H3). cbn [fst snd] in *. destruct (IH gs1 H3) as (F2 & [rs gs2] & H4 & H5 & H6). cbn [fst snd] in *.
    exists (Nat.max F1 F2). eexists. split; [intros f L; rewrite H1 by lia; rewrite H4 by lia; reflexivity|]. split; [now constructor|exact H6].
Qed.
Lemma step_halts c x : cv_ok c -> scalar_call x ->
  exists F r, (forall f, F <= f -> api_step usize_max f c x = r) /\ reply_answered (fst r) /\ cv_ok (snd r).
Proof.
  intros [C D] S. destruct x as [latex d|latex d|l|]; cbn [api_step scalar_call] in *.
  - destruct (convert_halts (cv_emitter c) _ _ latex d C D S) as (F & [r gs] & H1 & H2 & H3). exists F. eexists. unfold convert_with_global_state.
    split; [intros f L; rewrite H1 by exact L; reflexivity|]. split; [exact H2|]. split; [exact C|exact H3].
  - destruct (convert_halts (cv_emitter c) _ gs_default latex d C (default_gs_ok _) S) as (F & [r gs] & H1 & H2 & H3). exists F. eexists. unfold convert_with_local_state.
    split; [intros f L; rewrite H1 by exact L; reflexivity|]. split; [exact H2|]. split; [exact C|exact D].
  - destruct (parse_each_halts _ l C S gs_default (default_gs_ok _)) as (F & [rs gs] & H1 & H2 & H3). exists F. eexists. unfold convert_all.
    split; [intros f L; rewrite H1 by exact L; reflexivity|]. split; [|split; [exact C|exact D]]. cbn [fst reply_answered]. rewrite Forall_map.
    eapply Forall_impl; [|exact H2]. intros [[[a|e|k] s] d]; auto.
  - exists 0. eexists. split; [reflexivity|]. split; [exact I|]. split; [exact C|]. apply document_empty.
Qed.
Lemma run_halts calls : Forall scalar_call calls -> forall c, cv_ok c ->
  exists F r, (forall f, F <= f -> api_run usize_max f c calls = r) /\ Forall reply_answered (fst r) /\ cv_ok (snd r).
Proof.
  induction 1 as [|x calls S0 F0 IH]; intros c Hc; cbn [api_run].
  - exists 0. eexists. split; [reflexivity|]. split; [constructor|exact Hc].
  - destruct (step_halts c x Hc S0) as (F1 & [r1 c1] & H1 & H2 & H3). cbn [fst snd] in *. destruct (IH c1 H3) as (F2 & [rs c2] & H4 & H5 & H6). cbn [fst snd] in *.
    exists (Nat.max F1 F2). eexists. split; [intros f L; rewrite H1 by lia; rewrite H4 by lia; reflexivity|]. split; [now constructor|exact H6].
Qed.
Lemma new_cv_ok cfg c : scalar_config cfg -> converter_new cfg = NewOk c -> cv_ok c.
Proof. intros S E. destruct (new_config_ok cfg c S E) as [C X]. split; [exact C|]. rewrite X. apply default_gs_ok. Qed.

(** The definitions that a converter knows arise from those of its conversions. *)
Definition cv_arises (c : converter) : Prop := config_ok (pc_custom (cv_parser c)) /\ document_arises (cv_parser c) (cv_state c).
Lemma step_arises f c x : cv_arises c -> scalar_call x -> reply_answered (fst (api_step usize_max f c x)) -> cv_arises (snd (api_step usize_max f c x)).
Proof.
  intros [C D] S. destruct x as [latex d|latex d|l|]; cbn [api_step scalar_call] in *; try (intros _; split; assumption).
  - unfold convert_with_global_state, convert, parse. pose proof (proj2 (snippet_arises (cv_parser c) usize_max f (cv_state c) latex (display_style d) C D S)) as H.
    destruct (parse_snippet _ _ _ _ _ _) as [[l|e|k] gs']; cbn [fst snd reply_answered answered] in *; intros X; try destruct X; split; try exact C; now apply H.
  - intros _. split; [exact C|]. now apply document_default.
Qed.
Lemma run_arises f calls : Forall scalar_call calls -> forall c, cv_arises c -> Forall reply_answered (replies usize_max f c calls) -> cv_arises (after usize_max f c calls).
Proof.
  unfold replies, after. induction 1 as [|x calls S0 F0 IH]; intros c Hc; cbn [api_run]; [auto|].
  pose proof (step_arises f c x Hc S0) as H. destruct (api_step usize_max f c x) as [r c1]. cbn [fst snd] in H. specialize (IH c1).
  destruct (api_run usize_max f c1 calls) as [rs c2]. cbn [fst snd] in *. intros R. inversion R; subst. auto.
Qed.
Lemma new_cv_arises cfg c : scalar_config cfg -> converter_new cfg = NewOk c -> cv_arises c.
Proof. intros S E. destruct (new_config_ok cfg c S E) as [C X]. split; [exact C|]. rewrite X. now apply document_default. Qed.
End Api.

(** ** The number of expansions *)

Section Count.
Context (cfg : parser_cfg) (usize_max : N).
Notation exec := (exec cfg usize_max).
Notation left s := (pv_left (ps_view s)).

Definition same_left (s s' : pstate) : Prop := left s' = left s.
Lemma left_refl s : same_left s s. Proof. reflexivity. Qed.
Lemma left_trans a b c : same_left a b -> same_left b c -> same_left a c. Proof. unfold same_left. congruence. Qed.
Lemma on_queue_left {A} (m : St queue A) : keeps same_left (on_queue m).
Proof. intros s. unfold on_queue. destruct (m (ps_queue s)). reflexivity. Qed.
Lemma on_pure_left f : keeps same_left (on_queue_pure f).
Proof. apply on_queue_left. Qed.
Lemma on_view_left f : (forall v, pv_left (f v) = pv_left v) -> keeps same_left (on_view f).
Proof. intros H s. unfold on_view. apply H. Qed.
Ltac kl := repeat first [apply keeps_ret; exact left_refl | apply keeps_get; exact left_refl | apply keeps_fail; exact left_refl | apply keeps_res; exact left_refl
  | apply keeps_opt; exact left_refl | apply on_queue_left | apply on_pure_left | apply on_view_left; reflexivity
  | apply keeps_bind; [exact left_trans| |intros ?]
  | match goal with |- keeps _ (if ?b then _ else _) => destruct b | |- keeps _ (match ?b with _ => _ end) => destruct b | |- keeps _ (let (_, _) := ?b in _) => destruct b end ].
Lemma record_row_left ne last sn : keeps same_left (record_row usize_max ne last sn).
Proof. unfold record_row, view. kl. Qed.
Lemma next_tok_left : keeps same_left (next_tok cfg).
Proof. unfold next_tok. kl. Qed.
Lemma exec_left {A} (o : op A) : is_macro o = false -> keeps same_left (exec o).
Proof.
  destruct o; cbn [is_macro M_Parser.exec]; try discriminate; intros _; unfold next_tok, peek_class, view, math_choice, new_row, env_end; kl; cbv zeta; kl.
Qed.

Lemma count_spec sn s : count_expansion sn s = match left s with
  | O => (Err (mkErr sn E_TooManyExpansions), s)
  | S n => (Ok tt, mkPs (ps_queue s) (pv_set_left n (ps_view s)))
  end.
Proof. unfold count_expansion, sbind, view, sget. now destruct (left s). Qed.
Lemma count_then {B} sn (k : unit -> St pstate B) s : sbind (count_expansion sn) k s = match left s with
  | O => (Err (mkErr sn E_TooManyExpansions), s)
  | S n => k tt (mkPs (ps_queue s) (pv_set_left n (ps_view s)))
  end.
Proof. unfold sbind at 1. rewrite count_spec. now destruct (left s). Qed.
Lemma after_count {A B} (m : St pstate A) (k : A -> St pstate B) s : keeps same_left m -> (forall a, keeps same_left (k a)) -> left (snd (sbind m k s)) = left s.
Proof. intros H1 H2. apply (keeps_bind same_left left_trans m k H1 H2). Qed.
(** A macro is used: one less is left, and if none is left, this is an error. *)
Lemma exec_macro {A} (o : op A) s : is_macro o = true ->
  match left s with
  | O => exists sn, exec o s = (Err (mkErr sn E_TooManyExpansions), s)
  | S n => left (snd (exec o s)) = n
  end.
Proof.
  destruct o; cbn [is_macro M_Parser.exec]; try discriminate; intros _; unfold expand, expand_ref; rewrite count_then.
  - destruct (left s) eqn:E; [now eexists|]. match goal with |- left (snd (sbind ?m ?k ?s1)) = _ => exact (after_count m k s1 ltac:(kl) ltac:(intros ?; kl)) end.
  - destruct (left s) eqn:E; [now eexists|]. match goal with |- left (snd (sbind ?m ?k ?s1)) = _ => exact (after_count m k s1 ltac:(kl) ltac:(intros ?; kl)) end.
Qed.

(** If there is one left, the arguments are missing. *)
Definition args_missing (n : nat) (q : queue) : Prop :=
  let (l, e) := q_view cfg q in
  forall args rest, takes_args l args rest -> length args = n ->
    (exists t, In t l /\ (reject_unknown cfg t <> None \/ reject_unknown cfg (qt_unwrap t) <> None)) \/ (exists err, e = LexError err).
Lemma args_fail n q e q' : good_queue q -> n <= 9 -> read_cmd_args cfg n q = (Err e, q') -> args_missing n q.
Proof.
  intros Gq L E. pose proof (read_cmd_args_spec cfg n q Gq L) as K. unfold args_result in K. rewrite E in K. unfold args_missing.
  destruct (q_view cfg q) as [l ed]. cbn [fst snd] in K. intros args rest H1 H2. now apply (K args rest).
Qed.
Lemma expand_fails G n body sn b e a : steady cfg G b -> n <= 9 -> exec (OExpand n body sn) b = (Err e, a) -> left b = 0 \/ args_missing n (ps_queue b).
Proof.
  intros Hs L. cbn [M_Parser.exec]. unfold expand. rewrite count_then. destruct (left b); [now left|]. right. revert H.
  unfold sbind, on_queue_pure, on_queue. cbn [ps_queue]. destruct (read_cmd_args cfg n (ps_queue b)) as [[x|x|x] q'] eqn:E; try discriminate.
  intros _. eapply args_fail; [apply Hs|exact L|exact E].
Qed.
Lemma expand_ref_fails G src n i j body sn b e a : steady cfg G b -> n <= 9 -> q_body cfg (ps_queue b) src i j = Some body ->
  exec (OExpandRef src n i j sn) b = (Err e, a) -> left b = 0 \/ args_missing n (ps_queue b).
Proof.
  intros Hs L B. cbn [M_Parser.exec]. unfold expand_ref. rewrite count_then. destruct (left b); [now left|]. right. revert H.
  unfold sbind, on_queue_pure, on_queue. cbn [ps_queue]. destruct (read_cmd_args cfg n (ps_queue b)) as [[x|x|x] q'] eqn:E; try discriminate.
  - pose proof (read_cmd_args_same cfg n (ps_queue b)) as [S1 S2]. rewrite E in S1, S2. cbn [snd] in S1, S2.
    unfold queue_stored_body. assert (B' : q_body cfg q' src i j = Some body) by (rewrite <- B; unfold q_body; rewrite S1, S2; reflexivity).
    cbn [ps_queue]. rewrite B'. destruct body; discriminate.
  - intros _. eapply args_fail; [apply Hs|exact L|exact E].
Qed.
Lemma exec_uses {A} (o : op A) s a s' : exec o s = (Ok a, s') -> left s' + (if is_macro o then 1 else 0) = left s.
Proof.
  intros E. destruct (is_macro o) eqn:M.
  - pose proof (exec_macro o s M) as H. rewrite E in H. destruct (left s); [destruct H; discriminate|]. cbn [snd] in H. lia.
  - pose proof (exec_left o M s) as H. rewrite E in H. unfold same_left in H. cbn [snd] in H. lia.
Qed.

(** The operations [l] of a run from [s] which ends with [r]. *)
Definition event_fits {A} (s : pstate) (r : res A) (l1 : list performed) (p : performed) (l2 : list performed) : Prop :=
  match p with
  | Performed o b x a => left b + macro_uses l1 = left s /\ exec o b = (x, a) /\
      match x with Ok _ => True | Err e => l2 = [] /\ r = Err e | Crash c => l2 = [] /\ r = Crash c end
  end.
Definition tracked {A} (s : pstate) (l : list performed) (r : res A * pstate) : Prop :=
  (forall l1 p l2, l = l1 ++ p :: l2 -> event_fits s (fst r) l1 p l2) /\
  match fst r with Ok _ => left (snd r) + macro_uses l = left s | _ => True end.
Lemma uses_app l1 l2 : macro_uses (l1 ++ l2) = macro_uses l1 + macro_uses l2.
Proof. unfold macro_uses. now rewrite filter_app, app_length. Qed.
Lemma tracked_nil A s (r : res A) : tracked s [] (r, s).
Proof. split; [intros [|p l1]; discriminate|]. cbn [fst snd]. destruct r; auto; cbn; lia. Qed.
Lemma tracked_app A B s s1 l1 l2 (a : A) (r : res B * pstate) : tracked s l1 (Ok a, s1) -> tracked s1 l2 r -> tracked s (l1 ++ l2) r.
Proof.
  intros [H1 H2] [H3 H4]. cbn [fst snd] in *. split.
  - intros k1 p k2 E. apply app_eq_app in E as (z & [[E1 E2]|[E1 E2]]).
    + destruct z as [|p' z]; cbn [app] in E2.
      * rewrite app_nil_r in E1. subst k1. symmetry in E2. specialize (H3 [] p k2 E2). destruct p as [C o b x y]. destruct H3 as (K1 & K2 & K3). split; [|now split]. cbn in K1. lia.
      * injection E2 as <- ->. specialize (H1 k1 p z E1). destruct p as [C o b x y]. destruct H1 as (K1 & K2 & K3). split; [exact K1|]. split; [exact K2|]. destruct x; [exact I| |]; now destruct K3.
    + subst k1. specialize (H3 z p k2 E2). destruct p as [C o b x y]. destruct H3 as (K1 & K2 & K3). split; [|now split]. rewrite uses_app. lia.
  - destruct (fst r); auto. rewrite uses_app. lia.
Qed.
Lemma tracked_error A B s l s1 (x : res A) (r : res B) : tracked s l (x, s1) -> match x with Ok _ => False | Err e => r = Err e | Crash c => r = Crash c end -> tracked s l (r, s1).
Proof.
  intros [H1 _] E. split; [|destruct x; [destruct E| |]; now subst r].
  intros l1 p l2 E2. specialize (H1 l1 p l2 E2). destruct p as [C o b z a]. cbn [fst] in *. destruct H1 as (K1 & K2 & K3). split; [exact K1|]. split; [exact K2|].
  destruct z; [exact I| |]; destruct K3 as [-> K3]; subst x; now subst r.
Qed.
Lemma tracked_one A (o : op A) s x s' : exec o s = (x, s') -> tracked s [Performed o s x s'] (x, s').
Proof.
  intros E. split.
  - intros l1 p l2 H. destruct l1 as [|p0 [|p' l1]]; try discriminate. cbn [app] in H. injection H as <- <-. split; [cbn; lia|]. split; [exact E|]. now destruct x.
  - cbn [fst snd]. destruct x; auto. apply exec_uses in E. unfold macro_uses. cbn [filter macro_use]. destruct (is_macro o); cbn [length]; lia.
Qed.
Lemma tracked_do f A B (o : op B) (k : B -> prog A) s :
  (forall a s, tracked s (fst (trun cfg usize_max f (k a) s)) (snd (trun cfg usize_max f (k a) s))) ->
  tracked s (fst (trun cfg usize_max f (Do o k) s)) (snd (trun cfg usize_max f (Do o k) s)).
Proof.
  intros IHk. rewrite trun_do. destruct (exec o s) as [[a|e|c] s'] eqn:E; apply tracked_one in E.
  - specialize (IHk a s'). destruct (trun _ _ _ (k a) s') as [l r]. exact (tracked_app _ _ _ _ [_] l _ _ E IHk).
  - exact (tracked_error _ _ _ _ _ _ (Err e) E eq_refl).
  - exact (tracked_error _ _ _ _ _ _ (Crash c) E eq_refl).
Qed.
Lemma trun_tracked f : forall A (p : prog A) s, tracked s (fst (trun cfg usize_max f p s)) (snd (trun cfg usize_max f p s)).
Proof.
  induction f as [|f IH]; intros A p; induction p as [b|e|c|B o k IHk|B c k IHk]; intros s.
  all: try (apply tracked_do; exact IHk).
  all: try (rewrite ?trun_ret, ?trun_fail, ?trun_stop; apply tracked_nil).
  rewrite trun_call. specialize (IH _ (body c) s). destruct (trun _ _ f (body c) s) as [l1 [[a|e|cr] s']]; cbn [fst snd] in *.
  - specialize (IHk a s'); destruct (trun _ _ _ (k a) s') as [l r]. exact (tracked_app _ _ _ _ l1 l _ _ IH IHk).
  - exact (tracked_error _ _ _ _ _ _ (Err e) IH eq_refl).
  - exact (tracked_error _ _ _ _ _ _ (Crash cr) IH eq_refl).
Qed.
End Count.
