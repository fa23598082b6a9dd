(** Texts with which reading fails. *)
From Verif Require Import Str M_SuperChar M_Transform M_Length M_Spec M_Ast M_Token M_Symbols M_Commands M_Env
  M_LatexError M_Lexer M_CustomCmds M_Queue M_Spacing M_Leaf M_TextParser M_Parser M_Api
  S_Lexer S_Queue S_Scripts S_Formula S_Reading S_Faulty L_Lexer L_Queue L_Args L_Reads L_Wp L_Ends L_Wins L_Expand L_FormLex L_Faulty L_FaultySeq.
Local Open Scope nat_scope.

Lemma snippet_of_wrong cfg usize_max gs st input w K : text_tokens (name_meaning cfg gs) input = Some w -> (pc_ignore_unknown cfg = true \/ Forall (fun t => known t = true) w) ->
  wrong_seq (name_meaning cfg gs) (macro_source cfg gs) (pc_ignore_unknown cfg) usize_max K (snippet_ctx st) (snippet_nu gs) (SeqEnd EtEoi) ClOpen false (pc_max_expansions cfg) w ->
  exists F sp gs', forall f, F <= f -> parse_snippet cfg usize_max f gs input st = (Err (mkErr sp K), gs').
Proof.
  intros T Kn W. rewrite tokens_lexed in T. pose proof (new_spec cfg (lexer_new input) gs) as N. cbv zeta in N.
  destruct (lexed cfg (mkQueue (lexer_new input) [] false 0 cmds_empty gs)) as [new [sp|er]]; [|discriminate]. injection T as M.
  destruct (ahead_eoi new sp) as (t & Ea). rewrite Ea in N.
  destruct N as (q & Nq & Gq & Vq & Lq & Sq). set (s := mkPs q (mkPv None false env_state_default st None (pc_max_expansions cfg))).
  assert (A : at_ cfg cmds_empty (gs_cmds gs) (pc_max_expansions cfg) (snippet_ctx st) (snippet_nu gs) w s).
  { split; [|exists (pc_max_expansions cfg); split; [apply le_n|reflexivity]]. split; [exact Gq|]. cbn [s ps_queue]. rewrite Vq. cbn [fst snd]. split; [exact M|]. split; [eexists; reflexivity|]. split; [exact Lq|]. split; [rewrite Sq; now destruct gs|exact Kn]. }
  destruct (seq_failed K usize_max cfg cmds_empty (gs_cmds gs) (snippet_ctx st) (snippet_nu gs) (SeqEnd EtEoi) ClOpen true (pc_max_expansions cfg) w s (fun _ _ => False)) as ([a|er|cr] & s' & (F & Ru & Nc) & Se); [|exact A|destruct Se| |destruct Se].
  { apply (wrong_fails K usize_max cfg cmds_empty (gs_cmds gs)). exact W. }
  destruct er as [spe k]. change (k = K) in Se. subst k.
  eexists F, spe, _. intros f L. unfold parse_snippet, parser_new. rewrite Nq. fold s. unfold parse_all. rewrite (run_more cfg usize_max F _ _ _ _ _ Ru Nc f L). reflexivity.
Qed.

(** For examples. *)
Ltac text := eexists; split; [vm_compute; reflexivity|]; split; [right; repeat constructor|]; cbn [snippet_ctx snippet_nu gs_default gs_count gs_labels macro_cfg plain_cfg pc_max_expansions].
Ltac one y := eapply rh_sym with (s := y) (args := []); [apply leads_here; vm_compute; reflexivity|apply ras_nil].
Ltac item s := eapply ws_item with (h := HSym s []) (ms := []); [reflexivity|one s|exact Logic.I|apply rms_nil|reflexivity|vm_compute; reflexivity|].
Ltac tok := apply ws_tok; [reflexivity|reflexivity|].
Ltac misplaced := apply wt_misplaced; reflexivity.
Ltac atom s := eapply ws_marks with (h := HSym s []); [reflexivity|one s|exact Logic.I|exact Logic.I|vm_compute; reflexivity|].
Ltac arg y := eapply ra_sym with (s := y); apply leads_here; vm_compute; reflexivity.
