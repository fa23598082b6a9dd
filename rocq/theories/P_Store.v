(** Properties C24, C26, C27 and C48: the meaning of command names. *)
From Verif Require Import Str M_SuperChar M_Ast M_Spec M_Token M_Commands M_Env M_LatexError M_Lexer M_CustomCmds M_Queue S_Lexer S_Queue
  S_Store L_Store L_Queue L_Define L_Meaning L_Absorb.
Local Open Scope nat_scope.

(** ** C24 *)

(** A name stands for the definition of the snippet, else that of the document, else the configured macro,
    else the builtin command; otherwise it is unknown. *)
Theorem C24_precedence : forall cfg local document name o,
  resolve_command cfg local document name = o <-> resolves cfg local document name o.
Proof.
  intros cfg local document name o. unfold resolve_command, cmds_get. split.
  - intros <-. destruct (assoc_str name (cc_map local)) as [d|] eqn:E1; [now apply (resolves_local _ _ _ _ d)|].
    destruct (assoc_str name (cc_map document)) as [d|] eqn:E2; [now apply (resolves_document _ _ _ _ d)|].
    destruct (assoc_str name (cc_map (pc_custom cfg))) as [d|] eqn:E3; [now apply (resolves_config _ _ _ _ d)|].
    destruct (resolve_builtin _ _ name) as [t|] eqn:E4; [now apply resolves_builtin|now apply resolves_unknown].
  - unfold table_entry, no_entry. intros [d H1|d H1 H2|d H1 H2 H3|t H1 H2 H3 H4|H1 H2 H3 H4]; rewrite ?H1, ?H2, ?H3, ?H4; reflexivity.
Qed.
(** Whatever has been defined before, in this snippet and in earlier ones, a name means what the newest
    definition in force says; the tables never give it another meaning. *)
Theorem C24_history : forall cfg q0 l q s, starts cfg q0 -> history cfg l q0 (scope_start cfg) q s ->
  forall name t, means cfg q name t <-> t = scope_lookup s name.
Proof.
  intros cfg q0 l q s (C & input & Hi & E) H name t.
  assert (M : means cfg q name (scope_lookup s name)).
  { apply agrees_means. apply (history_valid cfg _ _ _ _ _ H). now apply (valid_scope_start cfg input). }
  split; [|now intros ->]. intros M'. exact (unfolds_fun _ _ _ _ _ M' _ M).
Qed.
(** A name without meaning is an error when it is read as a token, unless unknown commands are to be
    ignored. *)
Theorem C24_unknown : forall cfg q bl x rest e name, good_queue q -> q_view cfg q = (bl ++ x :: rest, e) ->
  Forall (fun t => blank_tok t = true) bl -> qt_tok x = q_meaning cfg q name -> q_resolve cfg q name = None ->
  (forall err, ahead (rest, e) <> Err err) ->
  fst (q_next cfg q) = if pc_ignore_unknown cfg then Ok x else Err (mkErr (qt_span x) (E_UnknownCommand name)).
Proof.
  intros cfg q bl x rest e name G V B T R A. pose proof (C45 := step_spec cfg QNext q G I). rewrite V in C45. cbn [stream_step queue_step] in C45.
  assert (Sk : skip_blank (bl ++ x :: rest) = x :: rest).
  { unfold skip_blank. clear - B T R. induction B as [|y bl H F IH]; cbn [app split_while].
    - unfold blank_tok. rewrite T. unfold q_meaning. now rewrite R.
    - rewrite H. destruct (split_while blank_tok (bl ++ x :: rest)). exact IH. }
  rewrite Sk in C45. cbn [read_first] in C45. destruct (ahead (rest, e)) as [t|err|c] eqn:Ea.
  - unfold reply_of in C45. cbn [fst snd] in C45.
    assert (Eu : qt_unwrap x = x). { unfold qt_unwrap, qt_with. rewrite T. unfold q_meaning. rewrite R. cbn [unwrap_math]. destruct x as [xt xs xn]. cbn [qt_tok] in T. subst. unfold q_meaning. now rewrite R. }
    rewrite Eu in C45. unfold known, reject_unknown in C45. rewrite T in C45. unfold q_meaning in C45. rewrite R in C45.
    unfold q_reply in C45. destruct (pc_ignore_unknown cfg).
    + destruct C45 as (q' & K & _). destruct (q_next cfg q) as [[y|e'|c] q'']; cbn [fst snd] in K |- *; congruence.
    + destruct C45 as (q' & K). destruct (q_next cfg q) as [[y|e'|c] q'']; cbn [fst snd] in K |- *; congruence.
  - now destruct (A err).
  - unfold ahead, front in Ea. destruct (skip_blank (fst (rest, e))), e; discriminate.
Qed.

(** ** C26 *)

(** Whatever has been defined before, a definition that may replace an older one succeeds. *)
Theorem C26_total : forall cfg q0 l q s d, starts cfg q0 -> history cfg l q0 (scope_start cfg) q s -> defn_ok cfg q d -> df_replace d = true ->
  exists trees q1, defined_as cfg q d trees q1.
Proof.
  intros cfg q0 l q s d (C & input & Hi & E) H D R.
  destruct (history_valid cfg _ _ _ _ _ H (valid_scope_start cfg input _ C Hi E)) as (Sq & U & _). pose proof Sq as (_ & St & _).
  destruct D as (D1 & D2 & D3). destruct (body_unfolds cfg q _ St U D3) as [trees F].
  destruct (define_sound cfg q (df_name d) _ _ (df_class d) (df_replace d) (df_global d) Sq D1 D2 D3) as (b & q1 & E1 & _).
  exists trees, q1. split; [repeat split; assumption|]. split; [exact F|]. rewrite E1. f_equal. f_equal.
  revert E1. rewrite R. unfold q_define. destruct (_ || _); [|congruence]. cbn [negb andb]. destruct (cmds_insert_or_replace_copy _ _ _ _ _ _); congruence.
Qed.
(** A definition is in force for the rest of the snippet, until the name is defined again. *)
Theorem C26_in_snippet : forall cfg q0 l q s d trees q1 l' q2 s2, starts cfg q0 -> history cfg l q0 (scope_start cfg) q s ->
  defined_as cfg q d trees q1 -> history cfg l' q1 (scope_define (df_name d) (defn_global cfg d) (defn_tree d trees) s) q2 s2 ->
  Forall (undisturbed (df_name d) false) l' -> means cfg q2 (df_name d) (defn_tree d trees).
Proof.
  intros cfg q0 l q s d trees q1 l' q2 s2 St H (D & F & E) H' U.
  assert (Ht : history cfg (l ++ EvDefine d :: l') q0 (scope_start cfg) q2 s2).
  { eapply history_trans; [exact H|]. eapply history_define; eassumption. }
  apply (C24_history _ _ _ _ _ St Ht). unfold scope_lookup. destruct (history_local cfg l' _ _ _ _ _ H' U) as [-> ->].
  unfold scope_define. destruct (defn_global cfg d); cbn [sc_local sc_document assoc_str].
  - rewrite assoc_remove, str_eqb_refl. reflexivity.
  - rewrite str_eqb_refl. reflexivity.
Qed.
(** A global definition, or any definition in one global group, is also in force in later snippets, until the
    name is defined again or the definitions are reset. *)
Theorem C26_global : forall cfg q0 l q s d trees q1 l' q2 s2, starts cfg q0 -> history cfg l q0 (scope_start cfg) q s ->
  defined_as cfg q d trees q1 -> history cfg l' q1 (scope_define (df_name d) (defn_global cfg d) (defn_tree d trees) s) q2 s2 ->
  df_global d = true \/ pc_global_group cfg = true ->
  Forall (undisturbed (df_name d) true) l' -> means cfg q2 (df_name d) (defn_tree d trees).
Proof.
  intros cfg q0 l q s d trees q1 l' q2 s2 St H (D & F & E) H' Gl U.
  assert (Ht : history cfg (l ++ EvDefine d :: l') q0 (scope_start cfg) q2 s2).
  { eapply history_trans; [exact H|]. eapply history_define; eassumption. }
  apply (C24_history _ _ _ _ _ St Ht).
  assert (G : defn_global cfg d = true). { unfold defn_global. destruct Gl as [-> | ->]; [reflexivity|apply orb_true_r]. }
  rewrite G in H'. unfold scope_define in H'. unfold scope_lookup.
  destruct (history_document cfg l' (df_name d) _ _ _ _ H' U) as [-> ->]; [apply assoc_remove|].
  cbn [sc_document assoc_str]. now rewrite str_eqb_refl.
Qed.
(** Local definitions of a snippet have no effect on the next one: every name means what it meant when the
    snippet began. *)
Theorem C26_local_ends : forall cfg q0 l q s l' q1 s1 input gs q2, starts cfg q0 -> history cfg l q0 (scope_start cfg) q s ->
  sc_local s = [] -> pc_global_group cfg = false -> history cfg l' q s q1 s1 ->
  Forall (fun e => match e with EvDefine d => df_global d = false | EvSnippet _ _ => False end) l' ->
  forallb is_scalar input = true -> gs_cmds gs = gs_cmds (q_gs q1) -> queue_new cfg (lexer_new input) gs = (Ok tt, q2) ->
  forall name t, means cfg q2 name t <-> means cfg q name t.
Proof.
  intros cfg q0 l q s l' q1 s1 input gs q2 St H L Gg H' U I Eg E name t.
  assert (Ht : history cfg (l ++ l' ++ [EvSnippet false input]) q0 (scope_start cfg) q2 (mkScope [] (sc_document s1) (sc_base s1))).
  { eapply history_trans; [exact H|]. eapply history_trans; [exact H'|]. eapply history_snippet; [exact I|exact Eg|exact E|]. constructor. }
  rewrite (C24_history _ _ _ _ _ St Ht name t), (C24_history _ _ _ _ _ St H name t). unfold scope_lookup. rewrite L.
  cbn [sc_local sc_document sc_base assoc_str]. rewrite (history_only_local cfg l' _ _ _ _ H' Gg U), (history_base cfg l' _ _ _ _ H'). reflexivity.
Qed.
(** A snippet begins without local definitions. *)
Theorem C26_begin : forall cfg q0 l q s input gs q1, starts cfg q0 -> history cfg l q0 (scope_start cfg) q s -> forallb is_scalar input = true ->
  gs_cmds gs = gs_cmds (q_gs q) -> queue_new cfg (lexer_new input) gs = (Ok tt, q1) ->
  forall name t, means cfg q1 name t <-> t = match assoc_str name (sc_document s) with Some t => t | None => base_meaning cfg name end.
Proof.
  intros cfg q0 l q s input gs q1 St H I Eg E name t.
  assert (Ht : history cfg (l ++ [EvSnippet false input]) q0 (scope_start cfg) q1 (mkScope [] (sc_document s) (sc_base s))).
  { eapply history_trans; [exact H|]. eapply history_snippet; [exact I|exact Eg|exact E|]. constructor. }
  rewrite (C24_history _ _ _ _ _ St Ht name t). unfold scope_lookup. cbn [sc_local sc_document sc_base assoc_str].
  now rewrite (history_base cfg _ _ _ _ _ H).
Qed.
(** After a reset only the configured macros and the builtin commands are left. *)
Theorem C26_reset : forall cfg q0 l q s input gs q1, starts cfg q0 -> history cfg l q0 (scope_start cfg) q s -> forallb is_scalar input = true ->
  gs_cmds gs = cmds_empty -> queue_new cfg (lexer_new input) gs = (Ok tt, q1) -> forall name t, means cfg q1 name t <-> t = base_meaning cfg name.
Proof.
  intros cfg q0 l q s input gs q1 St H I Eg E name t.
  assert (Ht : history cfg (l ++ [EvSnippet true input]) q0 (scope_start cfg) q1 (mkScope [] [] (sc_base s))).
  { eapply history_trans; [exact H|]. eapply history_snippet; [exact I|exact Eg|exact E|]. constructor. }
  rewrite (C24_history _ _ _ _ _ St Ht name t). unfold scope_lookup. cbn [sc_local sc_document sc_base assoc_str].
  now rewrite (history_base cfg _ _ _ _ _ H).
Qed.

(** ** C27 *)

(** A body that is carried over to the document table is stored token for token, with references to local
    bodies replaced by references to copies of these bodies. Nothing in the new table refers to the local
    one, and the bodies and entries that were there before are unchanged. *)
Theorem C27_copy : forall config document local name n body cl,
  document_ok config document -> local_ok config (cc_tokens document) local -> n <= 9 -> params_below n body ->
  Forall (rec_ok (ref_ok config (cc_tokens document) (cc_tokens local))) body ->
  exists document', cmds_insert_or_replace_copy document local name n body cl = Some document' /\
    document_ok config document' /\ extends (cc_tokens document) (cc_tokens document') /\
    exists body' stop, cc_map document' = (name, mkCmdDef n cl (length (cc_tokens document)) stop) :: cc_map document /\
      slice_get (cc_tokens document') (length (cc_tokens document)) stop = Some body' /\
      Forall2 (copied (cc_tokens local) (cc_tokens document')) body body'.
Proof.
  intros config document local name n body cl D L Hn Hp Hb.
  destruct (document_ok_copy config document local name n body cl D L Hn Hp Hb) as (d' & E & D' & X & body' & M & S' & F).
  exists d'. repeat (split; [assumption|]). exists body'. eexists. split; [exact M|]. split; [exact S'|exact F].
Qed.
(** What the copy means is what the original meant, and it no longer depends on the local table; older
    references of the document mean what they meant. *)
Theorem C27_meaning : forall cfg q d trees q1, sound_queue cfg q -> defined_as cfg q d trees q1 -> defn_global cfg d = true ->
  let config := cc_tokens (pc_custom cfg) in
  (exists a b, assoc_str (df_name d) (cc_map (gs_cmds (q_gs q1))) = Some (mkCmdDef (df_args d) (df_class d) a b) /\
     unfolds config (cc_tokens (gs_cmds (q_gs q1))) [] (RTok (T_CustomCmdRef SrcDocument (df_args d) (df_class d) a b)) (defn_tree d trees)) /\
  (forall name, name <> df_name d -> assoc_str name (cc_map (gs_cmds (q_gs q1))) = assoc_str name (cc_map (gs_cmds (q_gs q)))) /\
  (forall r t, unfolds config (cc_tokens (gs_cmds (q_gs q))) [] r t -> unfolds config (cc_tokens (gs_cmds (q_gs q1))) [] r t).
Proof.
  intros cfg q d trees q1 (_ & (SC & SD & SL) & _) ((Hn & Hp & Hb) & F & E) G config. apply define_stores in E. unfold defn_global in G. rewrite G in E.
  destruct E as (doc & Ec & _ & Eg). rewrite Eg. cbn [gs_set_cmds gs_cmds].
  destruct (document_ok_copy _ _ _ (df_name d) _ _ (df_class d) SD SL Hn Hp Hb) as (doc' & Ec' & Dd & Xd & body' & Em & Sl & Cp).
  rewrite Ec in Ec'. injection Ec' as <-. rewrite Em. split; [|split].
  - eexists. eexists. split; [cbn [assoc_str]; now rewrite str_eqb_refl|]. apply (unfolds_ref _ _ _ SrcDocument _ _ _ _ body'); [exact Sl|].
    clear - Cp F SC SD Xd. assert (Nc := config_no_local _ SC). assert (Nd := document_no_local _ _ SD).
    revert trees F. induction Cp as [|r r' l l' H Fc IH]; intros trees F; inversion F; subst; constructor; [|now apply IH].
    exact (copied_unfolds _ _ _ _ _ Nc Nd Xd _ _ H _ H2).
  - intros name N. cbn [assoc_str]. now rewrite (eqb_neq _ _ N).
  - intros r t. apply unfolds_extend; [exact Xd|apply extends_refl].
Qed.

(** ** C48 *)

(** [\let\a=\b] stores the meaning of [\b]. As long as [\a] is not defined again it has that meaning,
    whatever happens to [\b]. *)
Theorem C48_let : forall cfg q0 l q s d b t q1 l' q2 s2 g, starts cfg q0 -> history cfg l q0 (scope_start cfg) q s ->
  df_body d = [RTok (q_meaning cfg q b)] -> means cfg q b t -> defined_as cfg q d [t] q1 ->
  history cfg l' q1 (scope_define (df_name d) (defn_global cfg d) (defn_tree d [t]) s) q2 s2 ->
  Forall (undisturbed (df_name d) g) l' -> g = defn_global cfg d ->
  means cfg q2 (df_name d) (defn_tree d [t]).
Proof.
  intros cfg q0 l q s d b t q1 l' q2 s2 g St H B M D H' U ->. destruct (defn_global cfg d) eqn:G.
  - rewrite <- G in H'. eapply C26_global; eauto. unfold defn_global in G. now apply orb_true_iff in G.
  - rewrite <- G in H'. eapply C26_in_snippet; eauto.
Qed.
(** A macro stores the names in its body, and uses their meanings at the time of its own use. *)
Theorem C48_late : forall cfg q0 l q s d bs q1 l' q2 s2 g, starts cfg q0 -> history cfg l q0 (scope_start cfg) q s ->
  df_body d = map RName bs -> bs <> [] -> defined_as cfg q d (map MtName bs) q1 ->
  history cfg l' q1 (scope_define (df_name d) (defn_global cfg d) (defn_tree d (map MtName bs)) s) q2 s2 ->
  Forall (undisturbed (df_name d) g) l' -> g = defn_global cfg d ->
  exists src a b, q_meaning cfg q2 (df_name d) = T_CustomCmdRef src (df_args d) (df_class d) a b /\
    forall args sp, exists pushed, queue_stored_body cfg src a b args sp q2 = (true, queue_in_front pushed q2) /\
      map qt_tok pushed = map (q_meaning cfg q2) bs.
Proof.
  intros cfg q0 l q s d bs q1 l' q2 s2 g St H B Nb D H' U ->.
  assert (M : means cfg q2 (df_name d) (defn_tree d (map MtName bs))).
  { destruct (defn_global cfg d) eqn:G.
    - rewrite <- G in H'. eapply C26_global; eauto. unfold defn_global in G. now apply orb_true_iff in G.
    - rewrite <- G in H'. eapply C26_in_snippet; eauto. }
  clear - M Nb. unfold means, defn_tree in M. inversion M as [| |src n cl a b body trees Sl F E1 E2]; subst. exists src, a, b. split; [now symmetry|].
  assert (E : body = map RName bs).
  { clear - F. revert bs F. induction body as [|r body IH]; intros bs F; destruct bs as [|n bs]; inversion F as [|? ? ? ? X Y]; subst; [reflexivity|].
    cbn [map]. f_equal; [now inversion X|now apply IH]. }
  subst body. intros args sp. exists (flat_map (recorded_token cfg q2 args sp) (map RName bs)).
  split.
  - unfold queue_stored_body. replace (q_body cfg q2 src a b) with (Some (map RName bs)) by (symmetry; destruct src; exact Sl).
    destruct bs; [congruence|reflexivity].
  - clear. induction bs as [|n bs IH]; [reflexivity|]. cbn [map flat_map recorded_token app]. rewrite <- IH. f_equal.
    unfold q_meaning. now destruct (q_resolve cfg q2 n).
Qed.

(** ** Examples *)

Example C24_nonvacuous :
  starts plain_cfg example_q0 /\
  resolve_command plain_cfg (q_local example_q3) (gs_cmds (q_gs example_q3)) (lit "b") = Some (T_CustomCmdRef SrcLocal 0 None 0 1) /\
  resolve_command plain_cfg (q_local example_q3) (gs_cmds (q_gs example_q3)) (lit "a") = Some (T_CustomCmdRef SrcDocument 0 None 0 1) /\
  resolve_command plain_cfg (q_local example_q3) (gs_cmds (q_gs example_q3)) (lit "alpha") = resolve_builtin false true (lit "alpha") /\
  resolve_command plain_cfg (q_local example_q3) (gs_cmds (q_gs example_q3)) (lit "alpha") <> None /\
  resolve_command plain_cfg (q_local example_q3) (gs_cmds (q_gs example_q3)) (lit "nothing") = None.
Proof.
  split; [|repeat split; vm_compute; try reflexivity; discriminate].
  split; [split; constructor|]. exists (lit "\a"). split; vm_compute; reflexivity.
Qed.
(** A snippet defines [\b], lets [\a] globally, and defines [\c] in terms of [\b]. Within the snippet the three
    have these meanings; in the next one only [\a] does, although what it refers to was local. *)
Example C26_nonvacuous :
  exists s s', history plain_cfg [EvDefine example_b; EvDefine example_a; EvDefine example_c] example_q0 (scope_start plain_cfg) example_q3 s /\
    history plain_cfg [EvSnippet false (lit "\b")] example_q3 s example_q4 s' /\
    map (scope_lookup s) [lit "a"; lit "b"; lit "c"] =
      [MtMacro 0 None [MtMacro 0 None [MtTok example_x]]; MtMacro 0 None [MtTok example_x]; MtMacro 0 None [MtName (lit "b")]] /\
    map (scope_lookup s') [lit "a"; lit "b"; lit "c"] =
      [MtMacro 0 None [MtMacro 0 None [MtTok example_x]]; MtTok (T_UnresolvedCommand (lit "b")); MtTok (T_TextMode (TtAccent 807%N))].
Proof.
  eexists. eexists. split; [|split; [|split]].
  - eapply (history_define _ _ _ _ example_q1).
    + split; [apply Nat.le_0_l|]. split; [constructor; [exact I|constructor]|]. constructor; [|constructor]. split; vm_compute; reflexivity.
    + vm_compute; reflexivity.
    + constructor; [|constructor]. apply unfolds_tok. discriminate.
    + eapply (history_define _ _ _ _ example_q2).
      * split; [apply Nat.le_0_l|]. split; [constructor; [exact I|constructor]|]. constructor; [|constructor]. split; [|vm_compute; reflexivity].
        split; [apply Nat.le_0_l|]. exists [RTok example_x]. split; [vm_compute; reflexivity|]. constructor; [exact I|constructor].
      * vm_compute; reflexivity.
      * constructor; [|constructor]. apply (unfolds_ref _ _ _ SrcLocal 0 None 0 1 [RTok example_x]); [vm_compute; reflexivity|].
        constructor; [|constructor]. apply unfolds_tok. discriminate.
      * eapply (history_define _ _ _ _ example_q3).
        -- split; [apply Nat.le_0_l|]. split; [constructor; [exact I|constructor]|]. constructor; [|constructor]. vm_compute; reflexivity.
        -- vm_compute; reflexivity.
        -- constructor; [|constructor]. constructor.
        -- constructor.
  - eapply (history_snippet _ _ _ (q_gs example_q3) _ _ example_q4); [vm_compute; reflexivity|vm_compute; reflexivity|vm_compute; reflexivity|]. constructor.
  - vm_compute; reflexivity.
  - vm_compute; reflexivity.
Qed.
(** The body of [\a] in the document table is a reference to a copy of the body of [\b]. *)
Example C27_nonvacuous :
  cc_tokens (q_local example_q1) = [RTok example_x] /\
  cc_tokens (gs_cmds (q_gs example_q2)) = [RTok (T_CustomCmdRef SrcDocument 0 None 1 2); RTok example_x] /\
  copied (cc_tokens (q_local example_q1)) (cc_tokens (gs_cmds (q_gs example_q2)))
    (RTok (T_CustomCmdRef SrcLocal 0 None 0 1)) (RTok (T_CustomCmdRef SrcDocument 0 None 1 2)).
Proof.
  split; [vm_compute; reflexivity|]. split; [vm_compute; reflexivity|].
  apply (copied_ref _ _ 0 None 0 1 1 2 [RTok example_x] [RTok example_x]); [vm_compute; reflexivity|vm_compute; reflexivity|].
  constructor; [|constructor]. apply copied_same. discriminate.
Qed.
(** When [\b] is redefined after that, [\a] still gives x and [\c] gives y. *)
Example C48_nonvacuous :
  let q := step_define plain_cfg (mkDefn (lit "b") 0 [RTok (T_Letter 121%N MMathOrText)] None true false) example_q3 in
  means plain_cfg q (lit "a") (MtMacro 0 None [MtMacro 0 None [MtTok example_x]]) /\
  means plain_cfg q (lit "b") (MtMacro 0 None [MtTok (T_Letter 121%N MMathOrText)]) /\
  means plain_cfg q (lit "c") (MtMacro 0 None [MtName (lit "b")]).
Proof.
  cbn zeta. split; [|split].
  - apply (unfolds_ref _ _ _ SrcDocument 0 None 0 1 [RTok (T_CustomCmdRef SrcDocument 0 None 1 2)]); [vm_compute; reflexivity|].
    constructor; [|constructor]. apply (unfolds_ref _ _ _ SrcDocument 0 None 1 2 [RTok example_x]); [vm_compute; reflexivity|].
    constructor; [|constructor]. apply unfolds_tok. discriminate.
  - apply (unfolds_ref _ _ _ SrcLocal 0 None 2 3 [RTok (T_Letter 121%N MMathOrText)]); [vm_compute; reflexivity|].
    constructor; [|constructor]. apply unfolds_tok. discriminate.
  - apply (unfolds_ref _ _ _ SrcLocal 0 None 1 2 [RName (lit "b")]); [vm_compute; reflexivity|]. constructor; [|constructor]. constructor.
Qed.

Print Assumptions C24_precedence.
Print Assumptions C24_history.
Print Assumptions C24_unknown.
Print Assumptions C26_total.
Print Assumptions C26_in_snippet.
Print Assumptions C26_global.
Print Assumptions C26_local_ends.
Print Assumptions C26_begin.
Print Assumptions C26_reset.
Print Assumptions C27_copy.
Print Assumptions C27_meaning.
Print Assumptions C48_let.
Print Assumptions C48_late.
