(** The meanings of names over a history of definitions. *)
From Verif Require Import Str M_SuperChar M_Ast M_Spec M_Token M_Symbols M_Commands M_Env M_LatexError M_Lexer M_CustomCmds M_Queue
  S_SuperChar S_Lexer S_Queue S_Store L_Lexer L_Queue L_Args L_Store L_Sound L_Absorb L_Define.
Local Open Scope nat_scope.

(** Induction over meanings. *)
Lemma mtree_nested_ind (P : mtree -> Prop) (H1 : forall n, P (MtName n)) (H2 : forall t, P (MtTok t))
  (H3 : forall n cl l, Forall P l -> P (MtMacro n cl l)) : forall t, P t.
Proof.
  fix IH 1. intros [n|t|n cl l]; [apply H1|apply H2|]. apply H3. revert l. fix IHl 1. intros [|u r]; constructor; [apply IH|apply IHl].
Qed.

Lemma unfolds_fun c d l : forall t r, unfolds c d l r t -> forall t', unfolds c d l r t' -> t = t'.
Proof.
  intros t. induction t as [n|t|n cl trees IH] using mtree_nested_ind; intros r H t' H'.
  - inversion H; subst. now inversion H'; subst.
  - inversion H as [|? Hn|]; subst. inversion H'; subst; [reflexivity|]. edestruct Hn; reflexivity.
  - inversion H as [| |src ? ? a b body ? S F]; subst. inversion H' as [|? Hn|? ? ? ? ? body' trees' S' F']; subst; [edestruct Hn; reflexivity|].
    rewrite S in S'. injection S' as <-. f_equal. clear - IH F F'. revert body trees' F F'. induction IH as [|t trees Ht Fl IHl]; intros body trees' F F'.
    + inversion F; subst. now inversion F'.
    + inversion F as [|r ? body0 ? Hr F0]; subst. inversion F' as [|? t' ? trees0 Hr' F0']; subst. f_equal; [exact (Ht r Hr t' Hr')|]. exact (IHl _ _ F0 F0').
Qed.

Lemma unfolds_extend c d l d' l' : extends d d' -> extends l l' -> forall t r, unfolds c d l r t -> unfolds c d' l' r t.
Proof.
  intros [x ->] [y ->]. induction t as [n|t|n cl trees IH] using mtree_nested_ind; intros r H.
  - inversion H; subst. constructor.
  - inversion H; subst. now constructor.
  - inversion H as [| |src ? ? a b body ? S F]; subst. apply (unfolds_ref _ _ _ _ _ _ _ _ body).
    + destruct src; [exact S|now apply slice_prefix|now apply slice_prefix].
    + clear - IH F. revert body F. induction IH as [|t trees Ht Fl IHl]; intros body F; inversion F; subst; constructor; [now apply Ht|now apply IHl].
Qed.

(** Bodies outside of the local store do not depend on it. *)
Definition not_local (r : recorded) : Prop := forall n cl a b, r <> RTok (T_CustomCmdRef SrcLocal n cl a b).
Lemma unfolds_no_local c d l l' : Forall not_local c -> Forall not_local d ->
  forall t r, not_local r -> unfolds c d l r t -> unfolds c d l' r t.
Proof.
  intros Nc Nd. induction t as [n|t|n cl trees IH] using mtree_nested_ind; intros r Nr H.
  - inversion H; subst. constructor.
  - inversion H; subst. now constructor.
  - inversion H as [| |src ? ? a b body ? S F]; subst. apply (unfolds_ref _ _ _ _ _ _ _ _ body).
    + destruct src; [exact S|exact S|]. destruct (Nr _ _ _ _ eq_refl).
    + assert (Nb : Forall not_local body).
      { apply Forall_forall. intros x I. destruct (slice_in _ _ _ _ _ S I) as (i & _ & N). apply nth_error_In in N.
        rewrite Forall_forall in Nc, Nd. destruct src; [now apply Nc|now apply Nd|]. destruct (Nr _ _ _ _ eq_refl). }
      clear - IH F Nb. revert body F Nb. induction IH as [|t trees Ht Fl IHl]; intros body F Nb; inversion F; subst; constructor; inversion Nb; subst;
      [now apply Ht|now apply IHl].
Qed.
Lemma config_no_local c : config_ok c -> Forall not_local (cc_tokens c).
Proof.
  intros [H _]. eapply Forall_impl; [|exact H]. intros r K n cl a b ->. destruct K as [K _]. exact K.
Qed.
Lemma document_no_local config c : document_ok config c -> Forall not_local (cc_tokens c).
Proof.
  intros [H _]. eapply Forall_impl; [|exact H]. intros r K n cl a b ->. destruct K as [[K _] _]. now contradiction K.
Qed.

(** A copy means the same. *)
Lemma copied_unfolds c d l d' l' : Forall not_local c -> Forall not_local d -> extends d d' ->
  forall r r', copied l d' r r' -> forall t, unfolds c d l r t -> unfolds c d' l' r' t.
Proof.
  intros Nc Nd X r r' C. induction C as [r N|n cl a b a' b' body body' S1 S2 F IH] using copied_ind2; intros t H.
  - apply (unfolds_extend c d l' d' l' X (extends_refl _)). revert H. now apply unfolds_no_local.
  - inversion H as [|? Hn|? ? ? ? ? body0 trees S F0]; subst; [edestruct Hn; reflexivity|]. rewrite S1 in S. injection S as <-.
    apply (unfolds_ref _ _ _ _ _ _ _ _ body'); [exact S2|]. clear - IH F0. revert trees F0.
    induction IH as [|x y body body' Hx Fx IHb]; intros trees F0; inversion F0; subst; constructor; [now apply Hx|now apply IHb].
Qed.

(** ** Everything unfolds *)

Section Q.
Context (cfg : parser_cfg).
Notation config := (cc_tokens (pc_custom cfg)).

Definition unfoldable (c d l : list recorded) (r : recorded) : Prop := exists t, unfolds c d l r t.
Lemma unfoldable_all c d l body : Forall (unfoldable c d l) body -> exists trees, Forall2 (unfolds c d l) body trees.
Proof. induction 1 as [|r body [t Ht] F [trees IH]]; [exists []; constructor|]. exists (t :: trees). now constructor. Qed.

(** The tokens of all stores unfold. *)
Definition stores_unfold (q : queue) : Prop :=
  Forall (unfoldable config (cc_tokens (gs_cmds (q_gs q))) []) (cc_tokens (gs_cmds (q_gs q))) /\
  Forall (unfoldable config (cc_tokens (gs_cmds (q_gs q))) (cc_tokens (q_local q))) (cc_tokens (q_local q)).
Lemma config_unfolds d l r : config_ok (pc_custom cfg) -> In r config -> unfoldable config d l r.
Proof.
  intros [H _] I. rewrite Forall_forall in H. specialize (H r I). destruct r as [t|n]; [|eexists; constructor].
  exists (MtTok t). constructor. intros src n cl a b ->. destruct H as [H _]. exact H.
Qed.
Lemma slice_unfolds (c d l s : list recorded) a b body : slice_get s a b = Some body -> Forall (unfoldable c d l) s -> Forall (unfoldable c d l) body.
Proof.
  intros S F. apply Forall_forall. intros x I. destruct (slice_in _ _ _ _ _ S I) as (i & _ & N). apply nth_error_In in N.
  rewrite Forall_forall in F. now apply F.
Qed.
Lemma unfoldable_mono c d l d' l' r : extends d d' -> extends l l' -> unfoldable c d l r -> unfoldable c d' l' r.
Proof. intros X Y [t H]. exists t. exact (unfolds_extend _ _ _ _ _ X Y t r H). Qed.

(** Every sound token unfolds. *)
Lemma rec_unfolds q r : stores_ok cfg q -> stores_unfold q -> rec_ok (q_refs cfg q) r -> exists t, q_unfolds cfg q r t.
Proof.
  intros (SC & SD & SL) [U1 U2] H. unfold q_unfolds. destruct r as [t|n]; [|eexists; constructor].
  destruct t; try (eexists; apply unfolds_tok; discriminate).
  destruct H as [H _]. cbn [tok_ok] in H. unfold q_refs, ref_ok in H. destruct H as (_ & body & S & _).
  assert (F : Forall (unfoldable config (cc_tokens (gs_cmds (q_gs q))) (cc_tokens (q_local q))) body).
  { revert S. destruct src; intros S.
    - apply (slice_unfolds _ _ _ _ _ _ _ S). apply Forall_forall. intros x I. now apply config_unfolds.
    - apply (slice_unfolds _ _ _ _ _ _ _ S). eapply Forall_impl; [|exact U1]. intros x. apply unfoldable_mono; [apply extends_refl|].
      exists (cc_tokens (q_local q)). reflexivity.
    - exact (slice_unfolds _ _ _ _ _ _ _ S U2). }
  apply unfoldable_all in F as [trees F]. eexists. exact (unfolds_ref _ _ _ _ _ _ _ _ _ _ S F).
Qed.
Lemma body_unfolds q body : stores_ok cfg q -> stores_unfold q -> Forall (rec_ok (q_refs cfg q)) body -> exists trees, Forall2 (q_unfolds cfg q) body trees.
Proof.
  intros S U. induction 1 as [|r body H F [trees IH]]; [exists []; constructor|]. destruct (rec_unfolds q r S U H) as [t Ht]. exists (t :: trees). now constructor.
Qed.

(** ** Agreement of the tables and the definitions in force *)

Record agrees (q : queue) (s : scope) : Prop := {
  ag_local : forall name, match assoc_str name (cc_map (q_local q)) with
    | Some d => exists t, assoc_str name (sc_local s) = Some t /\ q_unfolds cfg q (RTok (T_CustomCmdRef SrcLocal (cd_args d) (cd_class d) (cd_start d) (cd_end d))) t
    | None => assoc_str name (sc_local s) = None
    end;
  ag_document : forall name, match assoc_str name (cc_map (gs_cmds (q_gs q))) with
    | Some d => exists t, assoc_str name (sc_document s) = Some t /\
        unfolds config (cc_tokens (gs_cmds (q_gs q))) [] (RTok (T_CustomCmdRef SrcDocument (cd_args d) (cd_class d) (cd_start d) (cd_end d))) t
    | None => assoc_str name (sc_document s) = None
    end;
  ag_base : forall name, unfolds config [] [] (RTok (match resolve_command cfg cmds_empty cmds_empty name with Some t => t | None => T_UnresolvedCommand name end)) (sc_base s name) }.

Lemma agrees_means q s name : agrees q s -> means cfg q name (scope_lookup s name).
Proof.
  intros [A1 A2 A3]. unfold means, q_meaning, q_resolve, resolve_command, cmds_get, scope_lookup. specialize (A1 name). specialize (A2 name). specialize (A3 name).
  destruct (assoc_str name (cc_map (q_local q))) as [d|].
  { destruct A1 as (t & -> & H). exact H. }
  rewrite A1. destruct (assoc_str name (cc_map (gs_cmds (q_gs q)))) as [d|].
  { destruct A2 as (t & -> & H). revert H. apply unfolds_extend; [apply extends_refl|]. now exists (cc_tokens (q_local q)). }
  rewrite A2. unfold resolve_command, cmds_get in A3. cbn [cmds_empty cc_map assoc_str] in A3.
  revert A3. apply unfolds_extend; eexists; reflexivity.
Qed.

Definition valid (q : queue) (s : scope) : Prop := sound_queue cfg q /\ stores_unfold q /\ agrees q s.

Lemma assoc_filter_other {A} name n (m : list (str * A)) : str_eqb n name = false ->
  assoc_str n (filter (fun e => negb (str_eqb name (fst e))) m) = assoc_str n m.
Proof.
  intros H. induction m as [|[k v] m IH]; [reflexivity|]. cbn [filter fst]. destruct (str_eqb name k) eqn:E; cbn [negb].
  - apply str_eqb_eq in E. subst k. cbn [assoc_str]. rewrite H. exact IH.
  - cbn [assoc_str]. now rewrite IH.
Qed.

Lemma define_stores q d q1 : q_define cfg (df_name d) (df_args d) (df_body d) (df_class d) (df_replace d) (df_global d) q = (Ok true, q1) ->
  if df_global d || pc_global_group cfg then
    exists doc, cmds_insert_or_replace_copy (gs_cmds (q_gs q)) (q_local q) (df_name d) (df_args d) (df_body d) (df_class d) = Some doc /\
      q_local q1 = cmds_remove (q_local q) (df_name d) /\ q_gs q1 = gs_set_cmds (q_gs q) doc
  else q_local q1 = cmds_insert_or_replace (q_local q) (df_name d) (df_args d) (df_body d) (df_class d) /\ q_gs q1 = q_gs q.
Proof.
  unfold q_define. destruct (df_global d || pc_global_group cfg).
  - destruct (negb (df_replace d) && cmds_has (gs_cmds (q_gs q)) (df_name d)); [discriminate|].
    destruct (cmds_insert_or_replace_copy _ _ _ _ _ _) as [doc|]; [|discriminate]. intros H. exists doc. split; [reflexivity|].
    destruct (df_replace d); [|injection H as <-; split; reflexivity].
    destruct (cmds_get _ _ _); injection H as <-; split; reflexivity.
  - destruct (df_replace d).
    + destruct (cmds_get _ _ _); intros [= <-]; split; reflexivity.
    + unfold cmds_insert. destruct (cmds_has (q_local q) (df_name d)); [discriminate|]. intros [= <-]; split; reflexivity.
Qed.

Lemma valid_define q s d q1 trees : valid q s -> defn_ok cfg q d ->
  q_define cfg (df_name d) (df_args d) (df_body d) (df_class d) (df_replace d) (df_global d) q = (Ok true, q1) ->
  Forall2 (q_unfolds cfg q) (df_body d) trees ->
  valid q1 (scope_define (df_name d) (df_global d || pc_global_group cfg) (MtMacro (df_args d) (df_class d) trees) s).
Proof.
  intros (Sq & [U1 U2] & [A1 A2 A3]) (Hn & Hp & Hb) E F.
  destruct (define_sound cfg q (df_name d) _ _ (df_class d) (df_replace d) (df_global d) Sq Hn Hp Hb) as (b & q' & E' & Sq' & Ex & _).
  rewrite E in E'. injection E' as <- <-. pose proof (define_stores _ _ _ E) as St. clear E.
  destruct Sq as (_ & (SC & SD & SL) & _).
  assert (Nc := config_no_local _ SC). assert (Nd := document_no_local _ _ SD).
  split; [exact Sq'|]. unfold scope_define. destruct (df_global d || pc_global_group cfg).
  - destruct St as (doc & Ec & El & Eg).
    destruct (document_ok_copy _ _ _ (df_name d) _ _ (df_class d) SD SL Hn Hp Hb) as (doc' & Ec' & Dd & Xd & body' & Em & Sl & Cp).
    rewrite Ec in Ec'. injection Ec' as <-.
    (* the new tokens *)
    assert (BW := local_backward _ _ _ SL).
    assert (HB : Forall (has_body (q_local q)) (df_body d)). { eapply Forall_impl; [|exact Hb]. intros r. apply refs_have_body. }
    destruct (absorb_spec (q_local q) BW (gs_cmds (q_gs q)) (df_body d) HB) as (new & Ea & src & Fc & (more & Xs) & Hin). subst src.
    unfold cmds_insert_or_replace_copy in Ec. rewrite Ea in Ec. injection Ec as Ec.
    assert (Td : cc_tokens doc = cc_tokens (gs_cmds (q_gs q)) ++ new) by (now rewrite <- Ec). clear Ec Ea.
    rewrite <- Td in Fc.
    assert (Ub : Forall (unfoldable config (cc_tokens (gs_cmds (q_gs q))) (cc_tokens (q_local q))) (df_body d ++ more)).
    { apply Forall_forall. intros r I. destruct (Hin r I) as [I'|I']; [|rewrite Forall_forall in U2; now apply U2].
      clear - F I'. revert I'. induction F as [|r0 t0 body trees H0 F IH]; [intros []|]. intros [->|I']; [now exists t0|now apply IH]. }
    assert (Un : Forall (unfoldable config (cc_tokens doc) []) new).
    { clear - Fc Ub Nc Nd Xd. induction Fc as [|r r' l l' H F IH]; [constructor|]. inversion Ub as [|? ? [t Ht] Ub']; subst. constructor; [|now apply IH].
      exists t. exact (copied_unfolds _ _ _ _ _ Nc Nd Xd _ _ H t Ht). }
    split; [split|constructor].
    + rewrite Eg. cbn [gs_set_cmds gs_cmds]. rewrite Td at 2. apply Forall_app. split; [|exact Un].
      eapply Forall_impl; [|exact U1]. intros r. apply unfoldable_mono; [exact Xd|apply extends_refl].
    + rewrite Eg, El. cbn [gs_set_cmds gs_cmds cmds_remove cc_tokens]. eapply Forall_impl; [|exact U2]. intros r.
      apply unfoldable_mono; [exact Xd|apply extends_refl].
    + intros name. unfold q_unfolds. rewrite El, Eg. cbn [cmds_remove cc_map cc_tokens gs_set_cmds gs_cmds sc_local].
      destruct (str_eqb name (df_name d)) eqn:En.
      * apply str_eqb_eq in En. subst name. now rewrite !assoc_remove.
      * rewrite !assoc_filter_other by exact En. specialize (A1 name). destruct (assoc_str name (cc_map (q_local q))) as [dd|]; [|exact A1].
        destruct A1 as (t & Ht & Hu). exists t. split; [exact Ht|]. revert Hu. apply unfolds_extend; [exact Xd|apply extends_refl].
    + intros name. rewrite Eg. cbn [gs_set_cmds gs_cmds sc_document]. rewrite Em. cbn [assoc_str].
      destruct (str_eqb name (df_name d)) eqn:En.
      * eexists. split; [reflexivity|]. cbn [cd_args cd_class cd_start cd_end]. apply (unfolds_ref _ _ _ _ _ _ _ _ body'); [exact Sl|].
        clear - Cp F Nc Nd Xd. revert trees F. induction Cp as [|r r' l l' H Fc IH]; intros trees F; inversion F; subst; constructor; [|now apply IH].
        exact (copied_unfolds _ _ _ _ _ Nc Nd Xd _ _ H _ H2).
      * specialize (A2 name). destruct (assoc_str name (cc_map (gs_cmds (q_gs q)))) as [dd|]; [|exact A2].
        destruct A2 as (t & Ht & Hu). exists t. split; [exact Ht|]. revert Hu. apply unfolds_extend; [exact Xd|apply extends_refl].
    + exact A3.
  - destruct St as [El Eg]. assert (Xl : extends (cc_tokens (q_local q)) (cc_tokens (q_local q1))) by (rewrite El; apply extends_app).
    assert (Ub : Forall (unfoldable config (cc_tokens (gs_cmds (q_gs q))) (cc_tokens (q_local q))) (df_body d)).
    { clear - F. induction F as [|r0 t0 body trees H0 F IH]; constructor; [now exists t0|exact IH]. }
    split; [split|constructor].
    + now rewrite Eg.
    + rewrite Eg. rewrite El at 2. cbn [cmds_insert_or_replace cmds_register cc_tokens].
      apply Forall_app. split; (eapply Forall_impl; [|eassumption]); intros r; apply unfoldable_mono; solve [apply extends_refl|exact Xl].
    + intros name. assert (Em := f_equal cc_map El). cbn [cmds_insert_or_replace cmds_register cc_map] in Em. rewrite Em. cbn [sc_local assoc_str].
      destruct (str_eqb name (df_name d)) eqn:En.
      * eexists. split; [reflexivity|]. cbn [cd_args cd_class cd_start cd_end]. unfold q_unfolds. rewrite Eg, El.
        apply (unfolds_ref _ _ _ _ _ _ _ _ (df_body d)).
        -- cbn [cmds_insert_or_replace cmds_register cc_tokens]. unfold slice_get. rewrite app_length.
           assert (X : (length (cc_tokens (q_local q)) <=? length (cc_tokens (q_local q)) + length (df_body d)) && (length (cc_tokens (q_local q)) + length (df_body d) <=? length (cc_tokens (q_local q)) + length (df_body d)) = true).
           { apply andb_true_intro. split; apply Nat.leb_le; lia. }
           rewrite X. f_equal. rewrite skipn_app, skipn_all, Nat.sub_diag. cbn [app skipn]. rewrite firstn_all2; [reflexivity|lia].
        -- rewrite <- El. clear - F Xl. induction F as [|r t l l' H F IH]; constructor; [|exact IH]. revert H. apply unfolds_extend; [apply extends_refl|exact Xl].
      * specialize (A1 name). destruct (assoc_str name (cc_map (q_local q))) as [dd|]; [|exact A1].
        destruct A1 as (t & Ht & Hu). exists t. split; [exact Ht|]. revert Hu. unfold q_unfolds. rewrite Eg. apply unfolds_extend; [apply extends_refl|exact Xl].
    + rewrite Eg. exact A2.
    + exact A3.
Qed.

Lemma document_empty : document_ok config cmds_empty.
Proof. split; constructor. Qed.
Lemma new_sound input gs q : config_ok (pc_custom cfg) -> gs_ok cfg gs -> forallb is_scalar input = true ->
  queue_new cfg (lexer_new input) gs = (Ok tt, q) -> sound_queue cfg q /\ q_local q = cmds_empty /\ q_gs q = gs.
Proof.
  intros C D H E. pose proof (new_spec cfg (lexer_new input) gs) as N. cbn zeta in N. destruct (ahead _) as [t|e|c]; [|destruct N as [? N]; congruence|destruct N].
  destruct N as (q' & E' & G & V & L & Gs). rewrite E in E'. injection E' as <-. split; [|split; assumption].
  assert (St : stores_ok cfg q).
  { split; [exact C|]. rewrite Gs, L. split; [exact D|]. split; [|constructor]. intros i r N. destruct i; discriminate. }
  split; [exact G|]. split; [exact St|]. rewrite V. 
  set (q0 := mkQueue (lexer_new input) [] false 0 cmds_empty gs).
  assert (St0 : stores_ok cfg q0). { split; [exact C|]. split; [exact D|]. split; [|constructor]. intros i r N. destruct i; discriminate. }
  pose proof (lexed_ok cfg q0 St0 H) as K. unfold q_refs in *. rewrite Gs, L. exact K.
Qed.
Lemma valid_snippet q s (reset : bool) input gs q1 : valid q s -> forallb is_scalar input = true ->
  gs_cmds gs = (if reset then cmds_empty else gs_cmds (q_gs q)) -> queue_new cfg (lexer_new input) gs = (Ok tt, q1) ->
  valid q1 (mkScope [] (if reset then [] else sc_document s) (sc_base s)).
Proof.
  intros (Sq & [U1 U2] & [A1 A2 A3]) H Eg E. pose proof Sq as (_ & (SC & SD & SL) & _).
  destruct (new_sound input gs q1 SC) as (Sq1 & L1 & G1);
  [unfold gs_ok; rewrite Eg; destruct reset; [exact document_empty|exact SD]|exact H|exact E|]. split; [exact Sq1|]. split; [split|constructor].
  - rewrite G1, Eg. destruct reset; [constructor|exact U1].
  - rewrite L1. constructor.
  - intros name. rewrite L1. reflexivity.
  - intros name. rewrite G1, Eg. destruct reset; [reflexivity|exact (A2 name)].
  - exact A3.
Qed.
Lemma valid_other q q1 s : same_commands q q1 -> sound_queue cfg q1 -> valid q s -> valid q1 s.
Proof.
  intros [El Eg] Sq (_ & [U1 U2] & [A1 A2 A3]). split; [exact Sq|]. split; [split|constructor]; unfold q_unfolds; rewrite ?El, ?Eg; assumption.
Qed.
Lemma history_valid l : forall q s q' s', history cfg l q s q' s' -> valid q s -> valid q' s'.
Proof.
  intros q s q' s' H. induction H as [q s|d l q q1 q2 s s2 trees D E F H IH|reset input gs l q q1 q2 s s2 I Eg E H IH|l q q1 q2 s s2 St Sq H IH]; intros V.
  - exact V.
  - apply IH. eapply valid_define; eassumption.
  - apply IH. eapply valid_snippet; eassumption.
  - apply IH. eapply valid_other; eassumption.
Qed.

Lemma history_base l : forall q s q' s', history cfg l q s q' s' -> sc_base s' = sc_base s.
Proof.
  intros q s q' s' H. induction H as [| d l q q1 q2 s s2 trees D E F H IH| |]; auto. rewrite IH. unfold scope_define. now destruct (_ || _).
Qed.
Lemma filter_none {A} name (m : list (str * A)) n : assoc_str n m = None -> assoc_str n (filter (fun e => negb (str_eqb name (fst e))) m) = None.
Proof.
  induction m as [|[k v] m IH]; [reflexivity|]. cbn [assoc_str filter fst]. destruct (str_eqb n k) eqn:E; [discriminate|]. intros H.
  destruct (negb _); cbn [assoc_str]; rewrite ?E; auto.
Qed.
Lemma eqb_neq a b : a <> b -> str_eqb a b = false.
Proof. intros H. destruct (str_eqb a b) eqn:E; [|reflexivity]. now apply str_eqb_eq in E. Qed.
(** A definition that is not disturbed stays in force. *)
Lemma history_document l name : forall q s q' s', history cfg l q s q' s' -> Forall (undisturbed name true) l ->
  assoc_str name (sc_local s) = None ->
  assoc_str name (sc_local s') = None /\ assoc_str name (sc_document s') = assoc_str name (sc_document s).
Proof.
  intros q s q' s' H. induction H as [q s|d l q q1 q2 s s2 trees D E F H IH|reset input gs l q q1 q2 s s2 I Eg E H IH|l q q1 q2 s s2 St Sq H IH]; intros U L; auto.
  - inversion U as [|? ? U1 U2]; subst. cbn [undisturbed] in U1. unfold scope_define in IH. destruct (df_global d || pc_global_group cfg).
    + destruct IH as [I1 I2]; [exact U2|now apply filter_none|]. split; [exact I1|]. rewrite I2. cbn [sc_document assoc_str].
      rewrite eqb_neq; [reflexivity|congruence].
    + apply IH; [exact U2|]. cbn [sc_local assoc_str]. rewrite eqb_neq; [exact L|congruence].
  - inversion U as [|? ? U1 U2]; subst. destruct U1 as [_ ->]. destruct (IH U2 eq_refl) as [I1 I2]. auto.
Qed.
Lemma history_local l name : forall q s q' s', history cfg l q s q' s' -> Forall (undisturbed name false) l ->
  assoc_str name (sc_local s') = assoc_str name (sc_local s) /\ assoc_str name (sc_document s') = assoc_str name (sc_document s).
Proof.
  intros q s q' s' H. induction H as [q s|d l q q1 q2 s s2 trees D E F H IH|reset input gs l q q1 q2 s s2 I Eg E H IH|l q q1 q2 s s2 St Sq H IH]; intros U; auto.
  - inversion U as [|? ? U1 U2]; subst. cbn [undisturbed] in U1. unfold scope_define in IH. destruct (IH U2) as [I1 I2]. rewrite I1, I2.
    destruct (df_global d || pc_global_group cfg); cbn [sc_local sc_document assoc_str].
    + rewrite assoc_filter_other by (apply eqb_neq; congruence). rewrite eqb_neq by congruence. auto.
    + rewrite eqb_neq by congruence. auto.
  - inversion U as [|? ? U1 U2]; subst. destruct U1. discriminate.
Qed.
(** Definitions of a snippet that are not global leave those of the document alone. *)
Lemma history_only_local l : forall q s q' s', history cfg l q s q' s' -> pc_global_group cfg = false ->
  Forall (fun e => match e with EvDefine d => df_global d = false | EvSnippet _ _ => False end) l -> sc_document s' = sc_document s.
Proof.
  intros q s q' s' H Gg. induction H as [q s|d l q q1 q2 s s2 trees D E F H IH|reset input gs l q q1 q2 s s2 I Eg E H IH|l q q1 q2 s s2 St Sq H IH]; intros U; auto.
  - inversion U as [|? ? U1 U2]; subst. rewrite (IH U2). unfold scope_define. rewrite U1, Gg. reflexivity.
  - inversion U as [|? ? U1 U2]. destruct U1.
Qed.
(** Histories can be put together. *)
Lemma history_trans l1 l2 : forall q s q1 s1 q2 s2, history cfg l1 q s q1 s1 -> history cfg l2 q1 s1 q2 s2 -> history cfg (l1 ++ l2) q s q2 s2.
Proof.
  intros q s q1 s1 q2 s2 H K. induction H as [|d l q q1 q3 s s3 trees D E F H IH|reset input gs l q q1 q3 s s3 I Eg E H IH|l q q1 q3 s s3 St Sq H IH].
  - exact K.
  - eapply history_define; eauto.
  - eapply history_snippet; eauto.
  - eapply history_other; eauto.
Qed.
Lemma base_unfolds d l name : config_ok (pc_custom cfg) ->
  unfolds config d l (RTok (match resolve_command cfg cmds_empty cmds_empty name with Some t => t | None => T_UnresolvedCommand name end)) (base_meaning cfg name).
Proof.
  intros [C M]. unfold resolve_command, cmds_get, base_meaning. cbn [cmds_empty cc_map assoc_str].
  destruct (assoc_str name (cc_map (pc_custom cfg))) as [e|] eqn:E.
  - destruct (map_ok_body _ _ _ M E) as (_ & body & Sl & _). apply (unfolds_ref _ _ _ SrcConfig _ _ _ _ body); [exact Sl|]. rewrite Sl.
    assert (F : Forall (rec_ok (fun _ _ _ _ => False)) body).
    { apply Forall_forall. intros r I. destruct (slice_in _ _ _ _ _ Sl I) as (i & _ & N). apply nth_error_In in N. rewrite Forall_forall in C. now apply C. }
    clear - F. induction F as [|r body H F IH]; cbn [map]; constructor; [|exact IH].
    destruct r as [t|n]; cbn [plain_tree]; [|constructor]. apply unfolds_tok. intros src n cl a b ->. cbn [rec_ok tok_ok] in H. tauto.
  - apply unfolds_tok. intros src n cl a b. destruct (resolve_builtin _ _ _) eqn:B; [|discriminate]. intros ->. apply resolve_builtin_ok in B. discriminate.
Qed.
Lemma start_means input q : config_ok (pc_custom cfg) -> forallb is_scalar input = true ->
  queue_new cfg (lexer_new input) gs_default = (Ok tt, q) -> forall name, means cfg q name (base_meaning cfg name).
Proof.
  intros C H E name. destruct (new_sound input gs_default q C document_empty H E) as (Sq & L & G).
  unfold means, q_unfolds, q_meaning, q_resolve. rewrite L, G. now apply base_unfolds.
Qed.
Lemma valid_start input q base : config_ok (pc_custom cfg) -> forallb is_scalar input = true ->
  queue_new cfg (lexer_new input) gs_default = (Ok tt, q) -> (forall name, means cfg q name (base name)) -> valid q (mkScope [] [] base).
Proof.
  intros C H E B. destruct (new_sound input gs_default q C document_empty H E) as (Sq & L & G). split; [exact Sq|]. split; [split|constructor].
  - rewrite G. constructor.
  - rewrite L. constructor.
  - intros name. rewrite L. reflexivity.
  - intros name. rewrite G. reflexivity.
  - intros name. specialize (B name). unfold means, q_unfolds, q_meaning, q_resolve in B. rewrite L, G in B. exact B.
Qed.
Lemma valid_scope_start input q : config_ok (pc_custom cfg) -> forallb is_scalar input = true ->
  queue_new cfg (lexer_new input) gs_default = (Ok tt, q) -> valid q (scope_start cfg).
Proof. intros C H E. apply (valid_start input); auto. now apply (start_means input). Qed.
End Q.
