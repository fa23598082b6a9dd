(** Sequences with which reading fails. *)
From Verif Require Import Str M_SuperChar M_Transform M_Length M_Spec M_Ast M_Token M_Symbols M_Commands M_Env
  M_LatexError M_Lexer M_CustomCmds M_Queue M_Spacing M_Colors M_Leaf M_TextParser M_Parser
  S_Lexer S_Queue S_Scripts S_Formula S_Reading S_Faulty L_Queue L_Args L_Reads L_Wp L_Ends L_Wins L_WinLeaf L_Expand L_FormEq L_Form L_FormArg L_FormHead L_FormSeq L_Faulty L_FaultyTok.
Local Open Scope nat_scope.

Section Faulty.
Context (K : err_kind) (usize_max : N) (cfg : parser_cfg) (local cmds : custom_cmds).
#[local] Instance due : fate := fun k => k = K.
Notation mean := (the_mean cfg local cmds).
Notation tok := (tok mean).
Notation raw := (raw mean).
Notation den_item := (den_item mean usize_max).
Notation den_head := (den_head mean usize_max).
Notation den_arg := (den_arg mean usize_max).
Notation den_target := (den_target mean usize_max).
Notation den_mark := (den_mark mean usize_max).
Notation den_items := (den_items mean usize_max den_item).
Notation reads_items := (reads_items mean (the_body cfg local cmds) (pc_ignore_unknown cfg)).
Notation reads_head := (reads_head mean (the_body cfg local cmds) (pc_ignore_unknown cfg)).
Notation reads_args := (reads_args mean (the_body cfg local cmds) (pc_ignore_unknown cfg)).
Notation reads_arg := (reads_arg mean (the_body cfg local cmds) (pc_ignore_unknown cfg)).
Notation reads_marks := (reads_marks mean (the_body cfg local cmds) (pc_ignore_unknown cfg)).
Notation reads_mark := (reads_mark mean (the_body cfg local cmds) (pc_ignore_unknown cfg)).
Notation at_ := (at_ cfg local cmds).
Notation wins := (wins cfg usize_max).
Notation script x := (with_style (style_scriptify (cx_style x)) x).

Notation seq_fails := (seq_fails K usize_max cfg local cmds).
Notation tok_fails := (tok_fails K usize_max cfg local cmds).
Notation args_fail := (args_fail K usize_max cfg local cmds).
Notation marks_fail := (marks_fail K usize_max cfg local cmds).
Notation script_fails := (script_fails K usize_max cfg local cmds).


Ltac enter A := eapply tok_wins; [exact A|reflexivity|]; clear A; let s := fresh "s1" in let left := fresh "left" in intros s left A; cbv zeta; cbn [fst snd view_of pv_hack pv_style pv_transform pv_vld pv_env es_allow_columns].
Lemma plain_first e w : is_end e (first w) = false -> closes e w = false.
Proof. unfold first, closes. destruct e as [[]|]; destruct (hd T_Eoi (bare w)); reflexivity || discriminate. Qed.
Lemma stop_of w : no_script w = true -> stop_ahead w.
Proof. unfold no_script, stop_ahead, first. now destruct (unwrap_math (hd T_Eoi (bare w))). Qed.
Lemma over_of tf h w : ended_head tf h w -> over_ok tf h w.
Proof. destruct h; exact (fun H => H). Qed.

(** A token that is no letter comes first. *)
Definition plain_tok (t : token) : bool := match t with T_Letter _ _ | T_UprightLetter _ | T_Digit _ => false | _ => true end.
Lemma enter_any e prev acc infix n x d w s Q : closes e w = false -> plain_tok (first w) = true -> at_ n x d w s ->
  (forall s1 sp, at_ n x d (rest w) s1 -> wins (loop_next e prev acc infix (first w, sp)) s1 Q) -> wins (body (CLoop e prev acc infix)) s Q.
Proof.
  intros C P A H. cbn [body]. rewrite loop_eq. eapply peek_at; [exact A|]. intros sp. cbn [fst]. unfold closes in C. rewrite is_end_matches in C. rewrite C.
  eapply no_letters_at; [exact A|now apply command_no_word|]. intros s1 A1. eapply next_any_at; [exact A1|]. intros s2 sp2 A2. now apply H.
Qed.
Lemma enter_silent e prev acc infix n x d w s Q : is_end e (first w) = false -> silent (first w) = true -> at_ n x d w s ->
  (forall s1 sp, at_ n x d (rest w) s1 -> wins (loop_next e prev acc infix (first w, sp)) s1 Q) -> wins (body (CLoop e prev acc infix)) s Q.
Proof.
  intros C P A H. eapply enter_any; [apply plain_first; exact C| |exact A|exact H]. destruct (first w); reflexivity || discriminate P.
Qed.

(** What comes first is all right. *)
Lemma item_passed x d e prev inf n w h n1 w1 ms n2 w2 c m d1 : closes e w = false -> reads_head true n w h n1 w1 -> ended_head (cx_tf x) h w1 -> reads_marks n1 w1 ms n2 w2 -> no_script w2 = true ->
  den_item x PaSequence prev (class_ahead w2 ClEnd) (Item h ms) d = Some ((c, m), d1) -> seq_fails x d1 e c inf n2 w2 -> seq_fails x d e prev inf n w.
Proof.
  intros C Rh Ov Rm St E H acc infix s Q Ei A. destruct (all_good usize_max cfg local cmds (item_size (Item h ms))) as (Gi & Ga & _ & Gm & Gh).
  eapply (item_step usize_max cfg local cmds (item_size (Item h ms)) h ms Gi Ga Gm Gh (Nat.lt_succ_diag_r _)); [exact E|exact Rh|exact Rm|apply stop_of; exact St|apply over_of; exact Ov|unfold closes in C; now rewrite is_end_matches in C|exact A|].
  intros s1 A1. now apply H.
Qed.
Lemma relax_passed x d e prev inf n w : first w = T_Relax -> seq_fails x d e prev inf n (rest w) -> seq_fails x d e prev inf n w.
Proof.
  intros F H acc infix s Q Ei A. eapply enter_silent; [rewrite F; now destruct e as [[]|]|now rewrite F|exact A|]. intros s1 sp A1. rewrite F. unfold loop_next. cbn [fst snd]. apply wins_return. now apply H.
Qed.
Lemma alphabet_passed x d e prev inf n w v : first w = T_TransformSwitch v -> seq_fails (with_tf (Some v) x) d e prev inf n (rest w) -> seq_fails x d e prev inf n w.
Proof.
  intros F H acc infix s Q Ei A. eapply enter_silent; [rewrite F; now destruct e as [[]|]|now rewrite F|exact A|]. intros s1 sp A1. rewrite F. unfold loop_next. cbn [fst snd].
  eapply transform_at; [exact A1|]. intros s2 A2. apply wins_return. now apply H.
Qed.
Lemma over_passed x d e prev n w line delim : first w = T_InfixGenFrac line delim -> seq_fails (with_style (style_shrink (cx_style x)) x) d e prev true n (rest w) -> seq_fails x d e prev false n w.
Proof.
  intros F H acc infix s Q Ei A. destruct infix; [discriminate Ei|]. eapply enter_silent; [rewrite F; now destruct e as [[]|]|now rewrite F|exact A|]. intros s1 sp A1. rewrite F. unfold loop_next. cbn [fst snd].
  eapply view_at; [exact A1|]. intros left. eapply style_at; [exact A1|]. intros s2 A2. apply wins_return. now apply H.
Qed.
(** A token after which there are no scripts. *)
Lemma enter_tok e prev acc infix n x d w s Q : closes e w = false -> plain_tok (first w) = true -> silent (first w) = false -> at_ n x d w s ->
  (forall s1 sp, at_ n x d (rest w) s1 -> wins (body (CTok (first w, sp) PaSequence prev)) s1 (fun v s' => wins (loop_after e acc infix (fst v) (snd v)) s' Q)) -> wins (body (CLoop e prev acc infix)) s Q.
Proof.
  intros C P Si A H. eapply enter_any; [exact C|exact P|exact A|]. intros s1 sp A1. rewrite loop_process by exact Si. eapply wins_calls; [now apply H|]. intros [c1 n1] s2 W. exact W.
Qed.
Lemma column_passed x d e prev inf n w : first w = T_NewColumn -> cx_cols x = true -> no_script (rest w) = true -> seq_fails x d e ClClose inf n (rest w) -> seq_fails x d e prev inf n w.
Proof.
  intros F Co St H acc infix s Q Ei A. eapply enter_tok; [apply plain_first; rewrite F; now destruct e as [[]|]|now rewrite F|now rewrite F|exact A|]. clear A. intros s1 sp A. rewrite F.
  enter A. rewrite Co. apply wins_ret. eapply after_none_wins; [apply stop_of; exact St|exact A|]. intros s3 A3. now apply H.
Qed.
Lemma newline_passed x d e prev inf n w : first w = T_NewLine -> cx_rows x = false -> no_script (rest w) = true -> seq_fails x d e ClOpen inf n (rest w) -> seq_fails x d e prev inf n w.
Proof.
  intros F Co St H acc infix s Q Ei A. eapply enter_tok; [apply plain_first; rewrite F; now destruct e as [[]|]|now rewrite F|now rewrite F|exact A|]. clear A. intros s1 sp A. rewrite F.
  enter A. eapply no_row_at; [exact A|exact Co|]. apply wins_ret. eapply after_none_wins; [apply stop_of; exact St|exact A|]. intros s3 A3. now apply H.
Qed.
Lemma row_passed x d e prev inf n w r d1 : first w = T_NewLine -> cx_rows x = true -> end_row usize_max false d = Some (r, d1) -> (forall l, hd T_Eoi (bare (rest w)) <> T_HLine l) -> no_script (rest w) = true ->
  seq_fails x d1 e ClOpen inf n (rest w) -> seq_fails x d e prev inf n w.
Proof.
  intros F Co Er Nl St H acc infix s Q Ei A. eapply enter_tok; [apply plain_first; rewrite F; now destruct e as [[]|]|now rewrite F|now rewrite F|exact A|]. clear A. intros s1 sp A. rewrite F.
  enter A. destruct r as [info rows]. eapply (row_at _ _ _ _ _ _ _ _ _ _ _ _ _ None); [exact A|reflexivity|intros _; exact Nl|now intros []|exact Co|exact Er|]. intros s3 A3. apply wins_ret.
  eapply after_none_wins; [apply stop_of; exact St|exact A3|]. intros s4 A4. now apply H.
Qed.
Lemma row_line_passed x d e prev inf n w r d1 l : first w = T_NewLine -> cx_rows x = true -> cx_hlines x = true -> end_row usize_max false d = Some (r, d1) ->
  hd T_Eoi (bare (rest w)) = T_HLine l -> no_script (rest (rest w)) = true -> seq_fails x d1 e ClOpen inf n (rest (rest w)) -> seq_fails x d e prev inf n w.
Proof.
  intros F Co Hl Er Bl St H acc infix s Q Ei A. eapply enter_tok; [apply plain_first; rewrite F; now destruct e as [[]|]|now rewrite F|now rewrite F|exact A|]. clear A. intros s1 sp A. rewrite F.
  assert (Bl' : bare (rest w) = T_HLine l :: rest (rest w)).
  { unfold rest at 2. destruct (bare (rest w)) as [|t0 r0]; [discriminate Bl|]. cbn [hd] in Bl. subst t0. reflexivity. }
  enter A. destruct r as [info rows]. eapply (row_at _ _ _ _ _ _ _ _ _ _ _ _ _ (Some l)); [exact A|exact Bl'|discriminate|intros _; exact Hl|exact Co|exact Er|].
  intros s3 A3. apply wins_ret. eapply after_none_wins; [apply stop_of; exact St|exact A3|]. intros s4 A4. now apply H.
Qed.
Lemma no_number_passed x d e prev inf n w u d1 : first w = T_NoNumber -> drow_if numbered_notag d = Some (u, d1) -> seq_fails x d1 e prev inf n (rest w) -> seq_fails x d e prev inf n w.
Proof.
  intros F E H acc infix s Q Ei A. eapply enter_silent; [rewrite F; now destruct e as [[]|]|now rewrite F|exact A|]. intros s1 sp A1. rewrite F. unfold loop_next. cbn [fst snd].
  unfold drow_if in E. injection E as _ <-. eapply view_at; [exact A1|]. intros left. cbn [pv_env view_of es_numbered]. destruct (nu_row d) as [ne|] eqn:En; cbn [option_map] in H.
  - eapply env_at; [exact A1|]. intros s2 A2. apply wins_return. apply H; [exact Ei|]. exact (eq_ind _ (fun y => at_ _ y _ _ _) A2 _ (row_same _ x d left)).
  - apply wins_return. apply H; [exact Ei|]. rewrite <- En. now destruct d.
Qed.
Lemma tag_passed x d e prev inf n w p t k u d1 : first w = T_Tag p -> braced (rest w) t k -> drow (fun r => Some (numbered_tag (mkTag t p) r)) d = Some (u, d1) -> seq_fails x d1 e prev inf n k -> seq_fails x d e prev inf n w.
Proof.
  intros F [L B] E H acc infix s Q Ei A. eapply enter_silent; [rewrite F; now destruct e as [[]|]|now rewrite F|exact A|]. intros s1 sp A1. rewrite F. unfold loop_next. cbn [fst snd].
  unfold drow in E. destruct (nu_row d) as [ne|] eqn:En; [|discriminate]. injection E as _ <-. eapply literal_at; [exact L|exact A1|exact B|]. intros s2 sp2 A2. eapply view_at; [exact A2|]. intros left. cbn [pv_env view_of es_numbered]. rewrite En.
  eapply env_at; [exact A2|]. intros s3 A3. apply wins_return. apply H; [exact Ei|]. rewrite <- En in A3. exact (eq_ind _ (fun y => at_ _ y _ _ _) A3 _ (row_same _ x d left)).
Qed.
Lemma label_passed x d e prev inf n w t k u d1 : first w = T_Label -> braced (rest w) t k -> drow (numbered_label t) d = Some (u, d1) -> seq_fails x d1 e prev inf n k -> seq_fails x d e prev inf n w.
Proof.
  intros F [L B] E H acc infix s Q Ei A. eapply enter_silent; [rewrite F; now destruct e as [[]|]|now rewrite F|exact A|]. intros s1 sp A1. rewrite F. unfold loop_next. cbn [fst snd].
  unfold drow in E. destruct (nu_row d) as [ne|] eqn:En; [|discriminate]. destruct (numbered_label t ne) as [ne'|] eqn:El; [|discriminate]. injection E as _ <-.
  eapply literal_at; [exact L|exact A1|exact B|]. intros s2 sp2 A2. eapply view_at; [exact A2|]. intros left. cbn [pv_env view_of es_numbered]. rewrite En, El.
  eapply env_at; [exact A2|]. intros s3 A3. apply wins_return. apply H; [exact Ei|]. rewrite <- En in A3. exact (eq_ind _ (fun y => at_ _ y _ _ _) A3 _ (row_same _ x d left)).
Qed.
Lemma end_closer k c : sees_end k c -> closer SeqAny false (bare k) c.
Proof.
  unfold sees_end. destruct (bare k) as [|t r]; [intros ->; apply (cl_any (SeqEnd EtEoi)); apply cl_eoi|]. destruct t; try contradiction; intros ->.
  all: first [apply (cl_any (SeqEnd EtGroupClose)); apply cl_group|apply (cl_any (SeqEnd EtRight)); apply cl_right|apply (cl_any (SeqEnd EtEnd)); apply cl_end].
Qed.
Lemma style_passed x d e prev inf n w st l ns d1 n1 k c : first w = T_Style st -> closes e w = false -> reads_items n (rest w) l n1 k -> sees_end k c -> den_items (in_bracket false (with_style st x)) c prev [] None l d = Some (ns, d1) ->
  seq_fails x d1 e ClDefault inf n1 k -> seq_fails x d e prev inf n w.
Proof.
  intros F C R Se E H acc infix s Q Ei A. eapply enter_tok; [exact C|now rewrite F|now rewrite F|exact A|]. clear A. intros s1 sp A. rewrite F. enter A. apply end_closer in Se.
  eapply style_at; [exact A|]. clear A. intros s3 A. unfold seq_if_in_sequence. cbn [in_sequence pbind].
  eapply wins_calls; [apply (seq_wins usize_max cfg local cmds (S (items_size l)) l (with_style st x) c prev d ns d1 SeqAny false n (rest w) n1 k s3 (good_items K usize_max cfg local cmds l) (Nat.lt_succ_diag_r _) E R Se A)|].
  intros r s4 [-> A4]. cbn [pbind]. eapply style_at; [exact A4|]. intros s5 A5. apply wins_ret. change (at_ n1 (with_style (cx_style x) x) d1 k s5) in A5. rewrite with_style_same in A5.
  eapply after_none_wins; [exact (closer_stop _ _ _ _ Se)|exact A5|]. intros s6 A6. now apply H.
Qed.
Lemma color_passed x d e prev inf n w t w1 rgb l ns d1 n1 k c : first w = T_Color -> closes e w = false -> braced (rest w) t w1 -> get_color t = Some rgb -> reads_items n w1 l n1 k -> sees_end k c ->
  den_items (in_bracket false x) c prev [] None l d = Some (ns, d1) -> seq_fails x d1 e ClDefault inf n1 k -> seq_fails x d e prev inf n w.
Proof.
  intros F C [L B] Eg R Se E H acc infix s Q Ei A. eapply enter_tok; [exact C|now rewrite F|now rewrite F|exact A|]. clear A. intros s1 sp A. rewrite F. enter A. apply end_closer in Se.
  eapply color_at; [exact L|exact Eg|exact A|exact B|]. clear A. intros s3 A. unfold seq_if_in_sequence. cbn [in_sequence pbind].
  eapply wins_calls; [apply (seq_wins usize_max cfg local cmds (S (items_size l)) l x c prev d ns d1 SeqAny false n w1 n1 k s3 (good_items K usize_max cfg local cmds l) (Nat.lt_succ_diag_r _) E R Se A)|].
  intros r s4 [-> A4]. cbn [pbind]. apply wins_ret. eapply after_none_wins; [exact (closer_stop _ _ _ _ Se)|exact A4|]. intros s6 A6. now apply H.
Qed.

(** What comes first is wrong. *)
Lemma unclosed_fails x d prev inf n w en : first w = T_Eoi -> en <> EtEoi -> K = E_UnclosedGroup en -> seq_fails x d (SeqEnd en) prev inf n w.
Proof.
  intros F Ne Ek acc infix s Q Ei A. eapply enter_silent; [rewrite F; destruct en; reflexivity || now destruct Ne|now rewrite F|exact A|]. intros s1 sp A1. rewrite F. unfold loop_next. cbn [fst snd]. now apply fail_wins.
Qed.
Lemma over_twice_fails x d e prev n w line delim : first w = T_InfixGenFrac line delim -> K = E_MoreThanOneInfixCmd -> seq_fails x d e prev true n w.
Proof.
  intros F Ek acc infix s Q Ei A. destruct infix; [|discriminate Ei]. eapply enter_silent; [rewrite F; now destruct e as [[]|]|now rewrite F|exact A|]. intros s1 sp A1. rewrite F. unfold loop_next. cbn [fst snd]. now apply fail_wins.
Qed.
Lemma tag_fails x d e prev inf n w p t k : first w = T_Tag p -> braced (rest w) t k -> nu_row d = None -> K = E_CannotBeUsedHere (if p then LtTag else LtTagStar) NumberedEnv -> seq_fails x d e prev inf n w.
Proof.
  intros F [L B] En Ek acc infix s Q Ei A. eapply enter_silent; [rewrite F; now destruct e as [[]|]|now rewrite F|exact A|]. intros s1 sp A1. rewrite F. unfold loop_next. cbn [fst snd].
  eapply literal_at; [exact L|exact A1|exact B|]. intros s2 sp2 A2. eapply view_at; [exact A2|]. intros left. cbn [pv_env view_of es_numbered]. rewrite En. now apply fail_wins.
Qed.
Lemma label_fails x d e prev inf n w t k : first w = T_Label -> braced (rest w) t k -> nu_row d = None -> K = E_CannotBeUsedHere LtLabel NumberedEnv -> seq_fails x d e prev inf n w.
Proof.
  intros F [L B] En Ek acc infix s Q Ei A. eapply enter_silent; [rewrite F; now destruct e as [[]|]|now rewrite F|exact A|]. intros s1 sp A1. rewrite F. unfold loop_next. cbn [fst snd].
  eapply literal_at; [exact L|exact A1|exact B|]. intros s2 sp2 A2. eapply view_at; [exact A2|]. intros left. cbn [pv_env view_of es_numbered]. rewrite En. now apply fail_wins.
Qed.
Lemma label_twice_fails x d e prev inf n w t k r l : first w = T_Label -> braced (rest w) t k -> nu_row d = Some r -> ne_label r = Some l -> K = E_MoreThanOneLabel -> seq_fails x d e prev inf n w.
Proof.
  intros F [L B] En El Ek acc infix s Q Ei A. eapply enter_silent; [rewrite F; now destruct e as [[]|]|now rewrite F|exact A|]. intros s1 sp A1. rewrite F. unfold loop_next. cbn [fst snd].
  eapply literal_at; [exact L|exact A1|exact B|]. intros s2 sp2 A2. eapply view_at; [exact A2|]. intros left. cbn [pv_env view_of es_numbered]. rewrite En. unfold numbered_label. rewrite El. now apply fail_wins.
Qed.
Lemma tok_in_fails x d e prev inf n w : closes e w = false -> silent (first w) = false -> tok_fails PaSequence prev x d n w -> seq_fails x d e prev inf n w.
Proof.
  intros C Si [P H] acc infix s Q Ei A. eapply enter_tok; [exact C|exact P|exact Si|exact A|]. intros s1 sp A1. now apply H.
Qed.
(** The scripts after an atom. *)
Lemma atom_passed x d e prev acc infix n w h n1 w1 c m d1 s Q : closes e w = false -> reads_head true n w h n1 w1 -> ended_head (cx_tf x) h w1 -> match h with HWord _ => False | _ => True end ->
  den_head x PaSequence prev (class_ahead w1 ClEnd) h d = Some ((c, m), d1) -> at_ n x d w s -> (forall s1, at_ n1 x d1 w1 s1 -> wins (loop_after e acc infix c m) s1 Q) -> wins (body (CLoop e prev acc infix)) s Q.
Proof.
  intros C Rh Ov Nw E A H. destruct (all_good usize_max cfg local cmds (S (head_size h))) as (_ & _ & _ & _ & Gh).
  destruct (Gh h (Nat.lt_succ_diag_r _) true x PaSequence prev _ d c m d1 n w n1 w1 (fun _ => eq_refl) E ltac:(now destruct h) Rh) as (t1 & r1 & Et & W & Si & Hh). unfold closes in C. rewrite is_end_matches, Et in C.
  eapply enter_wins; [exact Et|exact C|exact W|exact A|]. intros s1 sp A1. rewrite loop_process by exact Si. eapply wins_calls; [apply (Hh s1 sp)|].
  - destruct h; try exact Logic.I. exact Ov.
  - reflexivity.
  - exact A1.
  - intros v s2 [-> A2]. now apply H.
Qed.
Lemma marks_in_fail x d e prev inf n w h n1 w1 c m d1 : closes e w = false -> reads_head true n w h n1 w1 -> ended_head (cx_tf x) h w1 -> match h with HWord _ => False | _ => True end ->
  den_head x PaSequence prev (class_ahead w1 ClEnd) h d = Some ((c, m), d1) -> marks_fail x d1 false false n1 w1 -> seq_fails x d e prev inf n w.
Proof.
  intros C Rh Ov Nw E H acc infix s Q Ei A. eapply atom_passed; [exact C|exact Rh|exact Ov|exact Nw|exact E|exact A|]. intros s1 A1. unfold loop_after. apply wins_bind. unfold get_bounds. apply wins_return. apply H; [reflexivity|reflexivity|exact A1].
Qed.
Lemma limits_fail x d e prev inf n w h n1 w1 c m d1 ms n2 w2 vs d2 b k : closes e w = false -> reads_head true n w h n1 w1 -> ended_head (cx_tf x) h w1 -> match h with HWord _ => False | _ => True end ->
  den_head x PaSequence prev (class_ahead w1 ClEnd) h d = Some ((c, m), d1) -> reads_marks n1 w1 ms n2 w2 -> no_script w2 = true ->
  values (den_mark x) ms d1 = Some (vs, d2) -> scripts_of vs = Some (b, Some k) -> K = E_CannotBeUsedHere (limits_name k) AfterBigOp -> seq_fails x d e prev inf n w.
Proof.
  intros C Rh Ov Nw E Rm St Ev Es Ek acc infix s Q Ei A. eapply atom_passed; [exact C|exact Rh|exact Ov|exact Nw|exact E|exact A|]. intros s1 A1. unfold loop_after.
  destruct (all_good usize_max cfg local cmds (S (marks_size ms))) as (_ & _ & _ & Gm & _).
  eapply wins_then; [exact (Gm ms (Nat.lt_succ_diag_r _) x d1 vs (b, Some k) d2 n1 w1 n2 w2 s1 Ev Es Rm (stop_of _ St) A1)|]. intros bl s2 (B1 & B2 & A2). unfold bl_kind in B2. cbn [snd] in B2.
  destruct (bl_limits bl) as [[k' sp']|] eqn:El; [|discriminate B2]. injection B2 as ->. eapply pres_fail_wins; [unfold ensure_no_limits; rewrite El; reflexivity|]. rewrite Ek. now destruct k.
Qed.

(** ** All of it *)
Lemma plain_sign t : sign_of t -> plain_tok t = true.
Proof. now intros [-> | ->]. Qed.
Theorem wrong_fails :
  (forall x d e prev inf n w, wrong_seq mean (the_body cfg local cmds) (pc_ignore_unknown cfg) usize_max K x d e prev inf n w -> seq_fails x d e prev inf n w) /\
  (forall a prev x d n w, wrong_tok mean (the_body cfg local cmds) (pc_ignore_unknown cfg) usize_max K a prev x d n w -> tok_fails a prev x d n w) /\
  (forall p d n w, wrong_args mean (the_body cfg local cmds) (pc_ignore_unknown cfg) usize_max K p d n w -> args_fail p d n w) /\
  (forall x d sb sp n w, wrong_marks mean (the_body cfg local cmds) (pc_ignore_unknown cfg) usize_max K x d sb sp n w -> marks_fail x d sb sp n w) /\
  (forall x d n w, wrong_script mean (the_body cfg local cmds) (pc_ignore_unknown cfg) usize_max K x d n w -> script_fails x d n w).
Proof.
  apply (faulty_ind mean (the_body cfg local cmds) (pc_ignore_unknown cfg) usize_max K seq_fails tok_fails args_fail marks_fail script_fails).
  - intros; eapply item_passed; eassumption.
  - intros; eapply relax_passed; eassumption.
  - intros; eapply alphabet_passed; eassumption.
  - intros; eapply over_passed; eassumption.
  - intros; eapply column_passed; eassumption.
  - intros; eapply newline_passed; eassumption.
  - intros; eapply row_passed; eassumption.
  - intros; eapply row_line_passed; eassumption.
  - intros; eapply no_number_passed; eassumption.
  - intros; eapply tag_passed; eassumption.
  - intros; eapply label_passed; eassumption.
  - intros; eapply style_passed; eassumption.
  - intros; eapply color_passed; eassumption.
  - intros; eapply unclosed_fails; eassumption.
  - intros; eapply over_twice_fails; eassumption.
  - intros; eapply tag_fails; eassumption.
  - intros; eapply label_fails; eassumption.
  - intros; eapply label_twice_fails; eassumption.
  - intros; eapply tok_in_fails; eassumption.
  - intros; eapply marks_in_fail; eassumption.
  - intros; eapply limits_fail; eassumption.
  - intros a prev x d n w H. now apply tok_misplaced.
  - intros a prev x d n w u r m bd args r' B Hm Ok Gr La Kn _ H. assert (F : first w = unwrap_math u) by (unfold first; now rewrite B). assert (Rw : rest w = r) by (unfold rest; now rewrite B).
    split; [rewrite F; destruct (unwrap_math u); reflexivity || discriminate Hm|]. intros s sp Q A. rewrite F. rewrite Rw in A. eapply macro_failed; eassumption.
  - intros a prev x d n w F _ H. split; [now rewrite F|]. intros s sp Q A. rewrite F. enter A. apply wins_call. eapply seq_failed; [exact H|exact A].
  - intros a prev x d n w p P O _ H. split; [destruct (first w); reflexivity || discriminate P|]. intros s sp Q A. eapply args_failed; eassumption.
  - intros a prev x d n w y P F _ H. split; [destruct (first w); reflexivity || discriminate P|]. intros s sp Q A. eapply option_failed; eassumption.
  - intros a prev x d n w y l ns d1 n1 w1 k P F R B E _ H. split; [destruct (first w); reflexivity || discriminate P|]. intros s sp Q A. eapply after_option; eassumption.
  - intros a prev x d n w o is_over g m d1 n1 w1 w2 F R E B _ H. split; [now rewrite F|]. intros s sp Q A. rewrite F. eapply brace_failed; eassumption.
  - intros a prev x d n w T _ H. split; [destruct (first w); reflexivity || discriminate T|]. intros s sp Q A. eapply operator_failed; eassumption.
  - intros a prev x d n w T _ H. split; [exact (plain_sign _ T)|]. intros s sp Q A. eapply script_failed; eassumption.
  - intros a prev x d n w g m d1 n1 w1 T R E _ H. split; [exact (plain_sign _ T)|]. intros s sp Q A. eapply after_script; eassumption.
  - intros a prev x d n w o g c m d1 n1 k F; intros. split; [now rewrite F|]. intros s sp Q A. rewrite F. eapply overlay_failed; eassumption.
  - intros a prev x d n w u t k F; intros. split; [now rewrite F|]. intros s sp Q A. rewrite F. eapply length_failed; eassumption.
  - intros a prev x d n w u t k l unit is_math F; intros. split; [now rewrite F|]. intros s sp Q A. rewrite F. eapply unit_failed; eassumption.
  - intros a prev x d n w t k F; intros. split; [now rewrite F|]. intros s sp Q A. rewrite F. eapply color_failed; eassumption.
  - intros a prev x d n w t k rgb F; intros. split; [now rewrite F|]. intros s sp Q A. rewrite F. eapply color_arg_failed; eassumption.
  - intros a prev x d n w t k rgb F; intros. split; [now rewrite F|]. intros s sp Q A. rewrite F. eapply color_in_failed; eassumption.
  - intros a prev x d n w st F; intros. split; [now rewrite F|]. intros s sp Q A. rewrite F. eapply style_in_failed; eassumption.
  - intros a prev x d n w F; intros. split; [now rewrite F|]. intros s sp Q A. rewrite F. eapply middle_failed; eassumption.
  - intros a prev x d n w sz pt F; intros. split; [now rewrite F|]. intros s sp Q A. rewrite F. eapply big_failed; eassumption.
  - intros a prev x d n w F; intros. split; [now rewrite F|]. intros s sp Q A. rewrite F. eapply left_failed; eassumption.
  - intros a prev x d n w F; intros. split; [now rewrite F|]. intros s sp Q A. rewrite F. eapply fenced_failed; eassumption.
  - intros a prev x d n w l ns d1 n1 k k1 F; intros. split; [now rewrite F|]. intros s sp Q A. rewrite F. eapply right_failed; eassumption.
  - intros a prev x d n w e t k F; intros. split; [now rewrite F|]. intros s sp Q A. rewrite F. eapply columns_failed; eassumption.
  - intros a prev x d n w e w1 w2 F; intros. split; [now rewrite F|]. intros s sp Q A. rewrite F. eapply env_arg_failed; eassumption.
  - intros a prev x d n w e w1 w2 F; intros. split; [now rewrite F|]. intros s sp Q A. rewrite F. eapply env_in_failed; eassumption.
  - intros a prev x d n w e w1 w2 l ns d1 n1 k e' k1 F; intros. split; [now rewrite F|]. intros s sp Q A. rewrite F. eapply env_end_failed; eassumption.
  - intros x a prev p d n w _ H. now left.
  - intros x a prev p d n w g m d1 n1 w1 T R E _ H. right. exists g, m, d1, n1, w1. now repeat (split; [assumption|]).
  - intros; eapply later_marks; eassumption.
  - intros; eapply marks_twice; eassumption.
  - intros; eapply marks_script; eassumption.
  - intros; eapply script_none; eassumption.
  - intros; eapply script_again; eassumption.
  - intros; eapply script_tok; eassumption.
Qed.
End Faulty.
