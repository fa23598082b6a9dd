(** Tokens with which reading fails. *)
From Verif Require Import Str M_SuperChar M_Transform M_Length M_Spec M_Ast M_Token M_Symbols M_Commands M_Env
  M_LatexError M_Lexer M_CustomCmds M_Queue M_Spacing M_Colors M_Leaf M_TextParser M_Parser
  S_Lexer S_Queue S_Scripts S_Formula S_Reading S_Faulty L_Queue L_Args L_Reads L_Wp L_Ends L_Wins L_WinLeaf L_Expand L_FormEq L_Form L_FormArg L_FormHead L_FormSeq L_Faulty.
Local Open Scope nat_scope.

Section Faulty.
Context (K : err_kind) (usize_max : N) (cfg : parser_cfg) (local cmds : custom_cmds).
#[local] Instance due : fate := fun k => k = K.
Notation mean := (the_mean cfg local cmds).
Notation tok := (tok mean).
Notation raw := (raw mean).
Notation den_item := (den_item mean usize_max).
Notation den_head := (den_head mean usize_max).
Notation den_arg := (den_arg mean usize_max).
Notation den_target := (den_target mean usize_max).
Notation den_mark := (den_mark mean usize_max).
Notation den_items := (den_items mean usize_max den_item).
Notation reads_items := (reads_items mean (the_body cfg local cmds) (pc_ignore_unknown cfg)).
Notation reads_head := (reads_head mean (the_body cfg local cmds) (pc_ignore_unknown cfg)).
Notation reads_args := (reads_args mean (the_body cfg local cmds) (pc_ignore_unknown cfg)).
Notation reads_arg := (reads_arg mean (the_body cfg local cmds) (pc_ignore_unknown cfg)).
Notation reads_marks := (reads_marks mean (the_body cfg local cmds) (pc_ignore_unknown cfg)).
Notation reads_mark := (reads_mark mean (the_body cfg local cmds) (pc_ignore_unknown cfg)).
Notation at_ := (at_ cfg local cmds).
Notation wins := (wins cfg usize_max).
Notation script x := (with_style (style_scriptify (cx_style x)) x).

Notation seq_fails := (seq_fails K usize_max cfg local cmds).
Notation tok_fails := (tok_fails K usize_max cfg local cmds).
Notation args_fail := (args_fail K usize_max cfg local cmds).
Notation marks_fail := (marks_fail K usize_max cfg local cmds).
Notation script_fails := (script_fails K usize_max cfg local cmds).

Ltac enter A := eapply tok_wins; [exact A|reflexivity|]; clear A; let s := fresh "s1" in let left := fresh "left" in intros s left A; cbv zeta; cbn [fst snd view_of pv_hack pv_style pv_transform pv_vld pv_env es_allow_columns].
Lemma do_fails {A C} (o : op C) (f : C -> prog A) s e s1 Q : exec cfg usize_max o s = (Err e, s1) -> err_kind_of e = K -> wins (Do o f) s Q.
Proof. intros E Ek. exists (Err e), s1. split; [apply ends_do; now rewrite E|exact Ek]. Qed.
Lemma bracket_passed {C} l x d ns d1 n w n1 w1 k s (f : list node -> prog C) Q : reads_items n w l n1 w1 -> bare w1 = T_SquareBracketClose :: k -> den_items (in_bracket true x) ClClose ClOpen [] None l d = Some (ns, d1) -> at_ n x d w s ->
  (forall s1, at_ n1 x d1 k s1 -> wins (f ns) s1 Q) -> wins (Call (CSeq (SeqEnd EtSquareBracketClose) ClOpen false) f) s Q.
Proof.
  intros R B E A H. eapply wins_calls; [eapply bracket_wins; [exact (good_items K usize_max cfg local cmds l)|apply Nat.lt_succ_diag_r|exact E|exact R|exact B|exact A]|]. intros b s1 [-> A1]. now apply H.
Qed.
Lemma after_option t x a prev d n w s sp Q y l ns d1 n1 w1 k : option_ctx x t = Some y -> first w = T_SquareBracketOpen -> reads_items n (rest w) l n1 w1 -> bare w1 = T_SquareBracketClose :: k ->
  den_items (in_bracket true y) ClClose ClOpen [] None l d = Some (ns, d1) -> tok_fails PaArg ClDefault y d1 n1 k -> at_ n x d w s -> wins (body (CTok (t, sp) a prev)) s Q.
Proof.
  intros P F R B E H A. destruct t; try discriminate P; injection P as <-; enter A.
  - eapply next_any_at; [exact A|]. intros s2 sp2 A2. rewrite F. cbn [fst]. eapply bracket_passed; [exact R|exact B|exact E|exact A2|]. intros s3 A3. apply wins_bind. eapply parse_next_failed; [exact H|exact A3].
  - eapply style_at; [exact A|]. clear A. intros s2 A. eapply hack_at; [exact A|]. clear A. intros s3 A.
    eapply next_any_at; [exact A|]. intros s4 sp4 A4. rewrite F. cbn [fst pbind]. eapply bracket_passed; [exact R|exact B|exact E|exact A4|]. intros s5 A5. cbv beta. apply wins_bind. apply wins_bind. eapply parse_next_failed; [exact H|exact A5].
Qed.
Lemma brace_failed o (is_over : bool) x a prev d n w s sp Q g m d1 n1 w1 w2 : reads_arg false n w g n1 w1 -> den_arg x PaArgSpace ClDefault g d = Some (m, d1) ->
  bare w1 = (if is_over then T_Circumflex else T_Underscore) :: w2 -> tok_fails PaArg ClDefault x d1 n1 w2 -> at_ n x d w s -> wins (body (CTok (T_OverUnderBrace o is_over, sp) a prev)) s Q.
Proof.
  intros R E B H A. enter A. eapply parse_next_passed; [reflexivity|exact R|exact E|exact A|]. clear A. intros s2 A. cbv zeta. eapply peek_at; [exact A|]. intros sp2. rewrite B. cbn [hd fst].
  destruct is_over; cbn [negb]; (eapply next_at; [exact A|exact B|]); intros s3 sp3 A3; apply wins_bind; (eapply parse_next_failed; [exact H|exact A3]).
Qed.
(** Operators and scripts. *)
Lemma operator_failed t x a prev d n w s sp Q : takes_scripts t = true -> marks_fail x d false false n w -> at_ n x d w s -> wins (body (CTok (t, sp) a prev)) s Q.
Proof.
  intros T H A. destruct t; try discriminate T; enter A.
  all: try (apply wins_bind; unfold get_bounds; apply wins_return; apply (H bl_none); [reflexivity|reflexivity|exact A]).
  cbn [takes_scripts] in T. apply wins_bind. destruct (op_cat o); try discriminate T; unfold get_bounds; apply wins_return; apply (H bl_none); solve [reflexivity|exact A].
Qed.
Definition sign_of (t : token) : Prop := t = T_Underscore \/ t = T_Circumflex.
Lemma script_failed t x a prev d n w s sp Q : sign_of t -> script_fails x d n w -> at_ n x d w s -> wins (body (CTok (t, sp) a prev)) s Q.
Proof.
  intros T H A. destruct T as [-> | ->]; enter A; apply wins_bind; unfold get_bounds; apply wins_return; cbn [body]; unfold bounds_body; cbn [pbind fst snd unwrap_math]; cbv zeta; apply wins_bind; now apply H.
Qed.
Lemma after_script t x a prev d n w s sp Q g m d1 n1 w1 : sign_of t -> reads_arg false n w g n1 w1 -> den_arg (script x) PaArg ClDefault g d = Some (m, d1) ->
  marks_fail x d1 (match t with T_Underscore => true | _ => false end) (match t with T_Underscore => false | _ => true end) n1 w1 -> at_ n x d w s -> wins (body (CTok (t, sp) a prev)) s Q.
Proof.
  intros T R E H A. destruct T as [-> | ->]; enter A; apply wins_bind; unfold get_bounds; apply wins_return; cbn [body]; unfold bounds_body; cbn [pbind fst snd unwrap_math]; cbv zeta;
    (eapply script_passed; [exact R|exact E|exact A|]); intros s2 A2; cbn [bl_bounds bl_none bounds_none b_sub b_sup]; apply wins_return; (apply H; [reflexivity|reflexivity|exact A2]).
Qed.
Lemma overlay_failed o x a prev d n w s sp Q g c m d1 n1 k : reads_arg false n w g n1 k -> den_target x a prev (class_ahead k ClEnd) g d = Some ((c, m), d1) -> no_overlay m = true ->
  K = E_ExpectedRelation -> at_ n x d w s -> wins (body (CTok (T_Overlay o, sp) a prev)) s Q.
Proof.
  intros R E No Ek A. enter A. eapply (next_target usize_max cfg local cmds (S (arg_size g)) g x a prev (class_ahead k ClEnd) d c m d1 n w n1 k); [apply (all_good usize_max cfg local cmds)|apply Nat.lt_succ_diag_r|exact E|reflexivity|exact R|exact A|].
  intros t s2 A2. cbn [fst snd]. replace (overlay_node o m) with (@None node) by (now destruct m). now apply fail_wins.
Qed.
(** Literals. *)
Lemma length_failed u x a prev d n w s sp Q t k : braced w t k -> parse_length_specification (trim_ascii t) = None -> K = E_ExpectedLength t -> at_ n x d w s -> wins (body (CTok (T_CustomSpace u, sp) a prev)) s Q.
Proof. intros [L B] P Ek A. enter A. eapply literal_at; [exact L|exact A|exact B|]. intros s2 sp2 A2. cbn [fst snd]. rewrite P. now apply fail_wins. Qed.
Lemma unit_failed u x a prev d n w s sp Q t k l unit is_math : braced w t k -> parse_length_specification (trim_ascii t) = Some (l, unit, is_math) ->
  is_math = (match u with UkMath => false | UkText => true end) -> K = E_IllegalUnit unit (negb is_math) -> at_ n x d w s -> wins (body (CTok (T_CustomSpace u, sp) a prev)) s Q.
Proof.
  intros [L B] P Em Ek A. enter A. eapply literal_at; [exact L|exact A|exact B|]. intros s2 sp2 A2. cbn [fst snd]. rewrite P. subst is_math. destruct u; now apply fail_wins.
Qed.
Lemma color_failed x a prev d n w s sp Q t k : braced w t k -> get_color t = None -> K = E_UnknownColor t -> at_ n x d w s -> wins (body (CTok (T_Color, sp) a prev)) s Q.
Proof.
  intros [L B] P Ek A. enter A. destruct A as [Aq V]. destruct (qliteral cfg local cmds n d w t k _ L Aq B) as (sp' & q' & N & A').
  eapply (do_fails _ _ _ (mkErr sp' (E_UnknownColor t))); [|exact (eq_sym Ek)]. cbn [exec]. unfold on_queue, parse_color, sbind, sget. rewrite (qpeek cfg local cmds d _ _ Aq), B. cbn [hd]. rewrite N, P. reflexivity.
Qed.
Lemma color_arg_failed x a prev d n w s sp Q t k rgb : braced w t k -> get_color t = Some rgb -> takes_part a = false -> K = E_CannotBeUsedAsArgument -> at_ n x d w s -> wins (body (CTok (T_Color, sp) a prev)) s Q.
Proof.
  intros [L B] P T Ek A. enter A. eapply color_at; [exact L|exact P|exact A|exact B|]. intros s2 A2. unfold seq_if_in_sequence. rewrite <- takes_part_eq, T. now apply fail_wins.
Qed.
Lemma color_in_failed x a prev d n w s sp Q t k rgb : braced w t k -> get_color t = Some rgb -> takes_part a = true -> seq_fails x d SeqAny prev false n k -> at_ n x d w s -> wins (body (CTok (T_Color, sp) a prev)) s Q.
Proof.
  intros [L B] P T H A. enter A. eapply color_at; [exact L|exact P|exact A|exact B|]. intros s2 A2. unfold seq_if_in_sequence. rewrite <- takes_part_eq, T. apply wins_call. eapply seq_failed; [exact H|exact A2].
Qed.
Lemma style_in_failed st x a prev d n w s sp Q : takes_part a = true -> seq_fails (with_style st x) d SeqAny prev false n w -> at_ n x d w s -> wins (body (CTok (T_Style st, sp) a prev)) s Q.
Proof.
  intros T H A. enter A. eapply style_at; [exact A|]. intros s2 A2. unfold seq_if_in_sequence. rewrite <- takes_part_eq, T. apply wins_call. eapply seq_failed; [exact H|exact A2].
Qed.
(** Delimiters. *)
Lemma no_delimiter t sp m : is_delimiter t = false -> extract_delimiter (t, sp) m = Err (mkErr sp (E_ExpectedDelimiter m)).
Proof. unfold is_delimiter, extract_delimiter. cbn [fst snd]. destruct (match t with T_Ord o => _ | _ => _ end); [discriminate|reflexivity]. Qed.
Lemma some_delimiter t sp m : is_delimiter t = true -> exists o, extract_delimiter (t, sp) m = Ok o.
Proof. unfold is_delimiter, extract_delimiter. cbn [fst snd]. destruct (match t with T_Ord o => _ | _ => _ end); [eauto|discriminate]. Qed.
Lemma middle_failed x a prev d n w s sp Q : is_delimiter (first w) = false -> K = E_ExpectedDelimiter DmMiddle -> at_ n x d w s -> wins (body (CTok (T_Middle, sp) a prev)) s Q.
Proof. intros D Ek A. enter A. eapply next_any_at; [exact A|]. intros s2 sp2 A2. eapply pres_fail_wins; [now apply no_delimiter|exact (eq_sym Ek)]. Qed.
Lemma big_failed sz pt x a prev d n w s sp Q : is_delimiter (first w) = false -> K = E_ExpectedDelimiter DmBig -> at_ n x d w s -> wins (body (CTok (T_Big sz pt, sp) a prev)) s Q.
Proof. intros D Ek A. enter A. eapply next_any_at; [exact A|]. intros s2 sp2 A2. eapply pres_fail_wins; [now apply no_delimiter|exact (eq_sym Ek)]. Qed.
Lemma fence_failed m x d n w s Q : is_fence (first w) = false -> K = E_ExpectedDelimiter m -> at_ n x d w s -> wins (fence_delimiter m) s Q.
Proof.
  intros D Ek A. unfold is_fence in D. apply orb_false_iff in D as [D1 D2]. unfold fence_delimiter. eapply next_any_at; [exact A|]. intros s2 sp2 A2. cbn [fst]. rewrite D1.
  eapply pres_fail_wins; [now apply no_delimiter|exact (eq_sym Ek)].
Qed.
Lemma fence_passed {C} m x d n w s (f : option stretchable_op -> prog C) Q : is_fence (first w) = true -> at_ n x d w s -> (forall o s1, at_ n x d (rest w) s1 -> wins (f o) s1 Q) -> wins (pbind (fence_delimiter m) f) s Q.
Proof.
  intros D A H. unfold is_fence in D. apply wins_bind. unfold fence_delimiter. eapply next_any_at; [exact A|]. intros s2 sp2 A2. cbn [fst]. destruct (is_full_stop (first w)).
  - apply wins_ret. now apply H.
  - cbn [orb] in D. destruct (some_delimiter (first w) sp2 m D) as (o & E). eapply wins_pres; [exact E|]. apply wins_ret. now apply H.
Qed.
Lemma left_failed x a prev d n w s sp Q : is_fence (first w) = false -> K = E_ExpectedDelimiter DmLeft -> at_ n x d w s -> wins (body (CTok (T_Left, sp) a prev)) s Q.
Proof. intros D Ek A. enter A. apply wins_bind. eapply fence_failed; [exact D|exact Ek|exact A]. Qed.
Lemma fenced_failed x a prev d n w s sp Q : is_fence (first w) = true -> seq_fails x d (SeqEnd EtRight) ClOpen false n (rest w) -> at_ n x d w s -> wins (body (CTok (T_Left, sp) a prev)) s Q.
Proof. intros D H A. enter A. eapply fence_passed; [exact D|exact A|]. intros o s2 A2. apply wins_call. eapply seq_failed; [exact H|exact A2]. Qed.
Lemma right_failed x a prev d n w s sp Q l ns d1 n1 k k1 : is_fence (first w) = true -> reads_items n (rest w) l n1 k -> den_items (in_bracket false x) ClClose ClOpen [] None l d = Some (ns, d1) ->
  bare k = T_Right :: k1 -> is_fence (first k1) = false -> K = E_ExpectedDelimiter DmRight -> at_ n x d w s -> wins (body (CTok (T_Left, sp) a prev)) s Q.
Proof.
  intros D R E B D1 Ek A. enter A. eapply fence_passed; [exact D|exact A|]. intros o s2 A2.
  eapply wins_calls; [eapply (seq_wins_close usize_max cfg local cmds (S (items_size l)) l x); [exact (good_items K usize_max cfg local cmds l)|apply Nat.lt_succ_diag_r|exact E|exact R|exact B|apply cl_right|exact A2]|].
  intros b s3 [-> A3]. apply wins_bind. eapply fence_failed; [exact D1|exact Ek|exact A3].
Qed.
(** Environments. *)
Lemma columns_failed e x a prev d n w s sp Q t k : has_columns e = true -> braced w t k -> parse_column_specification t = None -> K = E_ExpectedColSpec t -> at_ n x d w s -> wins (body (CTok (T_Begin e, sp) a prev)) s Q.
Proof.
  intros H [L B] P Ek A. enter A. apply wins_bind. destruct e; try discriminate H; (eapply literal_at; [exact L|exact A|exact B|]); intros s2 sp2 A2; cbn [fst snd]; rewrite P; now apply fail_wins.
Qed.
Definition columns_prog (e : env) : prog (option array_spec) :=
  match e with
  | EArray | EDArray | ESubarray => do '(s, sp') := OLiteral in match parse_column_specification s with Some c => Ret (Some c) | None => fail sp' (E_ExpectedColSpec s) end
  | _ => Ret None
  end.
Lemma columns_passed {C} e x d n w k s (f : option array_spec -> prog C) Q : columns_given e w k -> at_ n x d w s -> (forall o s1, at_ n x d k s1 -> wins (f o) s1 Q) -> wins (pbind (columns_prog e) f) s Q.
Proof.
  intros H A Hf. apply wins_bind. unfold columns_given in H. destruct (has_columns e) eqn:Hc.
  - destruct H as (t & [L B] & P). destruct e; try discriminate Hc; (eapply literal_at; [exact L|exact A|exact B|]); intros s2 sp2 A2; cbn [fst snd]; (destruct (parse_column_specification t); [|now destruct P]); apply wins_ret; now apply Hf.
  - subst k. destruct e; try discriminate Hc; apply wins_ret; now apply Hf.
Qed.
Definition border_prog (e : env) : prog (option line_type) :=
  if env_allows_hlines e then do p := OPeek in match fst p with T_HLine l => do_ ONext in Ret (Some l) | _ => Ret None end else Ret None.
Lemma border_passed {C} e x d n w k s (f : option line_type -> prog C) Q : top_line e w k -> at_ n x d w s -> (forall o s1, at_ n x d k s1 -> wins (f o) s1 Q) -> wins (pbind (border_prog e) f) s Q.
Proof.
  intros H A Hf. apply wins_bind. unfold top_line in H. unfold border_prog. destruct (env_allows_hlines e); [|subst k; apply wins_ret; now apply Hf].
  eapply peek_at; [exact A|]. intros sp. cbn [fst].
  destruct (hd T_Eoi (bare w)); try (subst k; apply wins_ret; now apply Hf). subst k. eapply next_any_at; [exact A|]. intros s1 sp1 A1. apply wins_ret. now apply Hf.
Qed.
Lemma env_arg_failed e x a prev d n w s sp Q w1 w2 : columns_given e w w1 -> top_line e w1 w2 -> takes_part a = false -> K = E_CannotBeUsedAsArgument -> at_ n x d w s -> wins (body (CTok (T_Begin e, sp) a prev)) s Q.
Proof.
  intros C T Ta Ek A. enter A. refine (columns_passed e x d n w w1 _ _ Q C A _). clear A. intros spec s2 A. refine (border_passed e x d n w1 w2 _ _ Q T A _). clear A. intros border s3 A.
  eapply style_at; [exact A|]. clear A. intros s4 A. eapply env_at; [exact A|]. intros s5 A5. unfold seq_if_in_sequence. rewrite <- takes_part_eq, Ta. now apply fail_wins.
Qed.
Lemma env_in_failed e x a prev d n w s sp Q w1 w2 : columns_given e w w1 -> top_line e w1 w2 -> takes_part a = true -> seq_fails (in_env e x) (fresh_rows e d) (SeqEnd EtEnd) ClOpen false n w2 ->
  at_ n x d w s -> wins (body (CTok (T_Begin e, sp) a prev)) s Q.
Proof.
  intros C T Ta H A. enter A. refine (columns_passed e x d n w w1 _ _ Q C A _). clear A. intros spec s2 A. refine (border_passed e x d n w1 w2 _ _ Q T A _). clear A. intros border s3 A.
  eapply style_at; [exact A|]. clear A. intros s4 A. eapply env_at; [exact A|]. intros s5 A5. unfold seq_if_in_sequence. rewrite <- takes_part_eq, Ta. cbn [pbind]. apply wins_call. eapply seq_failed; [exact H|exact A5].
Qed.
Lemma env_end_failed e x a prev d n w s sp Q w1 w2 l ns d1 n1 k e' k1 : columns_given e w w1 -> top_line e w1 w2 -> takes_part a = true ->
  reads_items n w2 l n1 k -> den_items (in_env e x) ClEnd ClOpen [] None l (fresh_rows e d) = Some (ns, d1) -> bare k = T_End e' :: k1 -> e' <> e -> K = E_MismatchedEnvironment e e' -> at_ n x d w s ->
  wins (body (CTok (T_Begin e, sp) a prev)) s Q.
Proof.
  intros C T Ta R E B Ne Ek A. enter A. refine (columns_passed e x d n w w1 _ _ Q C A _). clear A. intros spec s2 A. refine (border_passed e x d n w1 w2 _ _ Q T A _). clear A. intros border s3 A.
  eapply style_at; [exact A|]. clear A. intros s4 A. eapply env_at; [exact A|]. clear A. intros s5 A. unfold seq_if_in_sequence. rewrite <- takes_part_eq, Ta. cbn [pbind].
  assert (Cl : closer (SeqEnd EtEnd) false (bare k) ClEnd) by (rewrite B; apply cl_end).
  eapply wins_calls; [apply (seq_wins usize_max cfg local cmds (S (items_size l)) l (set_flags (env_new_state e) (with_style (env_style e) x)) ClEnd ClOpen (set_row (numbered_env_state e) d) ns d1 (SeqEnd EtEnd) false n w2 n1 k s5 (good_items K usize_max cfg local cmds l) (Nat.lt_succ_diag_r _) E R Cl A)|].
  intros r s6 [-> A6]. cbn [pbind]. eapply style_at; [exact A6|]. intros s7 A7. eapply view_at; [exact A7|]. intros left'. eapply env_at; [exact A7|]. intros s8 A8.
  eapply next_at; [exact A8|exact B|]. intros s9 sp9 A9. cbn [fst unwrap_math]. replace (env_eqb e' e) with false; [now apply fail_wins|].
  clear - Ne. destruct e, e'; try reflexivity; now destruct Ne.
Qed.
(** Macros. *)
Lemma macro_failed u x a prev d n r s sp Q m bd args r' : macro_def (the_body cfg local cmds) u = Some (m, bd) -> body_ok m bd -> grabs_all r args r' -> length args = m ->
  (pc_ignore_unknown cfg = true \/ Forall (fun t => known t = true) (unfolded mean args bd)) -> tok_fails a prev x d n (unfolded mean args bd ++ r') -> at_ (S n) x d r s -> wins (body (CTok (u, sp) a prev)) s Q.
Proof.
  intros Hm Ok Gr La Kb [_ H] At. subst m.
  assert (Go : forall s1, at_ n x d (unfolded mean args bd ++ r') s1 -> wins (do t' := ONext in rec r := CTok t' a prev in Ret r) s1 Q).
  { intros s1 A1. eapply next_any_at; [exact A1|]. intros s2 sp2 A2. apply wins_return. now apply H. }
  destruct u; try discriminate Hm; cbn [macro_def] in Hm; enter At.
  - injection Hm as -> <-. eapply expand_at; [exact At|exact Ok|exact Gr|exact Kb|]. exact Go.
  - destruct (the_body cfg local cmds src start stop) as [bd'|] eqn:Eb; [|discriminate]. injection Hm as -> ->. eapply expand_ref_at; [exact At|exact Eb|exact Ok|exact Gr|exact Kb|]. exact Go.
Qed.
End Faulty.
