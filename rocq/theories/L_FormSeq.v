(** Reading sequences of formulas. *)
From Verif Require Import Str M_SuperChar M_Transform M_Length M_Spec M_Ast M_Token M_Symbols M_Commands M_Env
  M_LatexError M_Lexer M_CustomCmds M_Queue M_Spacing M_Colors M_Leaf M_TextParser M_Parser
  S_Lexer S_Queue S_Scripts S_Formula S_Reading L_Queue L_Args L_Reads L_Wp L_Ends L_Wins L_WinLeaf L_Expand L_FormEq L_Form L_FormArg L_FormHead.
Local Open Scope nat_scope.

(** ** The loop *)

Definition loop_after (e : seq_end) (nodes : list node) (infix : infix_frac) (c : class) (target : node) : prog (list node * infix_frac) :=
  sub bl := get_bounds None in
  sub b := pres (ensure_no_limits bl) in
  rec r := CLoop e c (nodes ++ [attach_bounds target b]) infix in Ret r.
Definition loop_next (e : seq_end) (prev : class) (nodes : list node) (infix : infix_frac) (t : tokspan) : prog (list node * infix_frac) :=
  let after := loop_after e nodes infix in
  let again := rec r := CLoop e prev nodes infix in Ret r in
        let sp := snd t in
        let process := rec '(c, n) := CTok t PaSequence prev in after c n in
        match fst t with
        | T_Eoi => match e with SeqEnd en => fail sp (E_UnclosedGroup en) | SeqAny => process end
        | T_InfixGenFrac with_line delim =>
            match infix with
            | None =>
                do v := OView in
                do_ OSetStyle (style_shrink (pv_style v)) in
                rec r := CLoop e prev [] (Some (nodes, with_line, delim)) in Ret r
            | Some _ => fail sp E_MoreThanOneInfixCmd
            end
        | T_Relax => again
        | T_TransformSwitch tf => do_ OSetTransform (Some tf) in again
        | T_NewCommand m => do_ ODefine m in again
        | T_Let => do_ OLet false in again
        | T_Def g => do_ ODef g in again
        | T_Global => do_ OGlobal in again
        | T_VerticalLineDef d => do_ OSetVld d in again
        | T_NoNumber =>
            do v := OView in
            match es_numbered (pv_env v) with
            | Some ne => do_ OSetEnv (es_set_numbered (Some (numbered_notag ne)) (pv_env v)) in again
            | None => again
            end
        | T_Tag parenthesized =>
            do '(name, _sp) := OLiteral in
            do v := OView in
            match es_numbered (pv_env v) with
            | Some ne =>
                do_ OSetEnv (es_set_numbered (Some (numbered_tag (mkTag name parenthesized) ne)) (pv_env v)) in again
            | None => fail sp (E_CannotBeUsedHere (if parenthesized then LtTag else LtTagStar) NumberedEnv)
            end
        | T_Label =>
            do '(name, _sp) := OLiteral in
            do v := OView in
            match es_numbered (pv_env v) with
            | Some ne =>
                match numbered_label name ne with
                | Some ne' => do_ OSetEnv (es_set_numbered (Some ne') (pv_env v)) in again
                | None => fail sp E_MoreThanOneLabel
                end
            | None => fail sp (E_CannotBeUsedHere LtLabel NumberedEnv)
            end
        | _ => process
        end.
Lemma loop_eq e prev nodes infix : loop_body e prev nodes infix =
  (do t0 := OPeek in
   if seq_end_matches e (fst t0) then Ret (nodes, infix)
   else do letters := OLetters in
        match letters with Some n => loop_after e nodes infix ClDefault n | None => do t := ONext in loop_next e prev nodes infix t end).
Proof. reflexivity. Qed.
Lemma loop_process e prev nodes infix t : silent (fst t) = false ->
  loop_next e prev nodes infix t = (rec '(c, n) := CTok t PaSequence prev in loop_after e nodes infix c n).
Proof. destruct t as [t sp]. cbn [fst]. destruct t; try discriminate; reflexivity. Qed.

Lemma attach_scripts n b : attach_bounds n b = with_scripts n b.
Proof. destruct n; destruct b as [[|] [|]]; reflexivity. Qed.
Lemma attach_none n : attach_bounds n bounds_none = n.
Proof. destruct n; try reflexivity. destruct post; reflexivity. Qed.
Lemma flush_name s : flat_map sn_text (flush None None None s) = s.
Proof. unfold flush. destruct s; [reflexivity|]. cbn. now rewrite app_nil_r. Qed.

Section Form.
Context {Ft : fate} (usize_max : N) (cfg : parser_cfg) (local cmds : custom_cmds).
Notation mean := (the_mean cfg local cmds).
Notation tok := (tok mean).
Notation raw := (raw mean).
Notation item_toks := (item_toks mean).
Notation head_toks := (head_toks mean).
Notation arg_toks := (arg_toks mean).
Notation mark_toks := (mark_toks mean).
Notation den_item := (den_item mean usize_max).
Notation den_head := (den_head mean usize_max).
Notation den_arg := (den_arg mean usize_max).
Notation den_target := (den_target mean usize_max).
Notation den_mark := (den_mark mean usize_max).
Notation den_items := (den_items mean usize_max den_item).
Notation leads := (leads mean (the_body cfg local cmds) (pc_ignore_unknown cfg)).
Notation reads_items := (reads_items mean (the_body cfg local cmds) (pc_ignore_unknown cfg)).
Notation reads_head := (reads_head mean (the_body cfg local cmds) (pc_ignore_unknown cfg)).
Notation reads_args := (reads_args mean (the_body cfg local cmds) (pc_ignore_unknown cfg)).
Notation reads_arg := (reads_arg mean (the_body cfg local cmds) (pc_ignore_unknown cfg)).
Notation reads_marks := (reads_marks mean (the_body cfg local cmds) (pc_ignore_unknown cfg)).
Notation at_ := (at_ cfg local cmds).
Notation wins := (wins cfg usize_max).
Notation items_good := (items_good usize_max cfg local cmds).
Notation arg_good := (arg_good usize_max cfg local cmds).
Notation target_good := (target_good usize_max cfg local cmds).
Notation head_good := (head_good usize_max cfg local cmds).
Notation marks_good := (marks_good usize_max cfg local cmds).

(** A color model in brackets. *)
Lemma color_in_toks l desc c : color_in l desc = Some c -> exists m, flat_map item_toks l = map char_token m /\ forallb is_ascii_alpha m = true /\
  (str_eqb m (lit "rgb") || str_eqb m (lit "RGB") || str_eqb m (lit "HTML") = true) /\ color_of m desc = Some c.
Proof.
  unfold color_in. destruct (all_some _ l) as [m|] eqn:Em; [|discriminate]. intros H. exists m.
  assert (K : flat_map item_toks l = map char_token m /\ forallb is_ascii_alpha m = true).
  { clear H. revert m Em. induction l as [|i l IH]; intros m Em; cbn [all_some] in Em; [injection Em as <-; now split|].
    destruct i as [[[a|?|?] [|? ?]|?|?|?|? ? ?|? ? ?] [|? ?]]; try discriminate Em. destruct (is_ascii_alpha a) eqn:Ea; [|discriminate]. destruct (all_some _ l) as [m'|]; [|discriminate]. injection Em as <-.
    destruct (IH m' eq_refl) as [K1 K2]. split; [cbn [flat_map map]; rewrite K1; reflexivity|cbn [forallb]; now rewrite Ea, K2]. }
  destruct K as [K1 K2]. split; [exact K1|]. split; [exact K2|]. destruct (_ || _); [now split|discriminate].
Qed.
(** The sequence ends. *)
Lemma close_wins e b p k c x d prev acc infix s : closer e b (bare k) c -> at_ p x d k s ->
  wins (body (CLoop e prev acc infix)) s (fun r s' => r = (acc, infix) /\ at_ p x d k s').
Proof.
  intros C A. cbn [body]. rewrite loop_eq. eapply peek_at; [exact A|]. intros sp. cbn [fst].
  rewrite (closer_matches _ _ _ _ C). apply wins_ret. now split.
Qed.
(** A token that is no letter of a word. *)
Lemma enter_wins e prev acc infix p x d w t0 r s (Q : list node * infix_frac -> pstate -> Prop) : bare w = t0 :: r -> seq_end_matches e t0 = false -> word_char (cx_tf x) t0 = None ->
  at_ p x d w s -> (forall s1 sp, at_ p x d r s1 -> wins (loop_next e prev acc infix (unwrap_math t0, sp)) s1 Q) ->
  wins (body (CLoop e prev acc infix)) s Q.
Proof.
  intros B Ne W A H. cbn [body]. rewrite loop_eq. eapply peek_at; [exact A|]. intros sp. rewrite B. cbn [hd fst]. rewrite Ne.
  eapply no_letters_at; [exact A|now rewrite B|]. intros s1 A1. eapply next_at; [exact A1|exact B|]. intros s2 sp2 A2. now apply H.
Qed.
(** The scripts after an atom. *)
Lemma after_wins n e acc infix c m ms x d vs b d' p w p' k s (Q : list node * infix_frac -> pstate -> Prop) : marks_good n -> marks_size ms < n ->
  values (den_mark x) ms d = Some (vs, d') -> scripts_of vs = Some b -> snd b = None -> reads_marks p w ms p' k -> stop_ahead k -> at_ p x d w s ->
  (forall s1, at_ p' x d' k s1 -> wins (body (CLoop e c (acc ++ [with_scripts m (fst b)]) infix)) s1 Q) ->
  wins (loop_after e acc infix c m) s Q.
Proof.
  intros IH L E Sc Sn R St A H. unfold loop_after. eapply wins_then; [exact (IH ms L x d vs b d' p w p' k s E Sc R St A)|]. intros bl s1 (B1 & B2 & A1).
  unfold bl_kind in B2. rewrite Sn in B2. eapply wins_pres; [unfold ensure_no_limits; destruct (bl_limits bl) as [[? ?]|]; [discriminate B2|reflexivity]|].
  apply wins_return. rewrite attach_scripts, B1. now apply H.
Qed.
Lemma after_none_wins e acc infix c m p x d k s (Q : list node * infix_frac -> pstate -> Prop) : stop_ahead k -> at_ p x d k s ->
  (forall s1, at_ p x d k s1 -> wins (body (CLoop e c (acc ++ [m]) infix)) s1 Q) -> wins (loop_after e acc infix c m) s Q.
Proof.
  intros St A H. unfold loop_after. eapply wins_then; [exact (no_marks_wins usize_max cfg local cmds p x d k s St A)|]. intros bl s1 [-> A1].
  eapply wins_pres; [reflexivity|]. apply wins_return. change (bl_bounds bl_none) with bounds_none. rewrite attach_none. now apply H.
Qed.

(** ** Items *)

(** Nothing goes on with a number or a word. *)
Definition over_ok (tf : option math_variant) (h : head) (k : list token) : Prop :=
  match h with
  | HNum _ => no_more_digits k
  | HWord _ => word_char tf (hd T_Eoi (bare k)) = None
  | _ => True
  end.
(** The operators, perhaps after their name: they take their scripts. *)
Definition operator_prog (t : token) (a : parse_as) (prev : class) : prog (class * node) :=
  sub bl := get_bounds None in
  match t with
  | T_ForceLargeOp o =>
      sub spc := parse_mathop_spacing a prev true in
      let (underover, attrs) := large_op_limits (bl_kind bl) (bounds_trivial (bl_bounds bl)) in
      Ret (ClOperator, wrap_bounds underover (bl_bounds bl) (op_node o attrs spc))
  | T_Op o =>
      sub spc := parse_mathop_spacing a prev false in
      let (underover, attrs) := op_limits (bl_kind bl) (is_jop o) (bounds_trivial (bl_bounds bl)) in
      Ret (ClOperator, wrap_bounds underover (bl_bounds bl) (op_node (op_as_op o) attrs spc))
  | T_PseudoOperator name | T_PseudoOperatorLimits name =>
      let (underover, attrs) :=
        pseudo_limits (bl_kind bl) (match t with T_PseudoOperatorLimits _ => true | _ => false end)
                      (bounds_trivial (bl_bounds bl)) in
      sub spc := parse_mathop_spacing a prev true in
      Ret (ClOperator, wrap_bounds underover (bl_bounds bl) (PseudoOp attrs (fst spc) (snd spc) name))
  | _ => Ret (ClOperator, EMPTY_ROW)
  end.
Lemma spacing_wins a next p x d k s prev ex : (in_sequence a = true -> class_ahead k ClEnd = next) -> at_ p x d k s ->
  wins (parse_mathop_spacing a prev ex) s (fun v s' => v = mathop_spacing (cx_style x) prev (next_as a next) ex /\ at_ p x d k s').
Proof.
  intros N A. unfold parse_mathop_spacing. eapply class_as; [exact N|exact A|]. intros s1 A1. eapply view_at; [exact A1|]. intros left. apply wins_ret. now split.
Qed.
Lemma operator_wins n t a next prev ms x d vs b nd d' p w p' k s : marks_good n -> marks_size ms < n ->
  values (den_mark x) ms d = Some (vs, d') -> scripts_of vs = Some b -> reads_marks p w ms p' k -> stop_ahead k -> (in_sequence a = true -> class_ahead k ClEnd = next) -> at_ p x d w s ->
  operator_node x prev (next_as a next) t (fst b) (snd b) = Some nd ->
  wins (operator_prog t a prev) s (fun v s' => v = (ClOperator, nd) /\ at_ p' x d' k s').
Proof.
  intros IH L E Sc R St N A En. unfold operator_prog. eapply wins_then; [exact (IH ms L x d vs b d' p w p' k s E Sc R St A)|]. intros bl s1 (B1 & B2 & A1). rewrite B1, B2. unfold operator_node in En. cbv zeta in En.
  destruct t; try discriminate En; try (destruct (op_cat o); try discriminate En); try (destruct (pseudo_limits _ _ _) as [uo attrs]);
    (eapply wins_then; [exact (spacing_wins a next p' x d' k s1 prev _ N A1)|]; intros spc s2 [-> A2]; try (destruct (large_op_limits _ _) as [uo attrs]); try (destruct (op_limits _ _ _) as [uo attrs]); injection En as <-; apply wins_ret; now split).
Qed.

(** Operators read their scripts themselves, ... *)
Lemma operator_step n sy args t ms : marks_good n -> marks_size ms < n -> operator_of (tok sy) args = Some t -> forall sq x a prev next d c m d' p w p1 w1 p' k,
  (sq = true -> in_sequence a = true) -> den_item x a prev next (Item (HSym sy args) ms) d = Some ((c, m), d') -> reads_head sq p w (HSym sy args) p1 w1 -> reads_marks p1 w1 ms p' k -> stop_ahead k ->
  exists t0 r0, bare w = t0 :: r0 /\ word_char (cx_tf x) t0 = None /\ silent (unwrap_math t0) = false /\
    forall s sp, (in_sequence a = true -> class_ahead k ClEnd = next) -> at_ p x d r0 s ->
      wins (body (CTok (unwrap_math t0, sp) a prev)) s (fun v s' => v = (c, m) /\ at_ p' x d' k s').
Proof.
  intros IHm L Eo sq x a prev next d c m d' p w p1 w1 p' k Sq E Rh Rm St. rewrite den_item_eq in E. cbv zeta in E. rewrite Eo in E.
  apply head_parts in Rh. destruct Rh as (p0 & w0 & Rs & Ra).
  apply dbind_some in E as (vs & d1 & E1 & E). apply dbind_some in E as (b & d2 & E2 & E). apply dopt_some in E2 as [E2 ->]. apply dbind_some in E as (n0 & d3 & E3 & E). apply dopt_some in E3 as [E3 ->]. injection E as <- <- <-.
  assert (Ns : silent (tok sy) = false) by (destruct (tok sy); try discriminate Eo; reflexivity).
  assert (Nw : word_char (cx_tf x) (raw sy) = None). { apply command_no_word. fold (tok sy). change (unwrap_math (raw sy)) with (tok sy). destruct (tok sy); try discriminate Eo; reflexivity. }
  destruct (leads_head usize_max cfg local cmds _ _ _ _ _ _ (cx_tf x) Rs Nw Ns) as (t0 & r0 & B & W0 & S0 & Go). exists t0, r0. split; [exact B|]. split; [exact W0|]. split; [exact S0|]. intros s sp N A1.
  assert (Op : forall s2, at_ p1 x d w1 s2 -> wins (operator_prog t a prev) s2 (fun v s' => v = (ClOperator, n0) /\ at_ p' x d1 k s')).
  { intros s2 A2. apply (operator_wins n t a next prev ms x d vs b n0 d1 p1 w1 p' k s2 IHm); [lia|exact E1|exact E2|exact Rm|exact St|exact N|exact A2|exact E3]. }
  eapply Go; [exact Sq|exact A1|]. clear A1. intros s1' sp1 A1. change (unwrap_math (raw sy)) with (tok sy).
  eapply tok_wins; [exact A1|reflexivity|]. intros s2 left A2. cbv zeta. cbn [fst].
  destruct (tok sy) eqn:Ety; try discriminate Eo; cbn [operator_of] in Eo.
  all: match goal with |- context [OText None None false] => idtac | _ => destruct args; [apply args_parts in Ra as [-> ->]|discriminate Eo] end.
  all: try (injection Eo as <-; exact (Op s2 A2)).
  - destruct (op_cat o) eqn:Ec; try discriminate Eo; injection Eo as <-; specialize (Op s2 A2); unfold operator_prog in Op; cbn [fst snd] in *; rewrite ?Ec in *; exact Op.
  - destruct args as [|[?|?|?|name|?|? ?] [|? ?]]; try discriminate Eo. destruct (forallb (fun c => is_ascii_alpha c || is_ascii_digit c) name) eqn:Ea; [|discriminate].
    cbn [marked as_is] in Ra. apply args_parts in Ra as (p2 & w2 & R1 & Ra). apply args_parts in Ra as [-> ->]. apply as_is_parts in R1 as (-> & -> & Oa). specialize (Oa name eq_refl). rewrite lit_toks in A2.
    eapply name_at; [exact Oa|exact Ea|exact A2|]. intros s3 A3. rewrite flush_name. destruct with_limits; injection Eo as <-; exact (Op s3 A3).
Qed.

(** ... and braces what explains them. *)
Definition put (vs : list mark_value) (c : class) (n : node) : D (class * node) :=
  dbind (dopt (scripts_of vs)) (fun b => match snd b with None => dret (c, with_scripts n (fst b)) | Some _ => dnone end).
Definition unexplained (is_over : bool) (ms : list fmark) : list fmark :=
  match ms with FSup _ :: r => if is_over then r else ms | FSub _ :: r => if is_over then ms else r | _ => ms end.
Lemma unexplained_size is_over ms : marks_size (unexplained is_over ms) <= marks_size ms.
Proof. unfold marks_size. destruct ms as [|[?|?|? ?|?] ms], is_over; cbn [unexplained map list_sum fold_right]; lia. Qed.
Lemma brace_step n sy a0 o is_over ms : arg_good n -> arg_size a0 < n -> marks_size ms < n -> tok sy = T_OverUnderBrace o is_over -> forall sq x a prev next d c m d' p w p1 w1 p' k,
  (sq = true -> in_sequence a = true) -> den_item x a prev next (Item (HSym sy [a0]) ms) d = Some ((c, m), d') -> reads_head sq p w (HSym sy [a0]) p1 w1 -> reads_marks p1 w1 ms p' k -> (ms = [] -> stop_ahead k) ->
  exists t0 r0, bare w = t0 :: r0 /\ word_char (cx_tf x) t0 = None /\ silent (unwrap_math t0) = false /\
    exists c0 n0 d0 p0 w0, dbind (values (den_mark x) (unexplained is_over ms)) (fun vs => put vs c0 n0) d0 = Some ((c, m), d') /\ reads_marks p0 w0 (unexplained is_over ms) p' k /\
    forall s sp, at_ p x d r0 s -> wins (body (CTok (unwrap_math t0, sp) a prev)) s (fun v s' => v = (c0, n0) /\ at_ p0 x d0 w0 s').
Proof.
  intros IHa La Lm Ety sq x a prev next d c m d' p w p1 w1 p' k Sq E Rh Rm St. rewrite den_item_eq in E. cbv zeta in E. rewrite Ety in E. change (operator_of (T_OverUnderBrace o is_over) [a0]) with (@None token) in E. cbv iota in E.
  apply head_parts in Rh. destruct Rh as (p0 & w0 & Rs & Ra).
  apply dbind_some in E as (n1 & d1 & E1 & E).
  rewrite Ety in Ra. cbn [marked as_is] in Ra. apply args_parts in Ra as (p2 & w2 & R1 & Ra). apply args_parts in Ra as [-> ->].
  assert (Nw : word_char (cx_tf x) (raw sy) = None). { apply command_no_word. change (unwrap_math (raw sy)) with (tok sy). now rewrite Ety. }
  assert (Ns : silent (unwrap_math (raw sy)) = false) by (change (unwrap_math (raw sy)) with (tok sy); now rewrite Ety).
  destruct (leads_head usize_max cfg local cmds _ _ _ _ _ _ (cx_tf x) Rs Nw Ns) as (t0 & r0 & B & W0 & S0 & Go). exists t0, r0. split; [exact B|]. split; [exact W0|]. split; [exact S0|].
  set (base := (if is_over then OverAccent else UnderAccent) (ord_as_op o) A_EMPTY n1) in *.
  set (peek := do p := OPeek in
          if match fst p with T_Circumflex => is_over | T_Underscore => negb is_over | _ => false end then
          do_ ONext in
          sub expl := parse_next PaArg in
          Ret (ClDefault, if is_over then Over expl base else Under expl base)
          else Ret (ClDefault, base)).
  (* the brace and its argument *)
  assert (Brace : forall Q s sp, (forall s3, at_ p2 x d1 w2 s3 -> wins peek s3 Q) -> at_ p x d r0 s -> wins (body (CTok (unwrap_math t0, sp) a prev)) s Q).
  { intros Q s sp H A. eapply Go; [exact Sq|exact A|]. clear A. intros s1' sp1 A1. change (unwrap_math (raw sy)) with (tok sy). rewrite Ety.
    eapply tok_wins; [exact A1|reflexivity|]. intros s2 left A2. cbv zeta. cbn [fst].
    eapply wins_then; [eapply (parse_next_wins usize_max cfg local cmds n a0 x PaArgSpace d n1 d1 _ _ _ _ s2 IHa); [lia|reflexivity|exact E1|exact R1|exact A2]|]. intros v s3 [-> A3]. fold base. now apply H. }
  assert (Plain : unexplained is_over ms = ms -> match ms with FSup _ :: _ => negb is_over | FSub _ :: _ => is_over | _ => true end = true -> dbind (values (den_mark x) ms) (fun vs => put vs ClDefault base) d1 = Some ((c, m), d') ->
    exists c0 n0 d0 p0 w0, dbind (values (den_mark x) (unexplained is_over ms)) (fun vs => put vs c0 n0) d0 = Some ((c, m), d') /\ reads_marks p0 w0 (unexplained is_over ms) p' k /\
    forall s sp, at_ p x d r0 s -> wins (body (CTok (unwrap_math t0, sp) a prev)) s (fun v s' => v = (c0, n0) /\ at_ p0 x d0 w0 s')).
  { intros -> Mk E'. exists ClDefault, base, d1, p2, w2. split; [exact E'|]. split; [exact Rm|]. intros s sp A. apply Brace; [|exact A]. clear s sp A. intros s2 A2.
    pose proof E' as E2. apply dbind_some in E2 as (vs & d2 & E2 & _). eapply peek_at; [exact A2|]. intros sp2. cbn [fst].
    assert (Np : match hd T_Eoi (bare w2) with T_Circumflex => is_over | T_Underscore => negb is_over | _ => false end = false).
    { destruct ms as [|mk ms].
      - apply no_marks in Rm as [-> ->]. specialize (St eq_refl). unfold stop_ahead in St. destruct (hd T_Eoi (bare w2)); try reflexivity; discriminate St.
      - cbn [values] in E2. apply dbind_some in E2 as (v & d3 & E2 & _). destruct (mark_starts usize_max cfg local cmds _ _ _ _ _ E2) as (t1 & r1 & Et1 & _ & K).
        destruct (marks_front cfg local cmds _ _ _ _ _ [] Rm) as [[? _]|Fr]; [discriminate|]. rewrite Fr. cbn [flat_map]. rewrite Et1. cbn [app hd].
        destruct mk; try (subst t1; now destruct is_over); destruct K as (kk & K); destruct t1; try reflexivity; discriminate K. }
    rewrite Np. apply wins_ret. now split. }
  destruct ms as [|[b0|b0|? ?|?] ms]; try (apply Plain; [reflexivity|reflexivity|exact E]); destruct is_over; try (apply Plain; [reflexivity|reflexivity|exact E]); clear Plain.
  all: cbn [unexplained]; apply dbind_some in E as (n2 & d2 & E2 & E); apply marks_parts in Rm as (p3 & w3 & Rk & Rm); apply mark_parts in Rk as (w4 & B4 & Rk).
  all: eexists _, _, d2, p3, w3; split; [exact E|]; split; [exact Rm|]; intros s sp A; (apply Brace; [|exact A]); clear s sp A; intros s2 A2; (eapply peek_at; [exact A2|]); intros sp2; rewrite B4; cbn [hd fst negb].
  all: (eapply next_at; [exact A2|exact B4|]); intros s3 sp3 A3; cbn [marks_size map list_sum fold_right mark_size] in Lm;
       (eapply wins_then; [eapply (parse_next_wins usize_max cfg local cmds n b0 x PaArg d1 n2 d2 _ _ _ _ s3 IHa); [unfold marks_size in Lm; cbn [map list_sum fold_right mark_size] in Lm; lia|reflexivity|exact E2|exact Rk|exact A3]|]); intros v s4 [-> A4]; apply wins_ret; now split.
Qed.

(** [\sideset] reads its scripts in front of and after the operator, and those that come then. *)
Lemma bounds_arg_wins n ms l x d vs b d1 ns d' p w p' k s : items_good n -> marks_good n -> marks_size ms < n -> items_size l < n ->
  values (den_mark x) ms d = Some (vs, d1) -> no_limits vs = Some b -> den_items (in_bracket false x) ClEnd ClOpen [] None l d1 = Some (ns, d') ->
  reads_arg false p w (AScripts ms l) p' k -> at_ p x d w s ->
  wins get_bounds_arg s (fun v s' => snd v = ns /\ ensure_no_limits (fst v) = Ok b /\ at_ p' x d' k s').
Proof.
  intros IHi IHm Lm Ll E1 E2 E3 R A. apply scripts_parts in R as (w1 & p1 & w2 & w3 & Bw & Rm & Sa & Rl & Be). unfold get_bounds_arg.
  eapply peek_at; [exact A|]. intros sp. rewrite Bw. cbn [hd fst unwrap_math]. eapply next_at; [exact A|exact Bw|]. intros s1 sp1 A1.
  unfold no_limits in E2. destruct (scripts_of vs) as [[b' [kd|]]|] eqn:Es; try discriminate E2. injection E2 as ->.
  eapply wins_then; [exact (IHm ms Lm x d vs _ d1 p w1 p1 w2 s1 E1 Es Rm (no_script_stop _ Sa) A1)|]. cbn [fst snd]. intros bl s2 (B1 & B2 & A2).
  eapply wins_calls; [exact (seq_wins_close usize_max cfg local cmds n l x ClEnd ClOpen d1 ns d' (SeqEnd EtGroupClose) false p1 w2 p' w3 T_GroupEnd k s2 IHi Ll E3 Rl Be (cl_group k) A2)|].
  intros v s3 [-> A3]. apply wins_ret. cbn [fst snd]. split; [reflexivity|]. split; [|exact A3]. unfold bl_kind in B2. unfold ensure_no_limits. destruct (bl_limits bl) as [[? ?]|]; [discriminate B2|]. now rewrite B1.
Qed.
Lemma one_or_none g t : into_one_or_none g = Ok (inl t) -> into_one g = Ok t.
Proof. destruct g as [?|[|? [|? ?]] ?]; cbn; try discriminate; now intros [= ->]. Qed.
Lemma side_step n sy m1 l1 m2 l2 o ms : items_good n -> marks_good n -> marks_size m1 < n -> items_size l1 < n -> marks_size m2 < n -> items_size l2 < n -> marks_size ms < n ->
  tok sy = T_Sideset -> forall sq x a prev next d c m d' p w p1 w1 p' k,
  (sq = true -> in_sequence a = true) -> den_item x a prev next (Item (HSym sy [AScripts m1 l1; AScripts m2 l2; o]) ms) d = Some ((c, m), d') ->
  reads_head sq p w (HSym sy [AScripts m1 l1; AScripts m2 l2; o]) p1 w1 -> reads_marks p1 w1 ms p' k -> stop_ahead k ->
  exists t0 r0, bare w = t0 :: r0 /\ word_char (cx_tf x) t0 = None /\ silent (unwrap_math t0) = false /\
    forall s sp, (in_sequence a = true -> class_ahead k ClEnd = next) -> at_ p x d r0 s ->
      wins (body (CTok (unwrap_math t0, sp) a prev)) s (fun v s' => v = (c, m) /\ at_ p' x d' k s').
Proof.
  intros IHi IHm L1 L2 L3 L4 L5 Ety sq x a prev next d c m d' p w p1 w1 p' k Sq E Rh Rm St. rewrite den_item_eq in E. cbv zeta in E. rewrite Ety in E. cbn [operator_of] in E.
  apply head_parts in Rh. destruct Rh as (p0 & w0 & Rs & Ra). rewrite Ety in Ra. cbn [marked as_is] in Ra.
  apply args_parts in Ra as (q1 & u1 & R1 & Ra). apply args_parts in Ra as (q2 & u2 & R2 & Ra). apply args_parts in Ra as (q3 & u3 & R3 & Ra). apply args_parts in Ra as [-> ->]. apply as_is_parts in R3 as (-> & -> & _).
  apply dbind_some in E as (vs1 & d1 & E1 & E). apply dbind_some in E as (b1 & d2 & E2 & E). apply dopt_some in E2 as [E2 ->]. apply dbind_some in E as (ns1 & d2 & E3 & E).
  apply dbind_some in E as (vs2 & d3 & E4 & E). apply dbind_some in E as (b2 & d4 & E5 & E). apply dopt_some in E5 as [E5 ->]. apply dbind_some in E as (ns2 & d4 & E6 & E).
  apply dbind_some in E as (oo & d5 & E7 & E). apply dopt_some in E7 as [E7 ->]. apply dbind_some in E as (vs & d5 & E8 & E). apply dbind_some in E as (b & d6 & E9 & E). apply dopt_some in E9 as [E9 ->]. injection E as <- <- <-.
  assert (Nw : word_char (cx_tf x) (raw sy) = None). { apply command_no_word. change (unwrap_math (raw sy)) with (tok sy). now rewrite Ety. }
  assert (Ns : silent (unwrap_math (raw sy)) = false) by (change (unwrap_math (raw sy)) with (tok sy); now rewrite Ety).
  destruct (leads_head usize_max cfg local cmds _ _ _ _ _ _ (cx_tf x) Rs Nw Ns) as (t0 & r0 & B & W0 & S0 & Go). exists t0, r0. split; [exact B|]. split; [exact W0|]. split; [exact S0|]. intros s sp N A1.
  eapply Go; [exact Sq|exact A1|]. clear A1. intros s1' sp1 A1. change (unwrap_math (raw sy)) with (tok sy). rewrite Ety.
  eapply tok_wins; [exact A1|reflexivity|]. clear A1. intros s2 left A. cbv zeta. cbn [fst].
  eapply wins_then; [exact (bounds_arg_wins n m1 l1 x d vs1 b1 d1 ns1 d2 _ _ _ _ s2 IHi IHm L1 L2 E1 E2 E3 R1 A)|]. clear A. intros [bl1 after1] s3 (K1 & K2 & A). cbn [fst snd] in K1, K2. subst after1. eapply wins_pres; [exact K2|].
  eapply wins_then; [exact (bounds_arg_wins n m2 l2 x d2 vs2 b2 d3 ns2 d4 _ _ _ _ s3 IHi IHm L3 L4 E4 E5 E6 R2 A)|]. clear A. intros [bl2 after2] s4 (K3 & K4 & A). cbn [fst snd] in K3, K4. subst after2. eapply wins_pres; [exact K4|].
  unfold side_operator in E7. destruct (at_most_one o) as [[s'|]|] eqn:Ea; try discriminate E7. apply (one_toks cfg local cmds) in Ea as (br & Ea). rewrite Ea in A.
  destruct (S_Formula.tok mean s') as [] eqn:Et; try discriminate E7. unfold S_Formula.tok in Et.
  eapply (token_argument_at cfg usize_max local cmds q2 _ x d4 _ (raw s') u3 br); [apply starts_readable; now rewrite Et|now rewrite Et|exact A|destruct br; [reflexivity|apply bare_same; apply starts_readable; now rewrite Et]|].
  clear A. intros s5 g spg A Eg. eapply wins_pres; [exact (one_or_none _ _ Eg)|]. rewrite Et. cbn [fst snd].
  assert (Eo : match op_cat o0 with PcC => fail spg E_ExpectedLargeOp | _ => Ret o0 end = Ret oo) by (destruct (op_cat o0); try discriminate E7; injection E7 as ->; reflexivity).
  rewrite Eo. cbn [pbind].
  assert (N' : in_sequence a = true -> class_ahead u3 ClEnd = class_ahead (flat_map mark_toks ms) next) by (intros Sa; rewrite <- (N Sa); exact (marks_class _ _ _ _ _ _ _ _ ClEnd Rm)).
  eapply wins_then; [exact (spacing_wins a _ q2 x d4 u3 s5 prev false N' A)|]. clear A. intros spc s6 [-> A].
  eapply wins_then; [exact (IHm ms L5 x d4 vs b d5 q2 u3 p' k s6 E8 E9 Rm St A)|]. clear A. intros bl s7 (B1 & B2 & A).
  eapply view_at; [exact A|]. intros left'. cbn [pv_style view_of]. rewrite B1, B2. apply wins_ret. split; [|exact A].
  unfold side_node. cbn [fst snd]. destruct ns1, ns2, (snd b) as [[| |]|], (cx_style x); reflexivity.
Qed.

(** Scripts without a base. *)
Lemma lone_step n sy a0 ms : arg_good n -> arg_size a0 < n -> marks_size ms < n -> (tok sy = T_Underscore \/ tok sy = T_Circumflex) -> forall sq x a prev next d c m d' p w p1 w1 p' k,
  (sq = true -> in_sequence a = true) -> den_item x a prev next (Item (HSym sy [a0]) ms) d = Some ((c, m), d') ->
  reads_head sq p w (HSym sy [a0]) p1 w1 -> reads_marks p1 w1 ms p' k -> stop_ahead k ->
  exists t0 r0, bare w = t0 :: r0 /\ word_char (cx_tf x) t0 = None /\ silent (unwrap_math t0) = false /\
    forall s sp, at_ p x d r0 s -> wins (body (CTok (unwrap_math t0, sp) a prev)) s (fun v s' => v = (c, m) /\ at_ p' x d' k s').
Proof.
  intros IHa La Lm Ety sq x a prev next d c m d' p w p1 w1 p' k Sq E Rh Rm St. rewrite den_item_eq in E. cbv zeta in E.
  apply head_parts in Rh. destruct Rh as (p0 & w0 & Rs & Ra).
  assert (Nw : word_char (cx_tf x) (raw sy) = None). { apply command_no_word. change (unwrap_math (raw sy)) with (tok sy). now destruct Ety as [-> | ->]. }
  assert (Ns : silent (unwrap_math (raw sy)) = false) by (change (unwrap_math (raw sy)) with (tok sy); now destruct Ety as [-> | ->]).
  destruct (leads_head usize_max cfg local cmds _ _ _ _ _ _ (cx_tf x) Rs Nw Ns) as (t0 & r0 & B & W0 & S0 & Go). exists t0, r0. split; [exact B|]. split; [exact W0|]. split; [exact S0|]. intros s sp A1.
  eapply Go; [exact Sq|exact A1|]. clear A1. intros s1' sp1 A1. change (unwrap_math (raw sy)) with (tok sy).
  assert (Ec : as_is (tok sy) [a0] = []) by (now destruct Ety as [-> | ->]). rewrite Ec in Ra. cbn [marked] in Ra. apply args_parts in Ra as (p2 & w2 & R1 & Ra). apply args_parts in Ra as [-> ->].
  destruct Ety as [Ety|Ety]; rewrite Ety in *; cbn [operator_of] in E.
  all: apply dbind_some in E as (n1 & d1 & E1 & E); apply dbind_some in E as (vs & d2 & E2 & E); apply dbind_some in E as (b & d3 & E3 & E); apply dopt_some in E3 as [E3 ->]; injection E as <- <- <-.
  all: unfold no_limits in E3; destruct (scripts_of _) as [[b' [?|]]|] eqn:Es; try discriminate E3; injection E3 as ->; unfold scripts_of in Es; cbn [subs sups lims flat_map app length] in Es.
  all: destruct (_ && _)%bool eqn:Ex in Es; [|discriminate Es]; injection Es as Eb El; apply andb_true_iff in Ex as [X1 X2]; apply Nat.leb_le in X1, X2.
  all: eapply tok_wins; [exact A1|reflexivity|]; clear A1; intros s2 left A; cbv zeta; cbn [fst].
  all: unfold get_bounds; eapply wins_then with (R := fun bl s' => bl_bounds bl = b /\ bl_kind bl = None /\ at_ p' x d2 k s').
  all: try (intros bl s3 (B1 & B2 & A3); unfold bl_kind in B2; unfold ensure_no_limits; destruct (bl_limits bl) as [[? ?]|]; [discriminate B2|]; eapply wins_pres; [reflexivity|]; rewrite B1, <- Eb; cbn [bounds_trivial b_sub b_sup hd_error]).
  2: { cbn [fst snd]. apply wins_ret. now split. }
  3: { destruct (hd_error _) as [|]; apply wins_ret; now split. }
  all: apply wins_return; cbn [body]; unfold bounds_body; cbn [pbind fst snd unwrap_math]; cbv zeta; (eapply wins_then; [exact (script_wins usize_max cfg local cmds n a0 x d n1 d1 _ _ _ _ s2 IHa La E1 R1 A)|]); intros v s3 [-> A3]; cbn [bl_none bl_bounds bounds_none b_sub b_sup bl_limits].
  all: apply wins_return; (eapply wins_mono; [eapply (marks_step usize_max cfg local cmds n IHa ms ltac:(lia) x d1 vs d2 _ _ _ _ s3 _ E2 Rm); [| |exact St|exact A3]|]).
  all: cbn [bl_bounds b_sub b_sup room].
  all: try exact X1; try exact X2.
  all: try (match goal with |- _ = [] => unfold subs, sups; destruct (flat_map _ vs) eqn:Ev in |- *; [reflexivity|exfalso; rewrite Ev in *; cbn [length] in X1, X2; clear - X1 X2; lia] end).
  all: intros bl s4 (B1 & B2 & A4); rewrite B1, B2, <- Eb; (split; [reflexivity|]); (split; [|exact A4]); unfold lims; rewrite El; reflexivity.
Qed.

Lemma item_step n h ms : items_good n -> arg_good n -> marks_good n -> head_good n -> item_size (Item h ms) < S n -> forall e x prev acc infix d c m d' p w p1 w1 p' k s (Q : list node * infix_frac -> pstate -> Prop),
  den_item x PaSequence prev (class_ahead k ClEnd) (Item h ms) d = Some ((c, m), d') -> reads_head true p w h p1 w1 -> reads_marks p1 w1 ms p' k -> stop_ahead k -> over_ok (cx_tf x) h w1 ->
  seq_end_matches e (hd T_Eoi (bare w)) = false ->
  at_ p x d w s ->
  (forall s1, at_ p' x d' k s1 -> wins (body (CLoop e c (acc ++ [m]) infix)) s1 Q) ->
  wins (body (CLoop e prev acc infix)) s Q.
Proof.
  intros IHi IHa IHm IHh L e x prev acc infix d c m d' p w p1 w1 p' k s Q E Rh Rm St Ov Ne A H.
  cbn [item_size] in L. change (list_sum (map mark_size ms)) with (marks_size ms) in L. pose proof E as E0.
  rewrite den_item_eq in E. cbv zeta in E. fold put in E.
  (* the scripts of an atom *)
  assert (Put : forall ms' c0 n0 d0 p0 w0 s1, marks_size ms' < n -> reads_marks p0 w0 ms' p' k -> dbind (values (den_mark x) ms') (fun vs => put vs c0 n0) d0 = Some ((c, m), d') -> at_ p0 x d0 w0 s1 ->
    wins (loop_after e acc infix c0 n0) s1 Q).
  { intros ms' c0 n0 d0 p0 w0 s1 L' R' E' A1. apply dbind_some in E' as (vs & d1 & E1 & E'). unfold put in E'. apply dbind_some in E' as (b & d2 & E2 & E'). apply dopt_some in E2 as [E2 ->].
    destruct (snd b) eqn:Eb; [discriminate|]. injection E' as <- <- <-. eapply after_wins; [exact IHm|exact L'|exact E1|exact E2|exact Eb|exact R'|exact St|exact A1|exact H]. }
  (* an atom that is not a word *)
  assert (Atom : match h with HWord _ => False | _ => True end ->
    dbind (den_head x PaSequence prev (class_ahead (flat_map mark_toks ms) (class_ahead k ClEnd)) h) (fun cn => dbind (values (den_mark x) ms) (fun vs => put vs (fst cn) (snd cn))) d = Some ((c, m), d') ->
    wins (body (CLoop e prev acc infix)) s Q).
  { intros Nw E'. apply dbind_some in E' as ([c0 n0] & d1 & E1 & E'). cbn [fst snd] in E'.
    assert (Pl : placed_head PaSequence h) by (destruct h; (exact Logic.I || reflexivity || destruct Nw)).
    destruct (IHh h ltac:(lia) true x PaSequence prev _ d c0 n0 d1 p w p1 w1 (fun _ => eq_refl) E1 Pl Rh) as (t1 & r1 & Et1 & W & Si & Hh). rewrite Et1 in Ne.
    eapply enter_wins; [exact Et1|exact Ne|exact W|exact A|]. intros s1 sp A1. rewrite loop_process by exact Si.
    eapply wins_calls; [apply (Hh s1 sp)|].
    - destruct h; try exact Logic.I. exact Ov.
    - intros _. exact (marks_class _ _ _ _ _ _ _ _ ClEnd Rm).
    - exact A1.
    - intros v s2 [-> A2]. apply (Put ms c0 n0 d1 p1 w1 s2); [lia|exact Rm|exact E'|exact A2]. }
  destruct h as [sy args|num|wd|l|o l cl|en args l]; try (apply Atom; [exact Logic.I|exact E]).
  - destruct (operator_of (tok sy) args) as [t|] eqn:Eo.
    + (* operators *)
      clear Atom. destruct (operator_step n sy args t ms IHm ltac:(lia) Eo true x PaSequence prev _ d c m d' p w p1 w1 p' k (fun _ => eq_refl) E0 Rh Rm St) as (t0 & r0 & B & W0 & S0 & Go). rewrite B in Ne.
      eapply enter_wins; [exact B|exact Ne|exact W0|exact A|]. intros s1 sp A1. rewrite loop_process by exact S0.
      eapply wins_calls; [exact (Go s1 sp (fun _ => eq_refl) A1)|]. intros v s2 [-> A2]. cbn beta iota. eapply after_none_wins; [exact St|exact A2|exact H].
    + assert (Lone : forall a0, args = [a0] -> tok sy = T_Underscore \/ tok sy = T_Circumflex -> wins (body (CLoop e prev acc infix)) s Q).
      { intros a0 Ea Sc. subst args. cbn [head_size map list_sum fold_right] in L.
        destruct (lone_step n sy a0 ms IHa ltac:(lia) ltac:(lia) Sc true x PaSequence prev _ d c m d' p w p1 w1 p' k (fun _ => eq_refl) E0 Rh Rm St) as (t0 & r0 & B & W0 & S0 & Go). rewrite B in Ne.
        eapply enter_wins; [exact B|exact Ne|exact W0|exact A|]. intros s1 sp A1. rewrite loop_process by exact S0.
        eapply wins_calls; [exact (Go s1 sp A1)|]. intros v s2 [-> A2]. cbn beta iota. eapply after_none_wins; [exact St|exact A2|exact H]. }
      destruct (tok sy) eqn:Ety; try (apply Atom; [exact Logic.I|exact E]);
        try (destruct args as [|a0 [|? ?]]; [apply Atom; [exact Logic.I|exact E]|apply (Lone a0 eq_refl); auto; fail|apply Atom; [exact Logic.I|exact E]]).
      all: clear Lone.
      { (* the scripts around an operator *)
        destruct args as [|[?|?|?|?|?|m1 l1] args]; try (apply Atom; [exact Logic.I|exact E]). destruct args as [|[?|?|?|?|?|m2 l2] args]; try (apply Atom; [exact Logic.I|exact E]). destruct args as [|o [|? ?]]; try (apply Atom; [exact Logic.I|exact E]). clear Atom E.
        cbn [head_size map list_sum fold_right arg_size] in L. change (list_sum (map mark_size m1)) with (marks_size m1) in L. change (list_sum (map mark_size m2)) with (marks_size m2) in L. change (list_sum (map item_size l1)) with (items_size l1) in L. change (list_sum (map item_size l2)) with (items_size l2) in L.
        destruct (side_step n sy m1 l1 m2 l2 o ms IHi IHm ltac:(lia) ltac:(lia) ltac:(lia) ltac:(lia) ltac:(lia) Ety true x PaSequence prev _ d c m d' p w p1 w1 p' k (fun _ => eq_refl) E0 Rh Rm St) as (t0 & r0 & B & W0 & S0 & Go). rewrite B in Ne.
        eapply enter_wins; [exact B|exact Ne|exact W0|exact A|]. intros s1 sp A1. rewrite loop_process by exact S0.
        eapply wins_calls; [exact (Go s1 sp (fun _ => eq_refl) A1)|]. intros v s2 [-> A2]. cbn beta iota. eapply after_none_wins; [exact St|exact A2|exact H]. }
      destruct args as [|a0 [|? ?]]; try (apply Atom; [exact Logic.I|exact E]). clear Atom E.
      cbn [head_size map list_sum fold_right] in L.
      destruct (brace_step n sy a0 o is_over ms IHa ltac:(lia) ltac:(lia) Ety true x PaSequence prev _ d c m d' p w p1 w1 p' k (fun _ => eq_refl) E0 Rh Rm (fun _ => St)) as (t0 & r0 & B & W0 & S0 & c0 & n0 & d0 & p0 & w0 & E' & Rm' & Go). rewrite B in Ne.
      eapply enter_wins; [exact B|exact Ne|exact W0|exact A|]. intros s1 sp A1. rewrite loop_process by exact S0.
      eapply wins_calls; [exact (Go s1 sp A1)|]. intros v s2 [-> A2]. cbn beta iota. pose proof (unexplained_size is_over ms). eapply Put; [|exact Rm'|exact E'|exact A2]. lia.
  - (* words *)
    apply head_parts in Rh. destruct Rh as [-> Sp].
    apply dbind_some in E as ([c0 n0] & d1 & E1 & E). rewrite den_word_eq in E1. apply dbind_some in E1 as (cs & d2 & E2 & E1). apply dopt_some in E2 as [E2 ->]. apply dbind_some in E1 as (n1 & d3 & E3 & E1). apply dopt_some in E3 as [E3 ->]. injection E1 as <- <- <-.
    cbn [fst snd] in E.
    cbn [body]. rewrite loop_eq.
    eapply peek_at; [exact A|]. intros sp. cbn [fst]. rewrite Ne.
    eapply letters_at; [exact A|exact Sp| |exact E3|exact Ov|].
    { clear - E2. revert cs E2. induction wd as [|y w IH]; intros cs E2; [exact E2|]. cbn [map all_some] in *. destruct (word_char (cx_tf x) (raw y)); [|discriminate]. destruct (all_some _ w) as [z|]; [|discriminate]. now rewrite (IH z eq_refl). }
    intros s1 A1. apply (Put ms ClDefault n1 d p w1 s1); [lia|exact Rm|exact E|exact A1].
Qed.

(** ** Sequences *)

(** The items and what closes them. *)
Lemma items_stop x after prev acc infix l d r e p w p' k : acc <> [] -> den_items x after prev acc infix l d = Some r -> reads_items p w l p' k -> closer e (cx_bracket x) (bare k) after -> stop_ahead w.
Proof.
  intros Ha E R C. destruct (items_first usize_max cfg local cmds _ _ _ _ _ _ _ _ _ _ _ _ E R) as [(_ & -> & _)|(t0 & ts & Et & _ & S0 & _)]; [exact (closer_stop _ _ _ _ C)|]. unfold stop_ahead. rewrite Et. exact (starts_stops _ (S0 Ha)).
Qed.
Lemma some_acc {A} (l : list A) a : l ++ [a] <> [].
Proof. destruct l; discriminate.
Qed.
(** What is read after an atom is what the formula has there, or a macro. *)
Lemma follows x after prev acc infix l d r p1 w1 ms p2 w2 p' k : den_items x after prev acc infix l d = Some r -> reads_marks p1 w1 ms p2 w2 -> reads_items p2 w2 l p' k ->
  macro_tok (hd T_Eoi (bare w1)) = true \/ hd T_Eoi (bare w1) = hd T_Eoi (flat_map mark_toks ms ++ flat_map item_toks l ++ bare k).
Proof.
  intros E Rm Rl. destruct (marks_front cfg local cmds _ _ _ _ _ (flat_map item_toks l ++ bare k) Rm) as [(-> & -> & ->)|Fr]; [|now right]. cbn [flat_map app].
  destruct l as [|[h ms'] l]; [apply no_items in Rl as [-> ->]; now right|]. pose proof (head_nonempty usize_max cfg local cmds _ _ _ _ _ _ _ _ _ _ E) as Ne.
  apply item_parts in Rl as (p3 & w3 & p4 & w4 & Rh & _ & _). change (flat_map item_toks (Item h ms' :: l)) with ((head_toks h ++ flat_map mark_toks ms') ++ flat_map item_toks l). rewrite <- !app_assoc.
  exact (head_fronts usize_max cfg local cmds _ _ _ _ _ _ _ Rh Ne).
Qed.
(** After a full stop comes no digit. *)
Lemma after_full_stop x after prev acc infix l d r e p w p' k : den_items x after prev acc infix l d = Some r -> reads_items p w l p' k -> closer e (cx_bracket x) (bare k) after ->
  is_full_stop (hd T_Eoi (bare w)) = true -> match tl (flat_map item_toks l) with t :: _ => is_digit_tok t | [] => false end = false -> is_digit_tok (hd T_Eoi (bare (tl (bare w)))) = false.
Proof.
  intros E R C Fs Nd. destruct (closer_plain _ _ _ _ C) as (C1 & C2 & _ & _). destruct l as [|[h ms] l]; [apply no_items in R as [-> ->]; congruence|].
  pose proof (head_nonempty usize_max cfg local cmds _ _ _ _ _ _ _ _ _ _ E) as Hne. apply item_parts in R as (p1 & w1 & p2 & w2 & Rh & Rm & Rl).
  assert (F0 : is_full_stop (hd T_Eoi (head_toks h)) = true /\ macro_tok (hd T_Eoi (bare w)) = false).
  { pose proof (head_fronts usize_max cfg local cmds _ _ _ _ _ _ [] Rh Hne) as [M|M]; [destruct (macro_plain _ M) as (_ & F & _); congruence|]. rewrite app_nil_r in M. rewrite <- M. split; [exact Fs|].
    destruct (hd T_Eoi (bare w)); try reflexivity; discriminate Fs. }
  destruct F0 as [F0 Nm]. clear Fs.
  cbn [S_Formula.den_items] in E. cbv zeta in E.
  (* the parts of the item and the items after it *)
  assert (K : dguard (item_over mean (cx_tf x) (Item h ms) (flat_map item_toks l)) (dbind (den_item x PaSequence prev (class_ahead (flat_map item_toks l) after) (Item h ms)) (fun cn => den_items x after (fst cn) (acc ++ [snd cn]) infix l)) d = Some r).
  { destruct h as [sy args|num|wd|l0|o l0 cl|en args l0]; try exact E. change (head_toks (HSym sy args)) with (raw sy :: flat_map arg_toks args) in F0. cbn [hd] in F0.
    assert (exists q, tok sy = T_Letter q MMathOrText) as [q Eq]. { unfold S_Formula.tok. destruct (raw sy); try discriminate F0. destruct m; [discriminate|eexists; reflexivity]. }
    rewrite Eq in E. destruct args; [destruct ms|]; exact E. }
  clear E. apply dguard_some in K as [_ K]. apply dbind_some in K as ([c0 n0] & d1 & K & E).
  assert (Next : match flat_map mark_toks ms ++ flat_map item_toks l with t :: _ => is_digit_tok t | [] => false end = false -> is_digit_tok (hd T_Eoi (bare w1)) = false).
  { intros Nd'. destruct (follows _ _ _ _ _ _ _ _ _ _ _ _ _ _ _ E Rm Rl) as [M|M]; [exact (proj1 (macro_plain _ M))|]. rewrite M, app_assoc. destruct (flat_map mark_toks ms ++ flat_map item_toks l); [exact C1|exact Nd']. }
  rewrite den_item_eq in K. cbv zeta in K. cbn [flat_map] in Nd. change (item_toks (Item h ms)) with (head_toks h ++ flat_map mark_toks ms) in Nd. rewrite <- app_assoc in Nd.
  apply head_parts in Rh. destruct h as [sy args|num|wd|l0|o l0 cl|en args l0].
  - change (head_toks (HSym sy args)) with (raw sy :: flat_map arg_toks args) in *. cbn [hd] in F0.
    assert (exists q, raw sy = T_Letter q MMathOrText) as [q Eq]. { destruct (raw sy); try discriminate F0. destruct m; [discriminate|eexists; reflexivity]. }
    assert (Et : tok sy = T_Letter q MMathOrText) by (unfold S_Formula.tok; now rewrite Eq). rewrite Et in K.
    change (operator_of (T_Letter q MMathOrText) args) with (@None token) in K. cbv iota in K. apply dbind_some in K as (cn & d2 & K & _).
    rewrite den_sym_eq, Et in K. destruct args; [|destruct args as [|? [|? ?]]; discriminate K]. destruct Rh as (p0 & w0 & Rs & Ra). apply args_parts in Ra as [-> ->].
    destruct (leads_first usize_max cfg local cmds _ _ _ _ _ _ Rs) as (t0 & r0 & B & [(-> & -> & ->)|(M & _)]); [|rewrite B in Nm; cbn [hd] in Nm; congruence]. rewrite B. cbn [tl]. apply Next. exact Nd.
  - change (head_toks (HNum num)) with (map char_token num) in *. apply dbind_some in K as (cn & d2 & K0 & _). rewrite den_num_eq in K0. apply dguard_some in K0 as [G _]. apply andb_true_iff in G as [_ G].
    destruct num as [|c1 num]; [discriminate|]. cbn [number_ok] in G. apply andb_true_iff in G as [G _]. cbn [map hd] in F0. rewrite (digit_token c1 G) in F0. discriminate F0.
  - destruct Rh as [-> Sp]. change (head_toks (HWord wd)) with (map raw wd) in *. destruct wd as [|y0 [|y1 wd]].
    + now destruct Hne.
    + destruct Sp as (v1 & B & Ev). cbn [spells map] in Ev. subst v1. rewrite B. cbn [tl]. apply Next. exact Nd.
    + destruct Sp as (v1 & B & v2 & B1 & _). rewrite B. cbn [tl]. rewrite B1. exact Nd.
  - discriminate F0.
  - apply dbind_some in K as (cn & d2 & K0 & _). rewrite den_fence_eq in K0. change (head_toks (HFence o l0 cl)) with (mean (lit "left") :: raw o :: flat_map item_toks l0 ++ [mean (lit "right"); raw cl]) in F0.
    cbn [hd] in F0. destruct (mean (lit "left")); discriminate K0 || discriminate F0.
  - discriminate F0.
Qed.
Lemma over_extends x after prev acc infix l d r e c0 n0 d0 h ms next p1 w1 p2 w2 p' k : den_items x after prev acc infix l d = Some r -> closer e (cx_bracket x) (bare k) after ->
  reads_marks p1 w1 ms p2 w2 -> reads_items p2 w2 l p' k ->
  den_item x PaSequence c0 next (Item h ms) d0 = Some (n0, d) -> item_over mean (cx_tf x) (Item h ms) (flat_map item_toks l) = true -> over_ok (cx_tf x) h w1.
Proof.
  intros E C Rm Rl Ei Ov. destruct (closer_plain _ _ _ _ C) as (C1 & C2 & C3 & _). pose proof (follows _ _ _ _ _ _ _ _ _ _ _ _ _ _ _ E Rm Rl) as Fo.
  destruct h as [sy args|num|wd|l0|o l0 cl|en args l0]; try exact Logic.I; cbn [over_ok item_over] in *.
  - destruct Fo as [M|Fo]; [destruct (macro_plain _ M) as (M1 & M2 & _); split; [exact M1|congruence]|]. unfold number_over in Ov. destruct ms as [|mk ms].
    + apply no_marks in Rm as [-> ->]. cbn [flat_map app] in *. destruct (flat_map item_toks l) as [|t1 ts] eqn:El.
      * cbn [app] in Fo. split; rewrite Fo; [exact C1|]. intros E1. congruence.
      * cbn [app hd] in Fo. apply andb_true_iff in Ov as [O1 O2]. apply negb_true_iff in O1, O2. split; [now rewrite Fo|]. intros Fs. pose proof Fs as Fs'. rewrite Fo in Fs'. rewrite Fs' in O2. cbn [andb] in O2.
        apply (after_full_stop _ _ _ _ _ _ _ _ _ _ _ _ _ E Rl C Fs). now rewrite El.
    + rewrite den_item_eq in Ei. cbv zeta in Ei. apply dbind_some in Ei as (cn & d1 & _ & Ei). apply dbind_some in Ei as (vs & d2 & Ei & _).
      cbn [values] in Ei. apply dbind_some in Ei as (v & d3 & Ei & _). destruct (mark_starts usize_max cfg local cmds _ _ _ _ _ Ei) as (t1 & ts & Et & _ & K). cbn [flat_map] in Fo. rewrite Et in Fo. cbn [app hd] in Fo.
      unfold no_more_digits. rewrite Fo. destruct mk; try (rewrite K; split; [reflexivity|intros F; discriminate F]); destruct K as (kk & K); destruct t1; try (split; [reflexivity|intros F; discriminate F]); discriminate K.
  - destruct Fo as [M|Fo]; [apply (macro_plain _ M)|]. rewrite Fo. unfold word_over in Ov. rewrite app_assoc. destruct (flat_map mark_toks ms ++ flat_map item_toks l) as [|t1 ts]; [apply C3|].
    cbn [app hd]. destruct (word_char (cx_tf x) t1); [discriminate|reflexivity].
Qed.

Lemma with_both x : with_tf (cx_tf x) (with_style (cx_style x) x) = x.
Proof. now destruct x. Qed.
Lemma row_same n x d left : set_flags (es_set_numbered n (pv_env (view_of x d left))) x = x.
Proof. now destruct x. Qed.

Lemma items_step n : items_good n -> arg_good n -> marks_good n -> head_good n -> items_good (S n).
Proof.
  intros IHi IHa IHm IHh l L x after prev acc infix d ns d' e p w p' k s E R C A.
  destruct l as [|i l].
  { injection E as <- <-. apply no_items in R as [-> ->]. eapply wins_mono; [exact (close_wins e _ p w after x d prev acc infix s C A)|]. intros r s' [-> A']. split; [reflexivity|].
    exists (cx_style x), (cx_tf x). now destruct x. }
  assert (Ll : items_size l < n). { unfold items_size in *. cbn [map list_sum fold_right] in L. pose proof (item_size_pos i). change (fold_right Nat.add 0 (map item_size l)) with (list_sum (map item_size l)) in L. lia. }
  assert (Li : item_size i < S n). { unfold items_size in L. cbn [map list_sum fold_right] in L. lia. }
  destruct (items_first usize_max cfg local cmds _ _ _ _ _ _ _ _ _ _ _ _ E R) as [[? _]|(t0 & ts & Et & S0 & _ & Nb)]; [discriminate|].
  pose proof (goes_on e (cx_bracket x) _ after t0 C S0 Nb) as Ne.
  destruct i as [h ms]. apply item_parts in R as (p1 & w1 & p2 & w2 & Rh & Rm & Rl).
  cbn [S_Formula.den_items] in E. cbv zeta in E.
  assert (Cl : class_ahead w2 ClEnd = class_ahead (flat_map item_toks l) after). { rewrite (items_class _ _ _ _ _ _ _ _ ClEnd Rl), <- (class_ahead_bare k), (closer_class _ _ _ _ C). reflexivity. }
  set (goal := wins (body (CLoop e prev acc infix)) s (fun r s' => infix_node (snd r) (fst r) = ns /\ exists st tf, at_ p' (with_tf tf (with_style st x)) d' k s')).
  (* atoms *)
  assert (Atom : dguard (item_over mean (cx_tf x) (Item h ms) (flat_map item_toks l)) (dbind (den_item x PaSequence prev (class_ahead (flat_map item_toks l) after) (Item h ms)) (fun cn => den_items x after (fst cn) (acc ++ [snd cn]) infix l)) d = Some (ns, d') -> goal).
  { intros E'. apply dguard_some in E' as [Ov E']. apply dbind_some in E' as ([c0 n0] & d1 & E1 & E2). cbn [fst snd] in E2.
    apply (item_step n h ms IHi IHa IHm IHh Li e x prev acc infix d c0 n0 d1 p w p1 w1 p2 w2 s); [|exact Rh|exact Rm|exact (items_stop _ _ _ _ _ _ _ _ _ _ _ _ _ (some_acc _ _) E2 Rl C)| | |exact A|].
    - rewrite Cl. exact E1.
    - exact (over_extends _ _ _ _ _ _ _ _ _ _ _ _ _ _ _ _ _ _ _ _ _ E2 C Rm Rl E1 Ov).
    - rewrite Et. exact Ne.
    - intros s1 A1. exact (IHi l Ll x after c0 (acc ++ [n0]) infix d1 ns d' e p2 w2 p' k s1 E2 Rl C A1). }
  destruct h as [sy args|num|wd|l0|o l0 cl|en args l0]; try exact (Atom E).
  apply head_parts in Rh. destruct Rh as (p0 & w0 & Rs & Ra).
  set (Q := fun (r : list node * infix_frac) s' => infix_node (snd r) (fst r) = ns /\ exists st tf, at_ p' (with_tf tf (with_style st x)) d' k s') in *.
  (* tokens that leave no atom behind *)
  assert (Quiet : silent (tok sy) = true -> ms = [] ->
    (forall s1 sp w0, reads_args p w0 (marked (as_is (tok sy) args) args) p2 w2 -> at_ p x d w0 s1 -> wins (loop_next e prev acc infix (tok sy, sp)) s1 Q) -> goal).
  { intros Si Em H. subst ms. apply no_marks in Rm as [-> ->]. destruct (leads_silent usize_max cfg local cmds _ _ _ _ _ _ Rs) as [B ->].
    { unfold acts. change (unwrap_math (raw sy)) with (tok sy). destruct (tok sy); try discriminate Si; reflexivity. }
    assert (t0 = raw sy) as -> by (rewrite B in Et; now injection Et).
    eapply (enter_wins e prev acc infix p x d w (raw sy) w0 s Q B Ne); [|exact A|].
    - apply command_no_word. change (unwrap_math (raw sy)) with (tok sy). destruct (tok sy); try discriminate Si; reflexivity.
    - intros s1 sp A1. exact (H s1 sp w0 Ra A1). }
  (* and those that do *)
  assert (Enter : match tok sy with T_Letter _ _ | T_UprightLetter _ | T_Digit _ => false | _ => true end = true -> silent (tok sy) = false -> ms = [] ->
    (forall s1 sp p0 w0, reads_args p0 w0 (marked (as_is (tok sy) args) args) p2 w2 -> at_ p0 x d w0 s1 -> wins (body (CTok (tok sy, sp) PaSequence prev)) s1 (fun v s' => wins (loop_after e acc infix (fst v) (snd v)) s' Q)) -> goal).
  { intros Cm Si Em H. subst ms. apply no_marks in Rm as [-> ->]. destruct (leads_head usize_max cfg local cmds _ _ _ _ _ _ (cx_tf x) Rs (command_no_word _ _ Cm) Si) as (t1 & r0 & B & W0 & S1 & Go).
    assert (t1 = t0) as -> by (rewrite B in Et; now injection Et).
    eapply (enter_wins e prev acc infix p x d w t0 r0 s Q B Ne W0 A). intros s1 sp A1. rewrite loop_process by exact S1. eapply wins_calls; [eapply Go; [reflexivity|exact A1|]; intros s2 sp2 A2; exact (H s2 sp2 p0 w0 Ra A2)|].
    intros [c1 n1] s2 W. exact W. }
  (* what goes on with the rest, perhaps in another style *)
  assert (Again : forall x' prev' acc' infix' d1 s1, den_items x' after prev' acc' infix' l d1 = Some (ns, d') -> (exists st tf, x' = with_tf tf (with_style st x)) -> at_ p2 x' d1 w2 s1 ->
    wins (body (CLoop e prev' acc' infix')) s1 Q).
  { intros x' prev' acc' infix' d1 s1 E' (st & tf & ->) A1. eapply wins_mono; [exact (IHi l Ll _ after prev' acc' infix' d1 ns d' e p2 w2 p' k s1 E' Rl C A1)|]. intros r s' (Hr & st' & tf' & A'). split; [exact Hr|]. exists st', tf'. exact A'. }
  assert (Same : exists st tf, x = with_tf tf (with_style st x)) by (exists (cx_style x), (cx_tf x); now destruct x).
  clear Rs Ra p0 w0.
  destruct (tok sy) eqn:Ety; try (lazymatch type of E with dguard (item_over _ _ _ _) _ _ = _ => exact (Atom E) end);
    try (match type of Ety with _ = T_Underscore => idtac | _ = T_Circumflex => idtac end;
         assert (E' : dguard (item_over mean (cx_tf x) (Item (HSym sy args) ms) (flat_map item_toks l)) (dbind (den_item x PaSequence prev (class_ahead (flat_map item_toks l) after) (Item (HSym sy args) ms)) (fun cn => den_items x after (fst cn) (acc ++ [snd cn]) infix l)) d = Some (ns, d'))
           by (destruct args as [|[] [|[] [|? ?]]]; destruct ms; apply dguard_some in E as [_ E]; exact E);
         exact (Atom E')).
  - (* NewColumn *) destruct args as [|? ?]; [|exact (Atom E)]. destruct ms as [|? ?]; [|exact (Atom E)]. apply dguard_some in E as [G E].
    apply Enter; [reflexivity|reflexivity|reflexivity|]. intros s1 sp p0 w0 Ra A1. apply args_parts in Ra as [-> ->].
    eapply tok_wins; [exact A1|reflexivity|]. intros s2 left A2. cbv zeta. cbn [fst view_of pv_env es_allow_columns]. rewrite G. apply wins_ret.
    eapply after_none_wins; [exact (items_stop _ _ _ _ _ _ _ _ _ _ _ _ _ (some_acc _ _) E Rl C)|exact A2|]. intros s3 A3. exact (Again x _ _ _ _ _ E Same A3).
  - (* NewLine *) destruct args as [|? ?]; [|exact (Atom E)]. destruct ms as [|? ?]; [|exact (Atom E)].
    apply Enter; [reflexivity|reflexivity|reflexivity|]. intros s1 sp p0 w0 Ra A1. apply args_parts in Ra as [-> ->].
    destruct (cx_rows x) eqn:Er.
    + apply dbind_some in E as ([info rows] & d1 & E1 & E). cbn [fst] in E.
      assert (K : exists lt l' u, match lt with Some y => bare w0 = T_HLine y :: u | None => w0 = u end /\ reads_items p0 u l' p' k /\ items_size l' <= items_size l /\ (lt <> None -> cx_hlines x = true) /\
        den_items x after ClOpen (acc ++ [RowSeparator info lt]) infix l' d1 = Some (ns, d')).
      { destruct l as [|j l'].
        - exists None, [], w0. split; [reflexivity|]. split; [exact Rl|]. split; [apply le_n|]. split; [now intros []|exact E].
        - destruct (hline_of mean j) as [y|] eqn:Eh.
          + apply dguard_some in E as [G E]. destruct j as [[sz [|? ?]|?|?|?|? ? ?|? ? ?] [|? ?]]; try discriminate Eh. cbn [hline_of] in Eh.
            apply item_parts in Rl as (p3 & u & p4 & u2 & Rh & Rm' & Rl). apply no_marks in Rm' as [-> ->]. apply head_parts in Rh as (p5 & u5 & Rs & Rn). apply args_parts in Rn as [-> ->].
            destruct (leads_silent usize_max cfg local cmds _ _ _ _ _ _ Rs) as [Bs ->]; [now destruct (S_Formula.raw mean sz)|]. exists (Some y), l', u5.
            split; [rewrite Bs; destruct (S_Formula.raw mean sz); try discriminate Eh; now injection Eh as ->|]. split; [exact Rl|].
            split; [change (items_size (Item (HSym sz []) [] :: l')) with (item_size (Item (HSym sz []) []) + items_size l'); lia|]. split; [intros _; exact G|exact E].
          + exists None, (j :: l'), w0. split; [reflexivity|]. split; [exact Rl|]. split; [apply le_n|]. split; [now intros []|exact E]. }
      destruct K as (lt & l' & u & Bu & Ru & Sz & G & E'). clear E. pose proof (items_stop _ _ _ _ _ _ _ _ _ _ _ _ _ (some_acc _ _) E' Ru C) as St'.
      assert (Nh : forall y, hd T_Eoi (bare u) <> T_HLine y).
      { destruct (items_first usize_max cfg local cmds _ _ _ _ _ _ _ _ _ _ _ _ E' Ru) as [(_ & -> & _)|(t1 & r1 & Et1 & S1 & _)]; [apply (closer_plain _ _ _ _ C)|]. rewrite Et1. cbn [hd]. intros y ->. discriminate S1. }
      eapply tok_wins; [exact A1|reflexivity|]. intros s2 left A2. cbv zeta. cbn [fst]. eapply row_at; [exact A2|exact Bu|intros _; exact Nh|exact G|exact Er|exact E1|]. intros s3 A3. apply wins_ret.
      eapply after_none_wins; [exact St'|exact A3|]. intros s4 A4.
      exact (IHi l' ltac:(lia) x after ClOpen _ infix d1 ns d' e p0 u p' k s4 E' Ru C A4).
    + eapply tok_wins; [exact A1|reflexivity|]. intros s2 left A2. cbv zeta. cbn [fst]. eapply no_row_at; [exact A2|exact Er|]. apply wins_ret.
      eapply after_none_wins; [exact (items_stop _ _ _ _ _ _ _ _ _ _ _ _ _ (some_acc _ _) E Rl C)|exact A2|]. intros s3 A3. exact (Again x _ _ _ _ _ E Same A3).
  - (* NoNumber *) destruct args as [|? ?]; [|exact (Atom E)]. destruct ms as [|? ?]; [|exact (Atom E)]. apply dbind_some in E as (u & d1 & E1 & E). unfold drow_if in E1. injection E1 as _ <-.
    apply Quiet; [reflexivity|reflexivity|]. intros s1 sp w0 Ra A1. apply args_parts in Ra as [-> ->]. unfold loop_next. cbv zeta. cbn [fst snd]. eapply view_at; [exact A1|]. intros left. cbn [pv_env view_of es_numbered].
    destruct (nu_row d) as [ne|] eqn:En; cbn [option_map] in E.
    + eapply env_at; [exact A1|]. intros s2 A2. apply wins_return. refine (Again x _ _ _ _ _ E Same _). exact (eq_ind _ (fun y => at_ _ y _ _ _) A2 _ (row_same _ x d left)).
    + apply wins_return. refine (Again x _ _ _ _ _ E Same _). rewrite <- En. now destruct d.
  - (* Tag *) destruct args as [|[?|?|?|t|?|? ?] [|? ?]]; try exact (Atom E). destruct ms as [|? ?]; [|exact (Atom E)]. apply dbind_some in E as (u & d1 & E1 & E). unfold drow in E1.
    destruct (nu_row d) as [ne|] eqn:En; [|discriminate]. injection E1 as _ <-. apply Quiet; [reflexivity|reflexivity|]. intros s1 sp w0 Ra A1. cbn [marked as_is] in Ra.
    apply args_parts in Ra as (p3 & w3 & R1 & Ra). apply args_parts in Ra as [-> ->]. apply lit_parts in R1 as (-> & Oa & B1). unfold loop_next. cbv zeta. cbn [fst snd].
    eapply literal_at; [exact Oa|exact A1|exact B1|]. intros s2 sp2 A2. eapply view_at; [exact A2|]. intros left. cbn [pv_env view_of es_numbered]. rewrite En.
    eapply env_at; [exact A2|]. intros s3 A3. apply wins_return. refine (Again x _ _ _ _ _ E Same _). rewrite <- En in A3. exact (eq_ind _ (fun y => at_ _ y _ _ _) A3 _ (row_same _ x d left)).
  - (* Label *) destruct args as [|[?|?|?|t|?|? ?] [|? ?]]; try exact (Atom E). destruct ms as [|? ?]; [|exact (Atom E)]. apply dbind_some in E as (u & d1 & E1 & E). unfold drow in E1.
    destruct (nu_row d) as [ne|] eqn:En; [|discriminate]. destruct (numbered_label t ne) as [ne'|] eqn:El; [|discriminate]. injection E1 as _ <-. apply Quiet; [reflexivity|reflexivity|]. intros s1 sp w0 Ra A1. cbn [marked as_is] in Ra.
    apply args_parts in Ra as (p3 & w3 & R1 & Ra). apply args_parts in Ra as [-> ->]. apply lit_parts in R1 as (-> & Oa & B1). unfold loop_next. cbv zeta. cbn [fst snd].
    eapply literal_at; [exact Oa|exact A1|exact B1|]. intros s2 sp2 A2. eapply view_at; [exact A2|]. intros left. cbn [pv_env view_of es_numbered]. rewrite En, El.
    eapply env_at; [exact A2|]. intros s3 A3. apply wins_return. refine (Again x _ _ _ _ _ E Same _). rewrite <- En in A3. exact (eq_ind _ (fun y => at_ _ y _ _ _) A3 _ (row_same _ x d left)).
  - (* a closing bracket *) assert (E' : dguard (negb (cx_bracket x)) (dguard (item_over mean (cx_tf x) (Item (HSym sy args) ms) (flat_map item_toks l)) (dbind (den_item x PaSequence prev (class_ahead (flat_map item_toks l) after) (Item (HSym sy args) ms)) (fun cn => den_items x after (fst cn) (acc ++ [snd cn]) infix l))) d = Some (ns, d')).
    { destruct args as [|[] [|[] [|? ?]]]; destruct ms; exact E. }
    apply dguard_some in E' as [_ E']. exact (Atom E').
  - (* an infix command *) destruct args as [|? ?]; [|exact (Atom E)]. destruct ms as [|? ?]; [|exact (Atom E)]. destruct infix; [discriminate|].
    apply Quiet; [reflexivity|reflexivity|]. intros s1 sp w0 Ra A1. apply args_parts in Ra as [-> ->]. unfold loop_next. cbv zeta. cbn [fst snd]. eapply view_at; [exact A1|]. intros left. cbn [pv_style view_of].
    eapply style_at; [exact A1|]. intros s2 A2. apply wins_return. refine (Again (with_style _ x) _ _ _ _ _ E _ A2). exists (style_shrink (cx_style x)), (cx_tf x). now destruct x.
  - (* TransformSwitch *) destruct args as [|? ?]; [|exact (Atom E)]. destruct ms as [|? ?]; [|exact (Atom E)].
    apply Quiet; [reflexivity|reflexivity|]. intros s1 sp w0 Ra A1. apply args_parts in Ra as [-> ->]. unfold loop_next. cbv zeta. cbn [fst snd].
    eapply transform_at; [exact A1|]. intros s2 A2. apply wins_return. refine (Again (with_tf _ x) _ _ _ _ _ E _ A2). exists (cx_style x), (Some v). now destruct x.
  - (* Style *) destruct args as [|? ?]; [|exact (Atom E)]. destruct ms as [|? ?]; [|exact (Atom E)]. apply dguard_some in E as [G E]. apply negb_true_iff in G. apply dbind_some in E as (rest & d1 & E1 & E). injection E as <- <-.
    apply Enter; [reflexivity|reflexivity|reflexivity|]. intros s1 sp p0 w0 Ra A1. apply args_parts in Ra as [-> ->]. rewrite G in C.
    assert (E1' : den_items (in_bracket false (with_style s0 x)) after prev [] None l d = Some (rest, d1)). { rewrite <- E1. f_equal. rewrite <- G. now destruct x. }
    eapply tok_wins; [exact A1|reflexivity|]. intros s2 left A2. cbv zeta. cbn [fst pv_style view_of]. unfold seq_if_in_sequence. cbn [in_sequence pbind]. eapply style_at; [exact A2|]. intros s3 A3.
    eapply wins_calls; [exact (seq_wins usize_max cfg local cmds n l (with_style s0 x) after prev d rest d1 SeqAny false p0 w0 p' k s3 IHi Ll E1' Rl (cl_any e _ after C) A3)|]. intros v s4 [-> A4]. cbn [pbind].
    eapply style_at; [exact A4|]. intros s5 A5. apply wins_ret. assert (A5' : at_ p' x d1 k s5) by now destruct x.
    eapply after_none_wins; [exact (closer_stop _ _ _ _ C)|exact A5'|]. intros s6 A6. eapply wins_mono; [exact (close_wins e _ p' k after x d1 _ _ infix s6 C A6)|]. intros r s7 [-> A7]. split; [reflexivity|].
    exists (cx_style x), (cx_tf x). now destruct x.
  - (* Color *)
    assert (Colored : forall col, ms = [] -> cx_bracket x = false ->
      (forall p0 w0 sp (f : N * N * N -> prog (class * node)) s2 (P : class * node -> pstate -> Prop), reads_args p0 w0 (marked (as_is T_Color args) args) p2 w2 -> at_ p0 x d w0 s2 -> (forall s3, at_ p2 x d w2 s3 -> wins (f col) s3 P) -> wins (Do (OColor sp) f) s2 P) ->
      dbind (den_items x after prev [] None l) (fun rest => dret (infix_node infix (acc ++ [Row rest (mkRowAttrs (Some col) None false)]))) d = Some (ns, d') -> goal).
    { clear E. intros col Em G Rd E. apply dbind_some in E as (rest & d1 & E1 & E). injection E as <- <-.
      apply Enter; [reflexivity|reflexivity|exact Em|]. intros s1 sp p0 w0 Ra A1. rewrite G in C.
      assert (E1' : den_items (in_bracket false x) after prev [] None l d = Some (rest, d1)). { rewrite <- E1. f_equal. rewrite <- G. now destruct x. }
      eapply tok_wins; [exact A1|reflexivity|]. intros s2 left A2. cbv zeta. cbn [fst pv_style view_of]. unfold seq_if_in_sequence. cbn [in_sequence pbind]. apply (Rd p0 w0); [exact Ra|exact A2|]. intros s3 A3.
      eapply wins_calls; [exact (seq_wins usize_max cfg local cmds n l x after prev d rest d1 SeqAny false p2 w2 p' k s3 IHi Ll E1' Rl (cl_any e _ after C) A3)|]. intros v s4 [-> A4]. cbn [pbind].
      apply wins_ret.
      eapply after_none_wins; [exact (closer_stop _ _ _ _ C)|exact A4|]. intros s5 A5. eapply wins_mono; [exact (close_wins e _ p' k after x d1 _ _ infix s5 C A5)|]. intros r s6 [-> A6]. split; [reflexivity|].
      exists (cx_style x), (cx_tf x). now destruct x. }
    destruct args as [|[?|?|model|t|?|? ?] [|[?|?|?|t2|?|? ?] [|? ?]]]; try exact (Atom E).
    + destruct ms as [|? ?]; [|exact (Atom E)]. apply dguard_some in E as [G E]. apply negb_true_iff in G. apply dbind_some in E as (col & d0 & E0 & E). apply dopt_some in E0 as [E0 ->].
      apply color_in_toks in E0 as (nm & Tm & Al & Nm & E0).
      refine (Colored col eq_refl G _ E). intros p0 w0 sp f s2 P Ra A2 H2. cbn [marked as_is] in Ra. apply args_parts in Ra as (p3 & w3 & R1 & Ra). apply args_parts in Ra as (p4 & w4 & R2 & Ra). apply args_parts in Ra as [-> ->].
      apply as_is_parts in R1 as (-> & -> & _). apply lit_parts in R2 as (-> & Oa & B2). rewrite bracket_toks, Tm in A2. exact (color_model_at cfg usize_max local cmds _ f x d _ nm w3 t2 _ sp col s2 P Al Oa Nm E0 A2 eq_refl B2 H2).
    + destruct ms as [|? ?]; [|exact (Atom E)]. apply dguard_some in E as [G E]. apply negb_true_iff in G. apply dbind_some in E as (col & d0 & E0 & E). apply dopt_some in E0 as [E0 ->].
      refine (Colored col eq_refl G _ E). intros p0 w0 sp f s2 P Ra A2 H2. cbn [marked as_is] in Ra. apply args_parts in Ra as (p3 & w3 & R1 & Ra). apply args_parts in Ra as [-> ->]. apply lit_parts in R1 as (-> & Oa & B1).
      exact (color_at cfg usize_max local cmds _ f x d _ t _ sp col s2 P Oa E0 A2 B1 H2).
  - (* Relax *) destruct args as [|? ?]; [|exact (Atom E)]. destruct ms as [|? ?]; [|exact (Atom E)].
    apply Quiet; [reflexivity|reflexivity|]. intros s1 sp w0 Ra A1. apply args_parts in Ra as [-> ->]. unfold loop_next. cbv zeta. cbn [fst snd]. apply wins_return. exact (Again x _ _ _ _ _ E Same A1).
Qed.

(** ** Arguments *)

Lemma put_none c n d r : put [] c n d = Some r -> r = ((c, n), d).
Proof. unfold put. cbn. intros [= <-]. f_equal. f_equal. rewrite <- attach_scripts. apply attach_none. Qed.
Lemma target_step n : items_good n -> arg_good n -> marks_good n -> head_good n -> target_good (S n).
Proof.
  intros IHi IHa IHm IHh g L x a prev next d c m d' p w p' k E R. rewrite den_target_eq in E. destruct g as [l|sy|l|l|[h ms]|? ?]; try discriminate E.
  - cbn [arg_size] in L. apply dbind_some in E as (ns & d1 & E1 & E). injection E as <- <- <-. apply group_parts in R as (p1 & w1 & w2 & Rb & Rl & Be).
    destruct (leads_starts usize_max cfg local cmds _ _ _ _ _ Rb eq_refl) as (t0 & r & B & St & Nb & W). exists t0, r. split; [exact B|]. split; [exact St|]. split; [intros _; apply Nb; discriminate|].
    intros s sp _ A. eapply W; [exact A|]. intros s1 sp1 A1. cbn [unwrap_math].
    apply (group_wins usize_max cfg local cmds n l x a prev d ns d1 p1 w1 p' w2 k s1 sp1 IHi); [unfold items_size; lia|exact E1|exact Rl|exact Be|exact A1].
  - apply dopt_some in E as [E ->]. apply symbol_parts in R.
    destruct (leads_starts usize_max cfg local cmds _ _ _ _ _ R (sym_node_starts _ _ _ _ _ _ E)) as (t0 & r & B & St & Nb0 & W). exists t0, r. split; [exact B|]. split; [exact St|]. split.
    + intros Nb. apply Nb0. intros Eb. cbn [not_bracket] in Nb. unfold S_Formula.tok in Nb. now rewrite Eb in Nb.
    + intros s sp N A. eapply W; [exact A|]. intros s1 sp1 A1. apply (sym_wins usize_max cfg local cmds p' x a prev _ c m d k s1 sp1); [now rewrite (next_as_ahead a next k N)|exact A1].
  - apply dguard_some in E as [Ss E]. apply argument_parts in R as (p1 & w1 & Rh & Rm & Gr). cbn [arg_size item_size] in L. change (list_sum (map mark_size ms)) with (marks_size ms) in L.
    (* what begins it *)
    assert (First : (exists t0 r0, bare w = t0 :: r0 /\ forall s sp, (in_sequence a = true -> class_ahead k ClEnd = next) -> at_ p x d r0 s ->
        wins (body (CTok (unwrap_math t0, sp) a prev)) s (fun v s' => v = (c, m) /\ at_ p' x d' k s')) ->
      exists t0 r0, bare w = t0 :: r0 /\ starts (unwrap_math t0) = true /\ (not_bracket mean (AItem (Item h ms)) = true -> unwrap_math t0 <> T_SquareBracketOpen) /\
        forall s sp, (in_sequence a = true -> class_ahead k ClEnd = next) -> at_ p x d r0 s -> wins (body (CTok (unwrap_math t0, sp) a prev)) s (fun v s' => v = (c, m) /\ at_ p' x d' k s')).
    { intros (t0 & r0 & B & W). exists t0, r0. split; [exact B|]. rewrite <- and_assoc. split; [|exact W].
      destruct (item_starts mean usize_max _ _ _ _ _ _ _ E) as (t1 & ts & Et & _ & Ns & K1).
      assert (S1 : starts (unwrap_math t1) = true).
      { destruct (starts (unwrap_math t1)) eqn:Es; [reflexivity|]. destruct (Ns eq_refl) as (s0 & a0 & ms0 & [= -> ->] & Us). cbn [stands] in Ss. destruct Us as [Us|Us]; rewrite Us in Ss; cbn [operator_of] in Ss; destruct ms0 as [|[?|?|? ?|?] [|? ?]]; discriminate Ss. }
      clear Ns. assert (Hn : exists r1, head_toks h = t1 :: r1 /\ (not_bracket mean (AItem (Item h ms)) = true -> unwrap_math t1 <> T_SquareBracketOpen)).
      { change (item_toks (Item h ms)) with (head_toks h ++ flat_map mark_toks ms) in Et. destruct h as [sy args|num|wd|l|o l cl|en args l]; try (destruct ms; discriminate Ss).
        - injection Et as <- _. eexists. split; [reflexivity|]. cbn [not_bracket]. unfold S_Formula.tok. intros Nb Eb. now rewrite Eb in Nb.
        - destruct ms; [|discriminate Ss]. rewrite den_item_eq in E. cbv zeta in E. apply dbind_some in E as (cn & d1 & E & _). rewrite den_fence_eq in E. destruct (mean (lit "left")) eqn:El; try discriminate E.
          change (head_toks (HFence o l cl)) with (mean (lit "left") :: raw o :: flat_map item_toks l ++ [mean (lit "right"); raw cl]) in *. rewrite El in *. injection Et as <- _. eexists. split; [reflexivity|discriminate].
        - injection Et as <- _. eexists. split; [reflexivity|discriminate]. }
      destruct Hn as (r1 & Hn & Nb). destruct (head_fronts usize_max cfg local cmds _ _ _ _ _ _ [] Rh ltac:(rewrite Hn; discriminate)) as [M|M]; rewrite B in M; cbn [hd] in M.
      - destruct (macro_starts t0 M) as (S0 & _ & O0 & _). split; [exact S0|intros _; exact O0].
      - rewrite Hn in M. cbn [app hd] in M. subst t0. now split. }
    apply First. clear First.
    (* an atom without scripts *)
    assert (Atom : ms = [] -> placed_head a h -> match h with HNum _ => False | _ => True end -> dbind (den_head x a prev (class_ahead (flat_map mark_toks ms) next) h) (fun cn => dbind (values (den_mark x) ms) (fun vs => put vs (fst cn) (snd cn))) d = Some ((c, m), d') ->
      exists t0 r0, bare w = t0 :: r0 /\ forall s sp, (in_sequence a = true -> class_ahead k ClEnd = next) -> at_ p x d r0 s ->
        wins (body (CTok (unwrap_math t0, sp) a prev)) s (fun v s' => v = (c, m) /\ at_ p' x d' k s')).
    { intros -> Pl Nn E'. apply no_marks in Rm as [-> ->]. apply dbind_some in E' as ([c0 n0] & d1 & E1 & E2). cbn [values] in E2. apply put_none in E2. cbn [fst snd] in E2. injection E2 as -> -> ->.
      destruct (IHh h ltac:(lia) false x a prev _ d c0 n0 d1 p w p1 w1 ltac:(discriminate) E1 Pl Rh) as (t1 & r1 & Et1 & _ & _ & Hh). exists t1, r1. split; [exact Et1|]. intros s sp N A.
      apply Hh; [now destruct h|exact N|exact A]. }
    pose proof E as E0. rewrite den_item_eq in E. cbv zeta in E. fold put in E.
    destruct h as [sy args|num|wd|l|o l cl|en args l]; try (destruct ms; discriminate Ss); try (destruct ms; [|discriminate Ss]; apply Atom; [reflexivity|exact Logic.I|exact Logic.I|exact E]).
    cbn [stands greedy] in Ss, Gr. destruct (operator_of (tok sy) args) as [t|] eqn:Eo.
    + destruct (operator_step n sy args t ms IHm ltac:(lia) Eo false x a prev _ d c m d' p w p1 w1 p' k ltac:(discriminate) E0 Rh Rm (no_script_stop _ (Gr eq_refl))) as (t0 & r0 & B & _ & _ & Go). exists t0, r0. split; [exact B|exact Go].
    + assert (At : tok sy <> T_Sideset -> (forall o is_over, tok sy <> T_OverUnderBrace o is_over) -> ms = []).
      { intros Ns Nb. destruct ms as [|[?|?|? ?|?] [|? ?]]; try reflexivity; try discriminate Ss; destruct (tok sy); try discriminate Ss; (now destruct (Nb o is_over)) || now destruct Ns. }
      destruct (tok sy) eqn:Ety; try (destruct ms as [|[?|?|? ?|?] [|? ?]]; discriminate Ss); try (apply Atom; [apply At; discriminate|exact Logic.I|exact Logic.I|exact E]).
      { cbn [head_size] in L. destruct args as [|[?|?|?|?|?|m1 l1] args]; try (apply dbind_some in E as (cn & d1 & E & _); rewrite den_sym_eq, Ety in E; cbv zeta in E; try discriminate E; destruct (word_char _ _); discriminate E). destruct args as [|[?|?|?|?|?|m2 l2] args]; try (apply dbind_some in E as (cn & d1 & E & _); rewrite den_sym_eq, Ety in E; cbv zeta in E; try discriminate E; destruct (word_char _ _); discriminate E). destruct args as [|o [|? ?]]; try (apply dbind_some in E as (cn & d1 & E & _); rewrite den_sym_eq, Ety in E; cbv zeta in E; try discriminate E; destruct (word_char _ _); discriminate E). clear E Atom At.
        cbn [map list_sum fold_right arg_size] in L. change (list_sum (map mark_size m1)) with (marks_size m1) in L. change (list_sum (map mark_size m2)) with (marks_size m2) in L. change (list_sum (map item_size l1)) with (items_size l1) in L. change (list_sum (map item_size l2)) with (items_size l2) in L.
        assert (Gr' : script_ahead k = false) by (apply Gr; destruct ms as [|[?|?|? ?|?] ?]; reflexivity).
        destruct (side_step n sy m1 l1 m2 l2 o ms IHi IHm ltac:(lia) ltac:(lia) ltac:(lia) ltac:(lia) ltac:(lia) Ety false x a prev _ d c m d' p w p1 w1 p' k ltac:(discriminate) E0 Rh Rm (no_script_stop _ Gr')) as (t0 & r0 & B & _ & _ & Go). exists t0, r0. split; [exact B|exact Go]. }
      cbn [head_size] in L.
      destruct args as [|a0 [|? ?]]; try (apply dbind_some in E as (cn & d1 & E & _); rewrite den_sym_eq, Ety in E; cbv zeta in E; try discriminate E; destruct (word_char _ _); discriminate E). clear E Atom At.
      cbn [map list_sum fold_right] in L.
      destruct (brace_step n sy a0 o is_over ms IHa ltac:(lia) ltac:(lia) Ety false x a prev _ d c m d' p w p1 w1 p' k ltac:(discriminate) E0 Rh Rm) as (t0 & r0 & B & W0 & S0 & c0 & n0 & d0 & p0 & w0 & E' & Rm' & Go).
      { intros ->. apply no_script_stop. now apply Gr. }
      assert (unexplained is_over ms = []) as Eu. { destruct ms as [|[?|?|? ?|?] [|? ?]]; try discriminate Ss; destruct is_over; try discriminate Ss; reflexivity. }
      rewrite Eu in *. apply no_marks in Rm' as [-> ->]. cbn [values] in E'. apply put_none in E'. injection E' as -> -> ->. exists t0, r0. split; [exact B|]. intros s sp _ A. exact (Go s sp A).
Qed.

(** ** Everything *)

Lemma all_good n : items_good n /\ arg_good n /\ target_good n /\ marks_good n /\ head_good n.
Proof.
  induction n as [|n (I1 & I2 & I3 & I4 & I5)].
  - repeat split; intros ? L; lia.
  - pose proof (target_step n I1 I2 I4 I5) as T. split; [exact (items_step n I1 I2 I4 I5)|]. split; [exact (arg_of_target usize_max cfg local cmds (S n) T)|]. split; [exact T|].
    split; [exact (marks_step' usize_max cfg local cmds n I2)|exact (head_step usize_max cfg local cmds n I1 I2 I3)].
Qed.
(** The whole formula. *)
Theorem den_wins l x d ns d' p w p' k s : den mean usize_max x l d = Some (ns, d') -> reads_items p w l p' k -> bare k = [] -> cx_bracket x = false -> at_ p x d w s ->
  wins (body (CSeq (SeqEnd EtEoi) ClOpen true)) s (fun r s' => r = ns /\ at_ p' x d' k s').
Proof.
  intros E R Bk B A. destruct (all_good (S (items_size l))) as (I1 & _). assert (C : closer (SeqEnd EtEoi) false (bare k) ClEnd) by (rewrite Bk; apply cl_eoi).
  eapply (seq_wins usize_max cfg local cmds (S (items_size l)) l x ClEnd ClOpen d ns d' (SeqEnd EtEoi) false p w p' k s I1); [lia| |exact R|exact C|exact A].
  unfold den in E. rewrite <- E. f_equal. destruct x. cbn in B. now subst.
Qed.
End Form.
