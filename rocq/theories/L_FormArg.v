(** Reading symbols, groups, arguments and scripts of formulas. *)
From Verif Require Import Str M_SuperChar M_Transform M_Length M_Spec M_Ast M_Token M_Symbols M_Commands M_Env
  M_LatexError M_Lexer M_CustomCmds M_Queue M_Spacing M_Colors M_Leaf M_TextParser M_Parser
  S_Lexer S_Queue S_Scripts S_Formula S_Reading L_Queue L_Args L_Reads L_Wp L_Ends L_Wins L_WinLeaf L_Expand L_FormEq L_Form S_Choice.
Local Open Scope nat_scope.

Section Form.
Context {Ft : fate} (usize_max : N) (cfg : parser_cfg) (local cmds : custom_cmds).
Notation mean := (the_mean cfg local cmds).
Notation tok := (tok mean).
Notation raw := (raw mean).
Notation item_toks := (item_toks mean).
Notation head_toks := (head_toks mean).
Notation arg_toks := (arg_toks mean).
Notation mark_toks := (mark_toks mean).
Notation den_item := (den_item mean usize_max).
Notation den_head := (den_head mean usize_max).
Notation den_arg := (den_arg mean usize_max).
Notation den_target := (den_target mean usize_max).
Notation den_mark := (den_mark mean usize_max).
Notation den_items := (den_items mean usize_max den_item).
Notation leads := (leads mean (the_body cfg local cmds) (pc_ignore_unknown cfg)).
Notation reads_items := (reads_items mean (the_body cfg local cmds) (pc_ignore_unknown cfg)).
Notation reads_arg := (reads_arg mean (the_body cfg local cmds) (pc_ignore_unknown cfg)).
Notation reads_marks := (reads_marks mean (the_body cfg local cmds) (pc_ignore_unknown cfg)).
Notation at_ := (at_ cfg local cmds).
Notation wins := (wins cfg usize_max).
Notation items_good := (items_good usize_max cfg local cmds).
Notation arg_good := (arg_good usize_max cfg local cmds).
Notation target_good := (target_good usize_max cfg local cmds).
Notation marks_good := (marks_good usize_max cfg local cmds).

Lemma with_same x st tf : with_style (cx_style x) (with_tf (cx_tf x) (with_tf tf (with_style st x))) = x.
Proof. now destruct x. Qed.

(** ** Sequences *)

Lemma seq_wins n l x after prev d ns d' e b p w p' k s : items_good n -> items_size l < n ->
  den_items (in_bracket b x) after prev [] None l d = Some (ns, d') -> reads_items p w l p' k -> closer e b (bare k) after ->
  at_ p x d w s ->
  wins (body (CSeq e prev true)) s (fun r s' => r = ns /\ at_ p' x d' k s').
Proof.
  intros IH L E R C A. cbn [body]. unfold seq_body. eapply view_at; [exact A|]. intros left. cbn [pv_transform pv_style view_of].
  eapply wins_calls; [apply (IH l L (in_bracket b x) after prev [] None d ns d' e p w p' k s E R C A)|].
  intros [nodes infix] s1 (<- & st & tf & A1). cbn [fst snd]. cbv zeta.
  eapply transform_at; [exact A1|]. intros s2 A2. eapply style_at; [exact A2|]. intros s3 A3. apply wins_ret. split; [reflexivity|].
  change (with_style (cx_style x) (with_tf (cx_tf x) (with_tf tf (with_style st (in_bracket b x))))) with (in_bracket b (with_style (cx_style x) (with_tf (cx_tf x) (with_tf tf (with_style st x))))) in A3.
  now rewrite with_same in A3.
Qed.
Lemma seq_wins_close n l x after prev d ns d' e b p w p' w' t k s : items_good n -> items_size l < n ->
  den_items (in_bracket b x) after prev [] None l d = Some (ns, d') -> reads_items p w l p' w' -> bare w' = t :: k -> closer e b (t :: k) after ->
  at_ p x d w s ->
  wins (body (CSeq e prev false)) s (fun r s' => r = ns /\ at_ p' x d' k s').
Proof.
  intros IH L E R B C A. rewrite <- B in C. cbn [body]. unfold seq_body. eapply view_at; [exact A|]. intros left. cbn [pv_transform pv_style view_of].
  eapply wins_calls; [apply (IH l L (in_bracket b x) after prev [] None d ns d' e p w p' w' s E R C A)|].
  intros [nodes infix] s1 (<- & st & tf & A1). cbn [fst snd]. cbv zeta. eapply next_at; [exact A1|exact B|]. intros s1' _ A1'.
  eapply transform_at; [exact A1'|]. intros s2 A2. eapply style_at; [exact A2|]. intros s3 A3. apply wins_ret. split; [reflexivity|].
  change (with_style (cx_style x) (with_tf (cx_tf x) (with_tf tf (with_style st (in_bracket b x))))) with (in_bracket b (with_style (cx_style x) (with_tf (cx_tf x) (with_tf tf (with_style st x))))) in A3.
  now rewrite with_same in A3.
Qed.

(** ** Symbols *)

Lemma tok_wins p x a prev d k s t sp (Q : class * node -> pstate -> Prop) (f : class -> pview -> prog (class * node)) :
  at_ p x d k s ->
  tok_body (t, sp) a prev = Do (OPeekClass (in_sequence a)) (fun next0 => Do OView (fun v => f next0 v)) ->
  (forall s1 left, at_ p x d k s1 -> wins (f (if in_sequence a then class_ahead k ClEnd else ClDefault) (view_of x d left)) s1 Q) ->
  wins (body (CTok (t, sp) a prev)) s Q.
Proof.
  intros A E H. cbn [body]. rewrite E. destruct (in_sequence a).
  - eapply class_at; [exact A|]. intros s1 A1. eapply view_at; [exact A1|]. intros left. now apply H.
  - apply no_class_at. eapply view_at; [exact A|]. intros left. now apply H.
Qed.
Lemma seen_default x : seen x ClDefault = ClDefault.
Proof. unfold seen. now destruct (cx_hack x). Qed.
Lemma sym_wins p x a prev t c m d k s sp :
  sym_node x a prev (seen x (if in_sequence a then class_ahead k ClEnd else ClDefault)) t = Some (c, m) -> at_ p x d k s ->
  wins (body (CTok (t, sp) a prev)) s (fun v s' => v = (c, m) /\ at_ p x d k s').
Proof.
  intros E A. eapply tok_wins; [exact A|reflexivity|]. intros s1 left A1. unfold sym_node in E. unfold seen in E. cbv zeta. cbn [fst snd view_of pv_hack pv_style pv_transform pv_vld].
  set (next := if in_sequence a then class_ahead k ClEnd else ClDefault) in *. cbv zeta in E.
  destruct t; try discriminate E; try (apply wins_ret; split; [|exact A1]; injection E as <- <-; reflexivity).
  - destruct (cx_tf x) as [[|tf]|]; [destruct a| |destruct a]; try discriminate E; injection E as <- <-; apply wins_ret; now split.
  - destruct (cx_tf x) as [[|tf]|]; [injection E as <- <-; apply wins_ret; now split| |injection E as <- <-; apply wins_ret; now split].
    destruct (sc_string _) as [s'|]; [|discriminate E]. injection E as <- <-. apply wins_ret. now split.
  - set (t := match cx_style x with StDisplay => t1 | StText => t2 | StScript => t3 | StScriptScript => t4 end).
    assert (Et : exists l, t = T_Space l /\ c = prev /\ m = Space l).
    { unfold t. destruct (cx_style x); cbn [choice_place nth] in E; [destruct t1|destruct t2|destruct t3|destruct t4]; try discriminate E; injection E as <- <-; eauto. }
    destruct Et as (l & -> & -> & ->).
    eapply (push_at cfg usize_max local cmds (OChosen (T_Space l, sp)) _ p x d [qt_of (T_Space l, sp)]); [reflexivity|exact A1|repeat constructor|repeat constructor|].
    intros s2 A2. eapply next_at; [exact A2|reflexivity|]. intros s3 sp3 A3. apply wins_return. cbn [unwrap_math].
    eapply tok_wins; [exact A3|reflexivity|]. intros s4 left4 A4. cbv zeta. cbn [fst snd]. apply wins_ret. now split.
Qed.

(** ** Arguments *)

(** A group in braces, after its first brace. *)
Lemma group_wins n l x a prev d ns d' p w p' w' k s sp : items_good n -> items_size l < n ->
  den_items (in_bracket false x) ClEnd (match a with PaContinue => prev | _ => ClOpen end) [] None l d = Some (ns, d') ->
  reads_items p w l p' w' -> bare w' = T_GroupEnd :: k -> at_ p x d w s ->
  wins (body (CTok (T_GroupBegin, sp) a prev)) s (fun v s' => v = (ClDefault, node_vec_to_node ns (match a with PaArg => true | _ => false end)) /\ at_ p' x d' k s').
Proof.
  intros IH L E R B A. eapply tok_wins; [exact A|reflexivity|]. intros s1 left A1. cbv zeta. cbn [fst].
  eapply wins_calls; [exact (seq_wins_close n l x ClEnd _ d ns d' (SeqEnd EtGroupClose) false p w p' w' T_GroupEnd k s1 IH L E R B (cl_group k) A1)|].
  intros r s2 [-> A2]. apply wins_ret. now split.
Qed.

(** What is read first is the token, or a macro that stands for it. *)
Lemma leads_starts n w n' t r : leads false n w n' t r -> starts (unwrap_math t) = true ->
  exists t0 r0, bare w = t0 :: r0 /\ starts (unwrap_math t0) = true /\ (unwrap_math t <> T_SquareBracketOpen -> unwrap_math t0 <> T_SquareBracketOpen) /\
    forall x d s sp a prev Q, at_ n x d r0 s -> (forall s1 sp1, at_ n' x d r s1 -> wins (body (CTok (unwrap_math t, sp1) a prev)) s1 Q) ->
      wins (body (CTok (unwrap_math t0, sp) a prev)) s Q.
Proof.
  intros H St. destruct (leads_wins cfg usize_max local cmds _ _ _ _ _ _ H) as (t0 & r0 & B & K & W). exists t0, r0. split; [exact B|].
  destruct K as [(-> & -> & ->)|(M & _)]; [split; [exact St|]; split; [auto|intros x d s sp a prev Q; apply W; discriminate]|]. destruct (macro_starts t0 M) as (S0 & _ & O0 & _). split; [exact S0|]. split; [auto|intros x d s sp a prev Q; apply W; discriminate].
Qed.
(** Arguments are what is not in a sequence. *)
Lemma arg_of_target n : target_good n -> arg_good n.
Proof.
  intros IH g L x a prev d m d' p w p' k Sq E R. destruct (den_arg_target usize_max cfg local cmds x a prev g d m d' Sq E) as (c & Et).
  destruct (IH g L x a prev ClDefault d c m d' p w p' k Et R) as (t0 & r & B & St & Nb & W). exists t0, r. split; [exact B|]. split; [exact St|]. split; [exact Nb|].
  intros s sp A. eapply wins_mono; [apply (W s sp)|]; [now rewrite Sq|exact A|]. intros v s' [-> K]. now split.
Qed.
Lemma parse_next_wins n g x a d m d' p w p' k s : arg_good n -> arg_size g < n -> in_sequence a = false ->
  den_arg x a ClDefault g d = Some (m, d') -> reads_arg false p w g p' k -> at_ p x d w s ->
  wins (parse_next a) s (fun v s' => v = m /\ at_ p' x d' k s').
Proof.
  intros IH L Sq E R A. destruct (IH g L x a ClDefault d m d' p w p' k Sq E R) as (t0 & r & B & St & _ & H). unfold parse_next.
  eapply next_at; [exact A|exact B|]. intros s1 sp A1. eapply wins_calls; [exact (H s1 sp A1)|]. intros v s2 [<- A2]. now apply wins_ret.
Qed.

(** ** Scripts *)

Lemma script_wins n g x d m d' p w p' k s : arg_good n -> arg_size g < n ->
  den_arg (with_style (style_scriptify (cx_style x)) x) PaArg ClDefault g d = Some (m, d') -> reads_arg false p w g p' k -> at_ p x d w s ->
  wins script_node s (fun v s' => v = m /\ at_ p' x d' k s').
Proof.
  intros IH L E R A. destruct (IH g L _ PaArg ClDefault d m d' p w p' k eq_refl E R) as (t0 & r & B & St & _ & H). unfold script_node.
  eapply next_at; [exact A|exact B|]. intros s1 sp A1. cbn [fst snd].
  assert (K : wins (do v := OView in do_ OSetStyle (style_scriptify (pv_style v)) in rec r0 := CTok (unwrap_math t0, sp) PaArg ClDefault in do_ OSetStyle (pv_style v) in Ret (snd r0)) s1
    (fun v s' => v = m /\ at_ p' x d' k s')).
  { eapply view_at; [exact A1|]. intros left. cbn [view_of pv_style]. eapply style_at; [exact A1|]. intros s2 A2.
    eapply wins_calls; [exact (H s2 sp A2)|]. intros v s3 [<- A3]. eapply style_at; [exact A3|]. intros s4 A4. apply wins_ret. split; [reflexivity|]. now destruct x. }
  destruct (unwrap_math t0); try exact K; discriminate St.
Qed.

(** The scripts so far, and those to come. *)
Definition or_first {A} (a b : option A) : option A := match a with Some x => Some x | None => b end.
Definition room {A} (a : option A) (l : list A) : Prop := match a with Some _ => l = [] | None => length l <= 1 end.
Lemma mark_starts x m d v d' : den_mark x m d = Some (v, d') ->
  exists t0 r, mark_toks m = t0 :: r /\ readable t0 /\
    match m with
    | FSub _ => t0 = T_Underscore
    | FSup _ => t0 = T_Circumflex
    | FPrimes _ _ => exists k, unwrap_math t0 = T_Prime k
    | FLimits _ => exists k, unwrap_math t0 = T_Limits k
    end.
Proof.
  intros E. rewrite den_mark_eq in E. cbv zeta in E. destruct m as [a|a|ps sup|sy].
  - eexists _, _. split; [reflexivity|]. split; reflexivity.
  - eexists _, _. split; [reflexivity|]. split; reflexivity.
  - apply dbind_some in E as (ks & d1 & E1 & E). apply dopt_some in E1 as [E1 ->]. apply dguard_some in E as [G _].
    destruct ps as [|p ps]; [injection E1 as <-; discriminate|]. cbn [all_some] in E1. destruct (tok p) eqn:Ep; try discriminate E1.
    eexists _, _. split; [reflexivity|]. unfold tok, S_Formula.tok in Ep. split; [|eauto].
    unfold readable. destruct (raw p); try reflexivity; discriminate.
  - destruct (tok sy) eqn:Ep; try discriminate E. eexists _, _. split; [reflexivity|]. unfold tok, S_Formula.tok in Ep. split; [|eauto].
    unfold readable. destruct (raw sy); try reflexivity; discriminate.
Qed.
(** What is seen without passing blanks. *)
Lemma first_any k : hd T_Eoi k = T_Whitespace \/ hd T_Eoi k = hd T_Eoi (bare k).
Proof. destruct k as [|t k]; [now right|]. destruct t; auto. Qed.

Lemma marks_step n : arg_good n -> forall ms, marks_size ms < S n -> forall x d vs d' p w p' k s acc,
  values (den_mark x) ms d = Some (vs, d') -> reads_marks p w ms p' k ->
  room (b_sub (bl_bounds acc)) (subs vs) -> room (b_sup (bl_bounds acc)) (sups vs) -> stop_ahead k ->
  at_ p x d w s ->
  wins (body (CBounds None acc)) s (fun bl s' =>
    bl_bounds bl = mkBounds (or_first (b_sub (bl_bounds acc)) (hd_error (subs vs))) (or_first (b_sup (bl_bounds acc)) (hd_error (sups vs))) /\
    bl_kind bl = or_first (hd_error (rev (lims vs))) (bl_kind acc) /\ at_ p' x d' k s').
Proof.
  intros IH ms. induction ms as [|m ms IHm]; intros L x d vs d' p w p' k s acc E R Rs Rp St A.
  - injection E as <- <-. apply no_marks in R as [-> ->]. cbn [body]. unfold bounds_body. cbn [pbind].
    eapply peek_at; [exact A|]. intros sp. cbn [fst snd]. cbv zeta. unfold stop_ahead in St.
    assert (wins (Ret acc) s (fun bl s' => bl_bounds bl = mkBounds (or_first (b_sub (bl_bounds acc)) (hd_error (subs []))) (or_first (b_sup (bl_bounds acc)) (hd_error (sups []))) /\
      bl_kind bl = or_first (hd_error (rev (lims []))) (bl_kind acc) /\ at_ p x d w s')) as K.
    { apply wins_ret. destruct acc as [[sb su] lm]. cbn. split; [now destruct sb, su|]. now split. }
    destruct (unwrap_math (hd T_Eoi (bare w))); try exact K; discriminate St.
  - apply marks_parts in R as (p1 & w1 & R1 & R). cbn [values] in E. apply dbind_some in E as (v & d1 & E1 & E). apply dbind_some in E as (vr & d2 & E2 & E). injection E as <- <-.
    unfold marks_size in L. cbn [map list_sum fold_right] in L. change (fold_right Nat.add 0 (map mark_size ms)) with (marks_size ms) in L.
    assert (Lm : marks_size ms < S n) by lia. specialize (IHm Lm).
    destruct (mark_starts _ _ _ _ _ E1) as (t0 & r & Et & Rt & Kt).
    destruct (mark_front cfg local cmds _ _ _ _ _ R1) as (t1 & r1 & B & Eh & _). rewrite Et in Eh. cbn [hd] in Eh. subst t1.
    cbn [body]. unfold bounds_body. cbn [pbind]. eapply peek_at; [exact A|]. intros sp. rewrite B. cbn [hd fst snd]. cbv zeta.
    (* what happens after the mark *)
    assert (Again : forall acc' s1, at_ p1 x d1 w1 s1 ->
      room (b_sub (bl_bounds acc')) (subs vr) -> room (b_sup (bl_bounds acc')) (sups vr) ->
      mkBounds (or_first (b_sub (bl_bounds acc')) (hd_error (subs vr))) (or_first (b_sup (bl_bounds acc')) (hd_error (sups vr))) =
        mkBounds (or_first (b_sub (bl_bounds acc)) (hd_error (subs (v :: vr)))) (or_first (b_sup (bl_bounds acc)) (hd_error (sups (v :: vr)))) ->
      or_first (hd_error (rev (lims vr))) (bl_kind acc') = or_first (hd_error (rev (lims (v :: vr)))) (bl_kind acc) ->
      wins (rec r0 := CBounds None acc' in Ret r0) s1 (fun bl s' =>
        bl_bounds bl = mkBounds (or_first (b_sub (bl_bounds acc)) (hd_error (subs (v :: vr)))) (or_first (b_sup (bl_bounds acc)) (hd_error (sups (v :: vr)))) /\
        bl_kind bl = or_first (hd_error (rev (lims (v :: vr)))) (bl_kind acc) /\ at_ p' x d2 k s')).
    { intros acc' s1 A1 Rs1 Rp1 Eb El. apply wins_return. eapply wins_mono; [apply (IHm x d1 vr d2 p1 w1 p' k s1 acc' E2 R Rs1 Rp1 St A1)|]. intros bl s2 (B1 & B2 & A2).
      rewrite B1, B2, Eb, El. split; [reflexivity|]. split; [reflexivity|exact A2]. }
    assert (Sup : forall m0 s1 sp0, v = VSup m0 -> at_ p1 x d1 w1 s1 ->
      wins (match b_sup (bl_bounds acc) with Some _ => fail sp0 E_DuplicateSubOrSup | None => rec r0 := CBounds None (mkBl (mkBounds (b_sub (bl_bounds acc)) (Some m0)) (bl_limits acc)) in Ret r0 end) s1 (fun bl s' =>
        bl_bounds bl = mkBounds (or_first (b_sub (bl_bounds acc)) (hd_error (subs (v :: vr)))) (or_first (b_sup (bl_bounds acc)) (hd_error (sups (v :: vr)))) /\
        bl_kind bl = or_first (hd_error (rev (lims (v :: vr)))) (bl_kind acc) /\ at_ p' x d2 k s')).
    { intros m0 s1 sp0 -> A1. cbn [sups flat_map app] in Rp. destruct (b_sup (bl_bounds acc)) eqn:Eb; [discriminate Rp|]. cbn [room length] in Rp.
      assert (flat_map (fun m => match m with VSup n => [n] | _ => [] end) vr = []) as Ev by (destruct (flat_map _ vr); [reflexivity|cbn [length] in Rp; lia]).
      apply Again; [exact A1|exact Rs|exact Ev|reflexivity|]. reflexivity. }
    apply mark_parts in R1. destruct m as [a|a|ps sup|sy].
    + subst t0. destruct R1 as (w2 & B2 & R1). cbn [unwrap_math]. eapply next_at; [exact A|exact B2|]. intros s1 sp1 A1. rewrite den_mark_eq in E1. cbv zeta in E1. apply dbind_some in E1 as (m0 & d3 & E1 & E3). injection E3 as <- <-.
      cbn [mark_size] in L. eapply wins_then; [exact (script_wins n a x d m0 d3 _ _ _ _ s1 IH ltac:(lia) E1 R1 A1)|]. intros v s2 [-> A2]. cbn [subs flat_map app] in Rs.
      destruct (b_sub (bl_bounds acc)) eqn:Eb; [discriminate Rs|]. cbn [room length] in Rs.
      assert (flat_map (fun m => match m with VSub n => [n] | _ => [] end) vr = []) as Ev by (destruct (flat_map _ vr); [reflexivity|cbn [length] in Rs; lia]).
      apply Again; [exact A2|exact Ev|exact Rp|reflexivity|reflexivity].
    + subst t0. destruct R1 as (w2 & B2 & R1). cbn [unwrap_math]. eapply next_at; [exact A|exact B2|]. intros s1 sp1 A1. rewrite den_mark_eq in E1. cbv zeta in E1. apply dbind_some in E1 as (m0 & d3 & E1 & E3). injection E3 as <- <-.
      cbn [mark_size] in L. eapply wins_then; [exact (script_wins n a x d m0 d3 _ _ _ _ s1 IH ltac:(lia) E1 R1 A1)|]. intros v s2 [-> A2]. now apply Sup.
    + destruct Kt as (kd & Ek). rewrite Ek. rewrite den_mark_eq in E1. cbv zeta in E1.
      apply dbind_some in E1 as (ks & d3 & E0 & E1). apply dopt_some in E0 as [E0 ->]. apply dguard_some in E1 as [G E1].
      destruct ps as [|p0 ps]; [cbn [all_some] in E0; injection E0 as <-; discriminate G|]. clear G. cbn [all_some] in E0. change (mark_toks (FPrimes (p0 :: ps) sup)) with (raw p0 :: map raw ps ++ match sup with Some a => T_Circumflex :: arg_toks a | None => [] end) in Et.
      injection Et as <- <-. unfold tok, S_Formula.tok in E0. rewrite Ek in E0. fold tok in E0.
      destruct (all_some _ ps) as [ks'|] eqn:Eks; [|discriminate]. injection E0 as <-.
      eapply next_at; [exact A|exact B|]. intros s1 sp1 A1.
      assert (Eks' : all_some token_prime (map raw ps) = Some ks').
      { clear - Eks. revert ks' Eks. induction ps as [|q ps IHp]; intros ks' Eks; cbn [map all_some] in *; [exact Eks|]. unfold token_prime at 1.
        unfold tok, S_Formula.tok in Eks. destruct (unwrap_math (raw q)); try discriminate. destruct (all_some _ ps) as [z|] eqn:Ez; [|discriminate]. now rewrite (IHp z eq_refl). }
      cbn [pbind]. unfold prime_script.
      destruct sup as [a|].
      * apply dbind_some in E1 as (m0 & d4 & E1 & E3). injection E3 as <- <-. destruct R1 as (q & qs & w2 & Eq & B2 & R1). injection Eq as <- <-. rewrite B2 in B. injection B as <-. cbn [mark_size] in L.
        cbn [pbind]. eapply primes_at; [exact Eks'| |exact A1|]; [reflexivity|]. intros s2 A2. cbn [hd unwrap_math]. cbv iota zeta. cbn [pbind].
        eapply caret_at; [|exact A2|]; [discriminate|]. intros s3 A3. apply wins_bind. apply wins_bind.
        eapply wins_mono; [exact (script_wins n a x d m0 d4 _ _ _ _ s3 IH ltac:(lia) E1 R1 A3)|]. intros v s4 [-> A4]. apply wins_ret. now apply Sup.
      * injection E1 as <- <-. destruct R1 as (q & qs & Eq & B2 & ->). injection Eq as <- <-. rewrite B2 in B. injection B as <-. cbn [pbind].
        assert (Nx : token_prime (hd T_Eoi w1) = None /\ match unwrap_math (hd T_Eoi w1) with T_Circumflex => true | _ => false end = false).
        { destruct (first_any w1) as [->| ->]; [now split|]. destruct ms as [|m ms].
          - apply no_marks in R as [-> ->]. unfold stop_ahead in St. unfold token_prime. destruct (unwrap_math (hd T_Eoi (bare w1))); try discriminate St; now split.
          - cbn [values] in E2. apply dbind_some in E2 as (v' & d5 & E4 & E5). apply dbind_some in E5 as (vr' & d6 & _ & E5). injection E5 as <- _.
            destruct (mark_starts _ _ _ _ _ E4) as (t1 & r1 & Et1 & _ & K1). apply marks_parts in R as (p2 & w2 & R2 & _).
            destruct (mark_front cfg local cmds _ _ _ _ _ R2) as (t2 & r2 & B3 & Eh & _). rewrite Et1 in Eh. cbn [hd] in Eh. subst t2. rewrite B3. cbn [hd]. rewrite den_mark_eq in E4. cbv zeta in E4.
            cbn [sups flat_map app] in Rp. assert (forall z, v' <> VSup z) as Nv. { intros z ->. destruct (b_sup (bl_bounds acc)); cbn [room length app] in Rp; [discriminate|lia]. }
            unfold token_prime. destruct m as [b|b|ps2 sup2|sy].
            + subst t1. now split.
            + apply dbind_some in E4 as (z & dz & _ & E4). injection E4 as <- _. now destruct (Nv z).
            + apply dbind_some in E4 as (z & dz & _ & E4). apply dguard_some in E4 as [_ E4]. destruct sup2; [apply dbind_some in E4 as (z2 & dz2 & _ & E4)|]; injection E4 as <- _; now edestruct Nv.
            + destruct K1 as (k1 & ->). now split. }
        eapply primes_at; [exact Eks'|exact (proj1 Nx)|exact A1|]. intros s2 A2. rewrite (proj2 Nx). cbv iota zeta. cbn [pbind]. now apply Sup.
    + destruct Kt as (kd & Ek). rewrite Ek. rewrite den_mark_eq in E1. cbv zeta in E1. injection Et as <- <-. unfold tok, S_Formula.tok in E1. rewrite Ek in E1. injection E1 as <- <-.
      destruct R1 as (B1 & ->). eapply next_at; [exact A|exact B1|]. intros s1 sp1 A1. apply Again; [exact A1|exact Rs|exact Rp|reflexivity|]. change (lims (VLimits kd :: vr)) with (kd :: lims vr). cbn [rev].
      destruct (rev (lims vr)); reflexivity.
Qed.
Lemma marks_step' n : arg_good n -> marks_good (S n).
Proof.
  intros IH ms L x d vs b d' p w p' k s E Sc R St A. unfold scripts_of in Sc. destruct ((length (subs vs) <=? 1) && (length (sups vs) <=? 1))%nat eqn:Es; [|discriminate]. injection Sc as <-.
  apply andb_true_iff in Es as [Es1 Es2]. apply Nat.leb_le in Es1, Es2. unfold get_bounds. apply wins_return.
  eapply wins_mono; [apply (marks_step n IH ms L x d vs d' p w p' k s bl_none E R Es1 Es2 St A)|]. intros bl s' (B1 & B2 & A'). cbn in B1, B2. cbn [fst snd]. split; [exact B1|]. split; [|exact A'].
  rewrite B2. now destruct (hd_error (rev (lims vs))).
Qed.
(** Nothing more is read when no script follows. *)
Lemma no_marks_wins p x d k s : stop_ahead k -> at_ p x d k s -> wins (get_bounds None) s (fun bl s' => bl = bl_none /\ at_ p x d k s').
Proof.
  intros St A. unfold get_bounds. apply wins_return. cbn [body]. unfold bounds_body. cbn [pbind]. eapply peek_at; [exact A|]. intros sp. cbn [fst snd]. cbv zeta.
  unfold stop_ahead in St. destruct (unwrap_math (hd T_Eoi (bare k))); try discriminate St; apply wins_ret; now split.
Qed.
End Form.
