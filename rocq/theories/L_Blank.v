(** Blanks between the tokens of a formula. *)
From Verif Require Import Str M_SuperChar M_Transform M_Length M_Spec M_Ast M_Token M_Symbols M_Commands M_Env
  M_LatexError M_Lexer M_CustomCmds M_Queue M_Parser S_Queue S_Scripts S_Formula S_Reading L_FormEq L_Form.
Local Open Scope nat_scope.

Section Blank.
Context (mean : str -> token) (body_of : cmd_source -> nat -> nat -> option (list recorded)) (ignore : bool).
Notation raw := (raw mean).
Notation tok := (tok mean).
Notation item_toks := (item_toks mean).
Notation head_toks := (head_toks mean).
Notation arg_toks := (arg_toks mean).
Notation mark_toks := (mark_toks mean).
Notation leads := (leads mean body_of ignore).
Notation reads_items := (reads_items mean body_of ignore).
Notation reads_head := (reads_head mean body_of ignore).
Notation reads_args := (reads_args mean body_of ignore).
Notation reads_arg := (reads_arg mean body_of ignore).
Notation reads_marks := (reads_marks mean body_of ignore).
Notation reads_mark := (reads_mark mean body_of ignore).
Notation loose_item := (loose_item mean).
Notation loose_head := (loose_head mean).
Notation loose_arg := (loose_arg mean).
Notation loose_mark := (loose_mark mean).
Notation shown := (filter solid).

Lemma shown_cons w t r : shown w = t :: r -> exists w1, bare w = t :: w1 /\ shown w1 = r.
Proof.
  induction w as [|u w IH]; [discriminate|]. cbn [filter]. unfold solid at 1. destruct (is_ws u) eqn:W; cbn [negb].
  - destruct u; try discriminate W. exact IH.
  - intros E. injection E as -> E. exists w. split; [|exact E]. destruct t; try reflexivity. discriminate W.
Qed.
Lemma shown_nil w : shown w = [] -> bare w = [].
Proof. induction w as [|u w IH]; [reflexivity|]. cbn [filter]. unfold solid at 1. destruct u; cbn [is_ws negb]; try discriminate. exact IH. Qed.
Lemma shown_spells {A} (f : A -> token) l r w : shown w = map f l ++ r -> exists k, spells w (map f l) k /\ shown k = r.
Proof.
  revert w. induction l as [|a l IH]; intros w E; [now exists w|]. cbn [map app] in E. apply shown_cons in E as (w1 & B & E). destruct (IH w1 E) as (k & S1 & E1). exists k. split; [|exact E1]. cbn [map spells]. now exists w1.
Qed.

Notation item_ended := (item_ended mean).
Notation head_ended := (head_ended mean).
Notation arg_ended := (arg_ended mean).
Notation mark_ended := (mark_ended mean).
Lemma script_shown w : script_ahead (shown w) = script_ahead w.
Proof.
  destruct (shown w) as [|t r] eqn:E; unfold script_ahead.
  - now rewrite (shown_nil w E).
  - destruct (shown_cons w t r E) as (w1 & B & _). rewrite B. assert (is_ws t = false) as Wt.
    { assert (In t (shown w)) as I by (rewrite E; now left). apply filter_In in I as [_ I]. unfold solid in I. now apply negb_true_iff in I. }
    now destruct t.
Qed.

Definition all_loose (n : nat) : Prop :=
  (forall h sq p w r, head_size h < n -> loose_head h = true -> head_ended h r = true -> shown w = head_toks h ++ r -> exists k, reads_head sq p w h p k /\ shown k = r) /\
  (forall a p w r, arg_size a < n -> loose_arg a = true -> arg_ended a r = true -> shown w = arg_toks a ++ r -> exists k, reads_arg false p w a p k /\ shown k = r) /\
  (forall m p w r, mark_size m < n -> loose_mark m = true -> mark_ended m r = true -> shown w = mark_toks m ++ r -> exists k, reads_mark p w m p k /\ shown k = r).
Lemma loose_marks n l : all_loose n -> list_sum (map mark_size l) < n -> forallb loose_mark l = true -> forall p w r, all_ended mark_toks mark_ended l r = true -> shown w = flat_map mark_toks l ++ r ->
  exists k, reads_marks p w l p k /\ shown k = r.
Proof.
  intros (_ & _ & Im) L O. induction l as [|m l IH]; intros p w r En E; [exists w; split; [apply rms_nil|exact E]|]. cbn [map forallb flat_map all_ended] in *. apply andb_true_iff in En as [En1 En2]. change (list_sum (mark_size m :: map mark_size l)) with (mark_size m + list_sum (map mark_size l)) in L.
  apply andb_true_iff in O as [O1 O2]. rewrite <- app_assoc in E. destruct (Im m p w _ ltac:(lia) O1 En1 E) as (k1 & R1 & E1). destruct (IH ltac:(lia) O2 p k1 r En2 E1) as (k & R2 & E2). exists k. split; [|exact E2]. eapply rms_cons; eassumption.
Qed.
Lemma loose_items n l : all_loose n -> list_sum (map item_size l) < S n -> forallb loose_item l = true -> forall p w r, all_ended item_toks item_ended l r = true -> shown w = flat_map item_toks l ++ r ->
  exists k, reads_items p w l p k /\ shown k = r.
Proof.
  intros A L O. induction l as [|[h ms] l IH]; intros p w r En E; [exists w; split; [apply ri_nil|exact E]|]. cbn [map forallb flat_map item_size S_Reading.loose_item all_ended S_Formula.item_ended] in *. apply andb_true_iff in En as [En En3]. apply andb_true_iff in En as [En1 En2].
  change (list_sum (S (head_size h + list_sum (map mark_size ms)) :: map item_size l)) with (S (head_size h + list_sum (map mark_size ms)) + list_sum (map item_size l)) in L.
  apply andb_true_iff in O as [O O3]. apply andb_true_iff in O as [O1 O2]. change (item_toks (Item h ms)) with (head_toks h ++ flat_map mark_toks ms) in E. rewrite <- !app_assoc in E.
  pose proof A as (Ih & _ & _). destruct (Ih h true p w _ ltac:(lia) O1 En1 E) as (k1 & R1 & E1). destruct (loose_marks n ms A ltac:(lia) O2 p k1 _ En2 E1) as (k2 & R2 & E2).
  destruct (IH ltac:(lia) O3 p k2 r En3 E2) as (k & R3 & E3). exists k. split; [|exact E3]. eapply ri_cons; eassumption.
Qed.
Lemma loose_args n bs l : all_loose n -> list_sum (map arg_size l) < n -> forallb (fun p => negb (fst p)) (marked bs l) = true -> forallb loose_arg l = true -> forall p w r, all_ended arg_toks arg_ended l r = true -> shown w = flat_map arg_toks l ++ r ->
  exists k, reads_args p w (marked bs l) p k /\ shown k = r.
Proof.
  intros (_ & Ia & _) L. revert bs. induction l as [|a l IH]; intros bs B O p w r En E; [exists w; split; [destruct bs; apply ras_nil|exact E]|]. cbn [map forallb flat_map all_ended] in *. apply andb_true_iff in En as [En1 En2]. change (list_sum (arg_size a :: map arg_size l)) with (arg_size a + list_sum (map arg_size l)) in L.
  apply andb_true_iff in O as [O1 O2]. rewrite <- app_assoc in E. destruct (Ia a p w _ ltac:(lia) O1 En1 E) as (k1 & R1 & E1).
  destruct bs as [|b bs]; cbn [marked forallb fst] in *; apply andb_true_iff in B as [B1 B2].
  - destruct (IH ltac:(lia) [] B2 O2 p k1 r En2 E1) as (k & R2 & E2). exists k. split; [|exact E2]. eapply ras_cons; eassumption.
  - apply negb_true_iff in B1. subst b. destruct (IH ltac:(lia) bs B2 O2 p k1 r En2 E1) as (k & R2 & E2). exists k. split; [|exact E2]. eapply ras_cons; eassumption.
Qed.
Lemma marked_nil l : forallb (fun p => negb (fst p)) (marked [] l) = true.
Proof. induction l as [|a l IH]; [reflexivity|exact IH]. Qed.
Lemma all_loose_all n : all_loose n.
Proof.
  induction n as [|n A]; [split; [|split]; intros; lia|]. pose proof A as (Ih & Ia & Im). split; [|split].
  - intros [s args|s|wd|l|o l c|e args l] sq p w r L O En E; cbn [head_size S_Reading.loose_head S_Formula.head_ended] in L, O, En.
    + apply andb_true_iff in O as [O1 O2]. change (head_toks (HSym s args)) with (raw s :: flat_map arg_toks args) in E. cbn [app] in E. apply shown_cons in E as (w1 & B & E).
      destruct (loose_args n _ args A ltac:(lia) O1 O2 p w1 r En E) as (k & R & Ek). exists k. split; [|exact Ek]. eapply rh_sym; [apply leads_here; exact B|exact R].
    + change (head_toks (HNum s)) with (map char_token s) in E. destruct s as [|c s]; [discriminate|]. cbn [map app] in E. apply shown_cons in E as (w1 & B & E). apply shown_spells in E as (k & Sp & Ek). exists k. split; [|exact Ek]. eapply rh_num; [apply leads_here; exact B|exact Sp].
    + change (head_toks (HWord wd)) with (map raw wd) in E. apply shown_spells in E as (k & Sp & Ek). exists k. split; [|exact Ek]. now apply rh_word.
    + change (head_toks (HGroup l)) with (T_GroupBegin :: flat_map item_toks l ++ [T_GroupEnd]) in E. cbn [app] in E. rewrite <- app_assoc in E. apply shown_cons in E as (w1 & B & E).
      destruct (loose_items n l A ltac:(lia) O p w1 _ En E) as (w2 & R & E2). cbn [app] in E2. apply shown_cons in E2 as (k & B2 & Ek). exists k. split; [|exact Ek]. eapply rh_group; [apply leads_here; exact B|exact R|exact B2].
    + change (head_toks (HFence o l c)) with (mean (lit "left") :: raw o :: flat_map item_toks l ++ [mean (lit "right"); raw c]) in E. cbn [app] in E. rewrite <- app_assoc in E. apply shown_cons in E as (w1 & B & E). apply shown_cons in E as (w2 & B2 & E).
      destruct (loose_items n l A ltac:(lia) O p w2 _ En E) as (w3 & R & E3). cbn [app] in E3. apply shown_cons in E3 as (w4 & B4 & E4). apply shown_cons in E4 as (k & B5 & Ek). exists k. split; [|exact Ek].
      eapply rh_fence; [apply leads_here; exact B|exact B2|exact R|exact B4|exact B5].
    + apply andb_true_iff in O as [O1 O2]. change (head_toks (HEnv e args l)) with (T_Begin e :: flat_map arg_toks args ++ flat_map item_toks l ++ [T_End e]) in E. cbn [app] in E. rewrite <- !app_assoc in E. apply shown_cons in E as (w1 & B & E).
      destruct (loose_args n [] args A ltac:(lia) (marked_nil args) O1 p w1 _ (proj1 (andb_prop _ _ En)) E) as (w2 & R2 & E2). destruct (loose_items n l A ltac:(lia) O2 p w2 _ (proj2 (andb_prop _ _ En)) E2) as (w3 & R & E3). cbn [app] in E3. apply shown_cons in E3 as (k & B4 & Ek). exists k. split; [|exact Ek].
      eapply rh_env; [apply leads_here; exact B|exact R2|exact R|exact B4].
  - intros [l|s|l|s|[h ms]|ms l] p w r L O En E; cbn [arg_size S_Reading.loose_arg S_Formula.arg_ended] in L, O, En; try discriminate O.
    + change (arg_toks (AGroup l)) with (T_GroupBegin :: flat_map item_toks l ++ [T_GroupEnd]) in E. cbn [app] in E. rewrite <- app_assoc in E. apply shown_cons in E as (w1 & B & E).
      destruct (loose_items n l A ltac:(lia) O p w1 _ En E) as (w2 & R & E2). cbn [app] in E2. apply shown_cons in E2 as (k & B2 & Ek). exists k. split; [|exact Ek]. eapply ra_group; [apply leads_here; exact B|exact R|exact B2].
    + change (arg_toks (ASym s)) with [raw s] in E. cbn [app] in E. apply shown_cons in E as (k & B & Ek). exists k. split; [|exact Ek]. apply ra_sym, leads_here; exact B.
    + change (arg_toks (ABracket l)) with (T_SquareBracketOpen :: flat_map item_toks l ++ [T_SquareBracketClose]) in E. cbn [app] in E. rewrite <- app_assoc in E. apply shown_cons in E as (w1 & B & E).
      destruct (loose_items n l A ltac:(lia) O p w1 _ En E) as (w2 & R & E2). cbn [app] in E2. apply shown_cons in E2 as (k & B2 & Ek). exists k. split; [|exact Ek]. eapply ra_bracket; [exact B|exact R|exact B2].
    + cbn [S_Reading.loose_item item_size S_Formula.item_ended] in O, L, En. apply andb_true_iff in O as [O1 O2]. apply andb_true_iff in En as [En Gr]. apply andb_true_iff in En as [En1 En2].
      change (arg_toks (AItem (Item h ms))) with (head_toks h ++ flat_map mark_toks ms) in E. rewrite <- app_assoc in E.
      destruct (Ih h false p w _ ltac:(lia) O1 En1 E) as (k1 & R1 & E1). destruct (loose_marks n ms A ltac:(lia) O2 p k1 _ En2 E1) as (k & R2 & E2). exists k. split; [|exact E2].
      eapply ra_item; [exact R1|exact R2|]. intros G. rewrite G in Gr. apply negb_true_iff in Gr. rewrite <- script_shown, E2. exact Gr.
    + apply andb_true_iff in O as [O1 O2]. apply andb_true_iff in En as [En E3]. apply andb_true_iff in En as [E1 E2]. apply negb_true_iff in E2.
      change (arg_toks (AScripts ms l)) with (T_GroupBegin :: flat_map mark_toks ms ++ flat_map item_toks l ++ [T_GroupEnd]) in E. cbn [app] in E. rewrite <- !app_assoc in E. apply shown_cons in E as (w1 & B & E).
      destruct (loose_marks n ms A ltac:(lia) O1 p w1 _ E1 E) as (w2 & R1 & F2). destruct (loose_items n l A ltac:(lia) O2 p w2 _ E3 F2) as (w3 & R2 & F3). cbn [app] in F3. apply shown_cons in F3 as (k & B2 & Ek). exists k. split; [|exact Ek].
      eapply ra_scripts; [exact B|exact R1|rewrite <- script_shown, F2; exact E2|exact R2|exact B2].
  - intros [a|a|ps sup|s] p w r L O En E; cbn [mark_size S_Reading.loose_mark S_Formula.mark_ended] in L, O, En.
    + change (mark_toks (FSub a)) with (T_Underscore :: arg_toks a) in E. cbn [app] in E. apply shown_cons in E as (w1 & B & E). destruct (Ia a p w1 r ltac:(lia) O En E) as (k & R & Ek). exists k. split; [|exact Ek]. eapply rm_sub; eassumption.
    + change (mark_toks (FSup a)) with (T_Circumflex :: arg_toks a) in E. cbn [app] in E. apply shown_cons in E as (w1 & B & E). destruct (Ia a p w1 r ltac:(lia) O En E) as (k & R & Ek). exists k. split; [|exact Ek]. eapply rm_sup; eassumption.
    + destruct ps as [|q [|? ?]]; try discriminate O. destruct sup; [discriminate|]. change (mark_toks (FPrimes [q] None)) with [raw q] in E. cbn [app] in E. apply shown_cons in E as (k & B & Ek). exists k. split; [|exact Ek]. now apply rm_primes.
    + change (mark_toks (FLimits s)) with [raw s] in E. cbn [app] in E. apply shown_cons in E as (k & B & Ek). exists k. split; [|exact Ek]. now apply rm_limits.
Qed.
(** The tokens of a formula with any blanks between them. *)
Lemma blanks_read l p w : forallb loose_item l = true -> formula_ended mean l = true -> shown w = flat_map item_toks l -> exists k, reads_items p w l p k /\ bare k = [].
Proof.
  intros O En E. rewrite <- (app_nil_r (flat_map item_toks l)) in E. destruct (loose_items (list_sum (map item_size l)) l (all_loose_all _) (Nat.lt_succ_diag_r _) O p w [] En E) as (k & R & Ek). exists k. split; [exact R|now apply shown_nil].
Qed.
End Blank.
