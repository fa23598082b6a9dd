(** Definitions at the front of a text (C64). *)
From Verif Require Import Str M_SuperChar M_Transform M_Length M_Spec M_Ast M_Emit M_Output M_Token M_Symbols M_Commands M_Env
  M_LatexError M_Lexer M_CustomCmds M_Queue M_Spacing M_Leaf M_TextParser M_Parser M_Api
  S_Lexer S_Queue S_Store S_Scripts S_Formula S_Reading S_Api S_Preamble L_Preamble.
Local Open Scope nat_scope.

(** A text that begins with definitions and goes on with a formula has the meaning of the formula with the definitions. *)
Theorem C64_parsed : forall cfg usize_max gs st input ds s l r, prepared_reads cfg gs input ds s l -> prepared_meaning cfg usize_max gs st s l = Some r ->
  exists F, forall f, F <= f -> parse_snippet cfg usize_max f gs input st = (Ok (fst r), snd r).
Proof. exact snippet_of_prepared. Qed.
Theorem C64_converted : forall cfg usize_max ec gs d input ds s l r, prepared_reads cfg gs input ds s l ->
  prepared_meaning cfg usize_max gs (display_style d) s l = Some r ->
  exists F, forall f, F <= f ->
    convert usize_max f ec cfg gs input d = (Ok (emit_document ec (label_lookup (gs_labels (snd r))) (fst r) input d), snd r).
Proof. intros cfg um ec gs d input ds s l r R E. destruct (C64_parsed cfg um gs _ input ds s l r R E) as (F & H). exists F. intros f L. unfold convert, parse. now rewrite (H f L). Qed.
(** With a definition its name means its body, other names mean what they meant, and all bodies stay as they are. A
    body that is typed has no references to local macros, and then the definition can be stored. *)
Theorem C64_defined : forall cfg d s, (for_document cfg d = true -> Forall no_local_ref (df_body d)) ->
  exists s', stored cfg d s = Some s' /\ with_definition cfg d s s'.
Proof. intros cfg d s F. pose proof (plain_stored cfg d s F) as E. eexists. split; [exact E|]. now apply definition_means. Qed.
(** The definitions for the document are there for the next snippet. *)
Theorem C64_kept : forall cfg usize_max gs st input ds s l r, prepared_reads cfg gs input ds s l -> prepared_meaning cfg usize_max gs st s l = Some r ->
  Forall (fun d => for_document cfg d = true) ds ->
  (forall n, name_meaning cfg (snd r) n = stores_meaning cfg s n) /\
  (forall src start stop, macro_source cfg (snd r) src start stop = stores_source cfg s src start stop).
Proof.
  intros cfg um gs st input ds s l r (u & u' & n & k & _ & P & _) E F. pose proof (retained cfg _ _ _ _ _ P F eq_refl) as H. unfold prepared_meaning in E.
  destruct (den _ _ _ _ _) as [[ns d]|]; [|discriminate]. injection E as <-. destruct s as [local document]. cbn [fst] in H. subst local. split; reflexivity.
Qed.
(** The others are forgotten at the end of the text. *)
Theorem C64_forgotten : forall cfg usize_max gs st input ds s l r, prepared_reads cfg gs input ds s l -> prepared_meaning cfg usize_max gs st s l = Some r ->
  Forall (fun d => for_document cfg d = false) ds -> gs_cmds (snd r) = gs_cmds gs.
Proof.
  intros cfg um gs st input ds s l r (u & u' & n & k & _ & P & _) E F. pose proof (forgotten cfg _ _ _ _ _ P F) as H. unfold prepared_meaning in E.
  destruct (den _ _ _ _ _) as [[ns d]|]; [|discriminate]. injection E as <-. exact H.
Qed.

(** [\half] is defined and used. *)
Example C64_nonvacuous :
  let cfg := plain_cfg in
  let input := lit " \newcommand {\half} [1]{\frac{1}{#1}} a + \half x" in
  let d := mkDefn (lit "half") 1 [RName (lit "frac"); RTok T_GroupBegin; RTok (T_Digit 49); RTok T_GroupEnd; RTok T_GroupBegin; RTok (T_CustomCmdArg 0); RTok T_GroupEnd] (Some ClDefault) false false in
  let l := [i1 "a"; i1 "+"; i2 "frac" [AGroup [num "1"]; AGroup [i1 "x"]]] in
  exists s, prepared_reads cfg gs_default input [d] s l /\
    option_map (fun r => (length (fst r), snd r)) (prepared_meaning cfg 1000 gs_default StText s l) = Some (3, gs_default) /\
    fst (parse_snippet cfg 1000 200 gs_default input StText) = fst (parse_snippet cfg 1000 200 gs_default (formula_text l) StText) /\
    for_document cfg d = false.
Proof.
  cbv zeta. eexists. split.
  { eexists _, _, _, _. split; [vm_compute; reflexivity|]. split; [|split; [|split]].
  - eapply pr_defined; [| |apply pr_end].
    + eapply (new_command _ DmNew); [vm_compute; reflexivity|vm_compute; reflexivity|eapply named_braced; vm_compute; reflexivity|eapply (numbered_some _ _ _ _ 49%N); vm_compute; reflexivity|read_group|vm_compute; reflexivity|vm_compute; reflexivity].
    + vm_compute. reflexivity.
  - right. vm_compute. repeat constructor.
  - eapply ri_cons; [eapply rh_sym; [apply leads_here; vm_compute; reflexivity|apply ras_nil]|apply rms_nil|].
    eapply ri_cons; [eapply rh_sym; [apply leads_here; vm_compute; reflexivity|apply ras_nil]|apply rms_nil|].
    eapply ri_cons; [eapply rh_sym; [|]|apply rms_nil|apply ri_nil].
    + eapply leads_use with (args := [[T_Letter 120%N MMathOrText]]);
        [vm_compute; reflexivity|vm_compute; reflexivity|split; [vm_compute; lia|split; vm_compute; repeat constructor]| |reflexivity|right; vm_compute; repeat constructor|vm_compute; reflexivity|reflexivity|apply leads_here; vm_compute; reflexivity].
      eapply grabs_more; [|apply grabs_none]. apply (grabs_token _ (T_Letter 120%N MMathOrText)); [vm_compute; reflexivity|discriminate..].
    + eapply ras_cons; [|eapply ras_cons; [|apply ras_nil]].
      * eapply ra_group; [apply leads_here; vm_compute; reflexivity|eapply ri_cons; [eapply rh_num; [apply leads_here; vm_compute; reflexivity|reflexivity]|apply rms_nil|apply ri_nil]|vm_compute; reflexivity].
      * eapply ra_group; [apply leads_here; vm_compute; reflexivity|eapply ri_cons; [eapply rh_sym; [apply leads_here; vm_compute; reflexivity|apply ras_nil]|apply rms_nil|apply ri_nil]|vm_compute; reflexivity].
  - vm_compute. reflexivity. }
  vm_compute. repeat split.
Qed.
(** A definition for the document, one that is not made because there is one, and one by [\let]. *)
Example C64_global_nonvacuous :
  let cfg := plain_cfg in
  let input := lit "\gdef\a{\alpha}\providecommand\a{x}\global\let\b=\beta\a\b" in
  let ds := [mkDefn (lit "a") 0 [RName (lit "alpha")] (Some ClDefault) true true; mkDefn (lit "b") 0 [RTok (stores_meaning cfg (cmds_empty, cmds_empty) (lit "beta"))] (Some ClDefault) true true] in
  let l := [i1 "alpha"; i1 "beta"] in
  exists s, prepared_reads cfg gs_default input ds s l /\ Forall (fun d => for_document cfg d = true) ds /\
    (forall r, prepared_meaning cfg 1000 gs_default StText s l = Some r ->
      fst (parse_snippet cfg 1000 200 (snd r) (lit "\a\b") StText) = fst (parse_snippet cfg 1000 200 gs_default (formula_text l) StText) /\
      parse_snippet cfg 1000 200 gs_default input StText = (Ok (fst r), snd r)).
Proof.
  cbv zeta. eexists. split.
  { eexists _, _, _, _. split; [vm_compute; reflexivity|]. split; [|split; [|split]].
  - eapply pr_defined; [|vm_compute; reflexivity|eapply pr_provided; [|eapply pr_defined; [|vm_compute; reflexivity|apply pr_end]]].
    + eapply (begins_def _ true); [vm_compute; reflexivity|vm_compute; reflexivity|]. eapply (as_def _ _ _ _ _ _ 0); [vm_compute; reflexivity|vm_compute; reflexivity|vm_compute; reflexivity|read_group].
    + eexists _, _, _, _, _, _, _, _. split; [vm_compute; reflexivity|]. split; [vm_compute; reflexivity|]. split; [eapply named_bare; [vm_compute; reflexivity|vm_compute; discriminate]|]. split; [apply numbered_none; vm_compute; discriminate|]. split; [read_group|vm_compute; reflexivity].
    + eapply begins_global; [vm_compute; reflexivity|vm_compute; reflexivity|]. eapply ag_here; [vm_compute; reflexivity|]. eapply as_let; [vm_compute; reflexivity|]. eexists _, _. split; [vm_compute; reflexivity|]. split; [vm_compute; reflexivity|]. split; [vm_compute; reflexivity|vm_compute; discriminate].
  - right. vm_compute. repeat constructor.
  - eapply ri_cons; [eapply rh_sym; [|apply ras_nil]|apply rms_nil|eapply ri_cons; [eapply rh_sym; [|apply ras_nil]|apply rms_nil|apply ri_nil]].
    all: eapply leads_use with (args := []); [vm_compute; reflexivity|vm_compute; reflexivity|split; [vm_compute; lia|split; vm_compute; repeat constructor]|apply grabs_none|reflexivity|right; vm_compute; repeat constructor|vm_compute; reflexivity|reflexivity|apply leads_here; vm_compute; reflexivity].
  - vm_compute. reflexivity. }
  split; [repeat constructor|]. intros r E. vm_compute in E. injection E as <-. vm_compute. split; reflexivity.
Qed.

Print Assumptions C64_parsed.
Print Assumptions C64_converted.
Print Assumptions C64_defined.
Print Assumptions C64_kept.
Print Assumptions C64_forgotten.
