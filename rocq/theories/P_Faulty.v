(** Texts that are not formulas (C60). *)
From Verif Require Import Str M_SuperChar M_Transform M_Length M_Spec M_Ast M_Emit M_Output M_Token M_Symbols M_Commands M_Env
  M_LatexError M_Lexer M_CustomCmds M_Queue M_Spacing M_Leaf M_TextParser M_Parser M_Api
  S_Lexer S_Queue S_Scripts S_Formula S_Reading S_Faulty S_Api S_Convert L_FaultyLex P_Formula P_Reading.
Local Open Scope nat_scope.

(** A text that is no formula is rejected, with the kind of error that is due. *)
Theorem C60_rejected : forall cfg usize_max gs st input K, text_wrong cfg usize_max gs st input K ->
  exists F sp gs', forall f, F <= f -> parse_snippet cfg usize_max f gs input st = (Err (mkErr sp K), gs').
Proof. intros cfg um gs st input K (w & T & Kn & W). exact (snippet_of_wrong cfg um gs st input w K T Kn W). Qed.
Theorem C60_converted : forall cfg usize_max ec gs d input K, text_wrong cfg usize_max gs (display_style d) input K ->
  exists F sp gs', forall f, F <= f -> convert usize_max f ec cfg gs input d = (Err (mkErr sp K), gs').
Proof. intros cfg um ec gs d input K W. destruct (C60_rejected _ _ _ _ _ _ W) as (F & sp & gs' & H). exists F, sp, gs'. intros f L. unfold convert, parse. now rewrite (H f L). Qed.
(** So only one kind of error is due, and the text of a formula is none of these. *)
Theorem C60_one_kind : forall cfg usize_max gs st input K1 K2, text_wrong cfg usize_max gs st input K1 -> text_wrong cfg usize_max gs st input K2 -> K1 = K2.
Proof.
  intros cfg um gs st input K1 K2 H1 H2. destruct (C60_rejected _ _ _ _ _ _ H1) as (F1 & sp1 & gs1 & E1). destruct (C60_rejected _ _ _ _ _ _ H2) as (F2 & sp2 & gs2 & E2).
  specialize (E1 (Nat.max F1 F2) ltac:(lia)). rewrite (E2 (Nat.max F1 F2) ltac:(lia)) in E1. now injection E1.
Qed.
Theorem C60_no_formula : forall cfg usize_max gs st input K l r, text_wrong cfg usize_max gs st input K -> text_reads cfg gs input l -> reading_meaning cfg usize_max gs st l = Some r -> False.
Proof.
  intros cfg um gs st input K l r H1 H2 E. destruct (C60_rejected _ _ _ _ _ _ H1) as (F1 & sp1 & gs1 & E1). destruct (C56_parsed _ _ _ _ _ _ _ H2 E) as (F2 & E2).
  specialize (E1 (Nat.max F1 F2) ltac:(lia)). rewrite (E2 (Nat.max F1 F2) ltac:(lia)) in E1. discriminate E1.
Qed.

(** Several of them. *)
Example C60_nonvacuous :
  let cfg := macro_cfg [("half", "\frac1")]%string in
  let wrong (i : string) K := text_wrong cfg 1000 gs_default StText (lit i) K /\ exists sp gs', parse_snippet cfg 1000 200 gs_default (lit i) StText = (Err (mkErr sp K), gs') in
  wrong "{x"%string (E_UnclosedGroup EtGroupClose) /\ wrong "x}"%string (E_UnmatchedClose EtGroupClose) /\ wrong "\left(x"%string (E_UnclosedGroup EtRight) /\ wrong "x\right)"%string (E_UnmatchedClose EtRight) /\
  wrong "x^"%string E_ExpectedArgumentGotEOI /\ wrong "x^_1"%string E_BoundFollowedByBound /\ wrong "x_1 _1"%string E_DuplicateSubOrSup /\ wrong "\frac 1"%string E_ExpectedArgumentGotEOI /\ wrong "{\half}"%string E_ExpectedArgumentGotClose.
Proof.
  cbv zeta. repeat (split; [split; [|eexists _, _; vm_compute; reflexivity]|]); [..|split; [|eexists _, _; vm_compute; reflexivity]].
  - text. tok. apply wt_group; [reflexivity|]. item sym_x. eapply ws_unclosed; [reflexivity|discriminate|reflexivity].
  - text. item sym_x. tok. misplaced.
  - text. tok. apply wt_fenced; [reflexivity|reflexivity|]. item sym_x. eapply ws_unclosed; [reflexivity|discriminate|reflexivity].
  - text. item sym_x. tok. misplaced.
  - text. atom sym_x. apply wm_script; [now right|]. apply wc_none; reflexivity.
  - text. atom sym_x. apply wm_script; [now right|]. apply wc_sign; reflexivity.
  - text. atom sym_x. eapply wm_later with (m := FSub (ASym sym_1)); [eapply rm_sub; [reflexivity|arg sym_1]|reflexivity|vm_compute; reflexivity|reflexivity|reflexivity|].
    eapply wm_twice with (m := FSub (ASym sym_1)); [eapply rm_sub; [reflexivity|arg sym_1]|reflexivity|vm_compute; reflexivity|reflexivity|reflexivity].
  - text. tok. eapply wt_args; [reflexivity|discriminate|]. eapply wa_later with (g := ASym sym_1); [reflexivity|arg sym_1|vm_compute; reflexivity|]. apply wa_here. misplaced.
  - text. tok. apply wt_group; [reflexivity|]. tok. eapply wt_macro with (args := []); [reflexivity|vm_compute; reflexivity|split; [lia|split; repeat constructor]|apply grabs_none|reflexivity|right; repeat constructor|].
    eapply wt_args; [vm_compute; reflexivity|intros H; vm_compute in H; discriminate H|]. eapply wa_later with (g := ASym sym_1); [reflexivity|arg sym_1|vm_compute; reflexivity|]. apply wa_here. misplaced.
Qed.
Example C60_tables_nonvacuous :
  let cfg := plain_cfg in
  let wrong (i : string) K := text_wrong cfg 1000 gs_default StDisplay (lit i) K /\ exists sp gs', parse_snippet cfg 1000 200 gs_default (lit i) StDisplay = (Err (mkErr sp K), gs') in
  wrong "\begin{matrix}x\end{pmatrix}"%string (E_MismatchedEnvironment EMatrix EPMatrix) /\ wrong "\begin{matrix}x&x"%string (E_UnclosedGroup EtEnd) /\ wrong "x&x"%string (E_CannotBeUsedHere LtAmpersand TableEnv) /\
  wrong "\hline x"%string (E_CannotBeUsedHere LtHLine ArrayRowStart) /\ wrong "x\tag{1}"%string (E_CannotBeUsedHere LtTag NumberedEnv) /\ wrong "\begin{align}\label{1}x\label{1}\end{align}"%string E_MoreThanOneLabel /\
  wrong "\begin{array}{z}x\end{array}"%string (E_ExpectedColSpec (lit "z")) /\ wrong "\sqrt\begin{matrix}x\end{matrix}"%string E_CannotBeUsedAsArgument.
Proof.
  cbv zeta. repeat (split; [split; [|eexists _, _; vm_compute; reflexivity]|]); [..|split; [|eexists _, _; vm_compute; reflexivity]].
  - text. tok. eapply wt_env_end with (l := [Item (HSym sym_x []) []]); [reflexivity|reflexivity|vm_compute; reflexivity|reflexivity|eapply ri_cons; [one sym_x|apply rms_nil|apply ri_nil]|vm_compute; reflexivity|reflexivity|discriminate|reflexivity].
  - text. tok. eapply wt_env_in; [reflexivity|reflexivity|vm_compute; reflexivity|reflexivity|]. item sym_x. apply ws_column; [reflexivity|reflexivity|reflexivity|]. item sym_x. eapply ws_unclosed; [reflexivity|discriminate|reflexivity].
  - text. item sym_x. tok. misplaced.
  - text. tok. misplaced.
  - text. item sym_x. eapply ws_tag_wrong with (t := lit "1"); [reflexivity|split; [|vm_compute; reflexivity]; reflexivity|reflexivity|reflexivity].
  - text. tok. eapply wt_env_in; [reflexivity|reflexivity|vm_compute; reflexivity|reflexivity|]. eapply ws_label with (t := lit "1"); [reflexivity|split; [|vm_compute; reflexivity]; reflexivity|vm_compute; reflexivity|]. item sym_x.
    eapply ws_label_twice with (t := lit "1"); [reflexivity|split; [|vm_compute; reflexivity]; reflexivity|reflexivity|reflexivity|reflexivity].
  - text. tok. eapply wt_columns with (t := lit "z"); [reflexivity|reflexivity|split; [|vm_compute; reflexivity]; reflexivity|reflexivity|reflexivity].
  - text. tok. eapply wt_args; [reflexivity|intros _; discriminate|]. apply wa_here. eapply wt_env_arg; [reflexivity|reflexivity|vm_compute; reflexivity|reflexivity|reflexivity].
Qed.
Example C60_others_nonvacuous :
  let cfg := plain_cfg in
  let wrong (i : string) K := text_wrong cfg 1000 gs_default StDisplay (lit i) K /\ exists sp gs', parse_snippet cfg 1000 200 gs_default (lit i) StDisplay = (Err (mkErr sp K), gs') in
  wrong "x\limits"%string (E_CannotBeUsedHere LtLimits AfterBigOp) /\ wrong "\hspace{1}"%string (E_ExpectedLength (lit "1")) /\ wrong "\mspace{1em}"%string (E_IllegalUnit (lit "em") true) /\ wrong "\color{x}x"%string (E_UnknownColor (lit "x")) /\
  wrong "x\over x\over x"%string E_MoreThanOneInfixCmd /\ wrong "\big x"%string (E_ExpectedDelimiter DmBig) /\ wrong "\left x"%string (E_ExpectedDelimiter DmLeft) /\ wrong "\sqrt\displaystyle x"%string E_CannotBeUsedAsArgument /\
  wrong "\sqrt[x"%string (E_UnclosedGroup EtSquareBracketClose) /\ wrong "\not{xx}"%string E_ExpectedRelation /\ wrong "\sum_"%string E_ExpectedArgumentGotEOI.
Proof.
  cbv zeta. repeat (split; [split; [|eexists _, _; vm_compute; reflexivity]|]); [..|split; [|eexists _, _; vm_compute; reflexivity]].
  - text. eapply ws_limits with (h := HSym sym_x []) (ms := [FLimits (SName (lit "limits"))]); [reflexivity|one sym_x|exact Logic.I|exact Logic.I|vm_compute; reflexivity|eapply rms_cons; [apply rm_limits; vm_compute; reflexivity|apply rms_nil]|reflexivity|vm_compute; reflexivity|vm_compute; reflexivity|reflexivity].
  - text. tok. eapply wt_length with (t := lit "1"); [reflexivity|split; [|vm_compute; reflexivity]; reflexivity|vm_compute; reflexivity|reflexivity].
  - text. tok. eapply wt_unit with (t := lit "1em"); [reflexivity|split; [|vm_compute; reflexivity]; reflexivity|vm_compute; reflexivity|reflexivity|reflexivity].
  - text. tok. eapply wt_color with (t := lit "x"); [reflexivity|split; [|vm_compute; reflexivity]; reflexivity|vm_compute; reflexivity|reflexivity].
  - text. item sym_x. eapply ws_over; [reflexivity|]. item sym_x. eapply ws_over_twice; reflexivity.
  - text. tok. eapply wt_big; reflexivity.
  - text. tok. eapply wt_left; reflexivity.
  - text. tok. eapply wt_args; [reflexivity|intros _; discriminate|]. apply wa_here. misplaced.
  - text. tok. eapply wt_option; [reflexivity|reflexivity|]. item sym_x. eapply ws_unclosed; [reflexivity|discriminate|reflexivity].
  - text. tok. eapply wt_overlay with (g := AGroup [Item (HSym sym_x []) []; Item (HSym sym_x []) []]); [reflexivity|eapply ra_group; [apply leads_here; reflexivity|eapply ri_cons; [one sym_x|apply rms_nil|eapply ri_cons; [one sym_x|apply rms_nil|apply ri_nil]]|reflexivity]|vm_compute; reflexivity|reflexivity|reflexivity].
  - text. tok. apply wt_operator; [reflexivity|]. apply wm_script; [now left|]. apply wc_none; reflexivity.
Qed.

Print Assumptions C60_rejected.
Print Assumptions C60_converted.
Print Assumptions C60_one_kind.
Print Assumptions C60_no_formula.
