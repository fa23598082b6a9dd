(** Texts with blanks and macros that read as a formula (C56). *)
From Verif Require Import Str M_SuperChar M_Transform M_Length M_Spec M_Ast M_Emit M_Output M_Token M_Symbols M_Commands M_Env
  M_LatexError M_Lexer M_CustomCmds M_Queue M_Spacing M_Leaf M_TextParser M_Parser M_Api
  S_Lexer S_Queue S_Scripts S_Formula S_Reading S_Api S_Convert L_Wins L_Expand L_FormLex L_Blank P_Formula.
Local Open Scope nat_scope.

(** A text that reads as a formula is parsed to the meaning of the formula, whatever its blanks and its macros are. *)
Theorem C56_parsed : forall cfg usize_max gs st input l r, text_reads cfg gs input l -> reading_meaning cfg usize_max gs st l = Some r ->
  exists F, forall f, F <= f -> parse_snippet cfg usize_max f gs input st = (Ok (fst r), snd r).
Proof.
  intros cfg um gs st input l r (w & n & k & T & Kn & Rd & Bk) E. unfold reading_meaning in E. destruct (den _ _ _ _ _) as [[ns d]|] eqn:D; [|discriminate]. injection E as <-.
  exact (snippet_of_reading cfg um gs st input w _ l n k ns d T Kn (le_n _) Rd Bk D).
Qed.
(** So texts that read as the same formula give the same tree, and their markup differs only in the annotation with the text. *)
Theorem C56_same : forall cfg usize_max gs st i1 i2 l r, text_reads cfg gs i1 l -> text_reads cfg gs i2 l -> reading_meaning cfg usize_max gs st l = Some r ->
  exists F, forall f, F <= f -> parse_snippet cfg usize_max f gs i1 st = parse_snippet cfg usize_max f gs i2 st.
Proof.
  intros cfg um gs st i1 i2 l r R1 R2 E. destruct (C56_parsed _ _ _ _ _ _ _ R1 E) as (F1 & H1). destruct (C56_parsed _ _ _ _ _ _ _ R2 E) as (F2 & H2). exists (Nat.max F1 F2). intros f L. rewrite H1, H2 by lia. reflexivity.
Qed.
Theorem C56_converted : forall cfg usize_max ec gs d input l r, text_reads cfg gs input l -> reading_meaning cfg usize_max gs (display_style d) l = Some r ->
  exists F, forall f, F <= f ->
    convert usize_max f ec cfg gs input d = (Ok (emit_document ec (label_lookup (gs_labels (snd r))) (fst r) input d), snd r).
Proof. intros cfg um ec gs d input l r R E. destruct (C56_parsed cfg um gs _ input l r R E) as (F & H). exists F. intros f L. unfold convert, parse. now rewrite (H f L). Qed.
(** The text of a formula reads as the formula. *)
Theorem C56_itself : forall cfg usize_max gs st l r, formula_ok l = true -> snippet_meaning cfg usize_max gs st l = Some r ->
  text_reads cfg gs (formula_text l) l /\ reading_meaning cfg usize_max gs st l = Some r.
Proof.
  intros cfg um gs st l r O E. unfold snippet_meaning in E. destruct ((_ || _) && _) eqn:Kn; [|discriminate]. apply andb_true_iff in Kn as [Kn En]. split; [|exact E]. apply orb_true_iff in Kn. rewrite forallb_forall, <- Forall_forall in Kn.
  exists (flat_map (item_toks (name_meaning cfg gs)) l), (pc_max_expansions cfg), []. split; [now apply formula_tokens|]. split; [exact Kn|]. split; [|reflexivity].
  pose proof (reads_self cfg cmds_empty (gs_cmds gs) l (pc_max_expansions cfg) [] O En) as H. rewrite app_nil_r in H. exact H.
Qed.
(** A text whose tokens are those of a formula and blanks reads as the formula, if no argument is taken as it stands. *)
Theorem C56_blanks : forall cfg gs input l w, forallb (loose_item (name_meaning cfg gs)) l = true -> formula_ended (name_meaning cfg gs) l = true ->
  text_tokens (name_meaning cfg gs) input = Some w -> filter solid w = flat_map (item_toks (name_meaning cfg gs)) l ->
  (pc_ignore_unknown cfg = true \/ Forall (fun t => known t = true) w) -> text_reads cfg gs input l.
Proof.
  intros cfg gs input l w O En T E Kn. destruct (blanks_read (name_meaning cfg gs) (macro_source cfg gs) (pc_ignore_unknown cfg) l (pc_max_expansions cfg) w O En E) as (k & R & B). exists w, (pc_max_expansions cfg), k. auto.
Qed.
(** A macro stands for its body, with the arguments put in: if what it stands for reads as a formula then the text with
    the macro does, provided that the macro shows the spacing class of what it stands for and the formula begins with
    a symbol, a number, a group, a fence or an environment, but not with a command that leaves nothing behind. *)
Theorem C56_macro : forall mean body_of ignore n w u r m body args r' t h ms l n' k,
  bare w = u :: r -> macro_def body_of (unwrap_math u) = Some (m, body) -> body_ok m body -> grabs_all r args r' -> length args = m ->
  (ignore = true \/ Forall (fun t => known t = true) (unfolded mean args body)) ->
  find_map token_class w = find_map token_class (unfolded mean args body ++ r') ->
  hd_error (head_toks mean h) = Some t -> acts t = true -> (forall l, h <> HWord l) ->
  reads_items mean body_of ignore n (unfolded mean args body ++ r') (Item h ms :: l) n' k ->
  reads_items mean body_of ignore (S n) w (Item h ms :: l) n' k.
Proof.
  intros mean body_of ignore n w u r m body args r' t h ms l n' k B M O G L Kn C T A Nw R. inversion R as [|? ? ? n1 w1 ? n2 w2 ? ? ? Rh Rm Rl]; subst. eapply ri_cons; [|exact Rm|exact Rl].
  assert (Use : forall t' p w', t' = t -> leads mean body_of ignore true n (unfolded mean args body ++ r') p t' w' -> leads mean body_of ignore true (S n) w p t' w').
  { intros t' p w' -> Ld. eapply leads_use; [exact B|exact M|exact O|exact G|reflexivity|exact Kn|exact C|exact A|exact Ld]. }
  inversion Rh; subst; cbn [head_toks map app hd_error] in T; try injection T as T; try (now destruct (Nw l0)).
  - eapply rh_sym; [apply Use; [exact T|eassumption]|assumption].
  - eapply rh_num; [apply Use; [exact T|eassumption]|assumption].
  - eapply rh_group; [apply Use; [exact T|eassumption]|eassumption|assumption].
  - eapply rh_fence; [apply Use; [exact T|eassumption]|eassumption|eassumption|eassumption|assumption].
  - eapply rh_env; [apply Use; [exact T|eassumption]|eassumption|eassumption|assumption].
Qed.
(** [\dots] reads as three dots, which are centered before a relation or a binary operator. *)
Theorem C56_dots : forall mean body_of ignore n w u r l n' k, bare w = u :: r -> unwrap_math u = T_Dots -> reads_items mean body_of ignore n r l n' k ->
  reads_items mean body_of ignore n w (dots_items (centered r) ++ l) n' k.
Proof.
  intros mean body_of ignore n w u r l n' k B Eu R.
  assert (St : forall t w1 l1, is_ws t = false -> as_is (unwrap_math t) [] = [] -> reads_items mean body_of ignore n w1 l1 n' k -> reads_items mean body_of ignore n (t :: w1) (Item (HSym (STok t) []) [] :: l1) n' k).
  { intros t w1 l1 W Ea R1. eapply ri_cons; [eapply rh_sym; [apply leads_here; cbn; destruct t; reflexivity || discriminate W|apply ras_nil]|apply rms_nil|exact R1]. }
  pose proof (leads_dots mean body_of ignore true n w u r B Eu (or_introl eq_refl)) as D. unfold dots_items. destruct (centered r); cbn [map tl app] in *.
  - eapply ri_cons; [eapply rh_sym; [exact D|apply ras_nil]|apply rms_nil|]. apply St; [reflexivity|reflexivity|]. apply St; [reflexivity|reflexivity|exact R].
  - eapply ri_cons; [eapply rh_sym; [exact D|apply ras_nil]|apply rms_nil|]. apply St; [reflexivity|reflexivity|]. apply St; [reflexivity|reflexivity|exact R].
Qed.
Example C56_dots_nonvacuous :
  let cfg := plain_cfg in
  let nodes i := fst (parse_snippet cfg 1000 200 gs_default (lit i) StText) in
  text_reads cfg gs_default (lit "a,\dots,b") ([i1 "a"; i1 ","] ++ dots_items false ++ [i1 ","; i1 "b"]) /\
  text_reads cfg gs_default (lit "a+\dots+b") ([i1 "a"; i1 "+"] ++ dots_items true ++ [i1 "+"; i1 "b"]) /\
  (exists ns, nodes "a+\dots+b"%string = Ok ns /\ length ns = 7) /\ nodes "a+\dots+b"%string <> nodes "a+\ldots+b"%string.
Proof.
  cbv zeta. split; [|split]; [| |vm_compute; split; [eexists; split; reflexivity|discriminate]].
  all: eexists _, _, _; split; [vm_compute; reflexivity|]; split; [right; repeat constructor|]; split; [|].
  all: try (cbn [app]; eapply ri_cons; [eapply rh_sym; [apply leads_here; vm_compute; reflexivity|apply ras_nil]|apply rms_nil|]; eapply ri_cons; [eapply rh_sym; [apply leads_here; vm_compute; reflexivity|apply ras_nil]|apply rms_nil|]).
  1: match goal with |- reads_items ?m ?b ?i ?n ?w _ _ _ => refine (C56_dots m b i n w _ _ [i1 ","; i1 "b"] _ _ eq_refl eq_refl _) end.
  3: match goal with |- reads_items ?m ?b ?i ?n ?w _ _ _ => refine (C56_dots m b i n w _ _ [i1 "+"; i1 "b"] _ _ eq_refl eq_refl _) end.
  1,3: eapply ri_cons; [eapply rh_sym; [apply leads_here; vm_compute; reflexivity|apply ras_nil]|apply rms_nil|]; eapply ri_cons; [eapply rh_sym; [apply leads_here; vm_compute; reflexivity|apply ras_nil]|apply rms_nil|apply ri_nil].
  all: reflexivity.
Qed.
(** An argument without braces is only the beginning of what a macro, or [\dots], stands for. *)
Theorem C56_argument_refuted : exists macros i1 i2,
  let nodes i := fst (parse_snippet (macro_cfg macros) 1000 200 gs_default (lit i) StText) in
  (exists name, i1 = String.append "\sqrt" name /\ i2 = String.append "\sqrt{" (String.append name "}") /\ is_ok (nodes i1) = true /\ is_ok (nodes i2) = true) /\ nodes i1 <> nodes i2.
Proof. exists [("ab", "ab")]%string, "\sqrt\ab"%string, "\sqrt{\ab}"%string. cbv zeta. split; [exists "\ab"%string; vm_compute; repeat split|vm_compute; discriminate]. Qed.
(** Without these conditions a macro can give another tree than what it stands for: a command that leaves nothing
    behind is not accepted at the beginning of a macro; scripts at the beginning are not those of the atom before it;
    for the spacing before it, a macro that begins with its argument does not count as the argument; digits are not
    joined with a number before it; and an empty macro is an empty row. *)
Theorem C56_switch_refuted : opaque [("nn", "\nonumber")]%string "\begin{align}x\nn\end{align}" "\begin{align}x\nonumber\end{align}".
Proof.
  split; [|vm_compute; repeat split; try discriminate; eexists; reflexivity]. eexists _, _. split; [vm_compute; reflexivity|]. split; [vm_compute; reflexivity|].
  exists [T_Begin EAlign; char_token 120]. eexists _, _, _, _, [], _. split; [reflexivity|]. split; [reflexivity|]. split; [repeat (constructor; [vm_compute; try lia; try reflexivity|]); repeat constructor|]. split; [constructor|]. split; reflexivity.
Qed.
Theorem C56_script_refuted : opaque [("p", "^2")]%string "x\p" "x^2".
Proof.
  split; [|vm_compute; repeat split; try discriminate; eexists; reflexivity]. eexists _, _. split; [vm_compute; reflexivity|]. split; [vm_compute; reflexivity|].
  exists [char_token 120]. eexists _, _, _, _, [], _. split; [reflexivity|]. split; [reflexivity|]. split; [repeat (constructor; [vm_compute; try lia; try reflexivity|]); repeat constructor|]. split; [constructor|]. split; reflexivity.
Qed.
Theorem C56_class_refuted : opaque [("f", "#1")]%string "a-\f{=}b" "a-=b".
Proof.
  split; [|vm_compute; repeat split; try discriminate; eexists; reflexivity]. eexists _, _. split; [vm_compute; reflexivity|]. split; [vm_compute; reflexivity|].
  exists [char_token 97; char_token 45]. eexists _, _, _, _, [[char_token 61]], _. split; [reflexivity|]. split; [reflexivity|]. split; [repeat (constructor; [vm_compute; try lia; try reflexivity|]); repeat constructor|].
  split; [|split; reflexivity]. eapply grabs_more; [|constructor]. now apply grabs_group.
Qed.
Theorem C56_digits_refuted : opaque [("two", "2")]%string "1\two" "12".
Proof.
  split; [|vm_compute; repeat split; try discriminate; eexists; reflexivity]. eexists _, _. split; [vm_compute; reflexivity|]. split; [vm_compute; reflexivity|].
  exists [char_token 49]. eexists _, _, _, _, [], _. split; [reflexivity|]. split; [reflexivity|]. split; [repeat (constructor; [vm_compute; try lia; try reflexivity|]); repeat constructor|]. split; [constructor|]. split; reflexivity.
Qed.
Theorem C56_empty_refuted : opaque [("e", "")]%string "(\e-x" "(\relax-x".
Proof.
  split; [|vm_compute; repeat split; try discriminate; eexists; reflexivity]. eexists _, _. split; [vm_compute; reflexivity|]. split; [vm_compute; reflexivity|].
  exists [char_token 40]. eexists _, _, _, _, [], _. split; [reflexivity|]. split; [reflexivity|]. split; [repeat (constructor; [vm_compute; try lia; try reflexivity|]); repeat constructor|]. split; [constructor|]. split; reflexivity.
Qed.
(** A macro with an argument in which there is another macro, and blanks. *)
Example C56_nonvacuous :
  let cfg := macro_cfg [("half", "\frac{1}{#1}"); ("two", "2")]%string in
  let l := [i1 "a"; i1 "+"; i2 "frac" [AGroup [num "1"]; AGroup [num "2"]]] in
  let l2 := [i1 "a"; i1 "+"; i2 "sqrt" [ABracket [i1 "n"]; AGroup [i1 "x"]]] in
  let t2 := lit " a + \sqrt [ n ] { x } " in
  text_reads cfg gs_default (lit "a + \half{\two} ") l /\ formula_text l = lit "a+\frac {1}{2}" /\
  option_map (fun r => (length (fst r), snd r)) (reading_meaning cfg 1000 gs_default StText l) = Some (3, gs_default) /\
  parse_snippet cfg 1000 100 gs_default (lit "a + \half{\two} ") StText = parse_snippet cfg 1000 100 gs_default (formula_text l) StText /\
  (* only blanks *)
  forallb (loose_item (name_meaning cfg gs_default)) l2 = true /\
  option_map (filter solid) (text_tokens (name_meaning cfg gs_default) t2) = Some (flat_map (item_toks (name_meaning cfg gs_default)) l2) /\
  option_map (@length _) (text_tokens (name_meaning cfg gs_default) t2) = Some 18.
Proof.
  cbv zeta. split; [|vm_compute; repeat split; reflexivity].
  eexists _, _, _. split; [vm_compute; reflexivity|]. split; [right; repeat constructor|]. split.
  - eapply ri_cons; [eapply rh_sym; [apply leads_here; vm_compute; reflexivity|apply ras_nil]|apply rms_nil|].
    eapply ri_cons; [eapply rh_sym; [apply leads_here; vm_compute; reflexivity|apply ras_nil]|apply rms_nil|].
    eapply ri_cons; [eapply rh_sym; [|]|apply rms_nil|apply ri_nil].
    + eapply leads_use with (args := [[name_meaning (macro_cfg [("half", "\frac{1}{#1}"); ("two", "2")]%string) gs_default (lit "two")]]);
        [vm_compute; reflexivity|vm_compute; reflexivity|split; [vm_compute; lia|split; vm_compute; repeat constructor]| |reflexivity|right; vm_compute; repeat constructor|vm_compute; reflexivity|reflexivity|apply leads_here; vm_compute; reflexivity].
      eapply grabs_more; [eapply grabs_group; [vm_compute; reflexivity|vm_compute; reflexivity]|apply grabs_none].
    + eapply ras_cons; [|eapply ras_cons; [|apply ras_nil]].
      * eapply ra_group; [apply leads_here; vm_compute; reflexivity|eapply ri_cons; [eapply rh_num; [apply leads_here; vm_compute; reflexivity|reflexivity]|apply rms_nil|apply ri_nil]|vm_compute; reflexivity].
      * eapply ra_group; [apply leads_here; vm_compute; reflexivity| |].
        -- eapply ri_cons; [eapply rh_num; [|reflexivity]|apply rms_nil|apply ri_nil].
           eapply leads_use with (args := []); [vm_compute; reflexivity|vm_compute; reflexivity|split; [vm_compute; lia|split; vm_compute; repeat constructor]|apply grabs_none|reflexivity|right; vm_compute; repeat constructor|vm_compute; reflexivity|reflexivity|apply leads_here; vm_compute; reflexivity].
        -- vm_compute. reflexivity.
  - vm_compute. reflexivity.
Qed.
Print Assumptions C56_parsed.
Print Assumptions C56_same.
Print Assumptions C56_converted.
Print Assumptions C56_itself.
Print Assumptions C56_blanks.
Print Assumptions C56_macro.
Print Assumptions C56_dots.
Print Assumptions C56_argument_refuted.
Print Assumptions C56_switch_refuted.
Print Assumptions C56_script_refuted.
Print Assumptions C56_class_refuted.
Print Assumptions C56_digits_refuted.
Print Assumptions C56_empty_refuted.
