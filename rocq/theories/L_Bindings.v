(** Proofs about the bindings. *)
From Verif Require Import Str M_Escape M_Cli M_Error M_Length M_Emit M_Output M_Token M_LatexError M_Lexer M_CustomCmds M_Queue M_Parser M_Api M_Tool M_Bindings
  S_Html S_Lexer S_Api S_Convert S_Span S_Bindings L_Error L_Escape L_Api L_Span L_Convert P_Escape.
Local Open Scope nat_scope.

(** ** One result *)
Lemma utf16_app a b : utf16_len (a ++ b) = utf16_len a + utf16_len b.
Proof. unfold utf16_len. induction a as [|x a IH]; [reflexivity|]. cbn [fold_right app] in *. lia. Qed.
Lemma as_u32_small n : (N.of_nat n < 4294967296)%N -> as_u32 n = N.of_nat n.
Proof. intros H. unfold as_u32. now apply N.mod_small. Qed.
Lemma js_error_right latex index context e : within latex (err_span e) -> js_describes latex index context e (js_latex_error e latex index context).
Proof.
  intros [(a & b & A1 & A2) (a' & b' & B1 & B2)]. unfold js_describes, js_latex_error. cbn [je_message je_label je_context je_index je_start je_end].
  split; [reflexivity|]. split; [reflexivity|]. split; [reflexivity|].
  split; [intros i -> H; cbn [option_map]; now rewrite as_u32_small|]. split; [now intros ->|].
  exists a, b, a', b'. rewrite A2, B2. repeat (split; [first [assumption|reflexivity]|]). intros H.
  assert (Ha : byte_offset_to_utf16_offset latex (blen a) = utf16_len a) by (rewrite A1; apply C43_utf16_offset).
  assert (Hb : byte_offset_to_utf16_offset latex (blen a') = utf16_len a') by (rewrite B1; apply C43_utf16_offset).
  rewrite Ha, Hb. split; apply as_u32_small.
  - rewrite A1, utf16_app in H. lia.
  - rewrite B1, utf16_app in H. lia.
Qed.
Lemma py_error_right fr fancy latex name named e : within latex (err_span e) ->
  py_describes fr fancy latex name named e (py_message fr fancy e name (if named then name ++ lit ":" else []) latex).
Proof.
  intros [(a & b & A1 & A2) _]. unfold py_describes, py_message. destruct fancy; [reflexivity|]. exists a, b. split; [exact A1|]. split; [exact A2|].
  unfold to_message. rewrite A2, A1. now rewrite floor_prefix_exact.
Qed.
Lemma html_right latex d e : within latex (err_span e) -> exists h, error_html e latex (html_display d) = Some h /\ error_element latex d e h.
Proof.
  intros [(a & b & A1 & A2) _]. destruct (C02_error_html (sp_start (err_span e)) (write_msg (err_kind_of e)) latex (html_display d) (lit "math-core-error")) as (t & s & E & T1 & T2 & S1 & S2).
  unfold error_html. rewrite E. eexists. split; [reflexivity|]. exists t, s, a, b. cbv zeta. split; [now destruct d|]. repeat (split; [assumption|]).
  rewrite T2. rewrite A2, A1. apply C43_message_position.
Qed.

(** ** One call *)
Section Call.
Context (usize_max : N) (fuel : nat).
(** Errors are within the text. *)
Definition sound (latex : str) (r : res convert_result) : Prop := match r with Err e => within latex (err_span e) | Ok _ => True | Crash _ => False end.
Lemma convert_sound ec pc gs latex d : answered (fst (convert usize_max fuel ec pc gs latex d)) -> sound latex (fst (convert usize_max fuel ec pc gs latex d)).
Proof.
  intros A. destruct (fst (convert usize_max fuel ec pc gs latex d)) as [m|e|k] eqn:E; [exact I| |exact A].
  now apply convert_placed in E as [X _].
Qed.
Lemma all_sound c l : Forall answered (convert_all usize_max fuel c l) -> Forall2 (fun s r => sound (fst s) r) l (convert_all usize_max fuel c l).
Proof.
  intros A. assert (L := convert_all_length usize_max fuel c l).
  assert (K : forall i s d r, nth_error l i = Some (s, d) -> nth_error (convert_all usize_max fuel c l) i = Some r -> answered r -> sound s r).
  { intros i s d r H1 H2 Ar. rewrite (convert_all_nth usize_max fuel c l i s d H1) in H2. injection H2 as <-. revert Ar.
    pose proof (convert_sound (cv_emitter c) (cv_parser c) (state_after usize_max fuel (cv_parser c) gs_default (firstn i l)) s d) as P. unfold convert in P.
    destruct (parse usize_max fuel (cv_parser c) _ s d) as [[a|e|k] g]; cbn [fst emit_result sound answered] in *; auto. }
  revert L A K. generalize (convert_all usize_max fuel c l). induction l as [|[s d] l IH]; intros [|r rs] L A K; try discriminate; [constructor|].
  inversion A; subst. constructor.
  - now apply (K 0 s d r).
  - apply IH; [now injection L|assumption|]. intros i s' d' r' H1' H2'. now apply (K (S i) s' d' r').
Qed.

Lemma js_present_right throw r latex d index : sound latex r ->
  (exists s, js_present throw r latex d index = JsString s /\ shown throw latex d r s) \/
  (throw = true /\ exists e j, r = Err e /\ js_present throw r latex d index = JsThrow (JsLatexError j) /\ js_describes latex index None e j).
Proof.
  destruct r as [m|e|k]; cbn [sound js_present]; intros W; [left; eexists; split; [reflexivity|constructor]| |destruct W].
  destruct throw.
  - right. split; [reflexivity|]. do 2 eexists. split; [reflexivity|]. split; [reflexivity|now apply js_error_right].
  - left. destruct (html_right latex d e W) as (h & E & H). rewrite E. eexists. split; [reflexivity|now constructor].
Qed.
Definition core_input (s : str * bool) : str * math_display := (fst s, display_of (snd s)).
Lemma shown_ok throw x s : throw = true -> shown_entry throw x s -> exists m, snd x = Ok m.
Proof. intros T H. destruct x as [[l d] r]. unfold shown_entry in H. cbn [fst snd] in *. inversion H; subst; [now eexists|congruence]. Qed.
Lemma js_collect_right throw inputs results : Forall2 (fun s r => sound (fst s) r) (map core_input inputs) results -> forall index,
  (exists l strings, inputs = map fst l /\ results = map snd l /\ Forall2 (shown_entry throw) l strings /\ js_collect throw index inputs results = JsArray strings) \/
  (throw = true /\ exists (l : list ((str * bool) * res convert_result)) latex d e l' j, inputs = map fst (l ++ ((latex, d), Err e) :: l') /\ results = map snd (l ++ ((latex, d), Err e) :: l') /\
     Forall (fun x => exists m, snd x = Ok m) l /\ js_describes latex (Some (index + length l)) None e j /\ js_collect throw index inputs results = JsThrow (JsLatexError j)).
Proof.
  revert results. induction inputs as [|[latex d] inputs IH]; intros [|y results] F index; inversion F as [|? ? ? ? H1 H3]; subst; clear F.
  - left. exists [], []. repeat split. constructor.
  - cbn [js_collect core_input fst] in *. destruct (js_present_right throw y latex d (Some index) H1) as [(s & E & Sh)|(T & e & j & -> & E & D)].
    + rewrite E. destruct (IH _ H3 (S index)) as [(l & st & -> & -> & F2 & E2)|(T & l & la & d' & e & l' & j & -> & -> & Fl & D & E2)]; rewrite E2.
      * left. exists ((latex, d, y) :: l), (s :: st). repeat split. now constructor.
      * right. split; [exact T|]. exists ((latex, d, y) :: l), la, d', e, l', j. split; [reflexivity|]. split; [reflexivity|]. split; [|split; [|reflexivity]].
        -- constructor; [|exact Fl]. cbn [snd]. now apply (shown_ok throw (latex, d, y) s).
        -- cbn [length]. replace (index + S (length l)) with (S index + length l) by lia. exact D.
    + right. split; [exact T|]. rewrite E.
      assert (X : exists l', inputs = map fst l' /\ results = map snd l').
      { clear - H3. revert results H3. induction inputs as [|x inputs IH]; intros rs F; inversion F as [|? y ? ? H1 H3]; subst; [now exists []|]. destruct (IH _ H3) as (l0 & -> & ->). now exists ((x, y) :: l0). }
      destruct X as (l' & -> & ->). exists [], latex, d, e, l', j. split; [reflexivity|]. split; [reflexivity|]. split; [constructor|]. split; [|reflexivity]. cbn [length]. now rewrite Nat.add_0_r.
Qed.

(** The replies of the converter are sound. *)
Definition sound_reply (x : bind_call) (r : api_reply) : Prop :=
  match x, r with
  | BGlobal latex _, ReplyOne r | BLocal latex _, ReplyOne r => sound latex r
  | BAll l, ReplyAll rs => Forall2 (fun s r => sound (fst s) r) (map core_input l) rs
  | BReset, ReplyNone => True
  | _, _ => False
  end.
Lemma step_sound c x : reply_answered (fst (api_step usize_max fuel c (core_call x))) -> sound_reply x (fst (api_step usize_max fuel c (core_call x))).
Proof.
  destruct x as [latex d|latex d|l|]; cbn [core_call api_step sound_reply].
  - unfold convert_with_global_state. pose proof (convert_sound (cv_emitter c) (cv_parser c) (cv_state c) latex (display_of d)) as P.
    destruct (convert _ _ _ _ _ _ _) as [r g]. exact P.
  - unfold convert_with_local_state. cbn [fst reply_answered]. apply convert_sound.
  - cbn [fst reply_answered]. apply all_sound.
  - trivial.
Qed.
Lemma js_step o x : sound_reply x (fst (api_step usize_max fuel (js_inner o) (core_call x))) ->
  js_expected (js_throw o) x (fst (api_step usize_max fuel (js_inner o) (core_call x))) (fst (js_call usize_max fuel o x)) /\
  snd (js_call usize_max fuel o x) = mkJsObject (snd (api_step usize_max fuel (js_inner o) (core_call x))) (js_throw o).
Proof.
  destruct o as [c throw]. destruct x as [latex d|latex d|l|]; cbn [core_call api_step js_call js_inner js_throw].
  - destruct (convert_with_global_state usize_max fuel c latex (display_of d)) as [r c']. cbn [fst snd sound_reply]. intros W. split; [|reflexivity].
    destruct (js_present_right throw r latex d None W) as [(s & -> & H)|(T & e & j & -> & -> & H)]; now constructor.
  - cbn [fst snd sound_reply]. intros W. split; [|reflexivity].
    destruct (js_present_right throw _ latex d None W) as [(s & -> & H)|(T & e & j & E & -> & H)]; [now constructor|]. rewrite E. now constructor.
  - cbn [fst snd sound_reply]. intros W. split; [|reflexivity]. change (map (fun s => (fst s, display_of (snd s))) l) with (map core_input l) in *.
    destruct (js_collect_right throw l _ W 0) as [(l0 & st & E1 & E2 & F & ->)|(T & l0 & la & d & e & l' & j & E1 & E2 & F & D & ->)].
    + rewrite E2, E1. now constructor.
    + rewrite E2, E1. now constructor.
  - intros _. split; [constructor|reflexivity].
Qed.

Context (fr : latex_error -> str -> str -> str).
Lemma py_present_right o r latex d index : sound latex r ->
  (exists s, py_present fr o r latex d index = PyStr s /\ shown (negb (py_continue o)) latex d r s) \/
  (negb (py_continue o) = true /\ exists e m, r = Err e /\ py_present fr o r latex d index = PyRaise (PyLatexError m) /\
    py_describes fr (py_fancy o) latex (match index with Some i => lit "input" ++ dec (N.of_nat i) | None => lit "input" end) (match index with Some _ => true | None => false end) e m).
Proof.
  destruct r as [m|e|k]; cbn [sound py_present]; intros W; [left; eexists; split; [reflexivity|constructor]| |destruct W].
  destruct (py_continue o); cbn [negb].
  - left. destruct (html_right latex d e W) as (h & E & H). rewrite E. eexists. split; [reflexivity|now constructor].
  - right. split; [reflexivity|]. unfold py_latex_error. do 2 eexists. split; [reflexivity|]. split; [reflexivity|]. destruct index as [i|]; cbv zeta.
    + exact (py_error_right fr (py_fancy o) latex _ true e W).
    + exact (py_error_right fr (py_fancy o) latex _ false e W).
Qed.
Lemma py_collect_right o inputs results : Forall2 (fun s r => sound (fst s) r) (map core_input inputs) results -> forall index,
  (exists l strings, inputs = map fst l /\ results = map snd l /\ Forall2 (shown_entry (negb (py_continue o))) l strings /\ py_collect fr o index inputs results = PyList strings) \/
  (negb (py_continue o) = true /\ exists (l : list ((str * bool) * res convert_result)) latex d e l' m, inputs = map fst (l ++ ((latex, d), Err e) :: l') /\ results = map snd (l ++ ((latex, d), Err e) :: l') /\
     Forall (fun x => exists m, snd x = Ok m) l /\ py_describes fr (py_fancy o) latex (lit "input" ++ dec (N.of_nat (index + length l))) true e m /\
     py_collect fr o index inputs results = PyRaise (PyLatexError m)).
Proof.
  revert results. induction inputs as [|[latex d] inputs IH]; intros [|y results] F index; inversion F as [|? ? ? ? H1 H3]; subst; clear F.
  - left. exists [], []. repeat split. constructor.
  - cbn [py_collect core_input fst] in *. destruct (py_present_right o y latex d (Some index) H1) as [(s & E & Sh)|(T & e & j & -> & E & D)].
    + rewrite E. destruct (IH _ H3 (S index)) as [(l & st & -> & -> & F2 & E2)|(T & l & la & d' & e & l' & j & -> & -> & Fl & D & E2)]; rewrite E2.
      * left. exists ((latex, d, y) :: l), (s :: st). repeat split. now constructor.
      * right. split; [exact T|]. exists ((latex, d, y) :: l), la, d', e, l', j. split; [reflexivity|]. split; [reflexivity|]. split; [|split; [|reflexivity]].
        -- constructor; [|exact Fl]. cbn [snd]. now apply (shown_ok _ (latex, d, y) s T).
        -- cbn [length]. replace (index + S (length l)) with (S index + length l) by lia. exact D.
    + right. split; [exact T|]. rewrite E.
      assert (X : exists l', inputs = map fst l' /\ results = map snd l').
      { clear - H3. revert results H3. induction inputs as [|x inputs IH]; intros rs F; inversion F as [|? y ? ? H1 H3]; subst; [now exists []|]. destruct (IH _ H3) as (l0 & -> & ->). now exists ((x, y) :: l0). }
      destruct X as (l' & -> & ->). exists [], latex, d, e, l', j. split; [reflexivity|]. split; [reflexivity|]. split; [constructor|]. split; [|reflexivity]. cbn [length]. now rewrite Nat.add_0_r.
Qed.
Lemma py_step o x : sound_reply x (fst (api_step usize_max fuel (py_inner o) (core_call x))) ->
  py_expected (negb (py_continue o)) fr (py_fancy o) x (fst (api_step usize_max fuel (py_inner o) (core_call x))) (fst (py_call usize_max fuel fr o x)) /\
  snd (py_call usize_max fuel fr o x) = mkPyObject (snd (api_step usize_max fuel (py_inner o) (core_call x))) (py_continue o) (py_fancy o).
Proof.
  destruct o as [c cont fancy]. destruct x as [latex d|latex d|l|]; cbn [core_call api_step py_call py_inner py_continue py_fancy].
  - destruct (convert_with_global_state usize_max fuel c latex (display_of d)) as [r c']. cbn [fst snd sound_reply]. intros W. split; [|reflexivity].
    destruct (py_present_right (mkPyObject c cont fancy) r latex d None W) as [(s & -> & H)|(T & e & j & -> & -> & H)]; now constructor.
  - cbn [fst snd sound_reply]. intros W. split; [|reflexivity].
    destruct (py_present_right (mkPyObject c cont fancy) _ latex d None W) as [(s & -> & H)|(T & e & j & E & -> & H)]; [now constructor|]. rewrite E. now constructor.
  - cbn [fst snd sound_reply]. intros W. split; [|reflexivity]. change (map (fun s => (fst s, display_of (snd s))) l) with (map core_input l) in *.
    destruct (py_collect_right (mkPyObject c cont fancy) l _ W 0) as [(l0 & st & E1 & E2 & F & ->)|(T & l0 & la & d & e & l' & j & E1 & E2 & F & D & ->)].
    + rewrite E2, E1. now constructor.
    + rewrite E2, E1. now constructor.
  - intros _. split; [constructor|reflexivity].
Qed.

(** ** Sessions *)
Lemma js_session o calls : Forall reply_answered (replies usize_max fuel (js_inner o) (map core_call calls)) ->
  Forall2 (fun xr j => js_expected (js_throw o) (fst xr) (snd xr) j) (combine calls (replies usize_max fuel (js_inner o) (map core_call calls))) (fst (js_run usize_max fuel o calls)) /\
  snd (js_run usize_max fuel o calls) = mkJsObject (after usize_max fuel (js_inner o) (map core_call calls)) (js_throw o).
Proof.
  unfold replies, after. revert o. induction calls as [|x calls IH]; intros o; cbn [map api_run js_run].
  - intros _. split; [constructor|]. now destruct o.
  - pose proof (step_sound (js_inner o) x) as W. pose proof (js_step o x) as J. destruct (api_step usize_max fuel (js_inner o) (core_call x)) as [r c1].
    destruct (js_call usize_max fuel o x) as [jr o1]. cbn [fst snd] in *. specialize (IH o1).
    destruct (api_run usize_max fuel c1 (map core_call calls)) as [rs c2] eqn:E. cbn [fst snd]. intros A. inversion A; subst. destruct (J (W H1)) as [J1 ->]. cbn [js_inner js_throw] in IH.
    rewrite E in IH. destruct (js_run usize_max fuel _ calls) as [js o2]. cbn [fst snd combine] in *. destruct (IH H2) as [I1 I2]. split; [now constructor|exact I2].
Qed.
Lemma py_session o calls : Forall reply_answered (replies usize_max fuel (py_inner o) (map core_call calls)) ->
  Forall2 (fun xr j => py_expected (negb (py_continue o)) fr (py_fancy o) (fst xr) (snd xr) j) (combine calls (replies usize_max fuel (py_inner o) (map core_call calls))) (fst (py_run usize_max fuel fr o calls)) /\
  snd (py_run usize_max fuel fr o calls) = mkPyObject (after usize_max fuel (py_inner o) (map core_call calls)) (py_continue o) (py_fancy o).
Proof.
  unfold replies, after. revert o. induction calls as [|x calls IH]; intros o; cbn [map api_run py_run].
  - intros _. split; [constructor|]. now destruct o.
  - pose proof (step_sound (py_inner o) x) as W. pose proof (py_step o x) as J. destruct (api_step usize_max fuel (py_inner o) (core_call x)) as [r c1].
    destruct (py_call usize_max fuel fr o x) as [jr o1]. cbn [fst snd] in *. specialize (IH o1).
    destruct (api_run usize_max fuel c1 (map core_call calls)) as [rs c2] eqn:E. cbn [fst snd]. intros A. inversion A; subst. destruct (J (W H1)) as [J1 ->]. cbn [py_inner py_continue py_fancy] in IH.
    rewrite E in IH. destruct (py_run usize_max fuel fr _ calls) as [js o2]. cbn [fst snd combine] in *. destruct (IH H2) as [I1 I2]. split; [now constructor|exact I2].
Qed.
(** Both give the same strings. *)
Lemma present_same jthrow po r latex d index : jthrow = negb (py_continue po) -> same_reply (js_present jthrow r latex d index) (py_present fr po r latex d index).
Proof.
  intros ->. destruct r as [m|e|k]; cbn [js_present py_present same_reply]; try reflexivity.
  destruct (py_continue po); cbn [negb same_reply]; [|exact I]. destruct (error_html e latex (html_display d)); reflexivity.
Qed.
Lemma collect_same jthrow po inputs : jthrow = negb (py_continue po) -> forall results index, same_reply (js_collect jthrow index inputs results) (py_collect fr po index inputs results).
Proof.
  intros T. induction inputs as [|[latex d] inputs IH]; intros [|r results] index; cbn [js_collect py_collect]; try reflexivity.
  pose proof (present_same jthrow po r latex d (Some index) T) as P.
  destruct (js_present jthrow r latex d (Some index)) as [s|l|[m|j]| |k], (py_present fr po r latex d (Some index)) as [s'|l'|[m'| |m']| |k']; cbn [same_reply] in P |- *; try contradiction; try exact P; try exact I.
  subst s'. specialize (IH results (S index)).
  destruct (js_collect jthrow (S index) inputs results) as [s0|l|[m|j]| |k], (py_collect fr po (S index) inputs results) as [s'|l'|[m'| |m']| |k']; cbn [same_reply] in IH |- *; try contradiction; try exact IH; try exact I.
  now subst.
Qed.
Lemma sessions_same jo po calls : js_inner jo = py_inner po -> js_throw jo = negb (py_continue po) ->
  Forall2 same_reply (fst (js_run usize_max fuel jo calls)) (fst (py_run usize_max fuel fr po calls)).
Proof.
  revert jo po. induction calls as [|x calls IH]; intros [c t] [c' cont fancy]; cbn [js_inner py_inner js_throw py_continue]; intros <- T; cbn [js_run py_run]; [constructor|].
  assert (K : same_reply (fst (js_call usize_max fuel (mkJsObject c t) x)) (fst (py_call usize_max fuel fr (mkPyObject c cont fancy) x)) /\
    js_inner (snd (js_call usize_max fuel (mkJsObject c t) x)) = py_inner (snd (py_call usize_max fuel fr (mkPyObject c cont fancy) x)) /\
    js_throw (snd (js_call usize_max fuel (mkJsObject c t) x)) = negb (py_continue (snd (py_call usize_max fuel fr (mkPyObject c cont fancy) x)))).
  { destruct x as [latex d|latex d|l|]; cbn [js_call py_call js_inner py_inner js_throw py_continue py_fancy].
    - destruct (convert_with_global_state usize_max fuel c latex (display_of d)) as [r c1]. cbn [fst snd js_inner py_inner js_throw py_continue]. split; [now apply present_same|]. now split.
    - cbn [fst snd js_inner py_inner js_throw py_continue]. split; [now apply present_same|]. now split.
    - cbn [fst snd js_inner py_inner js_throw py_continue]. split; [now apply collect_same|]. now split.
    - cbn [fst snd js_inner py_inner js_throw py_continue same_reply]. now repeat split. }
  destruct (js_call usize_max fuel (mkJsObject c t) x) as [jr o1], (py_call usize_max fuel fr (mkPyObject c cont fancy) x) as [pr o2]. cbn [fst snd] in K. destruct K as (K1 & K2 & K3).
  specialize (IH o1 o2 K2 K3). destruct (js_run _ _ o1 calls), (py_run _ _ fr o2 calls). cbn [fst] in *. now constructor.
Qed.
End Call.

(** ** Ends *)
Lemma session_ends usize_max cfg c calls : scalar_config cfg -> converter_new cfg = NewOk c -> Forall scalar_bind_call calls ->
  exists F rs, (forall f, F <= f -> replies usize_max f c (map core_call calls) = rs) /\ Forall reply_answered rs.
Proof.
  intros Sc E F0. assert (F1 : Forall scalar_call (map core_call calls)) by now rewrite Forall_map.
  destruct (run_halts usize_max (map core_call calls) F1 c (new_cv_ok cfg c Sc E)) as (F & r & H1 & H2 & _).
  exists F, (fst r). split; [|exact H2]. intros f L. unfold replies. now rewrite H1.
Qed.

(** ** Options *)
Lemma js_macros_strings l : js_macros (map (fun p => (DStr (fst p), DStr (snd p))) l) = Some l.
Proof. induction l as [|[k v] l IH]; [reflexivity|]. cbn [map js_macros fst snd as_string]. now rewrite IH. Qed.
Lemma js_macros_ok l : js_macros l <> None <-> Forall (fun p => fst p <> DOther /\ snd p <> DOther) l.
Proof.
  induction l as [|[k v] l IH]; cbn [js_macros]; [split; [constructor|discriminate]|].
  destruct k as [k|], v as [v|]; cbn [as_string]; (split; [intros H|intros H; inversion H as [|? ? [H1 H2] H3]; subst; cbn [fst snd] in *; try congruence]); try congruence.
  - constructor; [split; discriminate|]. apply IH. destruct (js_macros l); congruence.
  - apply IH in H3. destruct (js_macros l); congruence.
Qed.
Lemma pretty_ok s : js_pretty s <> None <-> In s pretty_names.
Proof.
  unfold js_pretty, pretty_names. cbn [In]. destruct (str_eqb s (lit "always")) eqn:E1; [apply str_eqb_eq in E1; split; [intros _; rewrite E1; auto|discriminate]|].
  destruct (str_eqb s (lit "never")) eqn:E2; [apply str_eqb_eq in E2; split; [intros _; rewrite E2; auto|discriminate]|].
  destruct (str_eqb s (lit "auto")) eqn:E3; [apply str_eqb_eq in E3; split; [intros _; rewrite E3; auto|discriminate]|].
  split; [congruence|]. intros [<-|[<-|[<-|[]]]]; discriminate.
Qed.
Lemma unicode_ok s : js_unicode s <> None <-> In s unicode_names.
Proof.
  unfold js_unicode, unicode_names. cbn [In]. destruct (str_eqb s (lit "never")) eqn:E1; [apply str_eqb_eq in E1; split; [intros _; rewrite E1; auto|discriminate]|].
  destruct (str_eqb s (lit "conventional")) eqn:E2; [apply str_eqb_eq in E2; split; [intros _; rewrite E2; auto|discriminate]|].
  split; [congruence|]. intros [<-|[<-|[]]]; discriminate.
Qed.
Lemma js_config_ok dtoa o : (exists c, js_config dtoa o = inl c) <->
  string_pairs (jo_macros o) /\ (forall s, jo_pretty o = Some s -> In s pretty_names) /\ (forall s, jo_unicode o = Some s -> In s unicode_names).
Proof.
  unfold js_config, string_pairs. destruct (jo_macros o) as [l|]; cbn [opt_read].
  1: pose proof (js_macros_ok l) as M; destruct (js_macros l) as [ms|]; [assert (M' : Forall (fun p => fst p <> DOther /\ snd p <> DOther) l) by now apply M|].
  2: split; [intros (c & H); discriminate|intros [H _]; apply M in H; congruence].
  all: destruct (jo_pretty o) as [s|]; cbn [opt_read];
    [pose proof (pretty_ok s) as P; destruct (js_pretty s) as [pp|]; [assert (P' : In s pretty_names) by now apply P|split; [intros (c & H); discriminate|intros (_ & H & _); specialize (H s eq_refl); apply P in H; congruence]]|].
  all: destruct (jo_unicode o) as [u|]; cbn [opt_read];
    [pose proof (unicode_ok u) as U; destruct (js_unicode u) as [b|]; [assert (U' : In u unicode_names) by now apply U|split; [intros (c & H); discriminate|intros (_ & _ & H); specialize (H u eq_refl); apply U in H; congruence]]|].
  all: split; [intros _; split; [first [assumption|exact I]|split; intros ? [= <-]; assumption]|intros _; eexists; reflexivity].
Qed.
Lemma py_pretty_same s : py_pretty s = js_pretty s.
Proof.
  unfold py_pretty, js_pretty. destruct (str_eqb s (lit "never")) eqn:E1; [apply str_eqb_eq in E1; now subst|]. reflexivity.
Qed.
Lemma py_unicode_same s : py_unicode s = js_unicode s.
Proof. unfold py_unicode, js_unicode. destruct (str_eqb s (lit "conventional")) eqn:E1; [apply str_eqb_eq in E1; now subst|]. destruct (str_eqb s (lit "never")); reflexivity. Qed.
Lemma configs_same dtoa o : match js_config dtoa (js_of_py o), py_config dtoa o with inl c, inl c' => c = c' | inr _, inr (PyValueError _) => True | inr _, inr PyTypeError => True | _, _ => False end.
Proof.
  unfold js_config, py_config, js_of_py. cbn [jo_macros jo_pretty jo_unicode jo_ignore_unknown jo_unreliable jo_global_group jo_max_expansions jo_xml_namespace jo_annotation jo_id_prefix opt_read or_default].
  rewrite py_pretty_same, py_unicode_same. unfold py_macros. destruct (opt_read js_macros [] (po_macros o)); destruct (js_pretty (po_pretty o)); destruct (js_unicode (po_unicode o)); try exact I; reflexivity.
Qed.
Lemma js_reaches dtoa c throw : reachable_config dtoa c -> exists o, js_config dtoa o = inl c /\ jo_throw o = Some throw.
Proof.
  destruct c as [ms iu un gg cv me [pp ns an css ind idp dt]]. unfold reachable_config. cbn [co_emitter ec_css_unknown ec_indentation ec_dtoa]. intros (-> & -> & ->).
  exists (mkJsOptions (Some (match pp with PpNever => lit "never" | PpAlways => lit "always" | PpAuto => lit "auto" end)) (Some (map (fun p => (DStr (fst p), DStr (snd p))) ms)) (Some ns) (Some throw)
    (Some iu) (Some an) (Some un) (Some gg) (Some (if cv then lit "conventional" else lit "never")) (Some me) (Some idp)).
  split; [|reflexivity]. unfold js_config. cbn [jo_macros jo_pretty jo_unicode jo_ignore_unknown jo_unreliable jo_global_group jo_max_expansions jo_xml_namespace jo_annotation jo_id_prefix opt_read or_default].
  rewrite js_macros_strings. destruct pp, cv; reflexivity.
Qed.
Lemma py_reaches dtoa c cont fancy : reachable_config dtoa c -> exists o, py_config dtoa o = inl c /\ po_continue o = cont /\ po_fancy o = fancy.
Proof.
  destruct c as [ms iu un gg cv me [pp ns an css ind idp dt]]. unfold reachable_config. cbn [co_emitter ec_css_unknown ec_indentation ec_dtoa]. intros (-> & -> & ->).
  exists (mkPyOptions (match pp with PpNever => lit "never" | PpAlways => lit "always" | PpAuto => lit "auto" end) (Some (map (fun p => (DStr (fst p), DStr (snd p))) ms)) ns cont
    iu an un gg fancy (if cv then lit "conventional" else lit "never") me idp).
  split; [|split; reflexivity]. unfold py_config. cbn [po_macros po_pretty po_unicode po_ignore_unknown po_unreliable po_global_group po_max_expansions po_xml_namespace po_annotation po_id_prefix opt_read].
  unfold py_macros. rewrite js_macros_strings. destruct pp, cv; reflexivity.
Qed.
Lemma js_config_reachable dtoa o c : js_config dtoa o = inl c -> reachable_config dtoa c.
Proof.
  unfold js_config. destruct (opt_read js_macros [] (jo_macros o)); [|discriminate]. destruct (opt_read js_pretty PpNever (jo_pretty o)); [|discriminate].
  destruct (opt_read js_unicode true (jo_unicode o)); [|discriminate]. intros [= <-]. now repeat split.
Qed.
