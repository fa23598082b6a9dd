(** What the defining commands do about names that have a meaning and names that have none. *)
From Verif Require Import Str M_SuperChar M_Transform M_Length M_Spec M_Ast M_Token M_Symbols M_Commands M_Env
  M_LatexError M_Lexer M_CustomCmds M_Queue M_Spacing M_Colors M_Leaf M_TextParser
  S_SuperChar S_Transform S_Lexer S_Queue S_Store S_Names L_SuperChar L_Transform L_Lexer L_Queue L_Args L_Store L_Sound L_Define L_Keep L_Reads L_Leaf L_Text L_Defs.
Local Open Scope nat_scope.

Section Q.
Context (cfg : parser_cfg).
Notation q_view := (q_view cfg).
Notation sound := (sound_queue cfg).
Notation refs := (q_refs cfg).
Notation reads := (reads cfg).

Definition rest_ok (q : queue) (x : nat * (list recorded * option class)) (q' : queue) : Prop :=
  reads q q' /\ fst x <= 9 /\ params_below (fst x) (fst (snd x)) /\ Forall (rec_ok (refs q')) (fst (snd x)).
Lemma body_part q0 q n : reads q0 q -> n <= 9 -> forall l, Forall (body_ok (refs q)) l ->
  sp (let* b := sres (map_recorded_tokens l n) in sret (n, b)) (rest_ok q0) no_err q.
Proof.
  intros R Hn l F. pose proof (map_recorded_ok _ n l F None) as Hm. unfold map_recorded_tokens.
  apply sp_bind, sp_res; [|auto|intros c E; now rewrite E in Hm]. intros [body first] E. rewrite E in Hm. apply sp_ret. destruct Hm as [H1 H2]. exact (conj R (conj Hn (conj H2 H1))).
Qed.
Lemma definition_rest_sp braced q : sound q -> sp (definition_rest cfg braced) (rest_ok q) no_err q.
Proof.
  intros Sq. unfold definition_rest.
  apply sp_then with (R := fun _ q' => reads q q').
  { destruct braced; [|apply sp_ret; now apply reads_refl]. apply sp_bind. apply next_sp; [exact Sq|auto|]. intros q' R _ _.
    destruct (qt_tok _); try (now apply sp_fail). now apply sp_ret. }
  intros _ q1 R1. apply (sp_then _ _ _ _ _ _ (num_args_sp cfg q1 (reads_sound _ _ _ R1))). intros n q2 [R2 Hn].
  apply (sp_then _ _ _ _ _ _ (definition_body_sp cfg q2 (reads_sound _ _ _ R2))). intros l q3 [R3 F].
  apply body_part; [exact (reads_trans _ _ _ _ (reads_trans _ _ _ _ R1 R2) R3)|exact Hn|]. now rewrite (reads_refs _ _ _ R3).
Qed.
Lemma def_rest_sp q : sound q -> sp (def_rest cfg) (rest_ok q) no_err q.
Proof.
  intros Sq. unfold def_rest.
  apply sp_then with (R := fun _ q' => reads q q').
  { exact (skip_spaces_sp cfg (S (q_size q)) q Sq ltac:(pose proof (view_size cfg q); lia)). }
  intros _ q1 R1. apply sp_then with (R := fun n q' => reads q q' /\ n <= 9).
  { pose proof (param_loop_sp cfg (S (q_size q1)) 0 q1 (reads_sound _ _ _ R1) ltac:(lia) ltac:(pose proof (view_size cfg q1); lia)) as K.
    eapply sp_mono; [exact K|..]; auto. cbn beta. intros n q' [R H]. split; [exact (reads_trans _ _ _ _ R1 R)|exact H]. }
  intros n q2 [R2 Hn]. apply (sp_then _ _ _ _ _ _ (macro_body_sp cfg q2 (reads_sound _ _ _ R2))). intros l q3 [R3 F].
  apply sp_bind. apply next_sp; [apply R3|auto|]. intros q4 R4 _ _. apply body_part; [|exact Hn|].
  - exact (reads_trans _ _ _ _ R2 (reads_trans _ _ _ _ R3 R4)).
  - now rewrite (reads_refs _ _ _ R4), (reads_refs _ _ _ R3).
Qed.

(** A definition that may not replace anything, of a name without meaning. *)
Lemma meaning_stores q n : has_meaning cfg q n = false -> cmds_has (q_local q) n = false /\ cmds_has (gs_cmds (q_gs q)) n = false.
Proof.
  unfold has_meaning, q_resolve, resolve_command, cmds_get, cmds_has.
  destruct (assoc_str n (cc_map (q_local q))); [discriminate|]. now destruct (assoc_str n (cc_map (gs_cmds (q_gs q)))).
Qed.
Lemma define_made q n args body cl (replace is_global : bool) : sound q -> args <= 9 -> params_below args body -> Forall (rec_ok (refs q)) body ->
  (replace = false -> has_meaning cfg q n = false) ->
  exists q', made cfg q (mkDefn n args body cl replace is_global) q'.
Proof.
  intros Sq H1 H2 H3 Hr. destruct (define_sound cfg q n args body cl replace is_global Sq H1 H2 H3) as (b & q' & E & _).
  exists q'. split; [now repeat split|]. cbn [df_name df_args df_body df_class df_replace df_global]. rewrite E. f_equal. f_equal. destruct b; [reflexivity|exfalso].
  destruct replace.
  - revert E. unfold q_define. destruct (is_global || pc_global_group cfg); cbn [negb andb].
    + destruct (cmds_insert_or_replace_copy _ _ _ _ _ _); discriminate.
    + discriminate.
  - destruct (meaning_stores q n (Hr eq_refl)) as [M1 M2]. revert E. unfold q_define. destruct (is_global || pc_global_group cfg); cbn [negb andb].
    + rewrite M2. destruct (cmds_insert_or_replace_copy _ _ _ _ _ _); discriminate.
    + unfold cmds_insert. rewrite M1. discriminate.
Qed.

Lemma meaning_stored q q' n : stored_as q q' -> has_meaning cfg q' n = has_meaning cfg q n.
Proof. intros [H1 H2]. unfold has_meaning, q_resolve. now rewrite H1, H2. Qed.

(** The two parts of the commands. *)
Lemma then_define m n (replace is_global : bool) q (k : bool -> St queue unit) : sound q -> sp m (rest_ok q) no_err q -> (replace = false -> has_meaning cfg q n = false) ->
  k true = sret tt ->
  then_defined cfg m n replace is_global q (sbind m (fun x => let (args, b) := x in let (body, first) := b in
    let* ok := q_define cfg n args body first replace is_global in k ok) q).
Proof.
  intros Sq Hm Hr Hk. unfold then_defined, sbind. unfold sp in Hm. destruct (m q) as [[[args [body cl]]|e|c] q1]; [|reflexivity|exact Hm].
  destruct Hm as (R & H1 & H2 & H3). cbn [fst snd] in *.
  destruct (define_made q1 n args body cl replace is_global (reads_sound _ _ _ R) H1 H2 H3) as (q2 & M).
  { intros E. rewrite (meaning_stored _ _ n (reads_stored _ _ _ R)). now apply Hr. }
  exists q2. split; [exact M|]. destruct M as [_ E]. cbn [df_name df_args df_body df_class df_replace df_global] in E. rewrite E, Hk. reflexivity.
Qed.
Lemma then_keep m q : sp m (rest_ok q) no_err q -> then_kept m q (sbind m (fun _ => sret tt) q).
Proof.
  intros Hm. unfold then_kept, sbind. unfold sp in Hm. destruct (m q) as [[x|e|c] q1]; [|reflexivity|exact Hm].
  destruct Hm as (R & _). split; [reflexivity|]. apply R.
Qed.
(** [define_command] with its parts named. *)
Lemma define_parts m q braced t q1 : reads_name cfg q braced t q1 ->
  define_command cfg m q = match definition_target m t with
  | Ok None => sbind (definition_rest cfg braced) (fun _ => sret tt) q1
  | Ok (Some (n, replace)) => sbind (definition_rest cfg braced) (fun x => let (args, b) := x in let (body, first) := b in
      let* ok := q_define cfg n args body first replace false in if (ok : bool) then sret tt else sfail (qt_span t) E_Internal) q1
  | Err e => (Err e, q1)
  | Crash c => (Crash c, q1)
  end.
Proof.
  intros (-> & q0 & H0 & H1). unfold define_command. unfold sbind at 1, sget at 1.
  set (braced := is_group_begin (qt_tok (q_peek q))) in *.
  assert (Start : (if braced then q_next cfg ;* sret tt else sret tt) q = (Ok tt, q0)).
  { destruct braced; [|now subst]. destruct H0 as (u & E). unfold sbind. rewrite E. reflexivity. }
  unfold sbind at 1. rewrite Start. unfold sbind at 1. rewrite H1. unfold sbind at 1, sres at 1.
  unfold definition_rest.
  set (close := if braced then let* c := q_next cfg in match qt_tok c with T_GroupEnd => sret tt | _ => sfail (qt_span c) E_ExpectedExactlyOneToken end else sret tt).
  clearbody close. clear.
  destruct (definition_target m t) as [[[n replace]|]|e|c]; try reflexivity; unfold sbind, sres, sret;
    (destruct (close q1) as [[x|e|c] q2]; try reflexivity);
    (destruct (read_num_args cfg q2) as [[na|e|c] q3]; try reflexivity);
    (destruct (read_definition_body cfg q3) as [[l|e|c] q4]; try reflexivity);
    now destruct (map_recorded_tokens l na) as [[body first]|e|c].
Qed.

Lemma def_parts g q n q1 : read_definition_name cfg q = (Ok n, q1) ->
  def_command cfg g q = sbind (def_rest cfg) (fun x => let (args, b) := x in let (body, first) := b in
    let* ok := q_define cfg n args body first true g in sret tt) q1.
Proof.
  intros E. unfold def_command, def_rest. unfold sbind, sres, sret. rewrite E.
  destruct (skip_spaces cfg (S (q_size q1)) q1) as [[x|e|c] q2]; try reflexivity.
  destruct (param_loop cfg (S (q_size q2)) 0 q2) as [[na|e|c] q3]; try reflexivity.
  destruct (record_macro_body cfg q3) as [[l|e|c] q4]; try reflexivity.
  destruct (q_next cfg q4) as [[u|e|c] q5]; try reflexivity.
  now destruct (map_recorded_tokens l na) as [[body first]|e|c].
Qed.

(** The name that was read. *)
Lemma next_reads q u q' : sound q -> q_next cfg q = (Ok u, q') -> reads q q'.
Proof.
  intros Sq E. pose proof (next_sp cfg q (fun _ q' => reads q q') no_err Sq (fun _ => I) (fun _ R _ _ => R)) as K. unfold sp in K. now rewrite E in K.
Qed.
Lemma next_unres_reads q u q' : sound q -> q_next_unres cfg q = (Ok u, q') -> reads q q'.
Proof.
  intros Sq E. pose proof (next_unres_sp cfg q (fun _ q' => reads q q') no_err Sq (fun _ => I) (fun _ R _ => R)) as K. unfold sp in K. now rewrite E in K.
Qed.
Lemma reads_name_keeps q braced t q1 : sound q -> reads_name cfg q braced t q1 -> reads q q1.
Proof.
  intros Sq (-> & q0 & H0 & H1).
  assert (R0 : reads q q0).
  { destruct (is_group_begin _); [|subst; now apply reads_refl]. destruct H0 as (u & E). exact (next_reads _ _ _ Sq E). }
  exact (reads_trans _ _ _ _ R0 (next_unres_reads _ _ _ (reads_sound _ _ _ R0) H1)).
Qed.
Fixpoint known_tok (t : token) : bool := match t with T_UnresolvedCommand _ => false | T_MathOrTextMode u _ => known_tok u | _ => true end.
Lemma builtin_tables_known :
  let known (p : str * token) := known_tok (snd p) in
  forallb known UNRELIABLE = true /\ forallb known SUBSTITUTED = true /\ forallb known COMMANDS = true.
Proof. repeat split; vm_compute; reflexivity. Qed.
Lemma assoc_all {A} (P : A -> bool) m name t : forallb (fun p => P (snd p)) m = true -> assoc_str name m = Some t -> P t = true.
Proof.
  induction m as [|[n x] m IH]; cbn [assoc_str forallb fst snd]; [discriminate|]. intros H. apply andb_prop in H as [H1 H2].
  destruct (str_eqb name n); [now intros [= <-]|auto].
Qed.
Lemma builtin_known u c name t : resolve_builtin u c name = Some t -> known_tok t = true.
Proof.
  destruct builtin_tables_known as (B1 & B2 & B3). unfold resolve_builtin.
  destruct (if u then _ else _) eqn:E1; [|destruct (if c then _ else _) eqn:E2; [|destruct (assoc_str name COMMANDS) eqn:E3; [|destruct (existsb (str_eqb name) FUNCTIONS); [|discriminate]]]];
  intros X; apply (f_equal (fun o => match o with Some x => x | None => T_Eoi end)) in X; subst.
  - destruct u; [|discriminate]. exact (assoc_all known_tok _ _ _ B1 E1).
  - destruct c; [|discriminate]. exact (assoc_all known_tok _ _ _ B2 E2).
  - exact (assoc_all known_tok _ _ _ B3 E3).
  - reflexivity.
Qed.
Lemma q_resolve_known q name t : q_resolve cfg q name = Some t -> known_tok t = true.
Proof.
  unfold q_resolve, resolve_command, cmds_get.
  destruct (assoc_str name (cc_map (q_local q))); [now intros [= <-]|].
  destruct (assoc_str name (cc_map (gs_cmds (q_gs q)))); [now intros [= <-]|].
  destruct (assoc_str name (cc_map (pc_custom cfg))); [now intros [= <-]|].
  apply builtin_known.
Qed.
Lemma in_math_known m t : in_math m t -> known_tok m = true -> known_tok t = true.
Proof. induction m; cbn [in_math known_tok]; intros [H|H]; try easy; try (now subst); auto. Qed.
Lemma in_math_unresolved n t : in_math (T_UnresolvedCommand n) t -> t = T_UnresolvedCommand n.
Proof. now intros [H|[]]. Qed.
Lemma names_cases q t n : names cfg q t n ->
  if has_meaning cfg q n then known_tok (qt_tok t) = true /\ qt_name t = Some n else qt_tok t = T_UnresolvedCommand n.
Proof.
  intros [E N]. unfold q_meaning in E. unfold has_meaning in *. destruct (q_resolve cfg q n) as [u|] eqn:R.
  - split; [|now apply N]. exact (in_math_known _ _ E (q_resolve_known _ _ _ R)).
  - exact (in_math_unresolved _ _ E).
Qed.
(** What is asked of the name. *)
Lemma target_of m q t n : names cfg q t n ->
  definition_target m t =
    if has_meaning cfg q n then
      match m with DmNew => Err (mkErr (qt_span t) E_CommandAlreadyDefined) | DmProvide => Ok None | DmRenew => Ok (Some (n, true)) end
    else match m with DmRenew => Err (mkErr (qt_span t) E_CommandNotDefined) | _ => Ok (Some (n, false)) end.
Proof.
  intros K. apply names_cases in K. unfold definition_target. destruct (has_meaning cfg q n).
  - destruct K as [K ->]. now destruct (qt_tok t).
  - rewrite K. now destruct m.
Qed.
Lemma definition_name_of q q0 t n q1 : names cfg q0 t n -> q_next_unres cfg q = (Ok t, q1) -> read_definition_name cfg q = (Ok n, q1).
Proof.
  intros K H. apply names_cases in K. unfold read_definition_name. rewrite H. destruct (has_meaning cfg q0 n).
  - destruct K as [K ->]. now destruct (qt_tok t).
  - now rewrite K.
Qed.
End Q.
