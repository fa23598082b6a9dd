(** What [\let] defines. *)
From Verif Require Import Str M_SuperChar M_Transform M_Length M_Spec M_Ast M_Token M_Symbols M_Commands M_Env
  M_LatexError M_Lexer M_CustomCmds M_Queue M_Spacing M_Colors M_Leaf M_TextParser
  S_SuperChar S_Transform S_Lexer S_Queue S_Store S_Names L_SuperChar L_Transform L_Lexer L_Queue L_Args L_Store L_Sound L_Define L_Keep L_Reads L_Leaf L_Text L_Defs L_Names.
Local Open Scope nat_scope.

Lemma is_equals_spec t : is_equals t = true <-> t = T_Relation SYM_EQUALS_SIGN.
Proof.
  split; [|now intros ->]. destruct t; try discriminate. cbn [is_equals]. intros H. apply andb_prop in H as [H H3]. apply andb_prop in H as [H1 H2].
  apply N.eqb_eq in H1. apply Bool.eqb_prop in H2. f_equal. destruct r. cbn in *. subst. f_equal. match goal with H : match ?k with _ => _ end = true |- _ => destruct k; try discriminate; reflexivity end.
Qed.

Section Q.
Context (cfg : parser_cfg).
Notation sound := (sound_queue cfg).
Notation refs := (q_refs cfg).
Notation reads := (reads cfg).

Lemma after_equals_reads q q' : sound q -> after_equals cfg q q' -> reads q q'.
Proof. intros Sq [[_ (u & E)]|[_ ->]]; [exact (next_reads cfg _ _ _ Sq E)|now apply reads_refl]. Qed.

Lemma let_parts g q n q1 q2 src q3 : read_definition_name cfg q = (Ok n, q1) -> after_equals cfg q1 q2 -> q_next cfg q2 = (Ok src, q3) ->
  let_command cfg g q = match qt_tok src with
  | T_Eoi => sfail (qt_span src) E_ExpectedArgumentGotEOI
  | T_UnresolvedCommand n => sfail (qt_span src) (E_UnknownCommand n)
  | tok => q_define cfg n 0 [RTok tok] (token_class tok) true g ;* sret tt
  end q3.
Proof.
  intros E1 E2 E3. unfold let_command. unfold sbind at 1. rewrite E1. unfold sbind at 1. unfold sget at 1. unfold sbind at 1.
  replace ((if is_equals (unwrap_math (qt_tok (q_peek q1))) then q_next cfg ;* sret tt else sret tt) q1) with (Ok tt, q2).
  - unfold sbind at 1. now rewrite E3.
  - destruct E2 as [[H (u & E)]|[H ->]].
    + apply is_equals_spec in H. rewrite H. unfold sbind. now rewrite E.
    + destruct (is_equals _) eqn:X; [apply is_equals_spec in X; contradiction|reflexivity].
Qed.
Lemma let_made g q n q1 q2 src q3 : sound q1 -> read_definition_name cfg q = (Ok n, q1) -> after_equals cfg q1 q2 -> q_next cfg q2 = (Ok src, q3) ->
  let_outcome cfg g n src q3 (let_command cfg g q).
Proof.
  intros S1 E1 E2 E3. pose proof (after_equals_reads _ _ S1 E2) as R2. pose proof (reads_sound _ _ _ R2) as S2.
  rewrite (let_parts _ _ _ _ _ _ _ E1 E2 E3). unfold let_outcome.
  pose proof (next_sp cfg q2 (fun t q' => reads q2 q' /\ t = qt_unwrap (q_peek q2)) no_err S2 (fun _ => I) (fun _ R _ _ => conj R eq_refl)) as K.
  unfold sp in K. rewrite E3 in K. destruct K as [R3 ->].
  pose proof (peek_unwrap_ok cfg q2 S2) as Tk. pose proof (unwrap_eoi cfg q2 S2) as Te.
  rewrite <- (reads_refs _ _ _ R3) in Tk.
  assert (Def : forall tok, qt_tok (qt_unwrap (q_peek q2)) = tok -> is_eoi tok = false ->
    exists q', made cfg q3 (mkDefn n 0 [RTok tok] (token_class tok) true g) q' /\
      (q_define cfg n 0 [RTok tok] (token_class tok) true g ;* sret tt) q3 = (Ok tt, q')).
  { intros tok <- E. rewrite E in Te.
    destruct (define_made cfg q3 n 0 [RTok (qt_tok (qt_unwrap (q_peek q2)))] (token_class (qt_tok (qt_unwrap (q_peek q2)))) true g (reads_sound _ _ _ R3)) as (q' & M).
    - lia.
    - constructor; [|constructor]. destruct (qt_tok (qt_unwrap (q_peek q2))); try exact I. discriminate Tk.
    - constructor; [|constructor]. unfold rec_ok. destruct (qt_tok (qt_unwrap (q_peek q2))); try exact I; exact (conj Tk Te).
    - discriminate.
    - exists q'. split; [exact M|]. destruct M as [_ X]. cbn [df_name df_args df_body df_class df_replace df_global] in X. unfold sbind. rewrite X. reflexivity. }
  destruct (qt_tok (qt_unwrap (q_peek q2))) eqn:Et; try reflexivity; apply Def; reflexivity.
Qed.

(** ** [\global] *)

Lemma globals_loop q t q' : after_globals cfg q t q' -> forall fuel, sound q -> length (fst (q_view cfg q)) < fuel ->
  global_loop cfg fuel q = match qt_tok t with
  | T_Let => let_command cfg true q'
  | T_Def _ => def_command cfg true q'
  | T_Eoi => (Err (mkErr (qt_span t) E_ExpectedArgumentGotEOI), q')
  | _ => (Err (mkErr (qt_span t) (E_CannotBeUsedHere LtGlobal BeforeDefinition)), q')
  end.
Proof.
  induction 1 as [q t q' E N|q u q1 t q' E U A IH]; intros [|f] Sq L; try lia; cbn [global_loop]; unfold sbind; rewrite E.
  - destruct (qt_tok t); try reflexivity. congruence.
  - rewrite U. apply IH.
    + exact (reads_sound _ _ _ (next_reads cfg _ _ _ Sq E)).
    + pose proof (next_sp cfg q (fun t q' => took cfg q (q_peek q) q' /\ t = qt_unwrap (q_peek q)) no_err Sq (fun _ => I) (fun _ _ T _ => conj T eq_refl)) as K.
      unfold sp in K. rewrite E in K. destruct K as [T ->].
      assert (Nn : means_eoi (qt_tok (q_peek q)) = false). { rewrite <- means_eoi_unwrap. cbn [qt_unwrap qt_with qt_tok] in U. now rewrite U. }
      pose proof (took_shorter _ _ _ _ T Nn) as Sh. unfold shorter in Sh. lia.
Qed.
End Q.
