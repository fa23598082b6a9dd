(** Properties C08, C09 and C10: the lexer. *)
From Verif Require Import Str M_Token M_Env M_LatexError M_Lexer S_Lexer L_Lexer.

(** Every input is tokenised in at most as many tokens as it has characters, followed by the end
    of the input (whose position is the length) or an error; the ranges of the tokens and of the
    error lie on character boundaries inside the input, in order and without overlap. *)
Theorem C08_terminates_in_order : forall input,
  exists ts e, tokenize (S (length input)) (lexer_new input) = Some (ts, e) /\
    (length ts <= length input)%nat /\
    Forall (range_of input) (map out_span ts ++ [end_span e]) /\
    ordered 0 (map out_span ts ++ [end_span e]) /\
    (match e with LexEoi sp => sp = span_zero_width (blen input) | LexError _ => True end).
Proof. intros input. apply (tokenize_ok input); [apply lex_at_new|cbn; lia]. Qed.

(** The lexer only moves forward through the input, whatever its result, also after an error. *)
Theorem C08_moves_forward : forall input l, lex_at input l ->
  let l' := snd (next_token l) in
  lex_at input l' /\ (exists a, lx_rest l = a ++ lx_rest l') /\ (lx_rest l' = lx_rest l -> lx_rest l = []).
Proof.
  intros input l H l'. destruct (next_token_ok input l H) as [[[a Ca] _] P].
  split; [exact (consumed_at _ _ _ _ H Ca)|]. split; [exists a; now destruct Ca|].
  intros E. destruct P as [P|(sp & _ & P & _)]; [unfold l' in E; rewrite E in P; lia|]. unfold l' in E. now rewrite <- E.
Qed.

Example C08_nonvacuous :
  tokenize 20 (lexer_new [233; 92; 97; 32; 32; 98; 37; 120; 10; 9; 36]) =
    Some ([LexTok (T_Letter 233 MMathOrText, mkSpan 0 2); LexCmd (lit "a") (mkSpan 2 4);
           LexTok (T_Letter 98 MMathOrText, mkSpan 6 7); LexTok (T_Dollar, mkSpan 11 12)], LexEoi (mkSpan 12 12)) /\
  tokenize 20 (lexer_new ([8364] ++ lit "#0")) =
    Some ([LexTok (T_Letter 8364 MMathOrText, mkSpan 0 3)], LexError (mkErr (mkSpan 4 5) E_InvalidParameterNumber)).
Proof. split; vm_compute; reflexivity. Qed.

(** A run of blanks is one whitespace token, wherever it stands. *)
Theorem C09_one_whitespace_token : forall pos ws s, ws <> [] -> blank ws -> starts_blank s = false ->
  exists sp, next_token (mkLexer pos (ws ++ s)) = (inl (LexTok (T_Whitespace, sp)), mkLexer (pos + blen ws) s).
Proof. intros pos ws s H1 H2 H3. now apply (next_token_blank (mkLexer pos (ws ++ s))). Qed.

(** Two whitespace tokens never follow each other, even with comments in between. *)
Theorem C09_no_two_whitespace_tokens : forall l sp l' sp' l'',
  next_token l = (inl (LexTok (T_Whitespace, sp)), l') -> next_token l' <> (inl (LexTok (T_Whitespace, sp')), l'').
Proof.
  intros l sp l' sp' l'' H. apply next_token_not_blank.
  destruct (starts_blank (lx_rest l)) eqn:B.
  2: { now apply (next_token_not_blank l sp l') in B. }
  revert H. rewrite next_token_eq. pose proof (skip_whitespace_spec l) as S. destruct (skip_whitespace l) as [o l1].
  destruct S as (ws & C & Hb & Hs & Ho). destruct ws as [|w ws].
  - destruct C as [C _]. cbn in C. rewrite C in B. congruence.
  - subst o. now intros [= _ <-].
Qed.

(** No whitespace token comes after a command. *)
Theorem C09_none_after_command : forall l name sp l', next_token l = (inl (LexCmd name sp), l') ->
  starts_blank (lx_rest l') = false.
Proof.
  intros l name sp l'. rewrite next_token_eq. destruct (skip_whitespace l) as [[sp0|] l1]; [discriminate|]. cbn zeta.
  destruct (after_comments (lx_rest l)) as [|c r]; [discriminate|]. unfold lex_char.
  destruct (c =? 0); [discriminate|].
  destruct (c =? 35). { destruct r as [|d r']; [discriminate|]. destruct (is_ascii_digit d); [destruct (d =? 48); discriminate|discriminate]. }
  destruct (c =? 92); [|discriminate].
  match goal with |- context [read_command ?x] => destruct (read_command x) as [cmd l3] end.
  pose proof (skip_whitespace_spec l3) as S. destruct (skip_whitespace l3) as [o4 l4]. destruct S as (ws & _ & _ & S & _).
  unfold parse_env_marker. destruct (str_eqb cmd (lit "begin") || str_eqb cmd (lit "end")).
  - destruct (skip_whitespace l4) as [o5 l5]. destruct (read_env_name l5) as [[[nm e]|[[ch|] es]] l6]; try discriminate.
    now destruct (env_from_str nm).
  - now intros [= _ _ <-].
Qed.

(** A comment, its line end and the blanks after it leave no trace: the lexer goes on exactly as if
    it stood behind them. *)
Theorem C09_comment_skipped : forall pos body ws s, ~ In 10 body -> blank ws -> starts_blank s = false ->
  let c := 37 :: body ++ 10 :: ws in
  next_token (mkLexer pos (c ++ s)) = next_token (mkLexer (pos + blen c) s).
Proof.
  intros pos body ws s Hb Hw Hs c.
  assert (E : after_comments (c ++ s) = after_comments s).
  { unfold c. cbn [app]. rewrite <- app_assoc. cbn [app after_comments].
    rewrite skip_comments_line, skip_comments_blank by assumption. now apply skip_comments_stop. }
  apply next_token_same_rest; cbn [lx_rest lx_pos]; auto.
  rewrite E, blen_app. destruct (after_comments_suffix s) as [a Ha].
  assert (blen s = blen a + blen (after_comments s))%nat by (rewrite Ha at 1; apply blen_app). lia.
Qed.

(** A comment on the last line ends the input. *)
Theorem C09_comment_at_end : forall pos body, ~ In 10 body ->
  exists sp l, next_token (mkLexer pos (37 :: body)) = (inl (LexTok (T_Eoi, sp)), l) /\ lx_rest l = [].
Proof.
  intros pos body H. rewrite next_token_eq. unfold skip_whitespace. cbn [lx_rest span_while is_ascii_ws after_comments].
  change (is_ascii_ws 37) with false. cbn iota. cbn [after_comments].
  rewrite skip_comments_last by assumption. do 2 eexists. split; reflexivity.
Qed.

Example C09_nonvacuous :
  next_token (mkLexer 3 (lit "%ab" ++ [10; 32; 9] ++ lit "x")) = next_token (mkLexer 9 (lit "x")) /\
  next_token (mkLexer 0 (lit "  x")) = (inl (LexTok (T_Whitespace, mkSpan 0 1)), mkLexer 2 (lit "x")).
Proof. split; vm_compute; reflexivity. Qed.

(** The name after a backslash: the longest run of ASCII letters with an optional star, or else one
    character (none at the end of the input); nothing is lost. *)
Theorem C10_maximal_name : forall l,
  command_name (lx_rest l) (fst (read_command l)) (lx_rest (snd (read_command l))) /\
  lx_pos (snd (read_command l)) = (lx_pos l + blen (fst (read_command l)))%nat.
Proof. intros l. split; [apply read_command_name|]. apply read_command_consumed. Qed.

(** The specification determines the name. *)
Theorem C10_unique : forall s n a n' a', command_name s n a -> command_name s n' a' -> n = n' /\ a = a'.
Proof.
  assert (U : forall p q c d x y, Forall (fun c => is_ascii_alpha c = true) p -> Forall (fun c => is_ascii_alpha c = true) q ->
              is_ascii_alpha c = false -> is_ascii_alpha d = false -> p ++ c :: x = q ++ d :: y -> p = q /\ c = d /\ x = y).
  { induction p as [|u p IH]; destruct q as [|v q]; intros c d x y Hp Hq Hc Hd E; cbn in E.
    - now injection E.
    - injection E as -> E. inversion Hq; congruence.
    - injection E as -> E. inversion Hp; congruence.
    - injection E as -> E. inversion Hp; inversion Hq; subst. destruct (IH q c d x y) as (-> & -> & ->); auto. }
  assert (V : forall p q d y, Forall (fun c => is_ascii_alpha c = true) p -> is_ascii_alpha d = false -> p <> q ++ d :: y).
  { intros p q d y Hp Hd ->. apply Forall_app in Hp as [_ Hp]. inversion Hp. congruence. }
  assert (A42 : is_ascii_alpha 42 = false) by reflexivity.
  intros s n a n' a' H H'.
  destruct H as [nm af Hn Hl Hf|le af Hl|c af Hc Hc42|]; inversion H' as [nm' af' Hn' Hl' Hf' E En|le' af' Hl' E|c' af' Hc' Hc42' E|E]; subst.
  - destruct af as [|x af], a' as [|y a'].
    + rewrite !app_nil_r in E. auto.
    + rewrite app_nil_r in E. now contradiction (V nm n' y a' Hl (proj1 Hf')).
    + rewrite app_nil_r in E. symmetry in E. now contradiction (V n' nm x af Hl' (proj1 Hf)).
    + destruct (U n' nm y x a' af) as (-> & -> & ->); auto; tauto.
  - destruct af as [|x af].
    + rewrite app_nil_r in E. symmetry in E. now contradiction (V nm le' 42 a' Hl).
    + destruct (U le' nm 42 x a' af) as (-> & <- & ->); auto; tauto.
  - destruct nm as [|u nm]; [contradiction|]. cbn in E. injection E as -> E. inversion Hl; congruence.
  - destruct nm; [contradiction|discriminate].
  - destruct a' as [|x a'].
    + rewrite app_nil_r in E. now contradiction (V n' le 42 af Hl').
    + destruct (U n' le x 42 a' af) as (-> & -> & ->); auto; tauto.
  - destruct (U le' le 42 42 a' af) as (-> & _ & ->); auto.
  - destruct le as [|u le]; cbn in E; injection E as -> E; [congruence|]. inversion Hl; congruence.
  - now destruct le.
  - destruct n' as [|u n']; [contradiction|]. cbn in E. injection E as -> E. inversion Hl'; congruence.
  - destruct le' as [|u le']; cbn in E; injection E as E0 E; subst; [congruence|]. inversion Hl'; congruence.
  - auto.
  - destruct n', a'; try discriminate. now contradiction Hn'.
  - now destruct le'.
  - auto.
Qed.

(** At a backslash the lexer produces that name, and continues behind it and the blanks after it
    (other names than [begin] and [end], which are followed by an environment name). *)
Theorem C10_command_token : forall pos s name after, command_name s name after ->
  name <> lit "begin" -> name <> lit "end" ->
  exists ws rest, after = ws ++ rest /\ blank ws /\ starts_blank rest = false /\
    next_token (mkLexer pos (92 :: s)) =
      (inl (LexCmd name (mkSpan pos (pos + 1 + blen name))), mkLexer (pos + 1 + blen name + blen ws) rest).
Proof.
  intros pos s name after H Hb He. rewrite next_token_eq. unfold skip_whitespace at 1. cbn [lx_rest span_while].
  change (is_ascii_ws 92) with false. cbn iota. cbn zeta. change (after_comments (92 :: s)) with (92 :: s). cbn iota.
  rewrite Nat.sub_diag, Nat.add_0_r. unfold lex_char. cbn [lx_pos]. change (92 =? 0) with false. change (92 =? 35) with false. change (92 =? 92) with true. cbn iota.
  set (l1 := lex_advance _ _ _). destruct (C10_maximal_name l1) as [N P].
  destruct (read_command l1) as [cmd l2]. cbn [fst snd] in *. change (lx_rest l1) with s in N.
  destruct (C10_unique _ _ _ _ _ N H) as [-> E]. pose proof (skip_whitespace_spec l2) as S.
  destruct (skip_whitespace l2) as [o l3]. destruct S as (ws & [C1 C2] & Hw & Hs & _). exists ws, (lx_rest l3).
  split; [now rewrite <- E|]. split; [exact Hw|]. split; [exact Hs|].
  unfold parse_env_marker. apply str_eqb_neq in Hb, He. rewrite Hb, He. cbn [orb].
  rewrite P in *. change (lx_pos l1) with (pos + blen [92%N])%nat in *. change (blen [92]) with 1%nat in *.
  destruct l3 as [p3 r3]. cbn [lx_pos lx_rest] in *. subst p3. reflexivity.
Qed.

Example C10_nonvacuous :
  read_command (mkLexer 0 (lit "alpha*b")) = (lit "alpha*", mkLexer 6 (lit "b")) /\
  read_command (mkLexer 0 ([233] ++ lit "b")) = ([233], mkLexer 2 (lit "b")) /\
  next_token (mkLexer 0 (lit "\frac  12")) = (inl (LexCmd (lit "frac") (mkSpan 0 5)), mkLexer 7 (lit "12")).
Proof. repeat split; vm_compute; reflexivity. Qed.

Print Assumptions C08_terminates_in_order.
Print Assumptions C08_moves_forward.
Print Assumptions C09_one_whitespace_token.
Print Assumptions C09_no_two_whitespace_tokens.
Print Assumptions C09_none_after_command.
Print Assumptions C09_comment_skipped.
Print Assumptions C09_comment_at_end.
Print Assumptions C10_maximal_name.
Print Assumptions C10_unique.
Print Assumptions C10_command_token.
