(** Proofs about the lexer. *)
From Verif Require Import Str M_SuperChar M_Token M_Commands M_Env M_LatexError M_Lexer S_Lexer.

Lemma span_while_spec p s : let (a, b) := span_while p s in
  s = a ++ b /\ Forall (fun c => p c = true) a /\ match b with c :: _ => p c = false | [] => True end.
Proof.
  induction s as [|c s IH]; cbn [span_while]; [repeat split; constructor|].
  destruct (p c) eqn:E.
  - destruct (span_while p s) as [a b]. destruct IH as (-> & H1 & H2). repeat split; auto.
  - repeat split; auto.
Qed.

Lemma span_while_app p a b : Forall (fun c => p c = true) a -> match b with c :: _ => p c = false | [] => True end ->
  span_while p (a ++ b) = (a, b).
Proof.
  induction 1 as [|c a Hc H IH]; intros Hb.
  - cbn [app]. destruct b as [|c b]; [reflexivity|]. cbn [span_while]. now rewrite Hb.
  - cbn [app span_while]. rewrite Hc, IH by assumption. reflexivity.
Qed.

Lemma lex_at_new input : lex_at input (lexer_new input).
Proof. exists []. split; reflexivity. Qed.

Lemma lex_at_advance input l a b : lex_at input l -> lx_rest l = a ++ b -> lex_at input (lex_advance l a b).
Proof.
  intros (p & H1 & H2) H. exists (p ++ a). unfold lex_advance. cbn. rewrite H1, H, H2, blen_app. split; [now rewrite app_assoc|reflexivity].
Qed.

Lemma at_boundary input l : lex_at input l -> boundary input (lx_pos l).
Proof. intros (p & H1 & H2). exists p, (lx_rest l). auto. Qed.

Lemma at_boundary_plus input l a b : lex_at input l -> lx_rest l = a ++ b -> boundary input (lx_pos l + blen a).
Proof. intros H E. apply (at_boundary input (lex_advance l a b)). now apply lex_at_advance. Qed.

Lemma at_within input l : lex_at input l -> (lx_pos l + blen (lx_rest l) = blen input)%nat.
Proof. intros (p & H1 & H2). rewrite H1, H2, blen_app. lia. Qed.

Lemma blen1 c : blen [c] = len_utf8 c.
Proof. cbn. lia. Qed.

(** [l'] is [l] after consuming some characters. *)
Definition consumed (l l' : lexer) (a : str) : Prop := lx_rest l = a ++ lx_rest l' /\ lx_pos l' = (lx_pos l + blen a)%nat.

Lemma consumed_at input l l' a : lex_at input l -> consumed l l' a -> lex_at input l'.
Proof.
  intros H [E1 E2]. pose proof (lex_at_advance input l a (lx_rest l') H E1) as K. unfold lex_advance in K.
  rewrite <- E2 in K. now destruct l'.
Qed.
Lemma consumed_refl l : consumed l l [].
Proof. split; [reflexivity|cbn; lia]. Qed.
Lemma consumed_trans l1 l2 l3 a b : consumed l1 l2 a -> consumed l2 l3 b -> consumed l1 l3 (a ++ b).
Proof. intros [A1 A2] [B1 B2]. split; [rewrite A1, B1; now rewrite app_assoc|]. rewrite B2, A2, blen_app. lia. Qed.
Lemma consumed_advance l a b : lx_rest l = a ++ b -> consumed l (lex_advance l a b) a.
Proof. intros H. split; [exact H|reflexivity]. Qed.

Lemma consumed_range input l l1 l2 a b : lex_at input l -> consumed l l1 a -> consumed l1 l2 b ->
  range_of input (mkSpan (lx_pos l1) (lx_pos l2)).
Proof.
  intros H H1 H2. assert (A1 := consumed_at _ _ _ _ H H1). assert (A2 := consumed_at _ _ _ _ A1 H2).
  repeat split; cbn [sp_start sp_end]; try (now apply at_boundary).
  - destruct H2 as [_ ->]. lia.
  - apply at_within in A2. lia.
Qed.

Lemma range_zero input l : lex_at input l -> range_of input (span_zero_width (lx_pos l)).
Proof. intros H. exact (consumed_range input l l l [] [] H (consumed_refl l) (consumed_refl l)). Qed.

Lemma range_prefix input l a b : lex_at input l -> lx_rest l = a ++ b -> range_of input (mkSpan (lx_pos l) (lx_pos l + blen a)).
Proof. intros H E. exact (consumed_range input l l (lex_advance l a b) [] a H (consumed_refl l) (consumed_advance _ _ _ E)). Qed.

Lemma range_char input l c r : lex_at input l -> lx_rest l = c :: r -> range_of input (mkSpan (lx_pos l) (lx_pos l + len_utf8 c)).
Proof. intros H E. rewrite <- blen1. now apply (range_prefix input l [c] r). Qed.

Lemma range_widen input a b c : range_of input (mkSpan a b) -> range_of input (mkSpan b c) -> range_of input (mkSpan a c).
Proof. unfold range_of. cbn. intros (A1 & A2 & A3) (B1 & B2 & B3). repeat split; auto; lia. Qed.

(** ** The parts *)

Lemma skip_whitespace_spec l : let (o, l') := skip_whitespace l in
  exists ws, consumed l l' ws /\ blank ws /\ starts_blank (lx_rest l') = false /\
    match ws with
    | [] => o = None
    | c :: _ => o = Some (mkSpan (lx_pos l) (lx_pos l + len_utf8 c))
    end.
Proof.
  unfold skip_whitespace. pose proof (span_while_spec is_ascii_ws (lx_rest l)) as H.
  destruct (span_while is_ascii_ws (lx_rest l)) as [ws rest]. destruct H as (H1 & H2 & H3).
  exists ws. split; [now apply consumed_advance|]. split; [exact H2|]. split.
  - cbn. unfold starts_blank. now destruct rest.
  - now destruct ws.
Qed.

Lemma read_command_name l : command_name (lx_rest l) (fst (read_command l)) (lx_rest (snd (read_command l))).
Proof.
  unfold read_command. pose proof (span_while_spec is_ascii_alpha (lx_rest l)) as H.
  destruct (span_while is_ascii_alpha (lx_rest l)) as [letters r1]. destruct H as (H1 & H2 & H3). rewrite H1.
  destruct r1 as [|c r1].
  - destruct letters as [|d letters].
    + cbn. cbn in H1. rewrite H1. apply cn_eoi.
    + cbn [fst snd lex_advance lx_rest]. apply cn_letters; auto. discriminate.
  - destruct (N.eq_dec c 42) as [->|Hc].
    + destruct letters as [|d letters]; cbn [app fst snd lex_advance lx_rest];
        [apply (cn_star []); auto|apply (cn_star (d :: letters)); auto].
    + assert (E : forall (A : Type) (x y : A), match c with 42 => x | _ => y end = y).
      { intros A x y. destruct c as [|p]; [reflexivity|]. repeat (destruct p; try reflexivity). now contradiction Hc. }
      rewrite E. destruct letters as [|d letters]; cbn [fst snd lex_advance lx_rest app].
      * apply cn_other; auto.
      * apply (cn_letters (d :: letters)); auto. discriminate.
Qed.

Lemma command_name_app s n r : command_name s n r -> s = n ++ r.
Proof. destruct 1; try reflexivity. now rewrite <- app_assoc. Qed.

Lemma read_command_consumed l : consumed l (snd (read_command l)) (fst (read_command l)).
Proof.
  pose proof (read_command_name l) as H. apply command_name_app in H. split; [exact H|].
  unfold read_command. destruct (span_while is_ascii_alpha (lx_rest l)) as [letters r1].
  destruct (match r1 with 42 :: r => (letters ++ [42], r) | _ => (letters, r1) end) as [name r2].
  destruct name as [|c name]; [|reflexivity]. destruct r2; [cbn; lia|reflexivity].
Qed.

Lemma read_env_name_spec input l : lex_at input l ->
  let (res, l') := read_env_name l in
  (exists a, consumed l l' a) /\
  match res with
  | inl (_, e) => lx_pos l' = e
  | inr (_, sp) => range_of input sp /\ (lx_pos l <= sp_start sp)%nat
  end.
Proof.
  intros H. unfold read_env_name. destruct (lx_rest l) as [|c r] eqn:E.
  - split; [exists []; apply consumed_refl|]. split; [now apply range_zero|cbn; lia].
  - assert (C1 : consumed l (lex_advance l [c] r) [c]) by (now apply consumed_advance).
    destruct (c =? 123).
    + pose proof (span_while_spec env_name_char r) as S. destruct (span_while env_name_char r) as [name r1].
      destruct S as (S1 & S2 & S3).
      assert (C2 : consumed (lex_advance l [c] r) (lex_advance (lex_advance l [c] r) name r1) name) by (now apply consumed_advance).
      pose proof (consumed_trans _ _ _ _ _ C1 C2) as C12.
      assert (A2 := consumed_at _ _ _ _ H C12).
      destruct r1 as [|d r2].
      * split; [eexists; exact C12|]. split; [now apply range_zero|]. destruct C12 as [_ ->]. cbn [span_zero_width sp_start]. lia.
      * assert (C3 : consumed (lex_advance (lex_advance l [c] r) name (d :: r2))
                       (lex_advance (lex_advance (lex_advance l [c] r) name (d :: r2)) [d] r2) [d]) by (now apply consumed_advance).
        destruct (d =? 125) eqn:Ed.
        -- apply N.eqb_eq in Ed as ->. split; [eexists; eapply consumed_trans; [exact C12|exact C3]|].
           destruct C3 as [_ ->]. reflexivity.
        -- split; [eexists; eapply consumed_trans; [exact C12|exact C3]|]. split; [now apply (range_char input _ d r2)|].
           destruct C12 as [_ C12]. rewrite C12. cbn [sp_start]. lia.
    + destruct (is_ascii_alpha c || (c =? 42)).
      * split; [eexists; exact C1|]. reflexivity.
      * split; [eexists; exact C1|]. split; [now apply (range_char input l c r)|cbn; lia].
Qed.

(** What one step of the lexer guarantees. *)
Definition step_ok (input : str) (l : lexer) (res : (lexer_output + latex_error) * lexer) : Prop :=
  (exists a, consumed l (snd res) a) /\
  match fst res with
  | inl o => range_of input (out_span o) /\ (lx_pos l <= sp_start (out_span o) /\ sp_end (out_span o) <= lx_pos (snd res))%nat
  | inr e => range_of input (err_span e) /\ (lx_pos l <= sp_start (err_span e))%nat
  end.

Lemma parse_env_marker_ok input l0 l sp cmd a : lex_at input l0 -> consumed l0 l a ->
  range_of input sp -> (lx_pos l0 <= sp_start sp /\ sp_end sp <= lx_pos l)%nat ->
  step_ok input l0 (parse_env_marker l sp cmd).
Proof.
  intros H0 C R [B1 B2]. unfold parse_env_marker.
  assert (Hl := consumed_at _ _ _ _ H0 C).
  destruct (str_eqb cmd (lit "begin") || str_eqb cmd (lit "end")).
  2: { split; cbn [fst snd]; [eauto|]. cbn [out_span]. auto. }
  pose proof (skip_whitespace_spec l) as S. destruct (skip_whitespace l) as [o l1]. destruct S as (ws & C1 & _).
  assert (H1 := consumed_at _ _ _ _ Hl C1).
  pose proof (consumed_trans _ _ _ _ _ C C1) as C01.
  pose proof (read_env_name_spec input l1 H1) as S. destruct (read_env_name l1) as [res l2]. destruct S as [[b C2] S].
  pose proof (consumed_trans _ _ _ _ _ C01 C2) as C02.
  assert (P1 : (lx_pos l <= lx_pos l1)%nat) by (destruct C1 as [_ ->]; lia).
  assert (P2 : (lx_pos l1 <= lx_pos l2)%nat) by (destruct C2 as [_ ->]; lia).
  assert (P0 : (lx_pos l0 <= lx_pos l)%nat) by (destruct C as [_ ->]; lia).
  destruct res as [[name e]|[[c|] esp]].
  - subst e. destruct (env_from_str name).
    + split; cbn [fst snd]; [eauto|]. cbn [out_span sp_start sp_end]. split; [|lia].
      assert (H2 := consumed_at _ _ _ _ H1 C2). destruct R as (R1 & R2 & R3).
      repeat split; cbn [sp_start sp_end]; auto; try (now apply at_boundary); [lia|].
      apply at_within in H2. lia.
    + split; cbn [fst snd]; [eauto|]. cbn [err_span sp_start]. split; [|lia].
      exact (consumed_range input l l1 l2 ws b Hl C1 C2).
  - destruct S as [S1 S2]. split; cbn [fst snd]; [eauto|]. cbn [err_span]. split; [exact S1|]. lia.
  - destruct S as [S1 S2]. split; cbn [fst snd]; [eauto|]. cbn [err_span]. split; [exact S1|]. lia.
Qed.

Lemma lex_char_ok input l c r : lex_at input l -> lx_rest l = c :: r ->
  step_ok input l (lex_char l c r) /\
  (exists b, consumed (lex_advance l [c] r) (snd (lex_char l c r)) b).
Proof.
  intros H E. unfold lex_char.
  assert (C1 : consumed l (lex_advance l [c] r) [c]) by (now apply consumed_advance).
  assert (H1 := consumed_at _ _ _ _ H C1).
  assert (R : range_of input (mkSpan (lx_pos l) (lx_pos l + len_utf8 c))) by (now apply (range_char input l c r)).
  destruct (c =? 0) eqn:E0.
  { apply N.eqb_eq in E0 as ->. split; [|exists []; apply consumed_refl]. split; [eexists; exact C1|]. split; [exact R|cbn; lia]. }
  destruct (c =? 35) eqn:E35.
  { apply N.eqb_eq in E35 as ->. destruct r as [|d r'].
    { split; [|exists []; apply consumed_refl]. split; [eexists; exact C1|]. split; [now apply range_zero|cbn; lia]. }
    assert (C2 : consumed (lex_advance l [35] (d :: r')) (lex_advance (lex_advance l [35] (d :: r')) [d] r') [d]) by (now apply consumed_advance).
    pose proof (range_char input _ d r' H1 eq_refl) as R2.
    destruct (is_ascii_digit d) eqn:Ed.
    - assert (len_utf8 d = 1%nat) as L1 by (unfold is_ascii_digit in Ed; unfold len_utf8; now replace (d <? 128) with true by lia).
      rewrite L1 in R2. cbn [lex_advance lx_pos] in R2. change (blen [35]) with 1%nat in R2.
      assert (E2 : (lx_pos l + 2 = lx_pos l + 1 + 1)%nat) by lia.
      destruct (d =? 48).
      + split; [|exists []; apply consumed_refl]. split; [eexists; exact C1|]. cbn [fst snd err_span]. rewrite E2. split; [exact R2|cbn; lia].
      + split; [|exists [d]; exact C2]. split; [eexists; eapply consumed_trans; [exact C1|exact C2]|]. cbn [fst snd out_span]. split.
        * rewrite E2. eapply range_widen; [exact R|exact R2].
        * cbn [sp_start sp_end lex_advance lx_pos]. change (blen [35]) with 1%nat. rewrite blen1, L1. lia.
    - split; [|exists [d]; exact C2]. split; [eexists; eapply consumed_trans; [exact C1|exact C2]|]. cbn [fst snd err_span]. split; [exact R2|].
      cbn [sp_start lex_advance lx_pos]. lia. }
  destruct (c =? 92) eqn:E92.
  { apply N.eqb_eq in E92 as ->. pose proof (read_command_consumed (lex_advance l [92] r)) as C2.
    destruct (read_command (lex_advance l [92] r)) as [cmd l2]. cbn [fst snd] in C2.
    pose proof (skip_whitespace_spec l2) as S. destruct (skip_whitespace l2) as [o l3]. destruct S as (ws & C3 & _).
    pose proof (consumed_trans _ _ _ _ _ C1 C2) as C12. pose proof (consumed_trans _ _ _ _ _ C12 C3) as C13.
    assert (P : step_ok input l (parse_env_marker l3 (mkSpan (lx_pos l) (lx_pos l2)) cmd)).
    { eapply parse_env_marker_ok; [exact H|exact C13| |].
      - exact (consumed_range input l l l2 [] _ H (consumed_refl l) C12).
      - cbn [sp_start sp_end]. destruct C3 as [_ ->]. lia. }
    split; [exact P|].
    pose proof (consumed_trans _ _ _ _ _ C2 C3) as C23.
    pose proof (parse_env_marker_ok input (lex_advance l [92] r) l3 (mkSpan (lx_pos l2) (lx_pos l2)) cmd _ H1 C23) as Q.
    assert (Q' : step_ok input (lex_advance l [92] r) (parse_env_marker l3 (mkSpan (lx_pos l2) (lx_pos l2)) cmd)).
    { apply Q; [apply range_zero; exact (consumed_at _ _ _ _ H1 C2)|]. cbn [sp_start sp_end].
      split; [destruct C2 as [_ ->]; lia|]. destruct C3 as [_ ->]. lia. }
    destruct Q' as [[b Cb] _]. exists b.
    replace (snd (parse_env_marker l3 (mkSpan (lx_pos l) (lx_pos l2)) cmd)) with
      (snd (parse_env_marker l3 (mkSpan (lx_pos l2) (lx_pos l2)) cmd)); [exact Cb|].
    unfold parse_env_marker. destruct (_ || _); [|reflexivity]. destruct (skip_whitespace l3) as [o4 l4].
    destruct (read_env_name l4) as [[[nm e]|[[ch|] es]] l5]; try reflexivity. now destruct (env_from_str nm). }
  split; [|exists []; apply consumed_refl]. split; [eexists; exact C1|]. cbn [fst snd out_span]. split; [exact R|].
  cbn [sp_start sp_end lex_advance lx_pos]. rewrite blen1. lia.
Qed.

Lemma skip_comments_suffix s : forall b, exists a, s = a ++ skip_comments b s.
Proof.
  induction s as [|c s IH]; intros b; cbn [skip_comments]; [exists []; reflexivity|].
  destruct b.
  - destruct (IH (negb (c =? 10))) as [a Ha]. exists (c :: a). cbn. now f_equal.
  - destruct (is_ascii_ws c); [destruct (IH false) as [a Ha]; exists (c :: a); cbn; now f_equal|].
    destruct (c =? 37); [destruct (IH true) as [a Ha]; exists (c :: a); cbn; now f_equal|].
    exists []. reflexivity.
Qed.

Lemma skip_comments_front s : forall b, match skip_comments b s with c :: _ => is_ascii_ws c = false /\ c <> 37 | [] => True end.
Proof.
  induction s as [|c s IH]; intros b; cbn [skip_comments]; [exact I|].
  destruct b; [apply IH|]. destruct (is_ascii_ws c) eqn:E; [apply IH|]. destruct (c =? 37) eqn:E2; [apply IH|].
  split; [exact E|]. now apply N.eqb_neq.
Qed.

Lemma after_comments_cases s : (exists r, s = 37 :: r /\ after_comments s = skip_comments true r) \/
  ((forall r, s <> 37 :: r) /\ after_comments s = s).
Proof.
  destruct s as [|c s]; [right; split; [discriminate|reflexivity]|].
  destruct (N.eq_dec c 37) as [->|Hc]; [left; exists s; split; reflexivity|].
  right. split; [intros r [= -> _]; contradiction|]. unfold after_comments.
  destruct c as [|p]; [reflexivity|]. repeat (destruct p; try reflexivity). now contradiction Hc.
Qed.

Lemma after_comments_suffix s : exists a, s = a ++ after_comments s.
Proof.
  destruct (after_comments_cases s) as [(r & -> & ->)|[_ ->]]; [|exists []; reflexivity].
  destruct (skip_comments_suffix r true) as [a Ha]. exists (37 :: a). cbn. now f_equal.
Qed.

Lemma next_token_eq l :
  next_token l =
  match skip_whitespace l with
  | (Some sp, l1) => (inl (LexTok (T_Whitespace, sp)), l1)
  | (None, _) =>
      let rest := after_comments (lx_rest l) in
      let l1 := mkLexer (lx_pos l + (blen (lx_rest l) - blen rest)) rest in
      match rest with
      | [] => (inl (LexTok (T_Eoi, span_zero_width (lx_pos l1))), l1)
      | c :: r => lex_char l1 c r
      end
  end.
Proof. reflexivity. Qed.

Lemma comments_consumed l : exists a,
  consumed l (mkLexer (lx_pos l + (blen (lx_rest l) - blen (after_comments (lx_rest l)))) (after_comments (lx_rest l))) a.
Proof.
  destruct (after_comments_suffix (lx_rest l)) as [a Ha]. exists a. split; [exact Ha|].
  cbn [lx_pos]. rewrite Ha at 1. rewrite blen_app. lia.
Qed.

(** One step: the lexer moves forward over the input; unless the end is reached, by at least one
    character. *)
Lemma next_token_ok input l : lex_at input l ->
  step_ok input l (next_token l) /\
  ((length (lx_rest (snd (next_token l))) < length (lx_rest l))%nat \/
   (exists sp, next_token l = (inl (LexTok (T_Eoi, sp)), snd (next_token l)) /\ lx_rest (snd (next_token l)) = [] /\
      sp = span_zero_width (blen input))).
Proof.
  intros H. rewrite next_token_eq. pose proof (skip_whitespace_spec l) as S.
  destruct (skip_whitespace l) as [o l1]. destruct S as (ws & C & Hws & Hnb & Ho).
  destruct ws as [|w ws].
  - subst o. destruct (comments_consumed l) as [a Ca]. cbn zeta.
    set (l2 := mkLexer _ _) in *. assert (H2 := consumed_at _ _ _ _ H Ca).
    destruct (after_comments (lx_rest l)) as [|c r] eqn:E.
    + split.
      * split; cbn [fst snd]; [eauto|]. cbn [out_span]. split; [now apply range_zero|]. cbn [span_zero_width sp_start sp_end].
        destruct Ca as [_ ->]. lia.
      * right. cbn [snd]. eexists. split; [reflexivity|]. split; [reflexivity|]. apply at_within in H2. cbn [lx_rest blen l2] in H2.
        f_equal. subst l2; cbn in *. lia.
    + destruct (lex_char_ok input l2 c r H2 eq_refl) as [[[b Cb] K] [d Cd]]. split.
      * split; [eexists; eapply consumed_trans; eauto|].
        assert (lx_pos l <= lx_pos l2)%nat by (destruct Ca as [_ ->]; lia).
        destruct (fst (lex_char l2 c r)) as [o|e]; destruct K as [K1 K2]; split; auto; lia.
      * left. destruct Cd as [Cd _]. destruct Ca as [Ca _]. rewrite Ca, app_length.
        change (lx_rest l2) with (c :: r). change (lx_rest (lex_advance l2 [c] r)) with r in Cd.
        assert (L : length r = (length d + length (lx_rest (snd (lex_char l2 c r))))%nat) by (rewrite Cd at 1; apply app_length).
        cbn [length]. lia.
  - subst o. split.
    + split; cbn [fst snd]; [eauto|]. cbn [out_span sp_start sp_end]. split.
      * apply (range_char input l w (ws ++ lx_rest l1) H). now destruct C as [-> _].
      * destruct C as [_ ->]. cbn [blen]. lia.
    + left. cbn [snd]. destruct C as [-> _]. cbn [app length]. rewrite app_length. lia.
Qed.

Lemma eoi_token_ok input l sp l' : lex_at input l -> next_token l = (inl (LexTok (T_Eoi, sp)), l') ->
  lx_rest l' = [] /\ sp = span_zero_width (blen input).
Proof.
  intros H. rewrite next_token_eq. pose proof (skip_whitespace_spec l) as S.
  destruct (skip_whitespace l) as [o l1]. destruct S as (ws & C & Hws & Hnb & Ho).
  destruct ws as [|w ws]; subst o; [|discriminate].
  destruct (comments_consumed l) as [a Ca]. cbn zeta. set (l2 := mkLexer _ _) in *. assert (H2 := consumed_at _ _ _ _ H Ca).
  destruct (after_comments (lx_rest l)) as [|c r] eqn:E.
  - intros [= <- <-]. split; [reflexivity|]. apply at_within in H2. subst l2. cbn in *. f_equal. lia.
  - intros K. exfalso. revert K. unfold lex_char.
    destruct (c =? 0); [discriminate|].
    destruct (c =? 35). { destruct r as [|d r']; [discriminate|]. destruct (is_ascii_digit d); [destruct (d =? 48); discriminate|discriminate]. }
    destruct (c =? 92).
    + destruct (read_command (lex_advance l2 [c] r)) as [cmd l3]. destruct (skip_whitespace l3) as [o4 l4]. unfold parse_env_marker.
      destruct (str_eqb cmd (lit "begin")); cbn [orb].
      * destruct (skip_whitespace l4) as [o5 l5]. destruct (read_env_name l5) as [[[nm e]|[[ch|] es]] l6]; try discriminate.
        now destruct (env_from_str nm).
      * destruct (str_eqb cmd (lit "end")); [|discriminate]. destruct (skip_whitespace l4) as [o5 l5]. destruct (read_env_name l5) as [[[nm e]|[[ch|] es]] l6]; try discriminate.
        now destruct (env_from_str nm).
    + intros [= K _ _]. revert K. unfold char_token.
      repeat match goal with |- (if ?b then _ else _) = _ -> _ => destruct b; [discriminate|] end.
      unfold get_operator_from_unicode. destruct (assoc_n c UNICODE_OPERATORS); discriminate.
Qed.

(** ** Whole inputs *)

Lemma tokenize_ok input : forall fuel l, lex_at input l -> (length (lx_rest l) < fuel)%nat ->
  exists ts e, tokenize fuel l = Some (ts, e) /\ (length ts <= length (lx_rest l))%nat /\
    Forall (range_of input) (map out_span ts ++ [end_span e]) /\
    ordered (lx_pos l) (map out_span ts ++ [end_span e]) /\
    (match e with LexEoi sp => sp = span_zero_width (blen input) | LexError _ => True end).
Proof.
  induction fuel as [|f IH]; intros l H Hf; [lia|]. cbn [tokenize].
  destruct (next_token_ok input l H) as [[[a Ca] K] P].
  pose proof (eoi_token_ok input l) as EO.
  destruct (next_token l) as [[o|e] l'] eqn:E; cbn [fst snd] in *.
  2: { exists [], (LexError e). cbn [map app end_span]. destruct K as [K1 K2]. split; [reflexivity|]. split; [cbn; lia|].
       split; [apply Forall_cons; [exact K1|apply Forall_nil]|]. split; [|exact I]. split; [|exact I].
       destruct K1 as (_ & _ & K3). lia. }
  destruct K as [K1 K2].
  assert (D : (exists sp, o = LexTok (T_Eoi, sp)) \/ ~ (exists sp, o = LexTok (T_Eoi, sp))).
  { destruct o as [[t sp]|n sp]; [|right; intros [? ?]; discriminate]. destruct t; try (right; intros [? ?]; discriminate). left. eauto. }
  destruct D as [[sp ->]|D].
  - exists [], (LexEoi sp). cbn [map app end_span]. split; [reflexivity|]. split; [cbn; lia|].
    split; [apply Forall_cons; [exact K1|apply Forall_nil]|]. split.
    + split; [|exact I]. destruct K1 as (_ & _ & K3). cbn in *. lia.
    + now apply (EO sp l').
  - destruct P as [P|(sp & P & _)]; [|injection P as ->; contradiction D; eauto].
    assert (H' := consumed_at _ _ _ _ H Ca). destruct (IH l' H' ltac:(lia)) as (ts & e & T1 & T2 & T3 & T4 & T5).
    exists (o :: ts), e.
    assert (match o with
            | LexTok (T_Eoi, sp) => Some ([], LexEoi sp)
            | _ => option_map (fun '(ts, e) => (o :: ts, e)) (tokenize f l')
            end = Some (o :: ts, e)) as ->.
    { rewrite T1. destruct o as [[t sp]|n sp]; [|reflexivity]. destruct t; try reflexivity. contradiction D; eauto. }
    split; [reflexivity|]. split; [cbn [length]; lia|]. cbn [map app]. split; [now apply Forall_cons|].
    split; [|exact T5]. cbn [ordered]. split; [destruct K1 as (_ & _ & K3); lia|].
    destruct K2 as [_ K2]. revert T4. generalize (map out_span ts ++ [end_span e]). intros q T4. destruct q; cbn in *; [exact I|].
    destruct T4 as [T4 T6]. split; [lia|exact T6].
Qed.

Lemma next_token_blank l ws s : lx_rest l = ws ++ s -> ws <> [] -> blank ws -> starts_blank s = false ->
  exists sp, next_token l = (inl (LexTok (T_Whitespace, sp)), mkLexer (lx_pos l + blen ws) s).
Proof.
  intros E Hn Hb Hs. rewrite next_token_eq. unfold skip_whitespace. rewrite E, span_while_app; auto.
  2: { destruct s; [exact I|exact Hs]. }
  destruct ws; [contradiction|]. eexists. reflexivity.
Qed.

Lemma next_token_not_blank l sp l' : starts_blank (lx_rest l) = false ->
  next_token l <> (inl (LexTok (T_Whitespace, sp)), l').
Proof.
  intros H. rewrite next_token_eq. unfold skip_whitespace.
  replace (span_while is_ascii_ws (lx_rest l)) with (@nil N, lx_rest l).
  2: { destruct (lx_rest l) as [|c s]; [reflexivity|]. cbn in *. now rewrite H. }
  cbn zeta. destruct (after_comments (lx_rest l)) as [|c r]; [discriminate|]. unfold lex_char.
  destruct (c =? 0); [discriminate|].
  destruct (c =? 35). { destruct r as [|d r']; [discriminate|]. destruct (is_ascii_digit d); [destruct (d =? 48); discriminate|discriminate]. }
  destruct (c =? 92).
  - match goal with |- context [read_command ?x] => destruct (read_command x) as [cmd l3] end. destruct (skip_whitespace l3) as [o4 l4]. unfold parse_env_marker.
    destruct (str_eqb cmd (lit "begin")); cbn [orb].
    + destruct (skip_whitespace l4) as [o5 l5]. destruct (read_env_name l5) as [[[nm e]|[[ch|] es]] l6]; try discriminate.
      now destruct (env_from_str nm).
    + destruct (str_eqb cmd (lit "end")); [|discriminate]. destruct (skip_whitespace l4) as [o5 l5]. destruct (read_env_name l5) as [[[nm e]|[[ch|] es]] l6]; try discriminate.
      now destruct (env_from_str nm).
  - intros [= K _ _]. revert K. unfold char_token.
    repeat match goal with |- (if ?b then _ else _) = _ -> _ => destruct b; [discriminate|] end.
    unfold get_operator_from_unicode. destruct (assoc_n c UNICODE_OPERATORS); discriminate.
Qed.

Lemma skip_comments_line body s : ~ In 10 body -> skip_comments true (body ++ 10 :: s) = skip_comments false s.
Proof.
  induction body as [|c body IH]; intros H; cbn [app skip_comments]; [reflexivity|].
  assert (c =? 10 = false) as -> by (apply N.eqb_neq; intros ->; apply H; now left). cbn [negb]. apply IH. intros K. apply H. now right.
Qed.
Lemma skip_comments_blank ws s : blank ws -> skip_comments false (ws ++ s) = skip_comments false s.
Proof. induction 1 as [|c ws Hc H IH]; [reflexivity|]. cbn [app skip_comments]. now rewrite Hc. Qed.
Lemma skip_comments_stop s : starts_blank s = false -> skip_comments false s = after_comments s.
Proof.
  destruct s as [|c s]; [reflexivity|]. cbn [starts_blank skip_comments]. intros ->.
  destruct (after_comments_cases (c :: s)) as [(r & E & ->)|[E ->]].
  - injection E as -> ->. reflexivity.
  - destruct (c =? 37) eqn:Ec; [|reflexivity]. apply N.eqb_eq in Ec as ->. now contradiction (E s).
Qed.
Lemma skip_comments_last body : ~ In 10 body -> skip_comments true body = [].
Proof.
  induction body as [|c body IH]; intros H; [reflexivity|]. cbn [skip_comments].
  assert (c =? 10 = false) as -> by (apply N.eqb_neq; intros ->; apply H; now left). cbn [negb]. apply IH. intros K. apply H. now right.
Qed.

Lemma next_token_same_rest l1 l2 : after_comments (lx_rest l1) = after_comments (lx_rest l2) ->
  starts_blank (lx_rest l1) = false -> starts_blank (lx_rest l2) = false ->
  (lx_pos l1 + (blen (lx_rest l1) - blen (after_comments (lx_rest l1))) = lx_pos l2 + (blen (lx_rest l2) - blen (after_comments (lx_rest l2))))%nat ->
  next_token l1 = next_token l2.
Proof.
  intros E B1 B2 P. rewrite !next_token_eq.
  assert (S : forall l, starts_blank (lx_rest l) = false -> fst (skip_whitespace l) = None).
  { intros l B. unfold skip_whitespace. destruct (lx_rest l) as [|c s]; [reflexivity|]. cbn in *. now rewrite B. }
  pose proof (S l1 B1) as S1. pose proof (S l2 B2) as S2.
  destruct (skip_whitespace l1) as [o1 m1], (skip_whitespace l2) as [o2 m2]. cbn in S1, S2. subst o1 o2. cbn zeta. rewrite P, E. reflexivity.
Qed.
