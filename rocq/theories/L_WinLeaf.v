(** Reading literals, numbers, words and texts from known tokens. *)
From Verif Require Import Str M_SuperChar M_Transform M_Length M_Spec M_Ast M_Token M_Symbols M_Commands M_Env
  M_LatexError M_Lexer M_CustomCmds M_Queue M_Spacing M_Colors M_Leaf M_TextParser M_Parser
  S_Lexer S_Queue S_Scripts S_Formula S_Reading L_Queue L_Args L_Reads L_Wp L_Ends L_Wins.
Local Open Scope nat_scope.

(** ** Characters of literals *)

Definition text_char (t : token) : option superchar :=
  match t with
  | T_Letter c MMathOrText => Some c
  | T_Digit d => Some (sc_from_char d)
  | T_Whitespace => Some (sc_from_char SYM_NO_BREAK_SPACE)
  | T_MathOrTextMode _ c => Some (sc_from_char c)
  | _ => None
  end.
Definition lit_facts (c : N) : bool :=
  match recover_limited_ascii (lit_tok c) with Some d => (d =? c)%N | None => false end &&
  match text_char (lit_tok c) with
  | Some s => match sc_chars s with Some t => str_eqb t [if (c =? 32)%N then 0xA0%N else c] | None => false end
  | None => false
  end &&
  implb (is_ascii_alpha c || is_ascii_digit c)
    (match unwrap_math (lit_tok c) with
     | T_Letter s MMathOrText => match sc_chars s with Some t => str_eqb t [c] | None => false end
     | T_Digit d => (d =? c)%N && match sc_chars (sc_from_char d) with Some t => str_eqb t [c] | None => false end
     | _ => false
     end && negb (is_ws (lit_tok c))).
Definition ascii_codes : list N := map N.of_nat (seq 0 128).
Lemma ascii_listed c : is_ascii c = true -> In c ascii_codes.
Proof.
  unfold is_ascii. intros H. apply in_map_iff. exists (N.to_nat c). split; [apply N2Nat.id|]. apply in_seq.
  apply N.ltb_lt in H || apply N.leb_le in H. lia.
Qed.
Lemma lit_facts_all : forallb (fun c => implb ((c =? 32)%N || lit_char_ok c) (lit_facts c)) ascii_codes = true.
Proof. vm_compute. reflexivity. Qed.
Lemma lit_char_ascii c : lit_char_ok c = true -> is_ascii c = true.
Proof.
  unfold lit_char_ok. rewrite andb_true_iff. intros [_ H]. destruct (recover_limited_ascii (char_token c)) as [d|] eqn:E; [|discriminate].
  apply N.eqb_eq in H. subst d. unfold recover_limited_ascii in E. destruct (char_token c); try discriminate.
  all: first
    [ match type of E with context [sc_try_as_char ?x] => destruct (sc_try_as_char x) as [d|]; [|discriminate] end;
      destruct (is_ascii_alpha d || (d =? 46)%N || (d =? 63)%N || (d =? 64)%N) eqn:A; [|discriminate];
      injection E as ->; unfold is_ascii_alpha, is_ascii_lower, is_ascii_upper in A; unfold is_ascii;
      repeat match goal with H : _ || _ = true |- _ => apply orb_true_iff in H; destruct H as [H|H] end;
      repeat match goal with H : _ && _ = true |- _ => apply andb_true_iff in H; destruct H end;
      repeat match goal with H : (_ =? _)%N = true |- _ => apply N.eqb_eq in H | H : (_ <=? _)%N = true |- _ => apply N.leb_le in H end;
      first [apply N.ltb_lt; lia | apply N.leb_le; lia]
    | match type of E with context [is_ascii ?x && _] => destruct (is_ascii x && _) eqn:A end; [|discriminate]; injection E as ->; now apply andb_true_iff in A as [A _]
    | injection E as <-; reflexivity ].
Qed.
Lemma lit_chars s : lit_ok s = true -> Forall (fun c => lit_facts c = true) s.
Proof.
  assert (H : forall c, (c =? 32)%N || lit_char_ok c = true -> lit_facts c = true).
  { intros c K. pose proof lit_facts_all as F. rewrite forallb_forall in F. specialize (F c). rewrite K in F. apply F, ascii_listed.
    apply orb_true_iff in K as [K|K]; [apply N.eqb_eq in K; now subst|now apply lit_char_ascii]. }
  induction s as [|c s IH]; intros L; [constructor|].
  assert (c = 32%N \/ c <> 32%N) as [->|N] by (destruct (N.eq_dec c 32); auto).
  - constructor; [now apply H|]. apply IH. cbn [lit_ok] in L. destruct s as [|b s]; [reflexivity|].
    destruct (N.eq_dec b 32) as [->|N]; [discriminate|]. destruct b as [|p]; [exact L|]. do 6 (destruct p as [p|p|]; try exact L). now destruct N.
  - assert (lit_char_ok c && lit_ok s = true) as K. { cbn [lit_ok] in L. destruct c as [|p]; [exact L|]. do 6 (destruct p as [p|p|]; try exact L). now destruct N. }
    apply andb_true_iff in K as [K1 K2]. constructor; [apply H; rewrite K1; apply orb_true_r|now apply IH].
Qed.
Lemma lit_recover c : lit_facts c = true -> recover_limited_ascii (lit_tok c) = Some c.
Proof. unfold lit_facts. rewrite !andb_true_iff. intros [[H _] _]. destruct (recover_limited_ascii _); [|discriminate]. apply N.eqb_eq in H. now subst. Qed.
Lemma lit_text c : lit_facts c = true -> exists s, text_char (lit_tok c) = Some s /\ sc_chars s = Some [if (c =? 32)%N then 0xA0%N else c].
Proof.
  unfold lit_facts. rewrite !andb_true_iff. intros [[_ H] _]. destruct (text_char _) as [s|]; [|discriminate]. exists s. split; [reflexivity|].
  destruct (sc_chars s) as [t|]; [|discriminate]. f_equal. now apply str_eqb_eq.
Qed.

Section Leaf.
Context {Ft : fate} (cfg : parser_cfg) (usize_max : N) (local cmds : custom_cmds) (bd : nat).
Notation q_view := (q_view cfg).
Notation qat := (qat cfg local cmds).
Notation at_ := (at_ cfg local cmds bd).
Notation wins := (wins cfg usize_max).
Notation exec := (exec cfg usize_max).

Lemma qat_size d ts q : qat d ts q -> length ts < q_size q.
Proof. intros (_ & V & _). rewrite <- V, map_length. apply view_size. Qed.
Lemma known_open : readable T_GroupBegin /\ readable T_GroupEnd.
Proof. now split. Qed.

Lemma group_at ts1 : forall d ts acc fuel q, qat d (ts1 ++ T_GroupEnd :: ts) q -> length ts1 < fuel ->
  Forall (fun t => known_raw t /\ t <> T_GroupBegin /\ t <> T_GroupEnd /\ t <> T_Eoi) ts1 ->
  exists l stop q', record_group_loop cfg true fuel 0 acc q = (Ok (acc ++ l, stop), q') /\ map qt_tok l = ts1 /\ qat d ts q'.
Proof.
  induction ts1 as [|t ts1 IH]; intros d ts acc fuel q A F K; (destruct fuel as [|fuel]; [cbn [length] in F; lia|]); cbn [record_group_loop app] in *.
  - destruct (qnext_any cfg local cmds d _ ts q A) as (x & q' & N & T & A'); [discriminate|]. rewrite N, T. exists [], (sp_end (qt_span x)), q'. rewrite app_nil_r. auto.
  - apply Forall_cons_iff in K as [(K1 & K2 & K3 & K4) K]. destruct (qnext_any cfg local cmds d t _ q A K1) as (x & q' & N & T & A'). rewrite N, T.
    assert (match t with T_GroupBegin | T_GroupEnd | T_Eoi => False | _ => True end) as Kt by (destruct t; congruence || exact I).
    destruct (IH d ts (acc ++ [x]) fuel q' A' ltac:(cbn [length] in F; lia) K) as (l & stop & q2 & R & Rl & A2). rewrite <- app_assoc in R. cbn [app] in R.
    exists (x :: l), stop, q2. split; [|split; [cbn [map]; now rewrite T, Rl|exact A2]]. destruct t; try exact R; destruct Kt.
Qed.
Lemma lit_known c : lit_facts c = true -> known_raw (lit_tok c) /\ lit_tok c <> T_GroupBegin /\ lit_tok c <> T_GroupEnd /\ lit_tok c <> T_Eoi.
Proof. intros H. apply lit_recover in H. split; [intros n E|split; [|split]; intros E]; rewrite E in H; discriminate. Qed.
Lemma ascii_of_lits s : forall l, map qt_tok l = map lit_tok s -> Forall (fun c => lit_facts c = true) s -> ascii_of (map qt_tokspan l) = Ok s.
Proof.
  induction s as [|c s IH]; intros [|x l] E F; try discriminate; [reflexivity|]. cbn [map] in E. injection E as E1 E2. apply Forall_cons_iff in F as [F1 F].
  cbn [map ascii_of]. unfold qt_tokspan at 1. cbn [fst]. now rewrite E1, (lit_recover c F1), (IH l E2 F).
Qed.
Lemma qliteral d w s ts q : lit_ok s = true -> qat d w q -> bare w = T_GroupBegin :: map lit_tok s ++ T_GroupEnd :: ts ->
  exists sp q', parse_string_literal cfg q = (Ok (s, sp), q') /\ qat d ts q'.
Proof.
  intros L A Bw. apply lit_chars in L. pose proof (qpeek cfg local cmds d _ q A) as P. rewrite Bw in P. cbn [hd] in P.
  destruct (qnext cfg local cmds d _ _ _ q A Bw) as (x & q1 & N & _ & A1). unfold parse_string_literal, sbind, read_argument. rewrite N, P.
  pose proof (qat_size _ _ _ A1) as Sz. rewrite app_length, map_length in Sz. cbn [length] in Sz.
  destruct (group_at (map lit_tok s) d ts [] (S (q_size q1)) q1 A1) as (l & stop & q2 & R & Rl & A2).
  - rewrite map_length. lia.
  - apply Forall_map. eapply Forall_impl; [|exact L]. exact lit_known.
  - unfold record_group. rewrite R. cbn [app]. rewrite (ascii_of_lits s l Rl L). unfold sres, sret. cbn. eauto.
Qed.
Lemma literal_at {A} (k : str * span -> prog A) x d w s ts st Q : lit_ok s = true -> at_ x d w st -> bare w = T_GroupBegin :: map lit_tok s ++ T_GroupEnd :: ts ->
  (forall s1 sp, at_ x d ts s1 -> wins (k (s, sp)) s1 Q) -> wins (Do OLiteral k) st Q.
Proof.
  intros L At Bw H. destruct (on_queue_at cfg local cmds (parse_string_literal cfg) bd x d _ ts st (fun y => fst y = s) At) as ([s' sp] & s1 & E & Ey & A1).
  { intros q Aq. destruct (qliteral d w s ts q L Aq Bw) as (sp & q' & N & A'). exists (s, sp), q'. auto. }
  cbn [fst] in Ey. subst s'. eapply wins_do; [exact E|exact (H s1 sp A1)].
Qed.
Lemma color_at {A} (k : N * N * N -> prog A) x d w s ts sp c st Q : lit_ok s = true -> get_color s = Some c ->
  at_ x d w st -> bare w = T_GroupBegin :: map lit_tok s ++ T_GroupEnd :: ts -> (forall s1, at_ x d ts s1 -> wins (k c) s1 Q) -> wins (Do (OColor sp) k) st Q.
Proof.
  intros L C At Bw H. destruct (on_queue_at cfg local cmds (parse_color cfg sp) bd x d _ ts st (fun y => y = c) At) as (c' & s1 & E & -> & A1).
  { intros q Aq. destruct (qliteral d w s ts q L Aq Bw) as (sp' & q' & N & A'). exists c, q'. split; [|auto]. unfold parse_color, sbind, sget.
    rewrite (qpeek cfg local cmds d _ q Aq), Bw. cbn [hd]. rewrite N, C. reflexivity. }
  eapply wins_do; [exact E|exact (H s1 A1)].
Qed.

(** A color model in brackets. *)
Lemma alpha_token c : is_ascii_alpha c = true -> exists s m, char_token c = T_Letter s m /\ sc_chars s = Some [c].
Proof.
  intros H. assert (In c ascii_codes) as Hi. { apply ascii_listed. unfold is_ascii_alpha, is_ascii_lower, is_ascii_upper in H. unfold is_ascii.
    apply orb_true_iff in H as [H|H]; apply andb_true_iff in H as [_ H]; apply N.leb_le in H; first [apply N.ltb_lt; lia|apply N.leb_le; lia]. }
  assert (F : forallb (fun c => implb (is_ascii_alpha c) (match char_token c with T_Letter s _ => match sc_chars s with Some t => str_eqb t [c] | None => false end | _ => false end)) ascii_codes = true) by (vm_compute; reflexivity).
  rewrite forallb_forall in F. specialize (F c Hi). rewrite H in F. cbn [implb] in F. destruct (char_token c); try discriminate F. exists c0, m. split; [reflexivity|].
  destruct (sc_chars c0) as [t|]; [|discriminate]. apply str_eqb_eq in F. now subst.
Qed.
Lemma model_loop_at sp m : forall d ts acc fuel q, qat d (map char_token m ++ T_SquareBracketClose :: ts) q -> length m < fuel -> forallb is_ascii_alpha m = true ->
  exists q', color_type_loop cfg fuel sp acc q = (Ok (acc ++ m), q') /\ qat d ts q'.
Proof.
  induction m as [|c m IH]; intros d ts acc fuel q A F K; (destruct fuel as [|fuel]; [cbn [length] in F; lia|]); cbn [color_type_loop map app forallb] in *; unfold sbind, stry.
  - destruct (qnext cfg local cmds d _ _ _ q A eq_refl) as (x & q' & N & T & A'). rewrite N. cbn [option_map]. rewrite T. cbn [unwrap_math]. rewrite app_nil_r. exists q'. now split.
  - apply andb_true_iff in K as [K1 K]. destruct (alpha_token c K1) as (s & md & Et & Es). rewrite Et in A.
    destruct (qnext cfg local cmds d _ _ _ q A eq_refl) as (x & q' & N & T & A'). rewrite N. cbn [option_map]. rewrite T. cbn [unwrap_math]. rewrite Es. unfold sopt, sret.
    destruct (IH d ts (acc ++ [c]) fuel q' A' ltac:(cbn [length] in F; lia) K) as (q2 & R & A2). exists q2. split; [|exact A2]. rewrite R, <- app_assoc. reflexivity.
Qed.
Lemma color_model_at {A} (k : N * N * N -> prog A) x d w m w2 s ts sp c st Q : forallb is_ascii_alpha m = true -> lit_ok s = true ->
  (str_eqb m (lit "rgb") || str_eqb m (lit "RGB") || str_eqb m (lit "HTML") = true) -> color_of m s = Some c ->
  at_ x d w st -> bare w = T_SquareBracketOpen :: map char_token m ++ T_SquareBracketClose :: w2 -> bare w2 = T_GroupBegin :: map lit_tok s ++ T_GroupEnd :: ts ->
  (forall s1, at_ x d ts s1 -> wins (k c) s1 Q) -> wins (Do (OColor sp) k) st Q.
Proof.
  intros Al L M C At Bw Bw2 H. destruct (on_queue_at cfg local cmds (parse_color cfg sp) bd x d _ ts st (fun y => y = c) At) as (c' & s1 & E & -> & A1).
  { intros q Aq. unfold parse_color, sbind, sget. rewrite (qpeek cfg local cmds d _ q Aq), Bw. cbn [hd].
    destruct (qnext cfg local cmds d _ _ _ q Aq Bw) as (y & q1 & N & _ & A1). rewrite N.
    pose proof (qat_size _ _ _ A1) as Sz. rewrite app_length, map_length in Sz.
    destruct (model_loop_at sp m d _ [] (S (q_size q1)) q1 A1 ltac:(lia) Al) as (q2 & R & A2). rewrite R. cbn [app].
    destruct (qliteral d _ s ts q2 L A2 Bw2) as (sp' & q3 & N3 & A3). unfold stry. rewrite N3. rewrite M, C. exists c, q3. now split. }
  eapply wins_do; [exact E|exact (H s1 A1)].
Qed.

(** Arguments of at most one token. *)
Lemma empty_argument_at {A} (k : macro_argument -> prog A) x d w ts st Q : at_ x d w st -> bare w = T_GroupBegin :: T_GroupEnd :: ts ->
  (forall s1 sp, at_ x d ts s1 -> wins (k (MaGroup [] sp)) s1 Q) -> wins (Do OArgument k) st Q.
Proof.
  intros At Bw H. destruct (on_queue_at cfg local cmds (read_argument cfg false) bd x d _ ts st (fun y => exists sp, y = MaGroup [] sp) At) as (y & s1 & E & (sp & ->) & A1).
  { intros q Aq. unfold read_argument. destruct (qnext cfg local cmds d _ _ _ q Aq Bw) as (z & q1 & N & T & A1). rewrite N, T. cbn [unwrap_math].
    unfold record_group. cbn [record_group_loop]. destruct (qnext cfg local cmds d _ _ _ q1 A1 eq_refl) as (z2 & q2 & N2 & T2 & A2). rewrite N2, T2. cbn [unwrap_math map]. eexists _, q2. split; [reflexivity|]. split; [eexists; reflexivity|exact A2]. }
  eapply wins_do; [exact E|exact (H s1 sp A1)].
Qed.
Lemma token_argument_at {A} (k : macro_argument -> prog A) x d w t ts (braces : bool) st Q : is_ws t = false ->
  match unwrap_math t with T_GroupBegin | T_GroupEnd | T_Eoi => false | _ => true end = true ->
  at_ x d w st -> bare w = (if braces then T_GroupBegin :: t :: T_GroupEnd :: ts else t :: ts) ->
  (forall s1 a sp, at_ x d ts s1 -> into_one_or_none a = Ok (inl (unwrap_math t, sp)) -> wins (k a) s1 Q) -> wins (Do OArgument k) st Q.
Proof.
  intros W G At Bw H. destruct (on_queue_at cfg local cmds (read_argument cfg false) bd x d _ ts st (fun y => exists sp, into_one_or_none y = Ok (inl (unwrap_math t, sp))) At) as (y & s1 & E & (sp & Ey) & A1).
  { intros q Aq. unfold read_argument. destruct braces.
    - destruct (qnext cfg local cmds d _ _ _ q Aq Bw) as (z & q1 & N & T & A1). rewrite N, T. cbn [unwrap_math]. pose proof (qat_size _ _ _ A1) as Sz. cbn [length] in Sz.
      unfold record_group. destruct (q_size q1) as [|n]; [lia|]. cbn [record_group_loop]. destruct (qnext cfg local cmds d _ _ _ q1 A1 (bare_same _ _ W)) as (z2 & q2 & N2 & T2 & A2). rewrite N2, T2. cbn [app].
      destruct (qnext cfg local cmds d _ _ _ q2 A2 eq_refl) as (z3 & q3 & N3 & T3 & A3). rewrite N3, T3. cbn [unwrap_math].
      destruct (unwrap_math t) eqn:Ut; try discriminate G; (eexists _, q3; split; [reflexivity|]; split; [|exact A3]; cbn [map into_one_or_none]; unfold qt_tokspan; rewrite T2; eexists; reflexivity).
    - destruct (qnext cfg local cmds d _ _ _ q Aq Bw) as (z & q1 & N & T & A1). rewrite N, T.
      destruct (unwrap_math t) eqn:Ut; try discriminate G; (eexists _, q1; split; [reflexivity|]; split; [|exact A1]; cbn [into_one_or_none]; unfold qt_tokspan; rewrite T; eexists; reflexivity). }
  eapply wins_do; [exact E|exact (H s1 y sp A1 Ey)].
Qed.

(** ** Numbers *)

Lemma digit_token c : is_ascii_digit c = true -> char_token c = T_Digit c.
Proof.
  intros H. assert (In c ascii_codes) as Hi. { apply ascii_listed. unfold is_ascii_digit in H. apply andb_true_iff in H as [_ H]. apply N.leb_le in H. unfold is_ascii. first [apply N.ltb_lt; lia|apply N.leb_le; lia]. }
  assert (F : forallb (fun c => implb (is_ascii_digit c) (match char_token c with T_Digit d => (d =? c)%N | _ => false end)) ascii_codes = true) by (vm_compute; reflexivity).
  rewrite forallb_forall in F. specialize (F c Hi). rewrite H in F. cbn [implb] in F. destruct (char_token c); try discriminate F. apply N.eqb_eq in F. now subst.
Qed.
Definition no_more_digits (ts : list token) : Prop := is_digit_tok (hd T_Eoi (bare ts)) = false /\
  (is_full_stop (hd T_Eoi (bare ts)) = true -> is_digit_tok (hd T_Eoi (bare (tl (bare ts)))) = false).
Lemma spells_length l : forall w k, spells w l k -> length l + length k <= length w.
Proof.
  induction l as [|t l IH]; intros w k H; cbn [spells] in H; [subst; cbn; lia|]. destruct H as (w1 & E & H). apply IH in H.
  destruct (bare_blank w) as (n & Ew & _). rewrite Ew, app_length, E. cbn [length]. lia.
Qed.
Lemma spells_app l : forall w k, spells w l k -> forall m k', spells k m k' -> spells w (l ++ m) k'.
Proof. induction l as [|t l IH]; intros w k H m k' K; cbn [spells app] in *; [now subst|]. destruct H as (w1 & E & H). exists w1. split; [exact E|]. now apply (IH _ k). Qed.
Lemma spells_exact l k : Forall (fun t => is_ws t = false) l -> spells (l ++ k) l k.
Proof. induction 1 as [|t l H F IH]; [reflexivity|]. cbn [spells app]. exists (l ++ k). split; [now apply bare_same|exact IH]. Qed.
Lemma digits_at r : forall d w ts acc fuel q, qat d w q -> spells w (map char_token r) ts -> length r < fuel -> decimals_ok r = true -> no_more_digits ts ->
  exists q', digits_loop cfg fuel acc q = (Ok (acc ++ r), q') /\ qat d ts q'.
Proof.
  induction r as [|c r IH]; intros d w ts acc fuel q A Sp F D (O2 & O3); (destruct fuel as [|fuel]; [cbn [length] in F; lia|]); cbn [digits_loop map spells] in *; unfold sbind, sget.
  - subst w. rewrite app_nil_r. rewrite (qpeek cfg local cmds d ts q A). destruct (is_full_stop (hd T_Eoi (bare ts))) eqn:Es.
    + destruct (bare ts) as [|t ts'] eqn:Eb; [discriminate|]. cbn [hd tl] in *. specialize (O3 eq_refl). destruct t; try discriminate Es.
      destruct (qpeek_second cfg local cmds d _ _ _ q A Eb) as (y & q' & N & T & A').
      cbv beta iota. rewrite Es. rewrite N, T, O3. exists q'. split; [reflexivity|exact A'].
    + exists q. split; [|exact A]. destruct (hd T_Eoi (bare ts)); try discriminate O2; cbv beta iota; rewrite ?Es; reflexivity.
  - assert (K : is_ascii_digit c = true /\ decimals_ok r = true \/ c = 46%N /\ exists c2 r2, r = c2 :: r2 /\ is_ascii_digit c2 = true /\ decimals_ok r = true).
    { destruct (N.eq_dec c 46) as [->|N].
      - right. split; [reflexivity|]. cbn [decimals_ok] in D. destruct r as [|c2 r2]; [discriminate|]. apply andb_true_iff in D as [D1 D2]. eauto 6.
      - left. cbn [decimals_ok] in D. apply andb_true_iff. destruct c as [|p]; [exact D|]. do 6 (destruct p as [p|p|]; try exact D). now destruct N. }
    destruct Sp as (w1 & Eb & Sp). destruct K as [[K1 K2]|(-> & c2 & r2 & -> & K1 & K2)].
    + rewrite (digit_token c K1) in *. rewrite (qpeek cfg local cmds d _ q A), Eb. cbn [hd].
      destruct (qnext cfg local cmds d _ _ _ q A Eb) as (x & q1 & N & _ & A1). rewrite N.
      destruct (IH d w1 ts (acc ++ [c]) fuel q1 A1 Sp ltac:(cbn [length] in F; lia) K2 (conj O2 O3)) as (q2 & R & A2). exists q2. split; [|exact A2]. rewrite R, <- app_assoc. reflexivity.
    + assert (E46 : char_token 46 = T_Letter (sc_from_char 46) MMathOrText) by reflexivity. rewrite E46 in *. rewrite (qpeek cfg local cmds d _ q A), Eb. cbn [hd].
      change (is_full_stop (T_Letter (sc_from_char 46) MMathOrText)) with true. cbv iota. pose proof Sp as Sp2. cbn [map spells] in Sp. rewrite (digit_token c2 K1) in Sp. destruct Sp as (w2 & Eb2 & Sp).
      destruct (qpeek_second cfg local cmds d _ _ _ q A Eb) as (y & q' & N & T & A'). rewrite N, T, Eb2. cbn [hd is_digit_tok].
      destruct (qnext cfg local cmds d _ _ _ q' A' Eb) as (x & q1 & N1 & _ & A1). rewrite N1.
      destruct (IH d w1 ts (acc ++ [46%N]) fuel q1 A1 Sp2) as (q2 & R & A2); [cbn [length] in *; lia|exact K2|exact (conj O2 O3)|].
      exists q2. split; [|exact A2]. rewrite R, <- app_assoc. reflexivity.
Qed.
Lemma number_at {A} (k : str -> prog A) x d w c r ts st Q : decimals_ok r = true -> no_more_digits ts -> at_ x d w st -> spells w (map char_token r) ts ->
  (forall s1, at_ x d ts s1 -> wins (k (c :: r)) s1 Q) -> wins (Do (ODigits c) k) st Q.
Proof.
  intros D O At Sp H. destruct (on_queue_at cfg local cmds (read_digits cfg c) bd x d _ ts st (fun y => y = c :: r) At) as (y & s1 & E & -> & A1).
  { intros q Aq. pose proof (qat_size _ _ _ Aq) as Sz. pose proof (spells_length _ _ _ Sp) as Ls. rewrite map_length in Ls.
    destruct (digits_at r d w ts [c] (S (q_size q)) q Aq Sp ltac:(lia) D O) as (q' & R & A'). exists (c :: r), q'. auto. }
  eapply wins_do; [exact E|exact (H s1 A1)].
Qed.

(** ** Words *)

Lemma letters_loop_at v l : forall cs d w ts acc fuel q, qat d w q -> spells w l ts -> length l < fuel ->
  all_some (word_char (Some v)) l = Some cs -> word_char (Some v) (hd T_Eoi (bare ts)) = None ->
  exists q', letters_loop cfg v fuel acc q = (Ok (acc ++ cs), q') /\ qat d ts q'.
Proof.
  induction l as [|t l IH]; intros cs d w ts acc fuel q A Sp F E W; (destruct fuel as [|fuel]; [cbn [length] in F; lia|]); cbn [letters_loop spells all_some] in *; unfold sbind, sget.
  - injection E as <-. subst w. rewrite app_nil_r. rewrite (qpeek cfg local cmds d ts q A). exists q. split; [|exact A].
    destruct (hd T_Eoi (bare ts)); try discriminate W; try reflexivity. destruct v; [reflexivity|discriminate W].
  - destruct (word_char (Some v) t) as [c|] eqn:Ec; [|discriminate]. destruct (all_some _ l) as [cs'|] eqn:El; [|discriminate]. injection E as <-. destruct Sp as (w1 & Eb & Sp).
    rewrite (qpeek cfg local cmds d _ q A), Eb. cbn [hd]. destruct (qnext cfg local cmds d w t _ q A Eb) as (x & q1 & N & _ & A1).
    destruct (IH cs' d w1 ts (acc ++ [c]) fuel q1 A1 Sp ltac:(cbn [length] in F; lia) eq_refl W) as (q2 & R & A2). rewrite <- app_assoc in R. cbn [app] in R. exists q2. split; [|exact A2].
    cbn [word_char] in Ec. destruct t; try discriminate Ec.
    + injection Ec as <-. rewrite N. exact R.
    + injection Ec as <-. rewrite N. exact R.
    + destruct v as [|v]; [discriminate Ec|]. injection Ec as <-. rewrite N. exact R.
Qed.
(** No letters are ahead. *)
Lemma no_letters_at {A} (k : option node -> prog A) x d ts st Q : at_ x d ts st -> word_char (cx_tf x) (hd T_Eoi (bare ts)) = None ->
  (forall s1, at_ x d ts s1 -> wins (k None) s1 Q) -> wins (Do OLetters k) st Q.
Proof.
  intros At W H. destruct (on_queue_at cfg local cmds (merge_letters cfg (cx_tf x)) bd x d ts ts st (fun y => y = None) At) as (y & s1 & E & -> & A1).
  { intros q Aq. unfold merge_letters. destruct (cx_tf x) as [v|]; [|exists None, q; auto].
    destruct (letters_loop_at v [] [] d ts ts [] (S (q_size q)) q Aq eq_refl ltac:(cbn; lia) eq_refl W) as (q' & R & A'). exists None, q'. unfold sbind. rewrite R. auto. }
  eapply wins_do; [|exact (H s1 A1)]. cbn [M_Parser.exec]. destruct At as [_ (left & Lf & V)]. unfold sbind, view, sget. rewrite V. exact E.
Qed.
Lemma letters_at {A} (k : option node -> prog A) x d w l cs n ts st Q : at_ x d w st -> spells w l ts -> all_some (word_char (cx_tf x)) l = Some cs ->
  word_node (cx_tf x) cs = Some n -> word_char (cx_tf x) (hd T_Eoi (bare ts)) = None ->
  (forall s1, at_ x d ts s1 -> wins (k (Some n)) s1 Q) -> wins (Do OLetters k) st Q.
Proof.
  intros At Sp E Wn W H. destruct (on_queue_at cfg local cmds (merge_letters cfg (cx_tf x)) bd x d _ ts st (fun y => y = Some n) At) as (y & s1 & E1 & -> & A1).
  { intros q Aq. unfold merge_letters. destruct (cx_tf x) as [v|].
    - pose proof (qat_size _ _ _ Aq) as Sz. pose proof (spells_length _ _ _ Sp) as Ls.
      destruct (letters_loop_at v l cs d w ts [] (S (q_size q)) q Aq Sp ltac:(lia) E W) as (q' & R & A'). exists (Some n), q'. unfold sbind. rewrite R. cbn [app].
      destruct cs as [|c [|c2 cs]]; cbn [word_node] in Wn; [discriminate| |].
      + injection Wn as <-. unfold sret. auto.
      + destruct (sc_string (c :: c2 :: cs)) as [z|]; [|discriminate]. cbn [option_map] in Wn. injection Wn as <-. unfold sopt, sret. auto.
    - destruct l as [|t l]; [|discriminate]. injection E as <-. discriminate. }
  eapply wins_do; [|exact (H s1 A1)]. cbn [M_Parser.exec]. destruct At as [_ (left & Lf & V)]. unfold sbind, view, sget. rewrite V. exact E1.
Qed.

(** ** Texts *)

Definition in_text (st : option text_style) (vo : option length_set) (b : str) : text_state := mkTx [(O, st, vo)] (Some b) [] None O [].
Lemma push_in_text st vo c t b : sc_chars c = Some t -> push_char c st None vo (in_text st vo b) = TrNext (in_text st vo (b ++ t)).
Proof. intros E. unfold push_char. rewrite E. cbn. now rewrite app_nil_r. Qed.
Lemma text_chars_at st vo s : forall d ts b fuel q, qat d (map lit_tok s ++ T_GroupEnd :: ts) q -> S (length s) < fuel -> Forall (fun c => lit_facts c = true) s ->
  exists q', text_loop cfg true fuel (in_text st vo b) q = (Ok (flush st None vo (b ++ text_of s)), q') /\ qat d ts q'.
Proof.
  induction s as [|c s IH]; intros d ts b fuel q A F K; (destruct fuel as [|fuel]; [cbn [length] in F; lia|]); cbn [text_loop map app in_text tx_styles] in *; unfold sbind.
  - destruct (qnext_any cfg local cmds d _ ts q A) as (x & q' & N & T & A'); [discriminate|]. rewrite N, T. cbn [text_token_step in_text tx_builder tx_nest]. unfold pop_style. cbn [in_text tx_styles].
    destruct fuel as [|fuel]; [lia|]. cbn [text_loop tx_styles]. unfold sret. cbn [tx_snips in_text flush_opt app]. exists q'. split; [|exact A'].
    rewrite app_nil_r. reflexivity.
  - apply Forall_cons_iff in K as [K1 K]. destruct (lit_known c K1) as (Kn & _). destruct (qnext_any cfg local cmds d _ _ q A Kn) as (x & q' & N & T & A'). rewrite N, T.
    destruct (lit_text c K1) as (sc & E1 & E2).
    assert (text_token_step true (lit_tok c) st vo (in_text st vo b) = TrNext (in_text st vo (b ++ [if (c =? 32)%N then 0xA0%N else c]))) as ->.
    { rewrite <- (push_in_text st vo sc _ b E2). destruct (lit_tok c); try discriminate E1; try (match goal with m : mode |- _ => destruct m; try discriminate E1 end); injection E1 as <-; reflexivity. }
    destruct (IH d ts (b ++ [if (c =? 32)%N then 0xA0%N else c]) fuel q' A' ltac:(cbn [length] in F; lia) K) as (q2 & R & A2). exists q2. split; [|exact A2].
    rewrite R, <- app_assoc. reflexivity.
Qed.
Lemma text_at {A} (k : list snippet -> prog A) x d ts0 vo s ts st Q : lit_ok s = true -> at_ x d (T_GroupBegin :: map lit_tok s ++ T_GroupEnd :: ts) st ->
  (forall s1, at_ x d ts s1 -> wins (k (flush ts0 None vo (text_of s))) s1 Q) -> wins (Do (OText ts0 vo true) k) st Q.
Proof.
  intros L At H. apply lit_chars in L. destruct (on_queue_at cfg local cmds (extract_text cfg true ts0 vo) bd x d _ ts st (fun y => y = flush ts0 None vo (text_of s)) At) as (y & s1 & E & -> & A1).
  { intros q Aq. unfold extract_text. cbn [text_loop text_start tx_styles]. unfold sbind.
    pose proof (qat_size _ _ _ Aq) as Sz. cbn [length] in Sz. rewrite app_length, map_length in Sz. cbn [length] in Sz.
    destruct (qnext_any cfg local cmds d _ _ q Aq) as (z & q1 & N & T & A'); [discriminate|]. rewrite N, T. cbn [text_token_step text_start tx_builder].
    destruct (text_chars_at ts0 vo s d ts [] (q_size q) q1 A' ltac:(lia) L) as (q2 & R & A2). eexists _, q2. split; [exact R|]. auto. }
  eapply wins_do; [exact E|exact (H s1 A1)].
Qed.
Lemma name_chars_at s : forall d ts b fuel q, qat d (map lit_tok s ++ T_GroupEnd :: ts) q -> S (length s) < fuel -> Forall (fun c => lit_facts c = true) s ->
  forallb (fun c => is_ascii_alpha c || is_ascii_digit c) s = true ->
  exists q', text_loop cfg false fuel (in_text None None b) q = (Ok (flush None None None (b ++ s)), q') /\ qat d ts q'.
Proof.
  induction s as [|c s IH]; intros d ts b fuel q A F K P; (destruct fuel as [|fuel]; [cbn [length] in F; lia|]); cbn [text_loop map app in_text tx_styles] in *; unfold sbind.
  - destruct (qnext cfg local cmds d _ _ ts q A eq_refl) as (x & q' & N & T & A'). rewrite N, T. cbn [unwrap_math text_token_step in_text tx_builder tx_nest]. unfold pop_style. cbn [in_text tx_styles].
    destruct fuel as [|fuel]; [lia|]. cbn [text_loop tx_styles]. unfold sret. cbn [tx_snips in_text flush_opt app]. exists q'. split; [|exact A'].
    rewrite app_nil_r. reflexivity.
  - apply Forall_cons_iff in K as [K1 K]. cbn [forallb] in P. apply andb_true_iff in P as [P1 P].
    unfold lit_facts in K1. rewrite P1 in K1. cbn [implb] in K1. rewrite !andb_true_iff in K1. destruct K1 as [_ [K1 Kw]].
    assert (readable (lit_tok c)) as Rd. { unfold readable. now destruct (is_ws (lit_tok c)). }
    destruct (qnext cfg local cmds d _ _ _ q A (bare_same _ _ Rd)) as (x & q' & N & T & A'). rewrite N, T.
    assert (text_token_step false (unwrap_math (lit_tok c)) None None (in_text None None b) = TrNext (in_text None None (b ++ [c]))) as ->.
    { destruct (unwrap_math (lit_tok c)); try discriminate K1.
      - destruct m; try discriminate K1. destruct (sc_chars c0) as [t|] eqn:E2; [|discriminate]. apply str_eqb_eq in K1. subst t. apply (push_in_text None None c0 _ b E2).
      - apply andb_true_iff in K1 as [_ K1]. destruct (sc_chars (sc_from_char c0)) as [t|] eqn:E2; [|discriminate]. apply str_eqb_eq in K1. subst t. apply (push_in_text None None _ _ b E2). }
    destruct (IH d ts (b ++ [c]) fuel q' A' ltac:(cbn [length] in F; lia) K P) as (q2 & R & A2). exists q2. split; [|exact A2].
    rewrite R, <- app_assoc. reflexivity.
Qed.
Lemma name_at {A} (k : list snippet -> prog A) x d s ts st Q : lit_ok s = true -> forallb (fun c => is_ascii_alpha c || is_ascii_digit c) s = true ->
  at_ x d (T_GroupBegin :: map lit_tok s ++ T_GroupEnd :: ts) st ->
  (forall s1, at_ x d ts s1 -> wins (k (flush None None None s)) s1 Q) -> wins (Do (OText None None false) k) st Q.
Proof.
  intros L P At H. apply lit_chars in L. destruct (on_queue_at cfg local cmds (extract_text cfg false None None) bd x d _ ts st (fun y => y = flush None None None s) At) as (y & s1 & E & -> & A1).
  { intros q Aq. unfold extract_text. cbn [text_loop text_start tx_styles]. unfold sbind.
    pose proof (qat_size _ _ _ Aq) as Sz. cbn [length] in Sz. rewrite app_length, map_length in Sz. cbn [length] in Sz.
    destruct (qnext cfg local cmds d _ _ _ q Aq eq_refl) as (z & q1 & N & T & A'). rewrite N, T. cbn [unwrap_math text_token_step text_start tx_builder].
    destruct (name_chars_at s d ts [] (q_size q) q1 A' ltac:(lia) L P) as (q2 & R & A2). eexists _, q2. split; [exact R|]. auto. }
  eapply wins_do; [exact E|exact (H s1 A1)].
Qed.

(** ** Primes *)

Definition token_prime (t : token) : option prime_kind := match unwrap_math t with T_Prime k => Some k | _ => None end.
Lemma primes_loop_at l : forall ks d ts acc fuel q, qat d (l ++ ts) q -> length l < fuel -> all_some token_prime l = Some ks ->
  token_prime (hd T_Eoi ts) = None ->
  exists q', primes_loop cfg fuel acc q = (Ok (fold_left (fun l k => add_prime k l) ks acc, match unwrap_math (hd T_Eoi ts) with T_Circumflex => true | _ => false end), q') /\ qat d ts q'.
Proof.
  induction l as [|t l IH]; intros ks d ts acc fuel q A F E O; (destruct fuel as [|fuel]; [cbn [length] in F; lia|]); cbn [primes_loop app all_some] in *; unfold sbind, sget.
  - injection E as <-. rewrite (qpeek_any cfg local cmds d ts q A). exists q. split; [|exact A]. unfold token_prime in O. destruct (unwrap_math (hd T_Eoi ts)); try discriminate O; reflexivity.
  - destruct (token_prime t) as [k|] eqn:Ek; [|discriminate]. destruct (all_some token_prime l) as [ks'|] eqn:El; [|discriminate]. injection E as <-.
    rewrite (qpeek_any cfg local cmds d _ q A). cbn [hd]. unfold token_prime in Ek. destruct (unwrap_math t) eqn:Et; try discriminate. injection Ek as ->.
    destruct (qnext_any cfg local cmds d t _ q A) as (x & q1 & N & _ & A1). { intros n ->. discriminate. } rewrite N.
    destruct (IH ks' d ts (add_prime k acc) fuel q1 A1 ltac:(cbn [length] in F; lia) eq_refl O) as (q2 & R & A2). exists q2. split; [exact R|exact A2].
Qed.
Lemma primes_at {A} (f : list (prime_direction * nat) * bool -> prog A) x d k l ks ts st Q : all_some token_prime l = Some ks -> token_prime (hd T_Eoi ts) = None -> at_ x d (l ++ ts) st ->
  (forall s1, at_ x d ts s1 -> wins (f (fold_left (fun l k => add_prime k l) (k :: ks) [], match unwrap_math (hd T_Eoi ts) with T_Circumflex => true | _ => false end)) s1 Q) -> wins (Do (OPrimes k) f) st Q.
Proof.
  intros E O At H. destruct (on_queue_at cfg local cmds (read_primes cfg k) bd x d _ ts st (fun y => y = (fold_left (fun l k => add_prime k l) (k :: ks) [], match unwrap_math (hd T_Eoi ts) with T_Circumflex => true | _ => false end)) At) as (y & s1 & E1 & -> & A1).
  { intros q Aq. pose proof (qat_size _ _ _ Aq) as Sz. rewrite app_length in Sz.
    destruct (primes_loop_at l ks d ts [(prime_dir k, prime_count k)] (S (q_size q)) q Aq ltac:(lia) E O) as (q' & R & A'). eexists _, q'. split; [exact R|]. auto. }
  eapply wins_do; [exact E1|exact (H s1 A1)].
Qed.
Lemma caret_at {A} (f : unit -> prog A) x d t ts st Q : known_raw t -> at_ x d (t :: ts) st -> (forall s1, at_ x d ts s1 -> wins (f tt) s1 Q) -> wins (Do OPrimeCaret f) st Q.
Proof.
  intros K At H. destruct (on_queue_at cfg local cmds (q_next_any cfg) bd x d _ ts st (fun _ => True) At) as (y & s1 & E & _ & A1).
  { intros q Aq. destruct (qnext_any cfg local cmds d t ts q Aq K) as (z & q' & N & _ & A'). exists z, q'. auto. }
  eapply wins_do; [|exact (H s1 A1)]. cbn [M_Parser.exec]. unfold sbind. rewrite E. reflexivity.
Qed.

(** ** Rows *)

Lemma qat_count d d' ts q : qat d ts q -> qat d' ts (q_set_stores q (q_local q) (mkGs (nu_count d') (nu_labels d') (gs_cmds (q_gs q)))).
Proof.
  intros (G & V & E & L & Gs & Kn). set (q' := q_set_stores _ _ _).
  assert (q_view q' = q_view q) as Vq.
  { unfold S_Queue.q_view. assert (lexed cfg q' = lexed cfg q) as ->; [|reflexivity]. unfold lexed. cbn [q' q_set_stores q_lexer].
    destruct (tokenize _ _) as [[l e]|]; reflexivity. }
  split; [exact G|]. rewrite Vq. repeat split; [exact V|exact E|exact L| |exact Kn]. unfold q'. cbn [q_set_stores q_gs]. now rewrite Gs.
Qed.
Lemma record_at x d r is_last sp ts s info r2 count labels : at_ x d ts s ->
  finish_row usize_max r (nu_count d) (nu_labels d) is_last = Some (info, r2, count, labels) ->
  exists s1, record_row usize_max r is_last sp s = (Ok (info, r2), s1) /\ at_ x (mkNu count labels (nu_row d)) ts s1.
Proof.
  intros [Aq (left & Lf & V)] F. pose proof Aq as (_ & _ & _ & _ & Gs & _). unfold record_row, sbind, sget. rewrite Gs. cbn [gs_count gs_labels gs_cmds]. rewrite F.
  unfold on_queue_pure, on_queue, sret. eexists. split; [reflexivity|]. split; [|exists left; exact (conj Lf V)].
  cbn [ps_queue]. pose proof (qat_count d (mkNu count labels (nu_row d)) ts _ Aq) as K. rewrite Gs in K. exact K.
Qed.
(** The end of a row, with the line after it. *)
Lemma row_at {A} (k : node -> prog A) x d w ts st sp Q (lt : option line_type) info rows d' :
  at_ x d w st -> match lt with Some l => bare w = T_HLine l :: ts | None => w = ts end -> (lt = None -> forall l, hd T_Eoi (bare ts) <> T_HLine l) ->
  (lt <> None -> cx_hlines x = true) -> cx_rows x = true -> end_row usize_max false d = Some ((info, rows), d') ->
  (forall s1, at_ x d' ts s1 -> wins (k (RowSeparator info lt)) s1 Q) -> wins (Do (ORow sp) k) st Q.
Proof.
  intros At Bw NH Hl Rw E H.
  assert (exists s1, (if cx_hlines x then
        sbind (on_queue (sget q_peek)) (fun t => match qt_tok t with T_HLine l => sbind (next_tok cfg) (fun _ => sret (Some l)) | _ => sret None end) else sret None) st = (Ok lt, s1) /\ at_ x d ts s1) as (s1 & E1 & A1).
  { destruct lt as [l|].
    - rewrite Hl by discriminate. destruct At as [Aq V]. unfold sbind, on_queue, sget. rewrite (qpeek cfg local cmds d _ _ Aq), Bw. cbn [hd ps_queue ps_view].
      destruct (qnext cfg local cmds d _ _ _ _ Aq Bw) as (y & q' & N & _ & A').
      unfold next_tok, sbind, on_queue, sret. cbn [ps_queue ps_view]. rewrite N. eexists. split; [reflexivity|]. split; [exact A'|exact V].
    - subst w. destruct (cx_hlines x); [|exists st; auto]. destruct At as [Aq V]. unfold sbind, on_queue, sget, sret. rewrite (qpeek cfg local cmds d _ _ Aq).
      exists (mkPs (ps_queue st) (ps_view st)). split; [|split; [exact Aq|exact V]]. specialize (NH eq_refl). destruct (hd T_Eoi (bare ts)); try reflexivity. now destruct (NH l). }
  pose proof A1 as [Aq1 V1].
  assert (exists s2, exec (ORow sp) st = (Ok (RowSeparator info lt), s2) /\ at_ x d' ts s2) as (s2 & E2 & A2); [|eapply wins_do; [exact E2|exact (H s2 A2)]].
  destruct At as [_ (left0 & Lf0 & V0)]. cbn [M_Parser.exec]. unfold new_row. unfold sbind at 1. unfold view, sget at 1. rewrite V0. cbn [view_of pv_env es_meaningful_newlines es_allow_hlines es_numbered].
  rewrite Rw. unfold sbind at 1. rewrite E1. unfold end_row in E. destruct (nu_row d) as [r|] eqn:Er.
  - destruct (bump_rows r) as [r1|] eqn:Eb; [|discriminate]. destruct (finish_row usize_max r1 (nu_count d) (nu_labels d) false) as [[[[info' r2] count] labels]|] eqn:Ef; [|discriminate].
    injection E as <- <- <-. destruct (record_at x d r1 false sp ts s1 _ _ _ _ A1 Ef) as (s2 & R & [Aq2 (left & Lf2 & V2)]). unfold sbind at 1. rewrite R.
    unfold sbind, on_view, sret. eexists. split; [reflexivity|]. split; [exact Aq2|]. exists left. split; [exact Lf2|]. cbn [ps_view]. rewrite V2. reflexivity.
  - injection E as <- <- <-. exists s1. split; [reflexivity|exact A1].
Qed.
Lemma no_row_at {A} (k : node -> prog A) x d ts st sp Q : at_ x d ts st -> cx_rows x = false -> wins (k EMPTY_ROW) st Q -> wins (Do (ORow sp) k) st Q.
Proof.
  intros [_ (left & Lf & V)] Rw H. eapply wins_do; [|exact H]. cbn [M_Parser.exec]. unfold new_row, sbind, view, sget. rewrite V. cbn [view_of pv_env es_meaningful_newlines]. now rewrite Rw.
Qed.
Lemma last_row_at {A} (k : option row_label_info * option N -> prog A) x d r ts st sp Q v d' :
  at_ x d ts st -> end_row usize_max true (set_row r d) = Some (v, d') ->
  (forall s1, at_ x (set_row (nu_row d) d') ts s1 -> wins (k v) s1 Q) -> wins (Do (OEnvEnd sp r) k) st Q.
Proof.
  intros At E H. unfold end_row in E. cbn [set_row nu_row nu_count nu_labels] in E. destruct r as [r|].
  - destruct (finish_row usize_max r (nu_count d) (nu_labels d) true) as [[[[info r2] count] labels]|] eqn:Ef; [|discriminate]. injection E as <- <-.
    destruct (record_at x d r true sp ts st _ _ _ _ At Ef) as (s2 & R & A2). eapply wins_do; [|apply H; exact A2].
    cbn [M_Parser.exec env_end]. unfold sbind. rewrite R. reflexivity.
  - injection E as <- <-. eapply wins_do; [reflexivity|]. apply H. unfold set_row. cbn [nu_count nu_labels nu_row]. destruct d; exact At.
Qed.
End Leaf.
