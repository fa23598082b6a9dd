(** Splitting the text of formulas into tokens. *)
From Verif Require Import Str M_SuperChar M_Transform M_Length M_Spec M_Ast M_Token M_Symbols M_Commands M_Env
  M_LatexError M_Lexer M_CustomCmds M_Queue M_Spacing M_Colors M_Leaf M_TextParser M_Parser
  S_Lexer S_Queue S_Scripts S_Formula S_Reading L_Lexer L_Queue L_Args L_Reads L_Wp L_Ends L_Wins L_WinLeaf L_Expand L_FormEq L_Form L_FormArg L_FormHead L_FormSeq L_Define P_Lexer.
Local Open Scope nat_scope.

(** ** Single tokens *)

Lemma lex_sym_char pos c k : sym_char_ok c = true -> exists sp l', next_token (mkLexer pos (c :: k)) = (inl (LexTok (char_token c, sp)), l') /\ lx_rest l' = k.
Proof.
  unfold sym_char_ok. intros H. apply negb_true_iff in H. apply orb_false_iff in H as [H H5]. apply orb_false_iff in H as [H H4]. apply orb_false_iff in H as [H H3]. apply orb_false_iff in H as [H1 H2].
  rewrite next_token_eq. unfold skip_whitespace. cbn [lx_rest span_while]. rewrite H1. cbv zeta.
  assert (A : after_comments (c :: k) = c :: k). { destruct (after_comments_cases (c :: k)) as [(r & E & _)|[_ E]]; [|exact E]. injection E as -> _. discriminate H4. }
  rewrite A. unfold lex_char. rewrite H2, H3, H5. eexists _, _. split; [reflexivity|reflexivity].
Qed.
Lemma lex_blank pos k : starts_blank k = false -> exists sp l', next_token (mkLexer pos (32%N :: k)) = (inl (LexTok (T_Whitespace, sp)), l') /\ lx_rest l' = k.
Proof.
  intros B. rewrite next_token_eq. unfold skip_whitespace. cbn [lx_rest span_while]. change (is_ascii_ws 32) with true. cbv iota.
  assert (E : span_while is_ascii_ws k = ([], k)). { destruct k as [|c k]; [reflexivity|]. cbn [span_while starts_blank] in *. now rewrite B. }
  rewrite E. eexists _, _. split; reflexivity.
Qed.
Lemma name_command n k : name_ok n = true -> command_name (n ++ 32%N :: k) n (32%N :: k) /\ n <> lit "begin" /\ n <> lit "end".
Proof.
  unfold name_ok. intros H. apply andb_true_iff in H as [H1 H2]. apply negb_true_iff in H1. apply orb_false_iff in H1 as [Hb He].
  split; [|split; apply str_eqb_neq; assumption]. pose proof (span_while_spec is_ascii_alpha n) as S. destruct (span_while is_ascii_alpha n) as [a b]. destruct S as (-> & Fa & Hb').
  destruct a as [|c a].
  - destruct b as [|c [|? ?]]; try discriminate H2. cbn [app]. destruct (N.eq_dec c 42) as [->|Nc]; [exact (cn_star [] (32%N :: k) (Forall_nil _))|]. apply cn_other; [exact Hb'|exact Nc].
  - destruct b as [|d [|? ?]]; try discriminate H2.
    + rewrite app_nil_r. apply cn_letters; [discriminate|exact Fa|]. split; [reflexivity|discriminate].
    + apply N.eqb_eq in H2 as ->. rewrite <- app_assoc. exact (cn_star (c :: a) (32%N :: k) Fa).
Qed.
Lemma lex_name pos n k : name_ok n = true -> starts_blank k = false -> exists sp l', next_token (mkLexer pos (92%N :: n ++ 32%N :: k)) = (inl (LexCmd n sp), l') /\ lx_rest l' = k.
Proof.
  intros H B. destruct (name_command n k H) as (C & N1 & N2). destruct (C10_command_token pos _ _ _ C N1 N2) as (ws & rest & E & W & Br & T). rewrite T. eexists _, _. split; [reflexivity|]. cbn [lx_rest].
  destruct ws as [|w ws]; cbn [app] in E; [subst rest; discriminate Br|]. injection E as _ E. destruct ws as [|w' ws]; [now symmetry|]. exfalso. inversion W; subst. inversion H3; subst. cbn [app starts_blank] in B. congruence.
Qed.
Definition env_step (b : bool) (e : env) (k : str) : Prop :=
  forall pos, exists sp l', next_token (mkLexer pos ((if b then lit "\begin{" else lit "\end{") ++ env_as_str e ++ lit "}" ++ k)) = (inl (LexTok (if b then T_Begin e else T_End e, sp)), l') /\ lx_rest l' = k.
Lemma env_names e : env_from_str (env_as_str e) = Some e /\ forallb env_name_char (env_as_str e) = true.
Proof. destruct e; split; vm_compute; reflexivity. Qed.
Lemma lex_marker (b : bool) name e k pos : env_from_str name = Some e -> forallb env_name_char name = true ->
  exists sp l', parse_env_marker (mkLexer pos (123%N :: name ++ 125%N :: k)) span_default (if b then lit "begin" else lit "end") = (inl (LexTok (if b then T_Begin e else T_End e, sp)), l') /\ lx_rest l' = k.
Proof.
  intros E F. unfold parse_env_marker. replace (str_eqb (if b then lit "begin" else lit "end") (lit "begin") || str_eqb (if b then lit "begin" else lit "end") (lit "end")) with true by now destruct b.
  replace (str_eqb (if b then lit "begin" else lit "end") (lit "begin")) with b by now destruct b.
  unfold skip_whitespace. cbn [lx_rest span_while]. change (is_ascii_ws 123) with false. cbv iota zeta. unfold read_env_name, lex_advance. cbn [lx_rest lx_pos]. change (123 =? 123)%N with true. cbv iota.
  rewrite (span_while_app env_name_char name (125%N :: k)); [|apply Forall_forall; rewrite forallb_forall in F; exact F|reflexivity]. change (125 =? 125)%N with true. cbv iota. rewrite E. eexists _, _. split; [reflexivity|]. reflexivity.
Qed.
Lemma marker_span l sp sp' cmd o l' : parse_env_marker l sp cmd = (inl (LexTok o), l') -> exists o', parse_env_marker l sp' cmd = (inl (LexTok o'), l') /\ fst o' = fst o.
Proof.
  unfold parse_env_marker. destruct (str_eqb cmd (lit "begin") || str_eqb cmd (lit "end")); [|discriminate]. destruct (skip_whitespace l) as [w l1]. destruct (read_env_name l1) as [[[name e]|[[c|] esp]] l2]; try discriminate.
  destruct (env_from_str name) as [e0|]; [|discriminate]. intros H. injection H as <- <-. eexists. split; [reflexivity|reflexivity].
Qed.
Lemma lex_env b e k : env_step b e k.
Proof.
  intros pos. destruct (env_names e) as [E F].
  assert (T : (if b then lit "\begin{" else lit "\end{") ++ env_as_str e ++ lit "}" ++ k = 92%N :: (if b then lit "begin" else lit "end") ++ 123%N :: env_as_str e ++ 125%N :: k) by now destruct b.
  rewrite T. clear T. rewrite next_token_eq. unfold skip_whitespace at 1. cbn [lx_rest span_while]. change (is_ascii_ws 92) with false. cbv iota zeta.
  change (after_comments (92%N :: (if b then lit "begin" else lit "end") ++ 123%N :: env_as_str e ++ 125%N :: k)) with (92%N :: (if b then lit "begin" else lit "end") ++ 123%N :: env_as_str e ++ 125%N :: k). cbv iota. rewrite Nat.sub_diag, Nat.add_0_r.
  unfold lex_char. change (92 =? 0)%N with false. change (92 =? 35)%N with false. change (92 =? 92)%N with true. cbv iota zeta. unfold lex_advance at 1. cbn [lx_pos].
  set (nm := if b then lit "begin" else lit "end"). set (r := 123%N :: env_as_str e ++ 125%N :: k). set (p1 := pos + blen [92%N]).
  assert (R : read_command (mkLexer p1 (nm ++ r)) = (nm, lex_advance (mkLexer p1 (nm ++ r)) nm r)).
  { unfold read_command. cbn [lx_rest]. rewrite (span_while_app is_ascii_alpha nm r); [|unfold nm; destruct b; repeat constructor|reflexivity]. unfold r at 1. cbv iota. unfold nm. now destruct b. }
  match goal with |- context [read_command ?l] => change l with (mkLexer p1 (nm ++ r)) end. rewrite R. unfold lex_advance. cbn [lx_pos]. unfold skip_whitespace. cbn [lx_rest]. unfold r at 1. cbn [span_while]. change (is_ascii_ws 123) with false. cbv iota. unfold lex_advance. cbn [lx_pos].
  destruct (lex_marker b (env_as_str e) e k (p1 + blen nm + blen []) E F) as (sp & l' & M & Rk). destruct (marker_span _ _ (mkSpan pos (p1 + blen nm)) _ _ _ M) as ([t sp'] & M' & Et). cbn [fst] in Et. subst t.
  exists sp', l'. split; [|exact Rk]. unfold nm, r. exact M'.
Qed.

(** ** Several tokens *)

Section Lexing.
Context (cfg : parser_cfg) (local cmds : custom_cmds).
Notation mean := (the_mean cfg local cmds).
Notation lexed := (lexed cfg).
Notation raw := (raw mean).
Notation item_toks := (item_toks mean).
Notation head_toks := (head_toks mean).
Notation arg_toks := (arg_toks mean).
Notation mark_toks := (mark_toks mean).

(** With the text [s] in front of [k] the lexer gives the tokens [ts] and goes on with [k]. *)
Definition gives (s k : str) (ts : list token) : Prop :=
  forall q, lx_rest (q_lexer q) = s ++ k -> q_local q = local -> gs_cmds (q_gs q) = cmds ->
  exists new l', lexed q = (new ++ fst (lexed (q_set_lexer q l')), snd (lexed (q_set_lexer q l'))) /\ map qt_tok new = ts /\ lx_rest l' = k.
(** Text whose tokens do not depend on what comes after it, which may not be a blank. *)
Definition reads (s : str) (ts : list token) : Prop := starts_blank s = false /\ forall k, starts_blank k = false -> gives s k ts.

Lemma gives_nil k : gives [] k [].
Proof. intros q E _ _. exists [], (q_lexer q). split; [|split; [reflexivity|exact E]]. replace (q_set_lexer q (q_lexer q)) with q by now destruct q. apply surjective_pairing. Qed.
Lemma gives_app s1 s2 k ts1 ts2 : gives s1 (s2 ++ k) ts1 -> gives s2 k ts2 -> gives (s1 ++ s2) k (ts1 ++ ts2).
Proof.
  intros G1 G2 q E H1 H2. rewrite <- app_assoc in E. destruct (G1 q E H1 H2) as (n1 & l1 & E1 & M1 & R1).
  destruct (G2 (q_set_lexer q l1) R1 H1 H2) as (n2 & l2 & E2 & M2 & R2). exists (n1 ++ n2), l2. split; [|split; [now rewrite map_app, M1, M2|exact R2]].
  rewrite E1, E2. cbn [fst snd]. rewrite <- app_assoc. reflexivity.
Qed.
Lemma blank_app s k : starts_blank s = false -> starts_blank k = false -> starts_blank (s ++ k) = false.
Proof. now destruct s. Qed.
Lemma reads_nil : reads [] [].
Proof. split; [reflexivity|]. intros k _. apply gives_nil. Qed.
Lemma reads_app s1 s2 ts1 ts2 : reads s1 ts1 -> reads s2 ts2 -> reads (s1 ++ s2) (ts1 ++ ts2).
Proof.
  intros [B1 G1] [B2 G2]. split; [now apply blank_app|]. intros k B. apply gives_app; [apply G1; now apply blank_app|now apply G2].
Qed.
Lemma gives_one s k o t : (forall pos, exists l', next_token (mkLexer pos (s ++ k)) = (inl (o pos), l') /\ lx_rest l' = k) ->
  (forall pos, is_eoi_out (o pos) = false) -> (forall q pos, q_local q = local -> gs_cmds (q_gs q) = cmds -> qt_tok (resolve_lexed cfg q (o pos)) = t) -> gives s k [t].
Proof.
  intros N E T q Eq H1 H2. destruct (N (lx_pos (q_lexer q))) as (l' & Nl & R). rewrite <- Eq in Nl. replace (mkLexer (lx_pos (q_lexer q)) (lx_rest (q_lexer q))) with (q_lexer q) in Nl by now destruct (q_lexer q).
  exists [resolve_lexed cfg q (o (lx_pos (q_lexer q)))], l'. split; [|split; [cbn [map]; now rewrite T|exact R]]. rewrite lexed_step, Nl, E. reflexivity.
Qed.
Lemma gives_tok s k t : (forall pos, exists sp l', next_token (mkLexer pos (s ++ k)) = (inl (LexTok (t, sp)), l') /\ lx_rest l' = k) -> is_eoi t = false -> gives s k [t].
Proof.
  intros N E q Eq H1 H2. destruct (N (lx_pos (q_lexer q))) as (sp & l' & Nl & R). rewrite <- Eq in Nl. replace (mkLexer (lx_pos (q_lexer q)) (lx_rest (q_lexer q))) with (q_lexer q) in Nl by now destruct (q_lexer q).
  exists [qt_of (t, sp)], l'. split; [|split; [reflexivity|exact R]]. rewrite lexed_step, Nl. cbn [is_eoi_out]. destruct t; try reflexivity. discriminate E.
Qed.
Lemma char_not_eoi c : is_eoi (char_token c) = false.
Proof.
  unfold char_token. repeat match goal with |- context [if ?b then _ else _] => destruct b; try reflexivity end. unfold get_operator_from_unicode. now destruct (assoc_n c UNICODE_OPERATORS).
Qed.
Lemma gives_char c k : sym_char_ok c = true -> gives [c] k [char_token c].
Proof. intros H. apply gives_tok; [|apply char_not_eoi]. intros pos. exact (lex_sym_char pos c k H). Qed.
Lemma char_not_blank c : sym_char_ok c = true -> is_ascii_ws c = false.
Proof. unfold sym_char_ok. intros H. apply negb_true_iff in H. do 4 (apply orb_false_iff in H as [H _]). exact H. Qed.
Lemma reads_char c : sym_char_ok c = true -> reads [c] [char_token c].
Proof. intros H. split; [exact (char_not_blank c H)|]. intros k _. now apply gives_char. Qed.
Lemma reads_name n : name_ok n = true -> reads (92%N :: n ++ [32%N]) [mean n].
Proof.
  intros H. split; [reflexivity|]. intros k B q Eq H1 H2. cbn [app] in Eq. rewrite <- app_assoc in Eq. cbn [app] in Eq.
  destruct (lex_name (lx_pos (q_lexer q)) n k H B) as (sp & l' & Nl & R). rewrite <- Eq in Nl. replace (mkLexer (lx_pos (q_lexer q)) (lx_rest (q_lexer q))) with (q_lexer q) in Nl by now destruct (q_lexer q).
  exists [resolve_lexed cfg q (LexCmd n sp)], l'. split; [|split; [|exact R]].
  - rewrite lexed_step, Nl. reflexivity.
  - cbn [map resolve_lexed qt_tok]. unfold q_meaning, q_resolve, the_mean. now rewrite H1, H2.
Qed.
Lemma reads_sym s : sym_ok s = true -> reads (sym_text s) [raw s].
Proof. destruct s as [c|n|t]; [exact (reads_char c)|exact (reads_name n)|discriminate]. Qed.
Lemma reads_env (b : bool) e : reads ((if b then lit "\begin{" else lit "\end{") ++ env_as_str e ++ lit "}") [if b then T_Begin e else T_End e].
Proof.
  split; [now destruct b|]. intros k _. apply gives_tok; [|now destruct b]. intros pos. destruct (lex_env b e k pos) as (sp & l' & N & R). exists sp, l'. split; [|exact R]. rewrite <- N. f_equal. f_equal. rewrite <- !app_assoc. reflexivity.
Qed.
Lemma reads_flat {A} (f : A -> str) (g : A -> list token) l : Forall (fun a => reads (f a) (g a)) l -> reads (flat_map f l) (flat_map g l).
Proof. induction 1; [exact reads_nil|]. cbn [flat_map]. now apply reads_app. Qed.
Lemma reads_map {A} (f : A -> str) (g : A -> token) l : Forall (fun a => reads (f a) [g a]) l -> reads (flat_map f l) (map g l).
Proof. induction 1; [exact reads_nil|]. cbn [flat_map map]. now apply (reads_app _ _ [_]). Qed.

(** Literals: here blanks are tokens. *)
Lemma gives_lit s k : lit_ok s = true -> starts_blank k = false -> gives s k (map lit_tok s).
Proof.
  intros H B. induction s as [|c s IH]; [apply gives_nil|]. cbn [map]. change (c :: s) with ([c] ++ s). change (lit_tok c :: map lit_tok s) with ([lit_tok c] ++ map lit_tok s).
  destruct (N.eq_dec c 32) as [->|Nc].
  - assert (Hs : lit_ok s = true /\ starts_blank s = false).
    { cbn [lit_ok] in H. destruct s as [|d s]; [now split|]. destruct (N.eq_dec d 32) as [->|Nd]; [discriminate H|].
      assert (lit_ok (d :: s) = true) by (destruct d as [|p]; [exact H|]; do 6 (try destruct p as [p|p|]; try exact H); discriminate H). split; [assumption|].
      cbn [starts_blank]. apply char_not_blank. assert (X : lit_char_ok d && lit_ok s = true). { revert H0. clear - Nd. cbn [lit_ok]. destruct d as [|p]; [exact (fun x => x)|]. do 6 (try destruct p as [p|p|]; try exact (fun x => x)). now contradict Nd. }
      unfold lit_char_ok in X. apply andb_true_iff in X as [X _]. now apply andb_true_iff in X. }
    destruct Hs as [Hs Bs]. apply gives_app; [|now apply IH]. apply gives_tok; [|reflexivity]. intros pos. apply lex_blank. now apply blank_app.
  - assert (X : lit_char_ok c && lit_ok s = true). { revert H. clear - Nc. cbn [lit_ok]. destruct c as [|p]; [exact (fun x => x)|]. do 6 (try destruct p as [p|p|]; try exact (fun x => x)). now contradict Nc. }
    apply andb_true_iff in X as [X Hs]. unfold lit_char_ok in X. apply andb_true_iff in X as [X _]. apply gives_app; [|now apply IH].
    unfold lit_tok. apply N.eqb_neq in Nc. rewrite Nc. now apply gives_char.
Qed.
Lemma digit_sym c : is_ascii_digit c = true -> sym_char_ok c = true.
Proof.
  unfold is_ascii_digit, sym_char_ok, is_ascii_ws. intros H. apply andb_true_iff in H as [H1 H2]. apply N.leb_le in H1, H2. apply negb_true_iff.
  repeat match goal with |- (_ || _) = false => apply orb_false_iff; split end; try (apply N.eqb_neq; lia).
Qed.
Lemma number_chars s : decimals_ok s = true -> Forall (fun c => sym_char_ok c = true) s.
Proof.
  induction s as [|c s IH]; [constructor|]. intros H. destruct (N.eq_dec c 46) as [->|Nc].
  - constructor; [reflexivity|]. cbn [decimals_ok] in H. destruct s as [|d s]; [discriminate|]. apply andb_true_iff in H as [_ H]. now apply IH.
  - assert (X : is_ascii_digit c && decimals_ok s = true). { revert H. clear - Nc. cbn [decimals_ok]. destruct c as [|p]; [exact (fun x => x)|]. do 6 (try destruct p as [p|p|]; try exact (fun x => x)). now contradict Nc. }
    apply andb_true_iff in X as [X Hs]. constructor; [now apply digit_sym|now apply IH].
Qed.

(** ** Formulas *)

Lemma reads_wrap o c s ts : sym_char_ok o = true -> sym_char_ok c = true -> reads s ts -> reads ([o] ++ s ++ [c]) (char_token o :: ts ++ [char_token c]).
Proof. intros Ho Hc R. change (char_token o :: ts ++ [char_token c]) with ([char_token o] ++ ts ++ [char_token c]). apply reads_app; [now apply reads_char|]. apply reads_app; [exact R|now apply reads_char]. Qed.

Definition all_read (n : nat) : Prop :=
  (forall i, item_size i < n -> item_ok i = true -> reads (item_text i) (item_toks i)) /\
  (forall h, head_size h < n -> head_ok h = true -> reads (head_text h) (head_toks h)) /\
  (forall a, arg_size a < n -> arg_ok a = true -> reads (arg_text a) (arg_toks a)) /\
  (forall m, mark_size m < n -> mark_ok m = true -> reads (mark_text m) (mark_toks m)).
Lemma forall_read {A} (size : A -> nat) (ok : A -> bool) text toks n l :
  (forall a : A, size a < n -> ok a = true -> reads (text a) (toks a)) -> list_sum (map size l) < n -> forallb ok l = true -> reads (flat_map text l) (flat_map toks l).
Proof.
  intros H L O. apply reads_flat. induction l as [|a l IH]; [constructor|]. cbn [map forallb] in *. change (list_sum (size a :: map size l)) with (size a + list_sum (map size l)) in L. apply andb_true_iff in O as [O1 O2].
  constructor; [apply H; [lia|exact O1]|apply IH; [lia|exact O2]].
Qed.
Lemma reads_syms l : forallb sym_ok l = true -> reads (flat_map sym_text l) (map raw l).
Proof. intros H. apply reads_map. apply Forall_forall. intros s I. apply reads_sym. rewrite forallb_forall in H. now apply H. Qed.
Lemma reads_chars s : Forall (fun c => sym_char_ok c = true) s -> reads s (map char_token s).
Proof. induction 1 as [|c s H _ IH]; [exact reads_nil|]. cbn [map]. apply (reads_app [c] s [_]); [now apply reads_char|exact IH]. Qed.
Lemma all_read_all n : all_read n.
Proof.
  induction n as [|n (Ii & Ih & Ia & Im)]; [split; [|split; [|split]]; intros ? L; lia|].
  assert (Ga : forall l, list_sum (map arg_size l) < n -> forallb arg_ok l = true -> reads (flat_map arg_text l) (flat_map arg_toks l)) by (intros l; now apply forall_read).
  assert (Gi : forall l, list_sum (map item_size l) < n -> forallb item_ok l = true -> reads (flat_map item_text l) (flat_map item_toks l)) by (intros l; now apply forall_read).
  assert (Gm : forall l, list_sum (map mark_size l) < n -> forallb mark_ok l = true -> reads (flat_map mark_text l) (flat_map mark_toks l)) by (intros l; now apply forall_read).
  split; [|split; [|split]].
  - intros [h ms] L O. cbn [item_size item_ok] in L, O. apply andb_true_iff in O as [O1 O2]. change (item_text (Item h ms)) with (head_text h ++ flat_map mark_text ms). change (item_toks (Item h ms)) with (head_toks h ++ flat_map mark_toks ms).
    apply reads_app; [apply Ih; [lia|exact O1]|apply Gm; [lia|exact O2]].
  - intros [s args|s|w|l|o l c|e args l] L O; cbn [head_size head_ok] in L, O.
    + apply andb_true_iff in O as [O1 O2]. change (head_text (HSym s args)) with (sym_text s ++ flat_map arg_text args). change (head_toks (HSym s args)) with ([raw s] ++ flat_map arg_toks args). apply reads_app; [now apply reads_sym|apply Ga; [lia|exact O2]].
    + change (head_text (HNum s)) with s. change (head_toks (HNum s)) with (map char_token s). apply reads_chars. destruct s as [|d s]; [discriminate|]. cbn [number_ok] in O. apply andb_true_iff in O as [O1 O2]. constructor; [now apply digit_sym|now apply number_chars].
    + change (head_text (HWord w)) with (flat_map sym_text w). change (head_toks (HWord w)) with (map raw w). now apply reads_syms.
    + change (head_text (HGroup l)) with ([123%N] ++ flat_map item_text l ++ [125%N]). change (head_toks (HGroup l)) with (char_token 123 :: flat_map item_toks l ++ [char_token 125]). apply reads_wrap; [reflexivity|reflexivity|]. apply Gi; [lia|exact O].
    + apply andb_true_iff in O as [O O3]. apply andb_true_iff in O as [O1 O2]. change (head_text (HFence o l c)) with (sym_text (SName (lit "left")) ++ sym_text o ++ flat_map item_text l ++ sym_text (SName (lit "right")) ++ sym_text c).
      change (head_toks (HFence o l c)) with ([raw (SName (lit "left"))] ++ [raw o] ++ flat_map item_toks l ++ [raw (SName (lit "right"))] ++ [raw c]).
      apply reads_app; [now apply reads_sym|]. apply reads_app; [now apply reads_sym|]. apply reads_app; [apply Gi; [lia|exact O2]|]. apply reads_app; now apply reads_sym.
    + apply andb_true_iff in O as [O1 O2]. change (head_toks (HEnv e args l)) with ([T_Begin e] ++ flat_map arg_toks args ++ flat_map item_toks l ++ [T_End e]).
      replace (head_text (HEnv e args l)) with ((lit "\begin{" ++ env_as_str e ++ lit "}") ++ flat_map arg_text args ++ flat_map item_text l ++ (lit "\end{" ++ env_as_str e ++ lit "}")) by (cbn [head_text]; now rewrite <- !app_assoc).
      apply reads_app; [exact (reads_env true e)|]. apply reads_app; [apply Ga; [lia|exact O1]|]. apply reads_app; [apply Gi; [lia|exact O2]|exact (reads_env false e)].
  - intros [l|s|l|s|i|ms l] L O; cbn [arg_size arg_ok] in L, O.
    + change (arg_text (AGroup l)) with ([123%N] ++ flat_map item_text l ++ [125%N]). change (arg_toks (AGroup l)) with (char_token 123 :: flat_map item_toks l ++ [char_token 125]). apply reads_wrap; [reflexivity|reflexivity|]. apply Gi; [lia|exact O].
    + change (arg_text (ASym s)) with (sym_text s). change (arg_toks (ASym s)) with [raw s]. now apply reads_sym.
    + change (arg_text (ABracket l)) with ([91%N] ++ flat_map item_text l ++ [93%N]). change (arg_toks (ABracket l)) with (char_token 91 :: flat_map item_toks l ++ [char_token 93]). apply reads_wrap; [reflexivity|reflexivity|]. apply Gi; [lia|exact O].
    + change (arg_text (ALit s)) with ([123%N] ++ s ++ [125%N]). change (arg_toks (ALit s)) with ([char_token 123] ++ map lit_tok s ++ [char_token 125]). split; [reflexivity|]. intros k B.
      apply gives_app; [now apply gives_char|]. apply gives_app; [now apply gives_lit|now apply gives_char].
    + change (arg_text (AItem i)) with (item_text i). change (arg_toks (AItem i)) with (item_toks i). apply Ii; [lia|exact O].
    + apply andb_true_iff in O as [O1 O2]. replace (arg_text (AScripts ms l)) with ([123%N] ++ (flat_map mark_text ms ++ flat_map item_text l) ++ [125%N]) by (cbn [arg_text]; now rewrite <- !app_assoc).
      replace (arg_toks (AScripts ms l)) with (char_token 123 :: (flat_map mark_toks ms ++ flat_map item_toks l) ++ [char_token 125]) by (cbn [S_Formula.arg_toks]; now rewrite <- !app_assoc). apply reads_wrap; [reflexivity|reflexivity|]. apply reads_app; [apply Gm; [lia|exact O1]|apply Gi; [lia|exact O2]].
  - intros [a|a|ps sup|s] L O; cbn [mark_size mark_ok] in L, O.
    + change (mark_text (FSub a)) with ([95%N] ++ arg_text a). change (mark_toks (FSub a)) with ([char_token 95] ++ arg_toks a). apply reads_app; [now apply reads_char|]. apply Ia; [lia|exact O].
    + change (mark_text (FSup a)) with ([94%N] ++ arg_text a). change (mark_toks (FSup a)) with ([char_token 94] ++ arg_toks a). apply reads_app; [now apply reads_char|]. apply Ia; [lia|exact O].
    + apply andb_true_iff in O as [O1 O2]. apply andb_true_iff in O1 as [_ O1]. change (mark_text (FPrimes ps sup)) with (flat_map sym_text ps ++ match sup with Some a => lit "^" ++ arg_text a | None => [] end).
      change (mark_toks (FPrimes ps sup)) with (map raw ps ++ match sup with Some a => T_Circumflex :: arg_toks a | None => [] end). apply reads_app; [now apply reads_syms|].
      destruct sup as [a|]; [|exact reads_nil]. change (lit "^") with [94%N]. change (T_Circumflex :: arg_toks a) with ([char_token 94] ++ arg_toks a). apply reads_app; [now apply reads_char|]. apply Ia; [cbn [mark_size] in L; lia|exact O2].
    + change (mark_text (FLimits s)) with (sym_text s). change (mark_toks (FLimits s)) with [raw s]. now apply reads_sym.
Qed.
Lemma formula_reads l : formula_ok l = true -> reads (formula_text l) (flat_map item_toks l).
Proof. intros O. destruct (all_read_all (S (items_size l))) as (Ii & _). exact (forall_read item_size item_ok item_text item_toks (S (items_size l)) l Ii (Nat.lt_succ_diag_r _) O). Qed.

(** ** A formula reads as itself *)
Notation leads := (leads mean (the_body cfg local cmds) (pc_ignore_unknown cfg)).
Notation reads_items := (reads_items mean (the_body cfg local cmds) (pc_ignore_unknown cfg)).
Notation reads_head := (reads_head mean (the_body cfg local cmds) (pc_ignore_unknown cfg)).
Notation reads_args := (reads_args mean (the_body cfg local cmds) (pc_ignore_unknown cfg)).
Notation reads_arg := (reads_arg mean (the_body cfg local cmds) (pc_ignore_unknown cfg)).
Notation reads_marks := (reads_marks mean (the_body cfg local cmds) (pc_ignore_unknown cfg)).
Notation reads_mark := (reads_mark mean (the_body cfg local cmds) (pc_ignore_unknown cfg)).

Lemma char_solid c : is_ws (char_token c) = false.
Proof.
  unfold char_token. repeat match goal with |- context [if ?b then _ else _] => destruct b; [reflexivity|] end. unfold get_operator_from_unicode. now destruct (assoc_n c UNICODE_OPERATORS).
Qed.
Lemma mean_solid n : is_ws (mean n) = false.
Proof.
  pose proof (meaning_no_ws cfg (mkQueue (lexer_new []) [] false 0 local (mkGs 0 [] cmds)) n) as H. unfold q_meaning, q_resolve in H. cbn [q_local q_gs gs_cmds] in H. fold (the_mean cfg local cmds n) in H.
  destruct (mean n); try reflexivity. discriminate H.
Qed.
Lemma raw_solid s r : sym_ok s = true -> bare (raw s :: r) = raw s :: r.
Proof. intros O. apply bare_same. destruct s; [apply char_solid|apply mean_solid|discriminate O]. Qed.
Lemma spells_self {A} (f : A -> token) l k : Forall (fun a => is_ws (f a) = false) l -> spells (map f l ++ k) (map f l) k.
Proof. induction 1 as [|a l H _ IH]; [reflexivity|]. cbn [map app spells]. eexists. split; [now apply bare_same|exact IH]. Qed.

Notation item_ended := (item_ended mean).
Notation head_ended := (head_ended mean).
Notation arg_ended := (arg_ended mean).
Notation mark_ended := (mark_ended mean).
Definition all_self (n : nat) : Prop :=
  (forall h sq p k, head_size h < n -> head_ok h = true -> head_ended h k = true -> reads_head sq p (head_toks h ++ k) h p k) /\
  (forall a b p k, arg_size a < n -> arg_ok a = true -> arg_ended a k = true -> reads_arg b p (arg_toks a ++ k) a p k) /\
  (forall m p k, mark_size m < n -> mark_ok m = true -> mark_ended m k = true -> reads_mark p (mark_toks m ++ k) m p k).
Lemma marks_self n : all_self n -> forall l p k, list_sum (map mark_size l) < n -> forallb mark_ok l = true -> all_ended mark_toks mark_ended l k = true -> reads_marks p (flat_map mark_toks l ++ k) l p k.
Proof.
  intros (_ & _ & Im) l p k L O En. induction l as [|m l IH]; [apply rms_nil|]. cbn [map forallb flat_map all_ended] in *. change (list_sum (mark_size m :: map mark_size l)) with (mark_size m + list_sum (map mark_size l)) in L. apply andb_true_iff in O as [O1 O2]. apply andb_true_iff in En as [E1 E2].
  rewrite <- app_assoc. eapply rms_cons; [apply Im; [lia|exact O1|exact E1]|apply IH; [lia|exact O2|exact E2]].
Qed.
Lemma items_self n : all_self n -> forall l p k, list_sum (map item_size l) < S n -> forallb item_ok l = true -> all_ended item_toks item_ended l k = true -> reads_items p (flat_map item_toks l ++ k) l p k.
Proof.
  intros A l p k L O En. induction l as [|[h ms] l IH]; [apply ri_nil|]. cbn [map forallb flat_map item_size item_ok all_ended] in *. change (list_sum (S (head_size h + list_sum (map mark_size ms)) :: map item_size l)) with (S (head_size h + list_sum (map mark_size ms)) + list_sum (map item_size l)) in L.
  apply andb_true_iff in O as [O O3]. apply andb_true_iff in O as [O1 O2]. apply andb_true_iff in En as [En E3]. cbn [S_Formula.item_ended] in En. apply andb_true_iff in En as [E1 E2].
  change (item_toks (Item h ms)) with (head_toks h ++ flat_map mark_toks ms). rewrite <- !app_assoc. pose proof A as (Ih & _ & _).
  eapply ri_cons; [apply Ih; [lia|exact O1|exact E1]|apply (marks_self n A); [lia|exact O2|exact E2]|apply IH; [lia|exact O3|exact E3]].
Qed.
Lemma all_self_all n : all_self n.
Proof.
  induction n as [|n A]; [split; [|split]; intros; lia|]. pose proof A as (Ih & Ia & Im). pose proof (marks_self n A) as Gm. pose proof (items_self n A) as Gi.
  assert (Ga : forall bs l p k, list_sum (map arg_size l) < n -> forallb arg_ok l = true -> all_ended arg_toks arg_ended l k = true -> reads_args p (flat_map arg_toks l ++ k) (marked bs l) p k).
  { intros bs l p k L O En. revert bs. induction l as [|a l IH]; intros bs; [apply ras_nil|]. cbn [map forallb flat_map all_ended] in *. change (list_sum (arg_size a :: map arg_size l)) with (arg_size a + list_sum (map arg_size l)) in L. apply andb_true_iff in O as [O1 O2]. apply andb_true_iff in En as [E1 E2].
    rewrite <- app_assoc. destruct bs as [|b bs]; cbn [marked]; (eapply ras_cons; [apply Ia; [lia|exact O1|exact E1]|apply IH; [lia|exact O2|exact E2]]). }
  split; [|split].
  - intros [s args|s|w|l|o l c|e args l] sq p k L O En; cbn [head_size head_ok S_Formula.head_ended] in L, O, En.
    + apply andb_true_iff in O as [O1 O2]. change (head_toks (HSym s args)) with (raw s :: flat_map arg_toks args). eapply rh_sym; [apply leads_here; now apply raw_solid|]. apply Ga; [lia|exact O2|exact En].
    + change (head_toks (HNum s)) with (map char_token s). destruct s as [|d s]; [discriminate|]. cbn [map app]. eapply rh_num; [apply leads_here; apply bare_same, char_solid|]. apply spells_self. apply Forall_forall. intros; apply char_solid.
    + change (head_toks (HWord w)) with (map raw w). apply rh_word, spells_self. apply Forall_forall. intros s I. rewrite forallb_forall in O. apply (bare_head _ _ [] (raw_solid s [] (O s I))).
    + change (head_toks (HGroup l)) with (T_GroupBegin :: flat_map item_toks l ++ [T_GroupEnd]). cbn [app]. rewrite <- app_assoc. eapply rh_group; [now apply leads_here|apply Gi; [lia|exact O|exact En]|reflexivity].
    + apply andb_true_iff in O as [O O3]. apply andb_true_iff in O as [O1 O2]. change (head_toks (HFence o l c)) with (mean (lit "left") :: raw o :: flat_map item_toks l ++ [mean (lit "right"); raw c]). cbn [app]. rewrite <- app_assoc. cbn [app].
      eapply rh_fence; [apply leads_here; apply bare_same, mean_solid|now apply raw_solid|apply Gi; [lia|exact O2|exact En]|apply bare_same, mean_solid|now apply raw_solid].
    + apply andb_true_iff in O as [O1 O2]. apply andb_true_iff in En as [E1 E2]. change (head_toks (HEnv e args l)) with (T_Begin e :: flat_map arg_toks args ++ flat_map item_toks l ++ [T_End e]). cbn [app]. rewrite <- !app_assoc.
      eapply rh_env; [now apply leads_here|apply Ga; [lia|exact O1|exact E1]|apply Gi; [lia|exact O2|exact E2]|reflexivity].
  - intros a [|] p k L O En.
    { apply ra_as_is. intros s ->. exact O. }
    destruct a as [l|s|l|s|[h ms]|ms l]; cbn [arg_size arg_ok S_Formula.arg_ended] in L, O, En.
    + change (arg_toks (AGroup l)) with (T_GroupBegin :: flat_map item_toks l ++ [T_GroupEnd]). cbn [app]. rewrite <- app_assoc. eapply ra_group; [now apply leads_here|apply Gi; [lia|exact O|exact En]|reflexivity].
    + change (arg_toks (ASym s)) with [raw s]. apply ra_sym, leads_here. now apply raw_solid.
    + change (arg_toks (ABracket l)) with (T_SquareBracketOpen :: flat_map item_toks l ++ [T_SquareBracketClose]). cbn [app]. rewrite <- app_assoc. eapply ra_bracket; [reflexivity|apply Gi; [lia|exact O|exact En]|reflexivity].
    + rewrite lit_toks. now apply ra_lit.
    + apply andb_true_iff in En as [En Gr]. cbn [S_Formula.item_ended] in En. apply andb_true_iff in En as [E1 E2]. cbn [item_ok item_size] in O, L. apply andb_true_iff in O as [O1 O2].
      change (arg_toks (AItem (Item h ms))) with (head_toks h ++ flat_map mark_toks ms). rewrite <- app_assoc.
      eapply ra_item; [apply Ih; [lia|exact O1|exact E1]|apply Gm; [lia|exact O2|exact E2]|]. intros G. rewrite G in Gr. now apply negb_true_iff in Gr.
    + apply andb_true_iff in O as [O1 O2]. apply andb_true_iff in En as [En E3]. apply andb_true_iff in En as [E1 E2]. apply negb_true_iff in E2.
      change (arg_toks (AScripts ms l)) with (T_GroupBegin :: flat_map mark_toks ms ++ flat_map item_toks l ++ [T_GroupEnd]). cbn [app]. rewrite <- !app_assoc.
      eapply ra_scripts; [reflexivity|apply Gm; [lia|exact O1|exact E1]|exact E2|apply Gi; [lia|exact O2|exact E3]|reflexivity].
  - intros [a|a|ps sup|s] p k L O En; cbn [mark_size mark_ok S_Formula.mark_ended] in L, O, En.
    + change (mark_toks (FSub a)) with (T_Underscore :: arg_toks a). cbn [app]. eapply rm_sub; [reflexivity|]. apply Ia; [lia|exact O|exact En].
    + change (mark_toks (FSup a)) with (T_Circumflex :: arg_toks a). cbn [app]. eapply rm_sup; [reflexivity|]. apply Ia; [lia|exact O|exact En].
    + apply andb_true_iff in O as [O1 O2]. change (mark_toks (FPrimes ps sup)) with (map raw ps ++ match sup with Some a => T_Circumflex :: arg_toks a | None => [] end).
      destruct ps as [|q ps]; [discriminate|]. cbn [forallb andb map app] in *. apply andb_true_iff in O1 as [O1 _]. destruct sup as [a|].
      * eapply rm_primes_sup; [rewrite <- app_assoc; now apply raw_solid|]. apply Ia; [cbn [mark_size] in L; lia|exact O2|exact En].
      * apply rm_primes. rewrite app_nil_r. now apply raw_solid.
    + change (mark_toks (FLimits s)) with [raw s]. apply rm_limits. now apply raw_solid.
Qed.
Lemma reads_self l p k : formula_ok l = true -> all_ended item_toks item_ended l k = true -> reads_items p (flat_map item_toks l ++ k) l p k.
Proof. exact (items_self _ (all_self_all (list_sum (map item_size l))) l p k (Nat.lt_succ_diag_r _)). Qed.
End Lexing.

(** ** Snippets *)

Lemma tokens_lexed cfg gs input : text_tokens (name_meaning cfg gs) input =
  match lexed cfg (mkQueue (lexer_new input) [] false 0 cmds_empty gs) with (l, LexEoi _) => Some (map qt_tok l) | _ => None end.
Proof.
  unfold text_tokens, lexed. cbn [q_lexer lexer_new lx_rest]. destruct (tokenize _ _) as [[ts [sp|er]]|] eqn:T; try reflexivity.
  - f_equal. rewrite map_map. apply map_ext. intros [[t sp']|name sp']; reflexivity.
  - exfalso. destruct (tokenize_total (lexer_new input) (S (length input))) as (ts & e & T'); [apply Nat.lt_succ_diag_r|congruence].
Qed.
(** The text of any tokens that read as a formula. *)
Lemma snippet_of_reading cfg usize_max gs st input w n l p k ns d' : text_tokens (name_meaning cfg gs) input = Some w -> (pc_ignore_unknown cfg = true \/ Forall (fun t => known t = true) w) ->
  n <= pc_max_expansions cfg ->
  reads_items (name_meaning cfg gs) (the_body cfg cmds_empty (gs_cmds gs)) (pc_ignore_unknown cfg) n w l p k -> bare k = [] ->
  den (name_meaning cfg gs) usize_max (snippet_ctx st) l (snippet_nu gs) = Some (ns, d') ->
  exists F, forall f, F <= f -> parse_snippet cfg usize_max f gs input st = (Ok ns, mkGs (nu_count d') (nu_labels d') (gs_cmds gs)).
Proof.
  intros T Kn Ln Rd Bk D. rewrite tokens_lexed in T. pose proof (new_spec cfg (lexer_new input) gs) as N. cbv zeta in N.
  destruct (lexed cfg (mkQueue (lexer_new input) [] false 0 cmds_empty gs)) as [new [sp|er]]; [|discriminate]. injection T as M.
  destruct (ahead_eoi new sp) as (t & Ea). rewrite Ea in N.
  destruct N as (q & Nq & Gq & Vq & Lq & Sq). set (s := mkPs q (mkPv None false env_state_default st None (pc_max_expansions cfg))).
  assert (A : at_ cfg cmds_empty (gs_cmds gs) n (snippet_ctx st) (snippet_nu gs) w s).
  { split; [|exists (pc_max_expansions cfg); split; [exact Ln|reflexivity]]. split; [exact Gq|]. cbn [s ps_queue]. rewrite Vq. cbn [fst snd]. split; [exact M|]. split; [eexists; reflexivity|]. split; [exact Lq|]. split; [rewrite Sq; now destruct gs|exact Kn]. }
  destruct (den_wins (Ft := no_error) usize_max cfg cmds_empty (gs_cmds gs) l _ _ _ _ n w p k s D Rd Bk eq_refl A) as ([a|er|cr] & s' & (F & Ru & Nc) & Se); [destruct Se as [-> A']|destruct Se|destruct Se].
  exists F. intros f L. unfold parse_snippet, parser_new. rewrite Nq. fold s. unfold parse_all. rewrite (run_more cfg usize_max F _ _ _ _ _ Ru Nc f L). f_equal. destruct A' as [(_ & _ & _ & _ & -> & _) _]. reflexivity.
Qed.
Lemma formula_tokens cfg gs l : formula_ok l = true -> text_tokens (name_meaning cfg gs) (formula_text l) = Some (flat_map (item_toks (name_meaning cfg gs)) l).
Proof.
  intros O. rewrite tokens_lexed. destruct (formula_reads cfg cmds_empty (gs_cmds gs) l O) as [_ G]. specialize (G [] eq_refl (mkQueue (lexer_new (formula_text l)) [] false 0 cmds_empty gs)). cbn [q_lexer lexer_new lx_rest q_local q_gs] in G. rewrite app_nil_r in G.
  destruct (G eq_refl eq_refl eq_refl) as (new & l' & E & M & R). rewrite E. rewrite (lexed_end cfg (q_set_lexer _ l') R). cbn [fst snd]. rewrite app_nil_r. f_equal. exact M.
Qed.
Lemma snippet_of_meaning cfg usize_max gs st l r : formula_ok l = true -> snippet_meaning cfg usize_max gs st l = Some r ->
  exists F, forall f, F <= f -> parse_snippet cfg usize_max f gs (formula_text l) st = (Ok (fst r), snd r).
Proof.
  intros O E. unfold snippet_meaning in E. destruct ((_ || _) && _) eqn:Kn; [|discriminate]. apply andb_true_iff in Kn as [Kn En]. apply orb_true_iff in Kn. rewrite forallb_forall, <- Forall_forall in Kn. destruct (den _ _ _ _ _) as [[ns d']|] eqn:D; [|discriminate]. injection E as <-. cbn [fst snd].
  apply (snippet_of_reading cfg usize_max gs st (formula_text l) _ 0 l 0 [] ns d' (formula_tokens cfg gs l O) Kn (Nat.le_0_l _)); [|reflexivity|exact D].
  pose proof (reads_self cfg cmds_empty (gs_cmds gs) l 0 [] O En) as H. rewrite app_nil_r in H. exact H.
Qed.
