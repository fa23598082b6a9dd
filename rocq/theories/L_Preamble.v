(** Reading definitions at the front of a text. *)
From Verif Require Import Str M_SuperChar M_Transform M_Length M_Spec M_Ast M_Token M_Symbols M_Commands M_Env
  M_LatexError M_Lexer M_CustomCmds M_Queue M_Spacing M_Colors M_Leaf M_TextParser M_Parser M_Api
  S_SuperChar S_Transform S_Lexer S_Queue S_Store S_Names S_Run S_Scripts S_Formula S_Reading S_Api S_Preamble
  L_SuperChar L_Lexer L_Queue L_Args L_Store L_Define L_Names L_Ends L_Reads L_Wins L_Expand L_FormSeq L_FormLex.
Local Open Scope nat_scope.

Lemma Forall2_app_l {A B} (P : A -> B -> Prop) l1 l2 l : Forall2 P (l1 ++ l2) l -> exists m1 m2, l = m1 ++ m2 /\ Forall2 P l1 m1 /\ Forall2 P l2 m2.
Proof.
  revert l. induction l1 as [|a l1 IH]; intros l H; [now exists [], l|]. cbn [app] in H. inversion H as [|? b ? l' H1 H2]; subst.
  destruct (IH _ H2) as (m1 & m2 & -> & F1 & F2). exists (b :: m1), m2. split; [reflexivity|]. split; [now constructor|exact F2].
Qed.

(** The lexer leaves names as they are, and knows nothing of macros. *)
Definition lexical (t : token) : bool := match t with T_UnresolvedCommand _ | T_CustomCmdRef _ _ _ _ _ => false | _ => true end.
Lemma next_token_lexical l t sp l' : next_token l = (inl (LexTok (t, sp)), l') -> lexical t = true.
Proof.
  rewrite next_token_eq. destruct (skip_whitespace l) as [[w|] l1]; [now intros [= <- _ _]|]. cbn zeta.
  match goal with |- context [mkLexer ?a ?b] => set (l2 := mkLexer a b) end.
  destruct (after_comments (lx_rest l)) as [|c r]; [now intros [= <- _ _]|]. unfold lex_char.
  destruct (c =? 0)%N; [discriminate|].
  destruct (c =? 35)%N. { destruct r as [|d r']; [discriminate|]. destruct (is_ascii_digit d); [destruct (d =? 48)%N; [discriminate|now intros [= <- _ _]]|discriminate]. }
  destruct (c =? 92)%N.
  - destruct (read_command (lex_advance l2 [c] r)) as [cmd l3]. destruct (skip_whitespace l3) as [o4 l4]. unfold parse_env_marker.
    destruct (str_eqb cmd (lit "begin")); cbn [orb].
    + destruct (skip_whitespace l4) as [o5 l5]. destruct (read_env_name l5) as [[[nm e]|[[ch|] es]] l6]; try discriminate.
      destruct (env_from_str nm); [now intros [= <- _ _]|discriminate].
    + destruct (str_eqb cmd (lit "end")); [|discriminate]. destruct (skip_whitespace l4) as [o5 l5]. destruct (read_env_name l5) as [[[nm e]|[[ch|] es]] l6]; try discriminate.
      destruct (env_from_str nm); [now intros [= <- _ _]|discriminate].
  - intros [= <- _ _]. unfold char_token.
    repeat match goal with |- context [if ?b then _ else _] => destruct b; [reflexivity|] end.
    unfold get_operator_from_unicode. now destruct (M_Lexer.assoc_n c UNICODE_OPERATORS).
Qed.
Lemma tokenize_lexical f : forall l ts e, tokenize f l = Some (ts, e) -> Forall (fun o => match o with LexTok t => lexical (fst t) = true | LexCmd _ _ => True end) ts.
Proof.
  induction f as [|f IH]; intros l ts e; [discriminate|]. rewrite tokenize_step. destruct (next_token l) as [[o|er] l'] eqn:En; [|intros [= <- <-]; constructor].
  destruct (is_eoi_out o); [intros [= <- <-]; constructor|]. destruct (tokenize f l') as [[ts' e']|] eqn:T; [|discriminate]. intros [= <- <-]. constructor; [|exact (IH _ _ _ T)].
  destruct o as [[t sp]|n sp]; [|exact I]. exact (next_token_lexical _ _ _ _ En).
Qed.

Section Preamble.
Context (cfg : parser_cfg) (count : N) (labels : label_map).
Notation q_view := (q_view cfg).
Notation mean := (stores_meaning cfg).

(** A token of the queue is what was typed, with the meaning that it has now. *)
Definition typed (mn : str -> token) (r : recorded) (t : qtok) : Prop :=
  qt_tok t = told mn r /\ qt_name t = (match r with RName n => Some n | RTok _ => None end) /\ match r with RTok x => lexical x = true | RName _ => True end.
Definition ty (s : stores) (u : list recorded) (q : queue) : Prop :=
  good_queue q /\ Forall2 (typed (mean s)) u (fst (q_view q)) /\ (exists sp, snd (q_view q) = LexEoi sp) /\
  q_local q = fst s /\ q_gs q = mkGs count labels (snd s).

Lemma ty_meaning s u q : ty s u q -> forall n, q_meaning cfg q n = mean s n.
Proof. intros (_ & _ & _ & L & G) n. unfold q_meaning, q_resolve, stores_meaning. now rewrite L, G. Qed.
Lemma mean_queue s n : mean s n = q_meaning cfg (mkQueue (lexer_new []) [] false 0 (fst s) (mkGs 0 [] (snd s))) n.
Proof. reflexivity. Qed.
Lemma mean_no_ws s n : is_ws (mean s n) = false.
Proof. pose proof (meaning_no_ws cfg (mkQueue (lexer_new []) [] false 0 (fst s) (mkGs 0 [] (snd s))) n) as H. rewrite <- mean_queue in H. now destruct (mean s n). Qed.
Lemma strip_ty s u l : Forall2 (typed (mean s)) u l -> Forall2 (typed (mean s)) (strip u) (skip_blank l).
Proof.
  unfold skip_blank. induction 1 as [|r t u l [H1 H2] F IH]; [constructor|]. cbn [split_while]. unfold blank_tok at 1. rewrite H1.
  destruct r as [x|n]; cbn [told strip] in *; pose proof H2 as [H3 H4].
  - destruct x; cbn [is_ws]; try (cbn [snd]; constructor; [now split|exact F]). destruct (split_while blank_tok l). exact IH.
  - rewrite mean_no_ws. cbn [snd]. constructor; [now split|exact F].
Qed.
Lemma ty_kept s u q q' : ty s u q -> good_queue q' -> q_view q' = q_view q -> stored_as q q' -> ty s u q'.
Proof. intros (G & V & E & L & Gs) G' V' [S1 S2]. split; [exact G'|]. rewrite V'. repeat split; congruence || assumption. Qed.
Lemma ty_size s u q : ty s u q -> length u < q_size q.
Proof. intros (_ & F & _). pose proof (view_size cfg q). apply Forall2_len in F. lia. Qed.

Lemma ty_next_unres s u q r u' : ty s u q -> strip u = r :: u' ->
  exists x q', q_next_unres cfg q = (Ok (qt_unwrap x), q') /\ typed (mean s) r x /\ ty s u' q'.
Proof.
  intros (G & F & (sp & E) & L & Gs) B. pose proof (next_unres_spec cfg q G) as N. rewrite E in N. apply strip_ty in F. rewrite B in F.
  destruct (skip_blank (fst (q_view q))) as [|x rest]; [inversion F|]. inversion F as [|? ? ? ? T F' E1 E2]; subst. cbn [read_first] in N. destruct (ahead_eoi rest sp) as (y & Y). rewrite Y in N.
  destruct N as (q' & N & G' & V' & S1 & S2). exists x, q'. split; [exact N|]. split; [exact T|]. split; [exact G'|]. rewrite V'. cbn [fst snd].
  split; [exact F'|]. split; [eauto|]. split; congruence.
Qed.
Lemma ty_next s u q r u' : ty s u q -> strip u = r :: u' -> (forall n, unwrap_math (told (mean s) r) <> T_UnresolvedCommand n) ->
  exists x q', q_next cfg q = (Ok x, q') /\ qt_tok x = unwrap_math (told (mean s) r) /\ ty s u' q'.
Proof.
  intros T B K. destruct (ty_next_unres s u q r u' T B) as (x & q' & N & [X1 X2] & T'). exists (qt_unwrap x), q'.
  assert (Et : qt_tok (qt_unwrap x) = unwrap_math (told (mean s) r)) by (cbn [qt_unwrap qt_with qt_tok]; now rewrite X1).
  split; [|split; [exact Et|exact T']]. unfold q_next. rewrite rejecting_eq, N. cbn [fst snd]. unfold reject_unknown. rewrite Et.
  destruct (unwrap_math (told (mean s) r)) eqn:Eu; try reflexivity. now destruct (K name).
Qed.
Lemma ty_next_any_unres s q r u' : ty s (r :: u') q -> exists x q', q_next_any_unres cfg q = (Ok x, q') /\ typed (mean s) r x /\ ty s u' q'.
Proof.
  intros (G & F & (sp & E) & L & Gs). pose proof (next_any_unres_spec cfg q G) as N. rewrite (surjective_pairing (q_view q)), E in N.
  destruct (fst (q_view q)) as [|x rest]; [inversion F|]. inversion F as [|? ? ? ? T F' E1 E2]; subst. cbn [read_first] in N. destruct (ahead_eoi rest sp) as (y & Y). rewrite Y in N.
  destruct N as (q' & N & G' & V' & S1 & S2). exists x, q'. split; [exact N|]. split; [exact T|]. split; [exact G'|]. rewrite V'. cbn [fst snd].
  split; [exact F'|]. split; [eauto|]. split; congruence.
Qed.
Lemma ty_next_any s q r u' : ty s (r :: u') q -> (forall n, told (mean s) r <> T_UnresolvedCommand n) ->
  exists x q', q_next_any cfg q = (Ok x, q') /\ qt_tok x = told (mean s) r /\ ty s u' q'.
Proof.
  intros T K. destruct (ty_next_any_unres s q r u' T) as (x & q' & N & [X1 X2] & T'). exists x, q'. split; [|split; [exact X1|exact T']].
  unfold q_next_any. rewrite rejecting_eq, N. cbn [fst snd]. unfold reject_unknown. rewrite X1. destruct (told (mean s) r) eqn:Eu; try reflexivity. now destruct (K name).
Qed.
Lemma ty_peek s u q : ty s u q -> qt_tok (q_peek q) = told_first (mean s) u.
Proof.
  intros (G & F & (sp & E) & _). pose proof (good_ahead cfg q G) as A. unfold ahead in A. rewrite E in A. apply strip_ty in F. unfold told_first.
  destruct (skip_blank (fst (q_view q))) as [|x rest]; inversion F as [E1 E2|r ? u0 ? [T _] F' E1 E2]; subst; cbn in A; injection A as <-; [reflexivity|exact T].
Qed.
Lemma ty_peek_any s u q : ty s u q -> match u with [] => qt_tok (q_peek_any q) = T_Eoi | r :: _ => typed (mean s) r (q_peek_any q) end.
Proof.
  intros (G & F & (sp & E) & _). pose proof (peek_any_front cfg q G) as A. rewrite (surjective_pairing (q_view q)), E in A.
  destruct (fst (q_view q)) as [|x rest]; inversion F as [E1 E2|r ? u0 ? T F' E1 E2]; subst; cbn in A; injection A as <-; [reflexivity|exact T].
Qed.
Lemma ty_no_eoi s u q : ty s u q -> Forall (fun r => means_eoi (told (mean s) r) = false) u.
Proof.
  intros (_ & F & _). pose proof (view_no_eoi cfg q) as N. induction F as [|r x u l [T _] F IH]; [constructor|]. inversion N as [|? ? N1 N2]; subst. constructor; [|now apply IH].
  unfold not_eoi in N1. rewrite T in N1. now apply negb_true_iff in N1.
Qed.

(** ** The parts of a definition *)

Lemma body_loop s inner u' : forall q fuel d acc, ty s (inner ++ RTok T_GroupEnd :: u') q -> level d (map (told (mean s)) inner) = Some 0 -> length inner < fuel ->
  exists l q', record_macro_loop cfg fuel d acc q = (Ok (acc ++ l), q') /\ Forall2 (typed (mean s)) inner l /\ ty s (RTok T_GroupEnd :: u') q'.
Proof.
  induction inner as [|r inner IH]; intros q [|f] d acc T Lv Lt; cbn [length] in Lt; try lia; cbn [app] in T; pose proof (ty_peek_any _ _ _ T) as Pk; cbn in Pk.
  - cbn [map level] in Lv. injection Lv as ->. exists [], q. cbn [record_macro_loop]. rewrite (proj1 Pk). cbn [told]. rewrite app_nil_r. split; [reflexivity|]. split; [constructor|exact T].
  - pose proof (ty_no_eoi _ _ _ T) as Ne. inversion Ne as [|? ? N1 _]; subst. destruct (ty_next_any_unres _ _ _ _ T) as (x & q1 & E & _ & T1).
    assert (Go : forall d', level d' (map (told (mean s)) inner) = Some 0 ->
      exists l q', (match q_next_any_unres cfg q with (Ok _, q') => record_macro_loop cfg f d' (acc ++ [q_peek_any q]) q' | (Err e, q') => (Err e, q') | (Crash c, q') => (Crash c, q') end) = (Ok (acc ++ l), q') /\
        Forall2 (typed (mean s)) (r :: inner) l /\ ty s (RTok T_GroupEnd :: u') q').
    { intros d' Lv'. rewrite E. destruct (IH q1 f d' (acc ++ [q_peek_any q]) T1 Lv' ltac:(lia)) as (l & q' & R & F & T'). exists (q_peek_any q :: l), q'. rewrite R, <- app_assoc.
      split; [reflexivity|]. split; [now constructor|exact T']. }
    cbn [record_macro_loop]. rewrite (proj1 Pk). cbn [map level] in Lv. destruct (told (mean s) r); try (now apply Go); try discriminate N1.
    destruct d as [|d]; [discriminate Lv|]. now apply Go.
Qed.
(** A group that becomes a body. *)
Lemma body_ty s u u' inner q : ty s u q -> strip u = RTok T_GroupBegin :: inner ++ RTok T_GroupEnd :: u' -> level 0 (map (told (mean s)) inner) = Some 0 ->
  exists l q1, record_macro_body cfg q = (Ok l, q1) /\ Forall2 (typed (mean s)) inner l /\ exists x q', q_next cfg q1 = (Ok x, q') /\ ty s u' q'.
Proof.
  intros T B Lv. destruct (ty_next s u q _ _ T B ltac:(discriminate)) as (x & q1 & E & _ & T1). unfold record_macro_body. rewrite E.
  pose proof (ty_size _ _ _ T1) as Sz. rewrite app_length in Sz. cbn [length] in Sz.
  destruct (body_loop s inner u' q1 (S (q_size q1)) 0 [] T1 Lv ltac:(lia)) as (l & q2 & R & F & T2). exists l, q2. split; [exact R|]. split; [exact F|].
  destruct (ty_next s _ q2 _ _ T2 eq_refl ltac:(discriminate)) as (y & q3 & E3 & _ & T3). exists y, q3. split; assumption.
Qed.
Lemma recorded_ty s k : forall inner body l first, all_some (recorded_part (mean s) k) inner = Some body -> Forall2 (typed (mean s)) inner l ->
  map_recorded k first l = Ok (body, match first with Some c => Some c | None => find_map token_class (map (told (mean s)) inner) end).
Proof.
  intros inner. induction inner as [|r inner IH]; intros body l first A F; inversion F as [|? t ? l' [T1 T2] F']; subst; cbn [all_some map find_map map_recorded] in *.
  - injection A as <-. now destruct first.
  - destruct (recorded_part (mean s) k r) as [x|] eqn:P; [|discriminate]. destruct (all_some _ inner) as [xs|] eqn:A'; [|discriminate]. injection A as <-.
    unfold recorded_part in P. rewrite T1.
    assert (Cons : forall x0 first', (forall c, first = Some c -> first' = Some c) -> (first = None -> first' = token_class (told (mean s) r)) ->
      match map_recorded k first' l' with Ok (xs0, c) => Ok (x0 :: xs0, c) | e => e end =
      Ok (x0 :: xs, match first with Some c => Some c | None => match token_class (told (mean s) r) with Some b => Some b | None => find_map token_class (map (told (mean s)) inner) end end)).
    { intros x0 first' H1 H2. rewrite (IH xs l' first' eq_refl F'). f_equal. f_equal. destruct first as [c|]; [now rewrite (H1 c eq_refl)|]. rewrite (H2 eq_refl). reflexivity. }
    assert (Rf : recorded_form t = r).
    { unfold recorded_form. destruct T2 as [T2 T3]. rewrite T1, T2. destruct r as [y|n]; cbn [told]; [destruct y; try reflexivity; discriminate T3|]. unfold stores_meaning. destruct (resolve_command _ _ _ n) as [y|] eqn:Er; [|reflexivity].
      pose proof (q_resolve_plain cfg (mkQueue (lexer_new []) [] false 0 (fst s) (mkGs 0 [] (snd s))) n y Er) as Py. destruct y; try reflexivity. discriminate Py. }
    destruct (told (mean s) r) eqn:Et; try discriminate P; try (injection P as <-; rewrite Rf; apply Cons; [intros ? ->; reflexivity|intros ->; reflexivity]).
    destruct (n <? k) eqn:Lk; [|discriminate P]. injection P as <-. apply Nat.ltb_lt in Lk. assert (k <=? n = false) as -> by (apply Nat.leb_gt; exact Lk). apply Cons; [intros ? ->; reflexivity|intros ->; reflexivity].
Qed.

Lemma typed_names s u q n x : ty s u q -> typed (mean s) (RName n) x -> names cfg q (qt_unwrap x) n.
Proof.
  intros T [X1 X2]. split.
  - rewrite (ty_meaning _ _ _ T). cbn [qt_unwrap qt_with qt_tok]. rewrite X1. cbn [told]. destruct (mean s n); try (now left). right. cbn [in_math unwrap_math]. destruct t; now left.
  - intros _. exact (proj1 X2).
Qed.
Lemma nameless_has s u q n : ty s u q -> has_meaning cfg q n = negb (nameless (mean s) n).
Proof.
  intros (_ & _ & _ & L & Gs). unfold has_meaning, nameless, q_resolve, stores_meaning. rewrite L, Gs. cbn [gs_cmds]. destruct (resolve_command _ _ _ n) as [y|] eqn:Er; [|reflexivity].
  pose proof (q_resolve_plain cfg (mkQueue (lexer_new []) [] false 0 (fst s) (mkGs 0 [] (snd s))) n y Er) as Py. destruct y; try reflexivity. discriminate Py.
Qed.
Lemma is_group_begin_eq t : is_group_begin t = true -> t = T_GroupBegin.
Proof. now destruct t. Qed.
Lemma named_ty s u n u' q : ty s u q -> named (mean s) u n u' ->
  exists braced t q1 u1, S_Names.reads_name cfg q braced t q1 /\ names cfg q t n /\ ty s u1 q1 /\ (if (braced : bool) then strip u1 = RTok T_GroupEnd :: u' else u1 = u').
Proof.
  intros T N. inversion N as [? ? ? B Nb|? u1 ? u2 ? B1 B2 B3]; subst.
  - destruct (ty_next_unres _ _ _ _ _ T B) as (x & q1 & E & X & T1). exists false, (qt_unwrap x), q1, u'. split; [|split; [exact (typed_names _ _ _ _ _ T X)|split; [exact T1|reflexivity]]].
    split; [|exists q; split; [reflexivity|exact E]]. rewrite (ty_peek _ _ _ T). unfold told_first. rewrite B. cbn [map hd told]. destruct (is_group_begin (mean s n)) eqn:Eg; [|reflexivity]. now apply is_group_begin_eq in Eg.
  - destruct (ty_next _ _ _ _ _ T B1 ltac:(discriminate)) as (y & q0 & E0 & _ & T0). destruct (ty_next_unres _ _ _ _ _ T0 B2) as (x & q1 & E & X & T1).
    exists true, (qt_unwrap x), q1, u2. split; [|split; [|split; [exact T1|exact B3]]].
    + split; [|exists q0; split; [now exists y|exact E]]. rewrite (ty_peek _ _ _ T). unfold told_first. now rewrite B1.
    + pose proof (typed_names _ _ _ _ _ T0 X) as K. destruct K as [K1 K2]. split; [rewrite (ty_meaning _ _ _ T), <- (ty_meaning _ _ _ T0); exact K1|].
      intros _. now destruct X as (_ & X & _).
Qed.
Lemma numbered_ty s u k u' q : ty s u q -> numbered (mean s) u k u' -> exists q', read_num_args cfg q = (Ok k, q') /\ ty s u' q'.
Proof.
  intros T N. unfold read_num_args, sbind, sget. rewrite (ty_peek _ _ _ T). inversion N as [? B|? u1 d c u2 r ? B1 B2 B3 B4 B5 B6]; subst.
  - exists q. split; [|exact T]. destruct (told_first (mean s) u') eqn:Et; try reflexivity. now destruct B.
  - unfold told_first. rewrite B1. cbn [map hd told is_sq_open]. destruct (ty_next _ _ _ _ _ T B1 ltac:(discriminate)) as (y & q0 & E0 & _ & T0). rewrite E0.
    destruct (ty_next _ _ _ _ _ T0 B2 ltac:(cbn [told]; rewrite B3; discriminate)) as (z & q1 & E1 & X1 & T1). cbn [told] in X1. rewrite E1, X1, B3.
    destruct (ty_next _ _ _ _ _ T1 B5 ltac:(cbn [told]; rewrite B6; discriminate)) as (w & q2 & E2 & X2 & T2). cbn [told] in X2. rewrite E2, X2, B6. exists q2. rewrite B4. split; [reflexivity|exact T2].
Qed.
Lemma grouped_ty s u k body cl u' q : ty s u q -> grouped (mean s) u k body cl u' ->
  exists l q', read_definition_body cfg q = (Ok l, q') /\ map_recorded_tokens l k = Ok (body, cl) /\ ty s u' q'.
Proof.
  intros T (inner & B & Lv & A & ->). destruct (body_ty s u u' inner q T B Lv) as (l & q1 & E & F & x & q2 & E2 & T2). exists l, q2. split; [|split; [exact (recorded_ty s k inner body l None A F)|exact T2]].
  unfold read_definition_body, sbind, sget. rewrite (ty_peek _ _ _ T). unfold told_first. rewrite B. cbn [map hd told is_group_begin]. rewrite E, E2. reflexivity.
Qed.
Lemma rest_ty s u1 u2 k u3 body cl u' braced q : ty s u1 q -> (if (braced : bool) then strip u1 = RTok T_GroupEnd :: u2 else u1 = u2) -> numbered (mean s) u2 k u3 -> grouped (mean s) u3 k body cl u' ->
  exists q', definition_rest cfg braced q = (Ok (k, (body, cl)), q') /\ ty s u' q'.
Proof.
  intros T B N G. assert (Cl : exists q0, (if braced then let* c := q_next cfg in match qt_tok c with T_GroupEnd => sret tt | _ => sfail (qt_span c) E_ExpectedExactlyOneToken end else sret tt) q = (Ok tt, q0) /\ ty s u2 q0).
  { destruct braced; [|subst; now exists q]. destruct (ty_next _ _ _ _ _ T B ltac:(discriminate)) as (x & q0 & E & X & T0). exists q0. unfold sbind. rewrite E, X. split; [reflexivity|exact T0]. }
  destruct Cl as (q0 & E0 & T0). destruct (numbered_ty _ _ _ _ _ T0 N) as (q1 & E1 & T1). destruct (grouped_ty _ _ _ _ _ _ _ T1 G) as (l & q2 & E2 & M & T2). exists q2. split; [|exact T2].
  unfold definition_rest. unfold sbind at 1. rewrite E0. unfold sbind at 1. rewrite E1. unfold sbind at 1. rewrite E2. unfold sbind, sres. rewrite M. reflexivity.
Qed.

(** ** The stores *)

Lemma str_neq a b : str_eqb a b = false -> a <> b.
Proof. intros E ->. rewrite str_eqb_refl in E. discriminate. Qed.
Lemma assoc_filter_else {A} name n (m : list (str * A)) : str_eqb n name = false -> assoc_str n (filter (fun e => negb (str_eqb name (fst e))) m) = assoc_str n m.
Proof.
  intros H. induction m as [|[k v] m IH]; [reflexivity|]. cbn [filter fst]. destruct (str_eqb name k) eqn:E; cbn [negb].
  - apply str_eqb_eq in E. subst k. cbn [assoc_str]. rewrite H. exact IH.
  - cbn [assoc_str]. now rewrite IH.
Qed.
Lemma copy_map document local n k body cl doc : cmds_insert_or_replace_copy document local n k body cl = Some doc ->
  cc_map doc = (n, mkCmdDef k cl (length (cc_tokens document)) (length (cc_tokens document ++ body))) :: cc_map document.
Proof. unfold cmds_insert_or_replace_copy, absorb. destruct (absorb_loop _ _ _ _); [|discriminate]. now intros [= <-]. Qed.
(** After a definition the name has a new meaning, and the others have theirs. *)
Lemma stored_meaning d s s' : stored cfg d s = Some s' ->
  (exists tok, (if for_document cfg d then cmds_get (snd s') (df_name d) SrcDocument else cmds_get (fst s') (df_name d) SrcLocal) = Some tok /\ mean s' (df_name d) = tok) /\
  (forall n, str_eqb n (df_name d) = false -> mean s' n = mean s n).
Proof.
  destruct s as [local document]. unfold stored. destruct (for_document cfg d).
  - destruct (cmds_insert_or_replace_copy _ _ _ _ _ _) as [doc|] eqn:E; [|discriminate]. intros [= <-]. apply copy_map in E. split.
    + unfold stores_meaning, resolve_command, cmds_get. cbn [fst snd cmds_remove cc_map]. rewrite assoc_remove, E, assoc_here. eauto.
    + intros n Nn. unfold stores_meaning, resolve_command, cmds_get. cbn [fst snd cmds_remove cc_map]. rewrite E. cbn [assoc_str]. rewrite Nn, assoc_filter_else by exact Nn. reflexivity.
  - intros [= <-]. split.
    + unfold stores_meaning, resolve_command, cmds_get. cbn [fst snd cmds_insert_or_replace cmds_register cc_map]. rewrite assoc_here. eauto.
    + intros n Nn. unfold stores_meaning, resolve_command, cmds_get. cbn [fst snd cmds_insert_or_replace cmds_register cc_map assoc_str]. rewrite Nn. reflexivity.
Qed.

(** The queue after a definition. *)
Lemma typed_still s s' r t t' : typed (mean s) r t -> typed (mean s') r t' -> blank_tok t' = blank_tok t /\ (not_eoi t = true -> not_eoi t' = true).
Proof.
  intros (A1 & _ & _) (B1 & _ & _). unfold blank_tok, not_eoi. rewrite A1, B1. destruct r as [x|n]; cbn [told]; [auto|]. rewrite !mean_no_ws. split; [reflexivity|]. intros _.
  rewrite mean_queue, q_meaning_no_eoi. reflexivity.
Qed.
Lemma ty_changed s u q s' (f : qtok -> qtok) : ty s u q -> (forall x, f (eoi_at x) = eoi_at x) -> (forall r t, typed (mean s) r t -> typed (mean s') r (f t)) ->
  ty s' u (q_set_toks (q_set_stores q (fst s') (gs_set_cmds (q_gs q) (snd s'))) (map f (q_toks q))).
Proof.
  intros ((He & Hn & a & n & Ht & Fa & Hnn) & F & (sp & E) & L & Gs) Fe Ff. set (q' := q_set_toks _ _).
  unfold S_Queue.q_view in F, E. cbn [fst snd] in F, E.
  assert (Fl : filter not_eoi (q_toks q) = a).
  { rewrite Ht, filter_app. assert (filter not_eoi (repeat (eoi_at (span_zero_width (lx_pos (q_lexer q)))) n) = []) as -> by (clear; induction n; [reflexivity|exact IHn]). rewrite app_nil_r.
    clear - Fa. induction Fa as [|x a H F IH]; [reflexivity|]. cbn [filter]. now rewrite H, IH. }
  rewrite Fl in F. apply Forall2_app_inv_r in F as (u1 & u2 & F1 & F2 & ->).
  assert (Fa' : Forall (fun t => not_eoi t = true) (map f a)).
  { clear - F1 Fa Ff. induction F1 as [|r t u1 a T F IH]; [constructor|]. inversion Fa as [|? ? N1 N2]; subst. cbn [map]. constructor; [|now apply IH]. exact (proj2 (typed_still _ _ _ _ _ T (Ff _ _ T)) N1). }
  assert (Fb : map f (repeat (eoi_at (span_zero_width (lx_pos (q_lexer q)))) n) = repeat (eoi_at (span_zero_width (lx_pos (q_lexer q)))) n).
  { clear - Fe. induction n; cbn [repeat map]; [reflexivity|]. now rewrite Fe, IHn. }
  assert (Ht' : q_toks q' = map f a ++ repeat (eoi_at (span_zero_width (lx_pos (q_lexer q)))) n) by (cbn [q' q_set_toks q_toks]; now rewrite Ht, map_app, Fb).
  assert (Fl' : filter not_eoi (q_toks q') = map f a).
  { rewrite Ht', filter_app. assert (filter not_eoi (repeat (eoi_at (span_zero_width (lx_pos (q_lexer q)))) n) = []) as -> by (clear; induction n; [reflexivity|exact IHn]). rewrite app_nil_r.
    clear - Fa'. induction Fa' as [|x l H F IH]; [reflexivity|]. cbn [filter]. now rewrite H, IH. }
  assert (Lx : Forall2 (typed (mean s')) u2 (fst (lexed cfg q')) /\ snd (lexed cfg q') = snd (lexed cfg q)).
  { unfold lexed in F2 |- *. cbn [q' q_set_toks q_lexer q_set_stores] in *. destruct (tokenize _ _) as [[ts e]|]; cbn [fst snd] in *; [|inversion F2; subst; split; [constructor|reflexivity]]. split; [|reflexivity].
    clear - F2 L Gs. revert u2 F2. induction ts as [|o ts IH]; intros u2 F2; cbn [map] in *; inversion F2 as [|r ? u ? T F' E1 E2]; subst; [constructor|]. constructor; [|now apply IH].
    destruct T as (T1 & T2 & T3). destruct o as [[t sp]|name sp]; cbn [resolve_lexed qt_of qt_tok qt_name] in *; destruct r as [x|m]; cbn [told] in *; try discriminate T2.
    - now split.
    - injection T2 as <-. split; [|now split]. reflexivity. }
  destruct Lx as [Lx1 Lx2]. split; [|split; [|split; [|split]]].
  - split; [exact He|]. split.
    + cbn [q' q_set_toks q_toks q_nnw q_set_stores]. rewrite find_nnw_map; [exact Hn|]. rewrite Ht. apply Forall_app. split.
      * clear - F1 Ff. induction F1 as [|r t u1 a T F IH]; constructor; [exact (proj1 (typed_still _ _ _ _ _ T (Ff _ _ T)))|exact IH].
      * apply Forall_forall. intros t Tt. apply repeat_spec in Tt. subst t. now rewrite Fe.
    + exists (map f a), n. cbn [q' q_set_toks q_lexer q_set_stores]. split; [exact Ht'|]. split; [exact Fa'|exact Hnn].
  - unfold S_Queue.q_view. cbn [fst]. rewrite Fl'. apply Forall2_app; [|exact Lx1]. clear - F1 Ff. induction F1; cbn [map]; constructor; auto.
  - exists sp. unfold S_Queue.q_view. cbn [snd]. now rewrite Lx2.
  - reflexivity.
  - cbn [q' q_set_toks q_set_stores q_gs]. now rewrite Gs.
Qed.
Lemma define_ty s u q d s' : ty s u q -> stored cfg d s = Some s' -> (df_replace d = false -> nameless (mean s) (df_name d) = true) ->
  exists q', q_define cfg (df_name d) (df_args d) (df_body d) (df_class d) (df_replace d) (df_global d) q = (Ok true, q') /\ ty s' u q'.
Proof.
  intros T St Nl. pose proof T as (_ & _ & _ & L & Gs). destruct (stored_meaning d s s' St) as ((tok & Gt & Mt) & Mo).
  assert (Free : df_replace d = false -> cmds_has (fst s) (df_name d) = false /\ cmds_has (snd s) (df_name d) = false).
  { intros R. pose proof (meaning_stores cfg q (df_name d)) as K. rewrite (nameless_has _ _ _ _ T), (Nl R), L, Gs in K. now apply K. }
  set (f := fun t => if df_replace d then (if opt_str_eqb (qt_name t) (df_name d) then qt_with t tok else t)
    else match qt_tok t with T_UnresolvedCommand name => match resolve_command cfg (fst s') (snd s') name with Some tok => qt_with t tok | None => t end | _ => t end).
  assert (Tf : ty s' u (q_set_toks (q_set_stores q (fst s') (gs_set_cmds (q_gs q) (snd s'))) (map f (q_toks q)))).
  { apply ty_changed with (s := s); [exact T|intros x; unfold f; now destruct (df_replace d)|]. intros r t (T1 & T2 & T3). unfold f. destruct (df_replace d) eqn:Er.
    - rewrite T2. destruct r as [x|m]; cbn [opt_str_eqb told] in *; [now split|]. destruct (str_eqb m (df_name d)) eqn:Em.
      + apply str_eqb_eq in Em. subst m. split; [|now split]. cbn [qt_with qt_tok told]. now rewrite Mt.
      + split; [|now split]. cbn [told]. rewrite (Mo m Em). exact T1.
    - destruct r as [x|m]; cbn [told] in *; [rewrite T1; destruct x; try (now split); discriminate T3|].
      assert (Km : forall name, mean s m = T_UnresolvedCommand name -> name = m).
      { intros name. unfold stores_meaning. destruct (resolve_command _ _ _ m) as [y|] eqn:Ey; [|now intros [= <-]]. intros ->. 
        pose proof (q_resolve_plain cfg (mkQueue (lexer_new []) [] false 0 (fst s) (mkGs 0 [] (snd s))) m _ Ey) as Py. discriminate Py. }
      assert (Kept : nameless (mean s) m = false -> typed (mean s') (RName m) t).
      { intros Nm. split; [|now split]. cbn [told]. rewrite Mo; [exact T1|]. destruct (str_eqb m (df_name d)) eqn:Em; [|reflexivity]. apply str_eqb_eq in Em. subst m. rewrite (Nl eq_refl) in Nm. discriminate Nm. }
      unfold nameless in Kept. rewrite T1. destruct (mean s m) as [] eqn:Emm; try (now apply Kept). clear Kept. specialize (Km _ eq_refl). subst name.
      unfold typed. cbn [told]. unfold stores_meaning. destruct (resolve_command cfg (fst s') (snd s') m) as [y|]; [now split|]. now split. }
  exists (q_set_toks (q_set_stores q (fst s') (gs_set_cmds (q_gs q) (snd s'))) (map f (q_toks q))). split; [|exact Tf]. clear Tf.
  unfold q_define. fold (for_document cfg d). unfold stored in St. destruct s as [local document]. cbn [fst snd] in *. rewrite L, Gs. cbn [gs_cmds].
  destruct (for_document cfg d).
  - assert (negb (df_replace d) && cmds_has document (df_name d) = false) as -> by (destruct (df_replace d); [reflexivity|]; now rewrite (proj2 (Free eq_refl))).
    destruct (cmds_insert_or_replace_copy _ _ _ _ _ _) as [doc|]; [|discriminate]. injection St as <-. cbn [fst snd] in *. f_equal. cbn [gs_set_cmds gs_cmds].
    destruct (df_replace d); [rewrite Gt|]; reflexivity.
  - injection St as <-. cbn [fst snd] in *. destruct (df_replace d) eqn:Er.
    + cbv zeta. rewrite Gt. unfold resolve_buffered_redefined, f. rewrite ?Gs. reflexivity.
    + unfold cmds_insert. rewrite (proj1 (Free eq_refl)). cbv zeta. unfold resolve_buffered_unknown, f. rewrite ?Gs. reflexivity.
Qed.

(** ** The commands *)

Lemma new_ty m s u1 n u2 k u3 body cl u' q d s' : ty s u1 q -> named (mean s) u1 n u2 -> numbered (mean s) u2 k u3 -> grouped (mean s) u3 k body cl u' ->
  nameless (mean s) n = (match m with DmRenew => false | _ => true end) -> d = mkDefn n k body cl (negb (nameless (mean s) n)) false -> stored cfg d s = Some s' ->
  exists q', define_command cfg m q = (Ok tt, q') /\ ty s' u' q'.
Proof.
  intros T N1 N2 G Nl -> St. destruct (named_ty _ _ _ _ _ T N1) as (braced & t & q1 & u1' & Rn & Nm & T1 & B). rewrite (define_parts cfg m q braced t q1 Rn), (target_of cfg m q t n Nm), (nameless_has _ _ _ _ T), Nl.
  destruct (rest_ty s u1' u2 k u3 body cl u' braced q1 T1 B N2 G) as (q2 & E2 & T2).
  destruct (define_ty s u' q2 _ s' T2 St ltac:(cbn [df_replace df_name]; intros E; now apply negb_false_iff in E)) as (q3 & E3 & T3). cbn [df_name df_args df_body df_class df_replace df_global] in E3. rewrite Nl in E3.
  exists q3. split; [|exact T3]. destruct m; cbn [negb] in *; unfold sbind; rewrite E2, E3; reflexivity.
Qed.
Lemma provides_ty s u1 n u2 k u3 body cl u' q : ty s u1 q -> named (mean s) u1 n u2 -> numbered (mean s) u2 k u3 -> grouped (mean s) u3 k body cl u' ->
  nameless (mean s) n = false -> exists q', define_command cfg DmProvide q = (Ok tt, q') /\ ty s u' q'.
Proof.
  intros T N1 N2 G Nl. destruct (named_ty _ _ _ _ _ T N1) as (braced & t & q1 & u1' & Rn & Nm & T1 & B). rewrite (define_parts cfg DmProvide q braced t q1 Rn), (target_of cfg DmProvide q t n Nm), (nameless_has _ _ _ _ T), Nl. cbn [negb].
  destruct (rest_ty s u1' u2 k u3 body cl u' braced q1 T1 B N2 G) as (q2 & E2 & T2). exists q2. split; [|exact T2]. unfold sbind. now rewrite E2.
Qed.
Lemma name_ty s u n u' q : ty s u q -> strip u = RName n :: u' -> exists q', read_definition_name cfg q = (Ok n, q') /\ ty s u' q'.
Proof.
  intros T B. destruct (ty_next_unres _ _ _ _ _ T B) as (x & q1 & E & X & T1). exists q1. split; [|exact T1]. exact (definition_name_of cfg q q _ n q1 (typed_names _ _ _ _ _ T X) E).
Qed.
Lemma skip_ty s : forall u q fuel, ty s u q -> length u < fuel -> exists q', skip_spaces cfg fuel q = (Ok tt, q') /\ ty s (strip u) q'.
Proof.
  intros u. induction u as [|r u IH]; intros q [|f] T Lf; cbn [length] in Lf; try lia; cbn [skip_spaces]; unfold sbind, sget; pose proof (ty_peek_any _ _ _ T) as Pk; cbn in Pk.
  - rewrite Pk. exists q. split; [reflexivity|exact T].
  - destruct Pk as (Pk & _ & _). rewrite Pk. destruct r as [x|n]; cbn [told strip].
    + destruct x; try (exists q; split; [reflexivity|exact T]). cbn [is_ws]. destruct (ty_next_any _ _ _ _ T ltac:(discriminate)) as (y & q1 & E & _ & T1). rewrite E. apply IH; [exact T1|lia].
    + rewrite mean_no_ws. exists q. split; [reflexivity|exact T].
Qed.
Lemma params_ty s u2 : hd_error u2 = Some (RTok T_GroupBegin) -> forall j i q fuel, ty s (map (fun i => RTok (T_CustomCmdArgInput i)) (seq i j) ++ u2) q -> j < fuel ->
  exists q', param_loop cfg fuel i q = (Ok (i + j), q') /\ ty s u2 q'.
Proof.
  intros H j. induction j as [|j IH]; intros i q [|f] T Lf; try lia; cbn [seq map app] in T; cbn [param_loop]; unfold sbind, sget; pose proof (ty_peek_any _ _ _ T) as Pk.
  - destruct u2 as [|r u2]; [discriminate|]. injection H as ->. destruct Pk as (Pk & _). rewrite Pk. cbn [told]. exists q. rewrite Nat.add_0_r. split; [reflexivity|exact T].
  - destruct Pk as (Pk & _). rewrite Pk. cbn [told]. rewrite Nat.eqb_refl. destruct (ty_next_any _ _ _ _ T ltac:(discriminate)) as (y & q1 & E & _ & T1). rewrite E.
    destruct (IH (S i) q1 f T1 ltac:(lia)) as (q2 & R & T2). exists q2. rewrite R. split; [f_equal; f_equal; lia|exact T2].
Qed.
Lemma assigns_ty s t g u d u' q s' : ty s u q -> assigns (mean s) t g u d u' -> stored cfg d s = Some s' ->
  exists q', match t with T_Def _ => def_command cfg g | T_Let => let_command cfg g | _ => scrash Undefined end q = (Ok tt, q') /\ ty s' u' q'.
Proof.
  intros T A St. inversion A as [g0 ? ? n u1 k u2 body cl ? B1 B2 H (inner & B3 & Lv & Al & Ec)|? ? n u1 t0 ? B1 (u2 & r & Eu & B2 & Et & Nu)]; subst.
  - destruct (name_ty _ _ _ _ _ T B1) as (q1 & E1 & T1). rewrite (def_parts cfg g q n q1 E1). unfold def_rest.
    destruct (skip_ty s u1 q1 (S (q_size q1)) T1 ltac:(pose proof (ty_size _ _ _ T1); lia)) as (q2 & E2 & T2). rewrite B2 in T2.
    destruct (params_ty s u2 H k 0 q2 (S (q_size q2)) T2) as (q3 & E3 & T3). { pose proof (ty_size _ _ _ T2) as Sz. rewrite app_length, map_length, seq_length in Sz. lia. }
    destruct (body_ty s u2 u' inner q3 T3 B3 Lv) as (l & q4 & E4 & F & x & q5 & E5 & T5).
    destruct (define_ty s u' q5 _ s' T5 St ltac:(discriminate)) as (q6 & E6 & T6). cbn [df_name df_args df_body df_class df_replace df_global] in E6. exists q6. split; [|exact T6].
    unfold sbind. rewrite E2, E3. cbn [Nat.add]. rewrite E4, E5. unfold sres, map_recorded_tokens. rewrite (recorded_ty s k inner body l None Al F). unfold sret. rewrite E6. reflexivity.
  - destruct (name_ty _ _ _ _ _ T B1) as (q1 & E1 & T1). unfold let_command. unfold sbind at 1. rewrite E1. unfold sbind at 1, sget. rewrite (ty_peek _ _ _ T1).
    set (u2 := if is_equals (unwrap_math (told_first (mean s) u1)) then tl (strip u1) else u1) in *.
    assert (Eq : exists q2, (if is_equals (unwrap_math (told_first (mean s) u1)) then q_next cfg ;* sret tt else sret tt) q1 = (Ok tt, q2) /\ ty s u2 q2).
    { unfold u2. destruct (is_equals _) eqn:Ee; [|exists q1; split; [reflexivity|exact T1]]. unfold told_first in Ee. destruct (strip u1) as [|r1 u3] eqn:Es; [discriminate Ee|]. cbn [map hd] in Ee.
      destruct (ty_next _ _ _ _ _ T1 Es) as (y & q2 & E2 & _ & T2). { intros m Em. now rewrite Em in Ee. } exists q2. unfold sbind. rewrite E2. split; [reflexivity|exact T2]. }
    destruct Eq as (q2 & E2 & T2). unfold sbind at 1. rewrite E2. destruct (ty_next _ _ _ _ _ T2 B2 Nu) as (y & q3 & E3 & Y & T3). unfold sbind at 1. rewrite E3, Y.
    destruct (define_ty s u' q3 _ s' T3 St ltac:(discriminate)) as (q4 & E4 & T4). cbn [df_name df_args df_body df_class df_replace df_global] in E4.
    assert (Ne : unwrap_math (told (mean s) r) <> T_Eoi).
    { intros Ee. pose proof (ty_no_eoi _ _ _ T2) as No. assert (K : means_eoi (told (mean s) r) = false).
      { assert (In r u2). { assert (In r (strip u2)) as I2 by (rewrite B2; now left). clear - I2. revert I2. generalize u2. intros u. induction u as [|[x|m] u IH]; cbn [strip]; auto. destruct x; cbn [strip]; auto. intros I. right. now apply IH. }
        now apply (proj1 (Forall_forall _ _) No). }
      rewrite <- means_eoi_unwrap, Ee in K. discriminate K. }
    exists q4. split; [|exact T4]. destruct (unwrap_math (told (mean s) r)) eqn:Et; try (unfold sbind; rewrite E4; reflexivity); [now destruct Ne|now destruct (Nu name)].
Qed.
Lemma globals_ty s u d u' s' : assigns_globally (mean s) u d u' -> stored cfg d s = Some s' -> forall q fuel, ty s u q -> length u < fuel ->
  exists q', global_loop cfg fuel q = (Ok tt, q') /\ ty s' u' q'.
Proof.
  intros A St. assert (Sl : forall u r u1, strip u = r :: u1 -> length u1 < length u).
  { clear. intros u. induction u as [|[x|m] u IH]; cbn [strip]; intros r u1 E; [discriminate| |injection E as _ <-; cbn; lia].
    destruct x; cbn [strip] in E; try (injection E as _ <-; cbn; lia). apply IH in E. cbn. lia. }
  induction A as [u r u1 d u' B A|u r u1 d u' B Eg A IH]; intros q [|f] T Lf; try lia; cbn [global_loop].
  - assert (K : forall m, unwrap_math (told (mean s) r) <> T_UnresolvedCommand m) by (intros m Em; rewrite Em in A; inversion A).
    destruct (ty_next _ _ _ _ _ T B K) as (y & q1 & E & Y & T1). unfold sbind. rewrite E, Y. destruct (assigns_ty s _ true u1 d u' q1 s' T1 A St) as (q2 & E2 & T2). exists q2. split; [|exact T2].
    inversion A as [? ? ? ? ? ? ? ? ? ? ? ? ? ? Ha|? ? ? ? ? ? ? ? Ha]; subst; rewrite <- Ha in *; exact E2.
  - destruct (ty_next _ _ _ _ _ T B ltac:(rewrite Eg; discriminate)) as (y & q1 & E & Y & T1). unfold sbind. rewrite E, Y, Eg. apply (IH St q1 f T1). pose proof (Sl _ _ _ B). lia.
Qed.
End Preamble.

(** ** The loop *)

Section Loop.
Context {Ft : fate} (cfg : parser_cfg) (usize_max : N) (count : N) (labels : label_map).
Notation mean := (stores_meaning cfg).
Notation ty := (ty cfg count labels).
Notation wins := (wins cfg usize_max).
Notation exec := (exec cfg usize_max).

Lemma wins_call_inv {A B} (c : call B) (k : B -> prog A) s (Q : A -> pstate -> Prop) : wins (Call c k) s Q -> wins (body c) s (fun b s1 => wins (k b) s1 Q).
Proof.
  intros (r & s' & E & Se). apply ends_call in E as [(b & s1 & E1 & E2)|[(e & -> & E)|(cr & -> & E)]].
  - exists (Ok b), s1. split; [exact E1|]. now exists r, s'.
  - exists (Err e), s'. split; [exact E|exact Se].
  - destruct Se.
Qed.
(** A command that defines something does it, and the loop goes on. *)
Lemma loop_passes prev acc infix s u r u1 (o : op unit) (m : St queue unit) q v : ty s u q -> pv_transform v = None -> strip u = r :: u1 ->
  (forall sp, loop_next (SeqEnd EtEoi) prev acc infix (unwrap_math (told (mean s) r), sp) = Do o (fun _ => Call (CLoop (SeqEnd EtEoi) prev acc infix) (fun x => Ret x))) ->
  (forall s0, exec o s0 = on_queue m s0) -> (forall n, unwrap_math (told (mean s) r) <> T_UnresolvedCommand n) -> unwrap_math (told (mean s) r) <> T_Eoi ->
  exists q1, ty s u1 q1 /\ (forall q2 Q, m q1 = (Ok tt, q2) -> wins (body (CLoop (SeqEnd EtEoi) prev acc infix)) (mkPs q2 v) Q -> wins (body (CLoop (SeqEnd EtEoi) prev acc infix)) (mkPs q v) Q).
Proof.
  intros T Tf B Ln Ex Nu Ne. destruct (ty_next cfg count labels s u q r u1 T B Nu) as (x & q1 & E & X & T1). exists q1. split; [exact T1|]. intros q2 Q Em W.
  cbn [body]. rewrite loop_eq.
  assert (Pk : exec OPeek (mkPs q v) = (Ok (qt_tokspan (q_peek q)), mkPs q v)) by reflexivity.
  eapply wins_do; [exact Pk|]. unfold qt_tokspan at 1. cbn [fst]. rewrite (ty_peek cfg count labels s u q T). unfold told_first. rewrite B. cbn [map hd].
  assert (seq_end_matches (SeqEnd EtEoi) (told (mean s) r) = false) as ->. { destruct (told (mean s) r); try reflexivity. now destruct Ne. }
  eapply wins_do. { cbn [M_Parser.exec]. unfold sbind, view, sget. cbn [ps_view]. rewrite Tf. unfold on_queue, merge_letters. reflexivity. }
  cbn [ps_queue]. eapply wins_do. { cbn [M_Parser.exec]. unfold next_tok, sbind, on_queue. cbn [ps_queue ps_view]. rewrite E. unfold sret, qt_tokspan. rewrite X. reflexivity. }
  rewrite Ln. eapply wins_do; [rewrite Ex; unfold on_queue; cbn [ps_queue ps_view]; rewrite Em; reflexivity|]. apply wins_return. exact W.
Qed.
(** All definitions at the front are made. *)
Lemma prepared_loop prev acc infix v s u ds s' u' : prepared cfg s u ds s' u' -> pv_transform v = None -> forall q, ty s u q ->
  exists q', ty s' u' q' /\ forall Q, wins (body (CLoop (SeqEnd EtEoi) prev acc infix)) (mkPs q' v) Q -> wins (body (CLoop (SeqEnd EtEoi) prev acc infix)) (mkPs q v) Q.
Proof.
  intros P Tf. induction P as [s u|s u u1 ds s' u' Pv P IH|s u d u1 s1 ds s' u' Df St P IH]; intros q T.
  - exists q. split; [exact T|auto].
  - destruct Pv as (r & u0 & n & u2 & k & u3 & body0 & cl & B & Er & Nm & Nu & G & Nl).
    destruct (loop_passes prev acc infix s u r u0 (ODefine DmProvide) (define_command cfg DmProvide) q v T Tf B) as (q1 & T1 & W); try (rewrite Er; (reflexivity || discriminate)); [reflexivity|].
    destruct (provides_ty cfg count labels s u0 n u2 k u3 body0 cl u1 q1 T1 Nm Nu G Nl) as (q2 & E2 & T2). destruct (IH q2 T2) as (q3 & T3 & W3). exists q3. split; [exact T3|]. intros Q H. exact (W q2 Q E2 (W3 Q H)).
  - assert (Step : exists q2, ty s1 u1 q2 /\ forall Q, wins (body (CLoop (SeqEnd EtEoi) prev acc infix)) (mkPs q2 v) Q -> wins (body (CLoop (SeqEnd EtEoi) prev acc infix)) (mkPs q v) Q).
    { inversion Df as [m ? r u0 n u2 k u3 body0 cl ? B Er Nm Nu G Nl|? r u0 ? ? B Er A|g ? r u0 ? ? B Er A|? r u0 ? ? B Er A]; subst.
      - destruct (loop_passes prev acc infix s u r u0 (ODefine m) (define_command cfg m) q v T Tf B) as (q1 & T1 & W); try (rewrite Er; (reflexivity || discriminate)); [reflexivity|].
        destruct (new_ty cfg count labels m s u0 n u2 k u3 body0 cl u1 q1 _ s1 T1 Nm Nu G Nl eq_refl St) as (q2 & E2 & T2). exists q2. split; [exact T2|]. intros Q. exact (W q2 Q E2).
      - destruct (loop_passes prev acc infix s u r u0 (OLet false) (let_command cfg false) q v T Tf B) as (q1 & T1 & W); try (rewrite Er; (reflexivity || discriminate)); [reflexivity|].
        destruct (assigns_ty cfg count labels s T_Let false u0 d u1 q1 s1 T1 A St) as (q2 & E2 & T2). exists q2. split; [exact T2|]. intros Q. exact (W q2 Q E2).
      - destruct (loop_passes prev acc infix s u r u0 (ODef g) (def_command cfg g) q v T Tf B) as (q1 & T1 & W); try (rewrite Er; (reflexivity || discriminate)); [reflexivity|].
        destruct (assigns_ty cfg count labels s (T_Def g) g u0 d u1 q1 s1 T1 A St) as (q2 & E2 & T2). exists q2. split; [exact T2|]. intros Q. exact (W q2 Q E2).
      - destruct (loop_passes prev acc infix s u r u0 OGlobal (global_prefix cfg) q v T Tf B) as (q1 & T1 & W); try (rewrite Er; (reflexivity || discriminate)); [reflexivity|].
        destruct (globals_ty cfg count labels s u0 d u1 s1 A St q1 (S (q_size q1)) T1) as (q2 & E2 & T2). { pose proof (ty_size cfg count labels _ _ _ T1). lia. } exists q2. split; [exact T2|]. intros Q. exact (W q2 Q E2). }
    destruct Step as (q2 & T2 & W2). destruct (IH q2 T2) as (q3 & T3 & W3). exists q3. split; [exact T3|]. intros Q H. exact (W2 Q (W3 Q H)).
Qed.
Lemma prepared_seq prev v s u ds s' u' q : prepared cfg s u ds s' u' -> pv_transform v = None -> ty s u q ->
  exists q', ty s' u' q' /\ forall Q, wins (body (CSeq (SeqEnd EtEoi) prev true)) (mkPs q' v) Q -> wins (body (CSeq (SeqEnd EtEoi) prev true)) (mkPs q v) Q.
Proof.
  intros P Tf T. destruct (prepared_loop prev [] None v s u ds s' u' P Tf q T) as (q' & T' & W). exists q'. split; [exact T'|]. intros Q H. cbn [body] in H |- *. unfold seq_body in *.
  assert (V : forall q0, exec OView (mkPs q0 v) = (Ok v, mkPs q0 v)) by reflexivity.
  destruct H as (r & sf & E & Se). apply ends_do in E. rewrite V in E. eapply wins_do; [apply V|]. apply wins_call. apply W. apply wins_call_inv. now exists r, sf.
Qed.
End Loop.

(** The text of a snippet, typed. *)
Lemma typed_new cfg gs input u : typed_tokens input = Some u -> exists q, queue_new cfg (lexer_new input) gs = (Ok tt, q) /\ ty cfg (gs_count gs) (gs_labels gs) (cmds_empty, gs_cmds gs) u q.
Proof.
  unfold typed_tokens. intros E. pose proof (new_spec cfg (lexer_new input) gs) as N. cbv zeta in N. unfold lexed in N. cbn [q_lexer lexer_new lx_rest] in N.
  destruct (tokenize (S (length input)) (lexer_new input)) as [[ts [sp|er]]|] eqn:Tk; try discriminate E. injection E as <-. set (new := map _ ts) in N. destruct (ahead_eoi new sp) as (t & Ea). rewrite Ea in N.
  destruct N as (q & Nq & Gq & Vq & Lq & Sq). exists q. split; [exact Nq|]. split; [exact Gq|]. rewrite Vq. cbn [fst snd]. split; [|split; [eauto|split; [exact Lq|rewrite Sq; now destruct gs]]].
  pose proof (tokenize_lexical _ _ _ _ Tk) as Lx. unfold new. clear - Lx. induction Lx as [|o ts H F IH]; cbn [map]; constructor; [|exact IH]. destruct o as [[t sp]|n sp]; [now split|]. split; [reflexivity|now split].
Qed.
Lemma snippet_of_prepared cfg usize_max gs st input ds s l r : prepared_reads cfg gs input ds s l -> prepared_meaning cfg usize_max gs st s l = Some r ->
  exists F, forall f, F <= f -> parse_snippet cfg usize_max f gs input st = (Ok (fst r), snd r).
Proof.
  intros (u & u' & n & k & Tk & P & Kn & Rd & Bk) E. unfold prepared_meaning in E. destruct (den _ _ _ _ _) as [[ns d']|] eqn:D; [|discriminate]. injection E as <-. cbn [fst snd].
  destruct (typed_new cfg gs input u Tk) as (q & Nq & T). set (v := mkPv None false env_state_default st None (pc_max_expansions cfg)).
  destruct (prepared_seq (Ft := no_error) cfg usize_max (gs_count gs) (gs_labels gs) ClOpen v _ u ds s u' q P eq_refl T) as (q' & T' & W).
  assert (A : at_ cfg (fst s) (snd s) (pc_max_expansions cfg) (snippet_ctx st) (snippet_nu gs) (map (told (stores_meaning cfg s)) u') (mkPs q' v)).
  { destruct T' as (G & F & En & L & Gs). split; [|exists (pc_max_expansions cfg); split; [lia|reflexivity]]. split; [exact G|]. cbn [ps_queue]. split; [|split; [exact En|split; [exact L|split; [exact Gs|exact Kn]]]].
    clear - F. induction F as [|r t u l (H & _) F IH]; [reflexivity|]. cbn [map]. now rewrite H, IH. }
  pose proof (den_wins (Ft := no_error) usize_max cfg (fst s) (snd s) l _ _ _ _ _ _ n k _ D Rd Bk eq_refl A) as Dw. apply W in Dw.
  destruct Dw as ([a|er|cr] & s2 & (F & Ru & Nc) & Se); [destruct Se as [-> A']|destruct Se|destruct Se].
  exists F. intros f Lf. unfold parse_snippet, parser_new. rewrite Nq. fold v. unfold parse_all. rewrite (run_more cfg usize_max F _ _ _ _ _ Ru Nc f Lf). f_equal. destruct A' as [(_ & _ & _ & _ & Gf & _) _]. rewrite Gf. reflexivity.
Qed.

(** ** What a definition does *)

Lemma absorb_plain local : forall fuel toks i, Forall no_local_ref (skipn i toks) -> length toks - i <= fuel -> absorb_loop fuel local toks i = Some toks.
Proof.
  induction fuel as [|f IH]; intros toks i F L; cbn [absorb_loop]; destruct (i <? length toks) eqn:E; try reflexivity; apply Nat.ltb_lt in E; [lia|].
  destruct (nth_error toks i) as [r|] eqn:Er; [|apply nth_error_None in Er; lia].
  assert (Sk : skipn i toks = r :: skipn (S i) toks).
  { clear - Er. revert i Er. induction toks as [|x toks IH]; intros [|i] Er; try discriminate; [now injection Er as ->|]. cbn [skipn]. apply IH. exact Er. }
  rewrite Sk in F. inversion F as [|? ? F1 F2]; subst. rewrite (IH toks (S i) F2 ltac:(lia)). destruct r as [t|n0]; [|reflexivity]. destruct t; try reflexivity. destruct src; try reflexivity. now destruct (F1 num_args cl start stop).
Qed.
Lemma absorb_plain_fuel local body : Forall no_local_ref body -> absorb_fuel local body = length body.
Proof.
  unfold absorb_fuel. induction 1 as [|r body H F IH]; [reflexivity|]. cbn [map list_sum fold_right length]. fold (list_sum (map (absorb_rounds (S (length (cc_tokens local))) local) body)). rewrite IH. f_equal.
  cbn [absorb_rounds]. destruct r as [t|n]; [|reflexivity]. destruct t; try reflexivity. destruct src; try reflexivity. now destruct (H num_args cl start stop).
Qed.
Lemma copy_plain document local n k body cl : Forall no_local_ref body -> cmds_insert_or_replace_copy document local n k body cl = Some (cmds_insert_or_replace document n k body cl).
Proof.
  intros F. unfold cmds_insert_or_replace_copy, absorb. rewrite (absorb_plain_fuel _ _ F), absorb_plain; [reflexivity| |rewrite app_length; lia].
  rewrite skipn_app, skipn_all, Nat.sub_diag. exact F.
Qed.
Lemma inserted_body c n k body cl : cmds_body (cmds_insert_or_replace c n k body cl) (length (cc_tokens c)) (length (cc_tokens c ++ body)) = Some body.
Proof.
  unfold cmds_body, slice_get. cbn [cmds_insert_or_replace cmds_register cc_tokens]. rewrite app_length.
  assert ((length (cc_tokens c) <=? length (cc_tokens c) + length body) && (length (cc_tokens c) + length body <=? length (cc_tokens c) + length body) = true) as -> by (apply andb_true_intro; split; apply Nat.leb_le; lia).
  f_equal. rewrite skipn_app, skipn_all, Nat.sub_diag. cbn [app skipn]. apply firstn_all2. lia.
Qed.
Lemma body_extended a b : (exists more, cc_tokens b = cc_tokens a ++ more) -> forall start stop x, cmds_body a start stop = Some x -> cmds_body b start stop = Some x.
Proof. intros (more & E) start stop x. unfold cmds_body. rewrite E. apply slice_prefix. Qed.
Lemma plain_stored cfg d s : (for_document cfg d = true -> Forall no_local_ref (df_body d)) ->
  stored cfg d s = Some (if for_document cfg d then (cmds_remove (fst s) (df_name d), cmds_insert_or_replace (snd s) (df_name d) (df_args d) (df_body d) (df_class d))
    else (cmds_insert_or_replace (fst s) (df_name d) (df_args d) (df_body d) (df_class d), snd s)).
Proof. intros F. unfold stored. destruct s as [local document]. destruct (for_document cfg d); [|reflexivity]. now rewrite copy_plain by (now apply F). Qed.
Lemma definition_means cfg d s s' : (for_document cfg d = true -> Forall no_local_ref (df_body d)) -> stored cfg d s = Some s' -> with_definition cfg d s s'.
Proof.
  intros F St. destruct (stored_meaning cfg d s s' St) as (_ & Mo). rewrite (plain_stored cfg d s F) in St. injection St as St. split; [|split].
  - destruct (for_document cfg d); subst s'; eexists _, _, _; (split; [unfold stores_meaning, resolve_command, cmds_get; cbn [fst snd cmds_remove cmds_insert_or_replace cmds_register cc_map]; rewrite ?assoc_remove, ?assoc_here; reflexivity|]); cbn [stores_source fst snd]; apply inserted_body.
  - intros n Nn. apply Mo. destruct (str_eqb n (df_name d)) eqn:E; [|reflexivity]. apply str_eqb_eq in E. now destruct Nn.
  - intros src start stop body. unfold stores_source. assert (X : forall c, exists more, cc_tokens (cmds_insert_or_replace c (df_name d) (df_args d) (df_body d) (df_class d)) = cc_tokens c ++ more) by (intros c; now exists (df_body d)).
    destruct (for_document cfg d); subst s'; destruct src; cbn [fst snd]; auto; apply body_extended; apply X.
Qed.
(** Where the definitions are afterwards. *)
Lemma forgotten cfg s u ds s' u' : prepared cfg s u ds s' u' -> Forall (fun d => for_document cfg d = false) ds -> snd s' = snd s.
Proof.
  induction 1 as [s u|s u u1 ds s' u' Pv P IH|s u d u1 s1 ds s' u' Df St P IH]; intros F; auto. inversion F as [|? ? F1 F2]; subst. rewrite (IH F2). unfold stored in St. destruct s as [local document]. rewrite F1 in St. now injection St as <-.
Qed.
Lemma retained cfg s u ds s' u' : prepared cfg s u ds s' u' -> Forall (fun d => for_document cfg d = true) ds -> fst s = cmds_empty -> fst s' = cmds_empty.
Proof.
  induction 1 as [s u|s u u1 ds s' u' Pv P IH|s u d u1 s1 ds s' u' Df St P IH]; intros F E; auto. inversion F as [|? ? F1 F2]; subst. apply (IH F2). unfold stored in St. destruct s as [local document]. rewrite F1 in St. cbn [fst] in E. subst local.
  destruct (cmds_insert_or_replace_copy _ _ _ _ _ _); [|discriminate]. now injection St as <-.
Qed.

(** ** For examples *)
Lemma new_command mean m u r u1 n u2 k u3 body cl b u' : strip u = r :: u1 -> unwrap_math (told mean r) = T_NewCommand m -> named mean u1 n u2 -> numbered mean u2 k u3 ->
  grouped mean u3 k body cl u' -> nameless mean n = (match m with DmRenew => false | _ => true end) -> b = negb (nameless mean n) ->
  defines mean u (mkDefn n k body cl b false) u'.
Proof. intros. subst b. eapply begins_new; eassumption. Qed.
Lemma group_end mean u inner k body cl u' : strip u = RTok T_GroupBegin :: inner ++ RTok T_GroupEnd :: u' -> level 0 (map (told mean) inner) = Some 0 ->
  all_some (recorded_part mean k) inner = Some body -> cl = find_map token_class (map (told mean) inner) -> grouped mean u k body cl u'.
Proof. intros. exists inner. auto. Qed.
(** The first closing brace ends the group of the tokens in front of it. *)
Fixpoint group_inner (mean : str -> token) (d : nat) (u : list recorded) : list recorded :=
  match u with
  | [] => []
  | r :: u' =>
    match told mean r with
    | T_GroupBegin => r :: group_inner mean (S d) u'
    | T_GroupEnd => match d with O => [] | S e => r :: group_inner mean e u' end
    | _ => r :: group_inner mean d u'
    end
  end.
Ltac read_group := match goal with |- grouped ?m ?u _ _ _ _ => let w := eval vm_compute in (group_inner m 0 (tl (strip u))) in apply (group_end m u w); vm_compute; reflexivity end.
