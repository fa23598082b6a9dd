(** Proofs about the document mode of the tool. *)
From Verif Require Import Str M_Escape S_Html M_Cli S_Cli M_Error M_Emit M_Output M_Token M_LatexError M_Lexer M_Queue M_Parser M_Api M_Tool S_Tool
  S_Api S_Convert S_Store L_Escape L_Cli L_Convert L_Ends.
Local Open Scope nat_scope.

Lemma utf8_app a b : utf8 (a ++ b) = utf8 a ++ utf8 b.
Proof. unfold utf8. apply flat_map_app. Qed.
Lemma scalar_app a b : scalar_str (a ++ b) <-> scalar_str a /\ scalar_str b.
Proof. unfold scalar_str. apply Forall_app. Qed.

(** ASCII bytes are characters. *)
Lemma ascii_split s a b rest : scalar_str s -> (b < 128)%N -> utf8 s = a ++ b :: rest ->
  exists s1 s2, s = s1 ++ b :: s2 /\ utf8 s1 = a /\ utf8 s2 = rest.
Proof.
  intros Hs Hb E. destruct (boundary_of_head s a b rest Hs E) as (s1 & s2 & -> & H1 & H2).
  { unfold is_cont. apply andb_false_iff. left. apply N.leb_gt. lia. }
  apply scalar_app in Hs as [_ Hs]. destruct s2 as [|c s2]; [discriminate|].
  inversion Hs as [|? ? Hc Hs']; subst. destruct (N.lt_ge_cases c 128) as [L|L].
  - assert (E1 : utf8_char c = [c]) by (unfold utf8_char; replace (c <? 128)%N with true by (symmetry; now apply N.ltb_lt); reflexivity).
    cbn [utf8 flat_map] in H2. rewrite E1 in H2. cbn [app] in H2. injection H2 as -> H2. exists s1, s2. repeat split. exact H2.
  - exfalso. cbn [utf8 flat_map] in H2. unfold utf8_char in H2. replace (c <? 128)%N with false in H2 by (symmetry; now apply N.ltb_ge).
    destruct (c <? 0x800)%N; [|destruct (c <? 0x10000)%N]; cbn [app] in H2; apply (f_equal (hd 0%N)) in H2; cbn [hd] in H2; lia.
Qed.
Lemma position_split p s i : position p s = Some i -> exists c, s = firstn i s ++ c :: skipn (S i) s /\ p c = true.
Proof.
  intros H. destruct (position_some _ _ _ H) as (c & r & H1 & H2 & H3 & _). exists c. split; [|exact H3].
  assert (E : skipn (S i) s = r) by (change (S i) with (1 + i); rewrite Nat.add_comm, <- skipn_skipn', H1; reflexivity).
  now rewrite E, <- H1, firstn_skipn.
Qed.
Lemma utf8_ascii c s : (c < 128)%N -> utf8 (c :: s) = c :: utf8 s.
Proof. intros L. cbn [utf8 flat_map]. unfold utf8_char. replace (c <? 128)%N with true by (symmetry; now apply N.ltb_lt). reflexivity. Qed.

(** Replacing entities keeps documents decodable. *)
Lemma entity_text name c : assoc_str name html_reserved_map = Some c -> (c < 128)%N /\ is_scalar c = true.
Proof.
  unfold html_reserved_map. cbn [assoc_str]. repeat match goal with |- context [if ?b then _ else _] => destruct b; [intros E; injection E as <-; split; reflexivity|] end.
  discriminate.
Qed.
Lemma entity_loop_text : forall fuel b s idx out, scalar_str b -> scalar_str s -> position (N.eqb 38) (utf8 s) = Some idx ->
  entity_loop fuel (utf8 b) (utf8 s) idx = Some out -> exists t, out = utf8 t /\ scalar_str t.
Proof.
  induction fuel as [|fuel IH]; intros b s idx out Hb Hs P E; [discriminate|]. cbn [entity_loop] in E.
  destruct (position_split _ _ _ P) as (c & E1 & Ec). apply N.eqb_eq in Ec. subst c.
  destruct (ascii_split s _ 38%N _ Hs ltac:(lia) E1) as (s1 & s2 & -> & U1 & U2). apply scalar_app in Hs as [Hs1 Hs2].
  assert (L1 : idx = length (utf8 s1)).
  { rewrite U1. symmetry. apply firstn_length_le. apply position_some in P as (c0 & r0 & K1 & _). assert (length (skipn idx (utf8 (s1 ++ 38%N :: s2))) > 0) by (rewrite K1; cbn; lia). rewrite skipn_length in H. lia. }
  rewrite utf8_app, (utf8_ascii 38%N) in E by lia. rewrite L1, firstn_exact, skipn_exact in E.
  pose proof (Forall_inv_tail Hs2) as Hs3. pose proof (Forall_inv Hs2) as Ha.
  destruct (position (N.eqb 59) (utf8 s2)) as [j|] eqn:Ej.
  2:{ injection E as <-. exists (b ++ s1 ++ 38%N :: s2). rewrite !utf8_app, (utf8_ascii 38%N) by lia. rewrite app_assoc. split; [reflexivity|].
      apply scalar_app; split; [exact Hb|]. apply scalar_app; split; assumption. }
  destruct (position_split _ _ _ Ej) as (c & E2 & Ec). apply N.eqb_eq in Ec. subst c.
  destruct (ascii_split s2 _ 59%N _ Hs3 ltac:(lia) E2) as (s3 & s4 & -> & U3 & U4). apply scalar_app in Hs3 as [Hs3 Hs4].
  assert (L2 : j = length (utf8 s3)).
  { rewrite U3. symmetry. apply firstn_length_le. apply position_some in Ej as (c0 & r0 & K1 & _). assert (length (skipn j (utf8 (s3 ++ 59%N :: s4))) > 0) by (rewrite K1; cbn; lia). rewrite skipn_length in H. lia. }
  assert (N4 : skipn (S j) (utf8 (s3 ++ 59%N :: s4)) = utf8 s4) by now rewrite <- U4.
  rewrite N4 in E. pose proof (Forall_inv_tail Hs4) as Hs5.
  set (b' := match assoc_str _ html_reserved_map with Some _ => _ | None => _ end) in E.
  assert (B : exists t, b' = utf8 t /\ scalar_str t).
  { unfold b'. destruct (assoc_str _ _) as [c|] eqn:Er.
    - destruct (entity_text _ _ Er) as [Lc Sc]. exists (b ++ s1 ++ [c]). rewrite !utf8_app, (utf8_ascii c) by exact Lc.
      split; [now rewrite <- !app_assoc|]. apply scalar_app; split; [exact Hb|]. apply scalar_app; split; [exact Hs1|]. constructor; [exact Sc|constructor].
    - exists (b ++ s1 ++ 38%N :: s3 ++ [59%N]). split.
      + rewrite !utf8_app, (utf8_ascii 38%N), utf8_app by lia. change (utf8 [59%N]) with [59%N]. rewrite firstn_cons.
        rewrite <- !app_assoc. do 2 f_equal. cbn [app]. f_equal. rewrite L2, ?utf8_app, ?(utf8_ascii 59%N) by lia.
        rewrite firstn_app. rewrite firstn_all2 by lia. replace (S (length (utf8 s3)) - length (utf8 s3)) with 1 by lia. reflexivity.
      + apply scalar_app; split; [exact Hb|]. apply scalar_app; split; [exact Hs1|]. constructor; [exact Ha|]. apply scalar_app; split; [exact Hs3|]. constructor; [reflexivity|constructor]. }
  clearbody b'. destruct B as (t & -> & Ht).
  destruct (position (N.eqb 38) (utf8 s4)) as [i|] eqn:Ei.
  - exact (IH t s4 i out Ht Hs5 Ei E).
  - injection E as <-. exists (t ++ s4). rewrite utf8_app. split; [reflexivity|]. apply scalar_app; now split.
Qed.
Lemma entities_text s out : scalar_str s -> replace_html_entities (utf8 s) = Some out -> exists t, out = utf8 t /\ scalar_str t.
Proof.
  intros Hs. unfold replace_html_entities. destruct (position (N.eqb 38) (utf8 s)) as [i|] eqn:E.
  - intros H. exact (entity_loop_text _ [] s i out (Forall_nil _) Hs E H).
  - intros H. injection H as <-. now exists s.
Qed.

(** Slices are decodable. *)
Lemma search_text esc delim doc p : scalar_str doc -> scalar_str delim -> search_doc esc (utf8 delim) (utf8 doc) = Some p ->
  exists pre post, doc = pre ++ delim ++ post /\ length (utf8 pre) = p.
Proof.
  intros H1 H2 H. destruct delim as [|c delim].
  - cbn [utf8 flat_map] in H. rewrite search_doc_empty in H. injection H as <-. now exists [], doc.
  - apply scan_hit in H as [H _]. destruct (delimiter_on_boundary doc (c :: delim) p H1 H2 ltac:(discriminate) H) as (s1 & s2 & -> & E).
    exists s1, s2. split; [reflexivity|]. now rewrite <- blen_utf8.
Qed.
Section Halts.
Context (usize_max : N) (dl : delimiters) (Hd : scalar_delimiters dl).
Notation r := (replacer_of dl).
Lemma open_text doc d p : scalar_str doc -> next_open r (utf8 doc) = Some (d, p) -> exists pre post,
  firstn p (utf8 doc) = utf8 pre /\ skipn (p + opening_len r d) (utf8 doc) = utf8 post /\ scalar_str post.
Proof.
  intros Hs H. apply nearest_hit in H. destruct Hd as (A & _ & B & _).
  assert (K : forall delim, scalar_str delim -> search_doc (ignore_escaped r) (utf8 delim) (utf8 doc) = Some p ->
    exists pre post, firstn p (utf8 doc) = utf8 pre /\ skipn (p + length (utf8 delim)) (utf8 doc) = utf8 post /\ scalar_str post).
  { intros delim S0 E. destruct (search_text _ _ _ _ Hs S0 E) as (pre & post & -> & <-). exists pre, post.
    rewrite !utf8_app, firstn_exact, <- skipn_skipn', !skipn_exact. repeat split. apply scalar_app in Hs as [_ Hs]. now apply scalar_app in Hs as [_ Hs]. }
  destruct d; [exact (K _ A H)|exact (K _ B H)].
Qed.
Lemma close_text doc d p : scalar_str doc -> next_close r (utf8 doc) = Some (d, p) -> exists pre post,
  firstn p (utf8 doc) = utf8 pre /\ scalar_str pre /\ skipn (p + closing_len r d) (utf8 doc) = utf8 post /\ scalar_str post.
Proof.
  intros Hs H. apply nearest_hit in H. destruct Hd as (_ & A & _ & B).
  assert (K : forall delim, scalar_str delim -> search_doc (ignore_escaped r) (utf8 delim) (utf8 doc) = Some p ->
    exists pre post, firstn p (utf8 doc) = utf8 pre /\ scalar_str pre /\ skipn (p + length (utf8 delim)) (utf8 doc) = utf8 post /\ scalar_str post).
  { intros delim S0 E. destruct (search_text _ _ _ _ Hs S0 E) as (pre & post & -> & <-). exists pre, post.
    rewrite !utf8_app, firstn_exact, <- skipn_skipn', !skipn_exact. apply scalar_app in Hs as [Hp Hs]. apply scalar_app in Hs as [_ Hs]. repeat split; assumption. }
  destruct d; [exact (K _ A H)|exact (K _ B H)].
Qed.
Lemma scalar_text_of s : scalar_str s -> scalar_text s.
Proof. intros H. apply forallb_forall. now apply Forall_forall. Qed.

(** Every formula is answered. *)
Lemma tool_convert_answers c latex d : cv_ok c -> scalar_str latex -> exists F c' o,
  (forall f, F <= f -> tool_convert usize_max f true c (utf8 latex) d = (c', inl o)) /\ cv_ok c'.
Proof.
  intros [C D] S. destruct (convert_halts usize_max (cv_emitter c) _ _ latex (tool_display d) C D (scalar_text_of _ S)) as (F & [x gs] & H1 & H2 & H3).
  unfold tool_convert, convert_with_global_state. rewrite utf8_roundtrip by exact S. exists F. cbn [fst snd] in *.
  destruct x as [a|e|k]; [| |destruct H2].
  - do 2 eexists. split; [intros f L; rewrite H1 by exact L; reflexivity|]. split; assumption.
  - do 2 eexists. split; [intros f L; rewrite H1 by exact L; unfold error_html, to_html; cbv zeta; rewrite escape_html_content_eq; reflexivity|]. split; assumption.
Qed.
Lemma tool_halts : forall fuel c result doc pos, cv_ok c -> scalar_str doc -> length (utf8 doc) <= fuel -> exists F out,
  (forall f, F <= f -> replace_loop (tool_convert usize_max f true) initial_window r fuel c result (utf8 doc) pos = out) /\
  delimiters_only (snd out) /\ cv_ok (fst out).
Proof.
  assert (Hw : 1 <= initial_window) by (unfold initial_window; lia).
  induction fuel as [|fuel IH]; intros c result doc pos Hc Hs Hf.
  { destruct (utf8 doc); [|cbn in Hf; lia]. exists 0, (c, ROk result). split; [reflexivity|]. now split. }
  destruct (utf8 doc) as [|c0 rem0] eqn:Er.
  { exists 0, (c, ROk result). split; [reflexivity|]. now split. }
  assert (Ne : utf8 doc <> []) by (rewrite Er; discriminate). rewrite <- Er in *. clear Er c0 rem0.
  assert (U := fun f => replace_loop_unfold (tool_convert usize_max f true) initial_window Hw r fuel c result (utf8 doc) pos Ne).
  destruct (next_open r (utf8 doc)) as [[d p]|] eqn:Eo.
  2:{ exists 0. eexists. split; [intros f _; rewrite U; reflexivity|]. now split. }
  destruct (open_text doc d p Hs Eo) as (pre & post & P1 & P2 & P3). cbn zeta in U.
  assert (L2 : length (utf8 post) <= length (utf8 doc) - (p + opening_len r d)) by (rewrite <- P2, skipn_length; lia).
  rewrite P2 in U. destruct (next_close r (utf8 post)) as [[d2 p2]|] eqn:Ec.
  2:{ exists 0. eexists. split; [intros f _; rewrite U; reflexivity|]. now split. }
  destruct (close_text post d2 p2 P3 Ec) as (con & rest & Q1 & Q2 & Q3 & Q4).
  destruct (negb (closing_identical r) && negb (display_eqb d d2)).
  { exists 0. eexists. split; [intros f _; rewrite U; reflexivity|]. now split. }
  destruct (next_open r (firstn p2 (utf8 post))) as [[d3 p3]|] eqn:En.
  { exists 0. eexists. split; [intros f _; rewrite U; reflexivity|]. now split. }
  destruct (next_open_none_nonempty _ _ En) as [Hi Hb].
  assert (HL : 0 < opening_len r d) by (destruct d; assumption).
  destruct (replace_html_entities_total (firstn p2 (utf8 post))) as [t Et]. rewrite Et in U.
  rewrite Q1 in Et. destruct (entities_text _ _ Q2 Et) as (latex & -> & Sl).
  destruct (tool_convert_answers c latex d Hc Sl) as (F1 & c1 & o & T1 & T2).
  rewrite Q3 in U.
  destruct (IH c1 ((result ++ firstn p (utf8 doc)) ++ o) rest (pos + p + opening_len r d + p2 + closing_len r d2) T2 Q4) as (F2 & out & R1 & R2).
  { assert (length (utf8 rest) <= length (utf8 post)) by (rewrite <- Q3, skipn_length; lia). assert (0 < length (utf8 doc)) by (destruct (utf8 doc); [congruence|cbn; lia]). lia. }
  exists (Nat.max F1 F2), out. split; [|exact R2]. intros f L. rewrite U, T1 by lia. apply R1. lia.
Qed.
End Halts.

(** More fuel changes nothing. *)
Lemma snippet_more cfg umax f gs input st : (forall c, fst (parse_snippet cfg umax f gs input st) <> Crash c) ->
  forall g, f <= g -> parse_snippet cfg umax g gs input st = parse_snippet cfg umax f gs input st.
Proof.
  unfold parse_snippet. destruct (parser_new cfg gs input st) as [[[]|e|c] s]; try reflexivity.
  unfold parse_all. intros N g L. destruct (run cfg umax f (body (CSeq (SeqEnd EtEoi) ClOpen true)) s) as [x s'] eqn:E.
  rewrite (run_more cfg umax f _ _ _ _ _ E) with (g := g); [reflexivity| |exact L].
  intros ->. now apply (N OutOfFuel).
Qed.
Lemma convert_more umax f ec pc gs latex d : (forall c, fst (convert umax f ec pc gs latex d) <> Crash c) ->
  forall g, f <= g -> convert umax g ec pc gs latex d = convert umax f ec pc gs latex d.
Proof.
  unfold convert, parse. intros N g L. rewrite (snippet_more pc umax f gs latex (display_style d)) with (g := g); [reflexivity| |exact L].
  intros c E. destruct (parse_snippet pc umax f gs latex (display_style d)) as [[l|e|k] gs']; try discriminate. now apply (N k).
Qed.
Lemma tool_convert_more umax f b c t d c' x : tool_convert umax f b c t d = (c', x) -> (forall k, x <> inr (ToolCrash k)) ->
  forall g, f <= g -> tool_convert umax g b c t d = (c', x).
Proof.
  intros E N g L. unfold tool_convert, convert_with_global_state in *. destruct (utf8_decode t) as [latex|]; [|exact E].
  rewrite (convert_more umax f (cv_emitter c) (cv_parser c) (cv_state c) latex (tool_display d)) with (g := g); [exact E| |exact L].
  intros k H. destruct (convert umax f (cv_emitter c) (cv_parser c) (cv_state c) latex (tool_display d)) as [[a|e|k'] gs']; cbn [fst] in H; try discriminate.
  injection E as _ <-. now apply (N k').
Qed.

(** One formula. *)
Lemma tool_formula usize_max f continue_on_error c latex d : scalar_str latex ->
  let (answer, c') := convert_with_global_state usize_max f c latex (match d with M_Cli.Inline => M_Output.Inline | M_Cli.Block => M_Output.Block end) in
  exists y, tool_convert usize_max f continue_on_error c (utf8 latex) d = (c', y) /\
    match answer with
    | Ok r => y = inl (utf8 (cr_mathml r))
    | Err e => if continue_on_error then exists html, to_html (sp_start (err_span e)) (write_msg (err_kind_of e)) latex d (lit "math-core-error") = Some html /\ y = inl (utf8 html)
               else y = inr (ToolLatex e)
    | Crash k => y = inr (ToolCrash k)
    end.
Proof.
  intros S. destruct (convert_with_global_state _ _ _ _ _) as [answer c'] eqn:E. unfold tool_convert. rewrite utf8_roundtrip by exact S.
  change (tool_display d) with (match d with M_Cli.Inline => M_Output.Inline | M_Cli.Block => M_Output.Block end). rewrite E. destruct answer as [r|e|k]; [eauto| |eauto].
  destruct continue_on_error; [|eauto]. unfold error_html, to_html. cbv zeta. rewrite escape_html_content_eq. eauto.
Qed.
