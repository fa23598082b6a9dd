(** The tags in the trees of formulas: the rows of environments, and whole formulas. *)
From Verif Require Import Str M_SuperChar M_Transform M_Length M_Spec M_Ast M_Token M_Symbols M_Commands M_Env M_Emit M_Output
  M_LatexError M_Lexer M_CustomCmds M_Queue M_Spacing M_Colors M_Leaf M_TextParser M_Parser
  S_Node S_Emit S_Env S_Queue S_Scripts S_Formula S_Valid S_Tidy S_Tagged S_Shown L_Node L_FormEq L_Form L_WinLeaf L_Tidy L_Tagged L_TaggedHead.
Local Open Scope nat_scope.

(** The rows of an environment but for the end of the last one. *)
Fixpoint run_body (umax : N) (ne : numbered_env) (c : N) (ls : label_map) (r : list row_cmd) (rest : list (list row_cmd))
  : option (list (option row_label_info) * numbered_env * N * label_map) :=
  match run_cmds ne r with
  | None => None
  | Some ne1 =>
      match rest with
      | [] => Some ([], ne1, c, ls)
      | r2 :: rest' =>
          match bump_rows ne1 with
          | None => None
          | Some ne2 =>
              match finish_row umax ne2 c ls false with
              | None => None
              | Some (i, ne3, c, ls) =>
                  match run_body umax ne3 c ls r2 rest' with
                  | Some (is', n, c', ls') => Some (i :: is', n, c', ls')
                  | None => None
                  end
              end
          end
      end
  end.
Lemma run_body_cmds umax ne cs ne1 c ls r rest : run_cmds ne cs = Some ne1 -> run_body umax ne c ls (cs ++ r) rest = run_body umax ne1 c ls r rest.
Proof. intros H. destruct rest; cbn [run_body]; rewrite run_cmds_app, H; reflexivity. Qed.
Lemma run_rows_body umax rest : forall ne c ls r infos ne1 c1 ls1 i ne2 c2 ls2, run_body umax ne c ls r rest = Some (infos, ne1, c1, ls1) ->
  finish_row umax ne1 c1 ls1 true = Some (i, ne2, c2, ls2) -> run_rows umax ne c ls r rest = Some (infos ++ [i], ne_num_rows ne2, c2, ls2).
Proof.
  induction rest as [|r2 rest IH]; intros ne c ls r infos ne1 c1 ls1 i ne2 c2 ls2 H F; cbn [run_body run_rows] in *; destruct (run_cmds ne r) as [ne0|]; try discriminate H.
  - injection H as <- <- <- <-. now rewrite F.
  - destruct (bump_rows ne0) as [ne3|]; [|discriminate H]. destruct (finish_row umax ne3 c ls false) as [[[[j ne4] c4] ls4]|]; [|discriminate H].
    destruct (run_body umax ne4 c4 ls4 r2 rest) as [[[[is' ne5] c5] ls5]|] eqn:E; [|discriminate H]. injection H as <- <- <- <-. now rewrite (IH _ _ _ _ _ _ _ _ _ _ _ _ E F).
Qed.

(** What is shown is among the tags. *)
Lemma unt_shown n : unt n -> shown n = [].
Proof.
  induction n as [n IH] using node_ind'. intros U. pose proof (unt_children n U) as F. rewrite Forall_forall in F.
  assert (K : forall c, In c (children n) -> shown c = []) by auto. clear IH.
  assert (L : forall l, (forall c, In c l -> In c (children n)) -> flat_map shown l = []) by (induction l as [|c l IHl]; intros S; [reflexivity|]; cbn [flat_map]; rewrite (K c) by (apply S; now left); apply IHl; intros d Hd; apply S; now right).
  assert (P : forall l, (forall c, In c (flat_map (fun p : node * node => [fst p; snd p]) l) -> In c (children n)) -> flat_map (fun p : node * node => let (c, d) := p in shown c ++ shown d) l = []).
  { induction l as [|[x y] l IHl]; intros S; [reflexivity|]. cbn [flat_map fst snd app] in *. rewrite (K x) by (apply S; now left). rewrite (K y) by (apply S; right; now left). apply IHl. intros c Hc. apply S. right. now right. }
  assert (T : forall l i, tags n = flat_map tags l ++ one_tag i -> (forall c, In c l -> In c (children n)) -> flat_map (fun n => match n with RowSeparator i _ => one_tag i | _ => shown n end) l ++ one_tag i = []).
  { intros l i E S. rewrite U in E. symmetry in E. apply app_eq_nil in E as [E ->]. rewrite app_nil_r. clear L. induction l as [|c l IHl]; [reflexivity|]. cbn [flat_map] in *. apply app_eq_nil in E as [E1 E2]. rewrite IHl; [|exact E2|intros d Hd; apply S; now right]. rewrite app_nil_r.
    pose proof (K c (S c (or_introl eq_refl))) as Kc. destruct c; try exact Kc. exact E1. }
  destruct n; cbn [shown]; try reflexivity; cbn [children] in K, L, P, T; try (rewrite ?K by (cbn [In]; tauto); reflexivity); try (apply L; auto; fail); try (apply T; [reflexivity|auto]).
  rewrite (K n) by now left. rewrite (P post), (P pre); [reflexivity| |]; intros c Hc; right; rewrite flat_map_app; apply in_or_app; auto.
Qed.
Lemma all_unt_shown l : Forall unt l -> flat_map shown l = [].
Proof. induction 1 as [|n l H _ IH]; [reflexivity|]. cbn [flat_map]. now rewrite (unt_shown _ H), IH. Qed.
Lemma vec_shown l b : flat_map shown [node_vec_to_node l b] = flat_map shown l.
Proof. cbn [flat_map]. rewrite app_nil_r. unfold node_vec_to_node. destruct l as [|n [|m l]]; try reflexivity. cbn [flat_map]. rewrite app_nil_r. destruct b; [|reflexivity]. now destruct n. Qed.
Lemma fence_op_shown o : shown (fence_operator o) = [].
Proof. unfold fence_operator. now destruct o. Qed.
Lemma fenced_shown l o c st : shown (fenced l o c st) = flat_map shown l.
Proof. unfold fenced. cbn [shown flat_map]. rewrite fence_op_shown, flat_map_app. cbn [flat_map]. rewrite fence_op_shown. now rewrite !app_nil_r. Qed.
Lemma infix_shown infix l : flat_map shown (infix_node infix l) = match infix with Some (num, _, _) => flat_map shown num | None => [] end ++ flat_map shown l.
Proof.
  destruct infix as [[[num w] dl]|]; [|reflexivity]. cbn [infix_node].
  assert (V : forall l b, shown (node_vec_to_node l b) = flat_map shown l) by (intros l0 b; rewrite <- (vec_shown l0 b); cbn [flat_map]; now rewrite app_nil_r).
  assert (G : forall a b, shown (Frac (node_vec_to_node num false) (node_vec_to_node l false) a b None) = flat_map shown num ++ flat_map shown l) by (intros; cbn [shown]; now rewrite !V).
  cbn [flat_map]. rewrite app_nil_r. destruct dl as [[| |]|]; try apply G; rewrite fenced_shown; cbn [flat_map]; rewrite app_nil_r; apply G.
Qed.
Lemma shown_row l a : shown (Row l a) = flat_map shown l.
Proof. reflexivity. Qed.
Lemma scripts_shown n b : bounds_unt b -> shown (with_scripts n b) = shown n.
Proof.
  intros [S1 S2].
  assert (G : shown (scripted n (b_sub b) (b_sup b)) = shown n).
  { unfold scripted. destruct (b_sub b) as [p|], (b_sup b) as [q|]; cbn [shown]; rewrite ?(unt_shown _ S1), ?(unt_shown _ S2), ?app_nil_r; reflexivity. }
  destruct n; try exact G. destruct post; [|exact G]. unfold with_scripts. destruct (bounds_trivial b); [reflexivity|]. cbn [shown flat_map]. destruct (bounds_pair b) as [p q] eqn:E.
  assert (Z : shown p = [] /\ shown q = []). { unfold bounds_pair in E. injection E as <- <-. split; [destruct (b_sub b)|destruct (b_sup b)]; try reflexivity; now apply unt_shown. }
  destruct Z as [-> ->]. reflexivity.
Qed.

Section Form.
Context (mean : str -> token) (usize_max : N).
Notation tok := (tok mean).
Notation den_item := (den_item mean usize_max).
Notation den_items := (den_items mean usize_max den_item).
Notation item_tidy := (item_tidy mean).
Notation list_tidy := (list_tidy mean).
Notation item_cmds := (item_cmds mean).
Notation head_cmds := (head_cmds mean).
Notation arg_cmds := (arg_cmds mean).
Notation mark_cmds := (mark_cmds mean).
Notation item_fol := (item_fol mean usize_max).

Definition body_ok (rows : bool) (l : list item) (d : numbering) (before ts : list row_label_info) (d' : numbering) : Prop :=
  match nu_row d with
  | None => False
  | Some ne => exists infos ne' c' ls', run_body usize_max ne (nu_count d) (nu_labels d) (fst (rows_of mean rows l)) (snd (rows_of mean rows l)) = Some (infos, ne', c', ls') /\
                 d' = mkNu c' ls' (Some ne') /\ ts = before ++ flat_map one_tag infos
  end.
Lemma body_cmds rows i l d d1 before ts d' : rows && ends_row mean i = false -> follows (item_cmds i) d d1 -> body_ok rows l d1 before ts d' -> body_ok rows (i :: l) d before ts d'.
Proof.
  intros E F B. unfold body_ok in *. cbn [rows_of]. destruct (rows_of mean rows l) as [r rest]. rewrite E. cbn [fst snd] in *. unfold follows in F. destruct (nu_row d) as [ne|] eqn:Q.
  - destruct F as (ne1 & R & ->). cbn [nu_row nu_count nu_labels] in B. destruct B as (infos & ne' & c' & ls' & B1 & B2). exists infos, ne', c', ls'. split; [|exact B2]. now rewrite (run_body_cmds _ _ _ _ _ _ _ _ R).
  - subst d1. now rewrite Q in B.
Qed.
Lemma body_row rows i l d info k d1 before ts d' : rows && ends_row mean i = true -> end_row usize_max false d = Some ((info, k), d1) -> body_ok rows l d1 (before ++ one_tag info) ts d' ->
  nu_row d <> None -> body_ok rows (i :: l) d before ts d'.
Proof.
  intros E F B Q. unfold body_ok in *. cbn [rows_of]. destruct (rows_of mean rows l) as [r rest]. rewrite E. cbn [fst snd] in *. unfold end_row in F. destruct (nu_row d) as [ne|]; [|now destruct Q].
  cbn [run_body run_cmds]. destruct (bump_rows ne) as [ne1|]; [|discriminate F]. destruct (finish_row _ _ _ _ _) as [[[[j ne2] c2] ls2]|]; [|discriminate F]. injection F as <- <- <-. cbn [nu_row nu_count nu_labels] in B.
  destruct B as (infos & ne' & c' & ls' & -> & B2 & ->). exists (j :: infos), ne', c', ls'. split; [reflexivity|]. split; [exact B2|]. cbn [flat_map]. now rewrite app_assoc.
Qed.
Lemma body_nil rows d before ts : nu_row d <> None -> ts = before -> body_ok rows [] d before ts d.
Proof.
  intros Q ->. unfold body_ok. cbn [rows_of fst snd run_body run_cmds]. destruct d as [c ls [ne|]]; cbn [nu_row nu_count nu_labels] in *; [|now destruct Q]. exists [], ne, c, ls. split; [reflexivity|]. split; [reflexivity|]. cbn [flat_map]. now rewrite app_nil_r.
Qed.
Lemma follows_row cs d d1 : follows cs d d1 -> nu_row d <> None -> nu_row d1 <> None.
Proof. unfold follows. destruct (nu_row d); [|now intros _ []]. intros (ne & _ & ->) _. discriminate. Qed.

Lemma body_fol n : item_fol n -> forall l, items_size l < n -> forall x after prev acc infix d ns d',
  forallb (item_tidy (cx_rows x)) l = true -> forallb item_plain l = true -> nu_row d <> None ->
  den_items x after prev acc infix l d = Some (ns, d') -> body_ok (cx_rows x) l d (flat_map tags (infix_node infix acc)) (flat_map tags ns) d'.
Proof.
  intros IH. induction l as [l IHl] using (induction_ltof1 _ (@length item)). unfold ltof in IHl.
  destruct l as [|i r]; intros L x after prev acc infix d ns d' T Pl Q H.
  { cbn [S_Formula.den_items] in H. injection H as <- <-. now apply body_nil. }
  cbn [forallb] in T, Pl. apply andb_prop in T as [T1 T2]. apply andb_prop in Pl as [Pl1 Pl2].
  unfold items_size in L. cbn [map list_sum] in L. unfold list_sum in L. cbn [fold_right] in L. fold (list_sum (map item_size r)) in L. fold (items_size r) in L. pose proof (item_size_pos i) as Pos.
  assert (L1 : items_size r < n) by (clear - L; lia). assert (L2 : item_size i < n) by (clear - L; lia).
  assert (L3 : length r < length (i :: r)) by (cbn [length]; clear; lia).
  assert (Put : forall m, flat_map tags (infix_node infix (acc ++ [m])) = flat_map tags (infix_node infix acc) ++ tags m).
  { intros m. rewrite !infix_tags, flat_map_app. cbn [flat_map]. now rewrite app_nil_r, app_assoc. }
  (* more of the sequence *)
  assert (Go : forall y after' prev' m infix0 d0 ns0, cx_rows y = cx_rows x -> cx_rows x && ends_row mean i = false -> follows (item_cmds i) d d0 ->
     den_items y after' prev' m infix0 r d0 = Some (ns0, d') -> body_ok (cx_rows x) (i :: r) d (flat_map tags (infix_node infix0 m)) (flat_map tags ns0) d').
  { clear H. intros y after' prev' m infix0 d0 ns0 E Er F H. refine (body_cmds _ _ _ _ _ _ _ _ Er F _). rewrite <- E. refine (IHl r L3 L1 y after' prev' m infix0 d0 ns0 d' _ Pl2 (follows_row _ _ _ F Q) H). now rewrite E. }
  (* an atom *)
  assert (Atom : forall next d0, cx_rows x && ends_row mean i = false -> d0 = d -> dbind (den_item x PaSequence prev next i) (fun cn => den_items x after (fst cn) (acc ++ [snd cn]) infix r) d0 = Some (ns, d') ->
     body_ok (cx_rows x) (i :: r) d (flat_map tags (infix_node infix acc)) (flat_map tags ns) d').
  { clear H. intros next d0 Er -> H0. apply dbind_some in H0 as ([c m] & d1 & H1 & H2). cbn [fst snd] in H2.
    destruct (IH i L2 x PaSequence prev next d c m d1 T1 Pl1 H1) as [S1 S2].
    pose proof (Go x after c (acc ++ [m]) infix d1 ns eq_refl Er S2 H2) as G. rewrite Put, S1, app_nil_r in G. exact G. }
  (* the rest in a row *)
  assert (Rest : forall a y rest d1, cx_rows y = cx_rows x -> cx_rows x && ends_row mean i = false -> item_cmds i = [] -> den_items y after prev [] None r d = Some (rest, d1) -> infix_node infix (acc ++ [Row rest a]) = ns -> d1 = d' ->
     body_ok (cx_rows x) (i :: r) d (flat_map tags (infix_node infix acc)) (flat_map tags ns) d').
  { clear H. intros a y rest d1 E Er Ei H1 <- ->. pose proof (Go y after prev [] None d rest E Er ltac:(rewrite Ei; apply follows_nil) H1) as G. rewrite Put, tags_row. unfold body_ok in *. destruct (nu_row d); [|exact G].
    destruct G as (infos & ne' & c' & ls' & G1 & G2 & G3). exists infos, ne', c', ls'. split; [exact G1|]. split; [exact G2|]. now rewrite G3. }
  rewrite den_items_cons in H.
  destruct i as [h ms]; destruct h as [s args|s|w|w|o w c|e args w]; try (apply dguard_some in H as [_ H]; refine (Atom _ _ _ eq_refl H); apply andb_false_r).
  assert (Ic : item_cmds (Item (HSym s args) ms) = match tok s, args with T_NoNumber, [] => [RowNotag] | T_Tag parens, [ALit t] => [RowTag (mkTag t parens)] | T_Label, [ALit t] => [RowLabel t] | _, _ => flat_map arg_cmds args end ++ flat_map mark_cmds ms) by reflexivity.
  assert (Er : ends_row mean (Item (HSym s args) ms) = match args, ms with [], [] => match tok s with T_NewLine => true | _ => false end | _, _ => false end) by reflexivity.
  assert (Er' : (args <> [] \/ ms <> [] \/ tok s <> T_NewLine) -> cx_rows x && ends_row mean (Item (HSym s args) ms) = false).
  { clear - Er. intros Q. rewrite Er. destruct args; [|apply andb_false_r]. destruct ms; [|apply andb_false_r]. destruct (tok s); try apply andb_false_r. destruct Q as [[]|[[]|[]]]; reflexivity. }
  destruct (tok s) eqn:Et; try (apply dguard_some in H as [_ H]; refine (Atom _ _ _ eq_refl H); apply Er'; right; right; discriminate);
  try (repeat match type of H with dguard _ _ _ = _ => apply dguard_some in H as [_ H] end; refine (Atom _ _ _ eq_refl H); apply Er'; right; right; discriminate);
  try (destruct args as [|a args]; [|apply dguard_some in H as [_ H]; refine (Atom _ _ _ eq_refl H); apply Er'; left; discriminate]; destruct ms as [|m ms]; [|apply dguard_some in H as [_ H]; refine (Atom _ _ _ eq_refl H); apply Er'; right; left; discriminate]);
  try (destruct args as [|[]  [|]]; try (apply dguard_some in H as [_ H]; refine (Atom _ _ _ eq_refl H); apply Er'; right; right; discriminate); destruct ms as [|m ms]; [|apply dguard_some in H as [_ H]; refine (Atom _ _ _ eq_refl H); apply Er'; right; right; discriminate]);
  match type of Et with _ = T_Color => idtac | _ => clear Atom end;
  match type of Et with _ = T_NewLine => idtac | _ => assert (Er0 : forall a m, cx_rows x && ends_row mean (Item (HSym s a) m) = false) by (intros a0 m0; cbn [ends_row]; rewrite Et; destruct a0, m0; apply andb_false_r); clear Er Er' end.
  - (* NewColumn *) apply dguard_some in H as [_ H]. pose proof (Go x after ClClose (acc ++ [ColumnSeparator]) infix d ns eq_refl (Er0 _ _) ltac:(rewrite Ic; apply follows_nil) H) as G. rewrite Put in G. cbn [tags] in G. now rewrite app_nil_r in G.
  - (* NewLine *) destruct (cx_rows x) eqn:Ex.
    + apply dbind_some in H as ([info k] & d1 & He & H). cbn [fst] in H.
      assert (Q1 : nu_row d1 <> None). { clear - He Q. unfold end_row in He. destruct (nu_row d); [|now destruct Q]. destruct (bump_rows _); [|discriminate He]. destruct (finish_row _ _ _ _ _) as [[[[]]]|]; [|discriminate He]. injection He as _ _ <-. discriminate. }
      assert (Here : forall lt, den_items x after ClOpen (acc ++ [RowSeparator info lt]) infix r d1 = Some (ns, d') -> body_ok true (Item (HSym s []) [] :: r) d (flat_map tags (infix_node infix acc)) (flat_map tags ns) d').
      { clear H. intros lt H. refine (body_row _ _ _ _ _ _ _ _ _ _ _ He _ Q); [now rewrite Er|]. pose proof (Put (RowSeparator info lt)) as P1. cbn [tags] in P1. rewrite <- P1, <- Ex. refine (IHl r L3 L1 x _ _ _ _ _ _ _ _ Pl2 Q1 H). now rewrite Ex. }
      destruct r as [|j r']; [exact (Here _ H)|]. destruct (hline_of mean j) as [lt|] eqn:Eh; [|exact (Here _ H)].
      apply dguard_some in H as [_ H]. destruct (hline_facts mean j lt Eh) as (H1 & H2 & H3 & H4 & H5).
      cbn [forallb] in T2, Pl2. apply andb_prop in T2 as [_ T2]. apply andb_prop in Pl2 as [_ Pl2].
      unfold items_size in L1. cbn [map] in L1. change (list_sum (item_size j :: map item_size r')) with (item_size j + items_size r') in L1.
      refine (body_row _ _ _ _ _ _ _ _ _ _ _ He _ Q); [now rewrite Er|]. refine (body_cmds _ _ _ _ d1 _ _ _ _ _ _); [now rewrite H4|rewrite H3; apply follows_nil|].
      pose proof (Put (RowSeparator info (Some lt))) as P1. cbn [tags] in P1. rewrite <- P1, <- Ex. refine (IHl r' _ _ x _ _ _ _ _ _ _ _ Pl2 Q1 H); [cbn [length]; clear; lia|clear - L1; lia|now rewrite Ex].
    + pose proof (Go x after ClOpen (acc ++ [EMPTY_ROW]) infix d ns Ex eq_refl ltac:(rewrite Ic; apply follows_nil) H) as G. rewrite Put in G. change (tags EMPTY_ROW) with (@nil row_label_info) in G. now rewrite app_nil_r in G.
  - (* NoNumber *) apply dbind_some in H as (u & d1 & Hr & H). refine (Go x _ _ _ _ d1 ns eq_refl (Er0 _ _) _ H). rewrite Ic.
    unfold drow_if in Hr. injection Hr as _ <-. unfold follows. destruct d as [c0 l0 [ne|]]; cbn [nu_row nu_count nu_labels option_map run_cmds app flat_map]; [eexists; split; reflexivity|reflexivity].
  - (* Tag *) apply dbind_some in H as (u & d1 & Hr & H). refine (Go x _ _ _ _ d1 ns eq_refl (Er0 _ _) _ H). rewrite Ic.
    unfold drow in Hr. unfold follows. destruct (nu_row d) as [ne|]; [|discriminate Hr]. injection Hr as _ <-. eexists. split; reflexivity.
  - (* Label *) apply dbind_some in H as (u & d1 & Hr & H). refine (Go x _ _ _ _ d1 ns eq_refl (Er0 _ _) _ H). rewrite Ic.
    unfold drow in Hr. unfold follows. destruct (nu_row d) as [ne|]; [|discriminate Hr]. cbn [run_cmds app flat_map]. destruct (numbered_label _ ne) as [ne'|]; [|discriminate Hr]. injection Hr as _ <-. exists ne'. split; reflexivity.
  - (* InfixGenFrac *) destruct infix as [f|]; [discriminate H|]. cbn [infix_node].
    pose proof (Go (with_style (style_shrink (cx_style x)) x) after prev [] (Some (acc, with_line, delim)) d ns eq_refl (Er0 _ _) ltac:(rewrite Ic; apply follows_nil) H) as G. rewrite infix_tags in G. cbn [flat_map] in G. now rewrite app_nil_r in G.
  - (* TransformSwitch *) refine (Go _ _ _ _ _ d ns _ (Er0 _ _) _ H); [reflexivity|rewrite Ic; apply follows_nil].
  - (* Style *) apply dguard_some in H as [_ H]. apply dbind_some in H as (rest & d1 & H1 & H). injection H as H E1. refine (Rest _ _ rest d1 _ (Er0 _ _) Ic H1 H E1). reflexivity.
  - (* Color *)
    destruct args as [|[?|?|?|?|?|? ?] [|[?|?|?|?|?|? ?] [|? ?]]]; try (apply dguard_some in H as [_ H]; exact (Atom _ _ (Er0 _ _) eq_refl H)); (destruct ms as [|m ms]; [|apply dguard_some in H as [_ H]; exact (Atom _ _ (Er0 _ _) eq_refl H)]).
    + apply dguard_some in H as [_ H]. apply dbind_some in H as (col & d0 & H0 & H). apply dopt_some in H0 as [H0 ->]. apply dbind_some in H as (rest & d1 & H1 & H). injection H as H E1.
      change (flat_map arg_cmds [ABracket l; ALit s0]) with (flat_map item_cmds l ++ []) in Ic. rewrite (model_cmds _ _ _ _ H0) in Ic. refine (Rest _ _ rest d1 _ (Er0 _ _) Ic H1 H E1). reflexivity.
    + apply dguard_some in H as [_ H]. apply dbind_some in H as (col & d0 & H0 & H). apply dopt_some in H0 as [_ ->]. apply dbind_some in H as (rest & d1 & H1 & H). injection H as H E1. refine (Rest _ _ rest d1 _ (Er0 _ _) Ic H1 H E1). reflexivity.
  - (* Relax *) refine (Go _ _ _ _ _ d ns _ (Er0 _ _) _ H); [reflexivity|rewrite Ic; apply follows_nil].
Qed.

(** Everything in an environment is a separator or without tags. *)
Definition okn (n : node) : Prop := unt n \/ exists i b, n = RowSeparator i b.
Lemma okn_shown l : Forall okn l -> flat_map (fun n => match n with RowSeparator i _ => one_tag i | _ => shown n end) l = flat_map tags l.
Proof.
  induction 1 as [|n l H _ IH]; [reflexivity|]. cbn [flat_map]. rewrite IH. f_equal. destruct H as [U|(i & b & ->)]; [|reflexivity]. rewrite U. pose proof (unt_shown _ U) as K. destruct n; try exact K. exact U.
Qed.
Lemma body_shape n : item_fol n -> forall l, items_size l < n -> forall x after prev acc d ns d',
  placed mean (cx_rows x) true l = true -> forallb (item_tidy (cx_rows x)) l = true -> forallb item_plain l = true -> existsb (infix_command mean) l = false -> Forall okn acc ->
  den_items x after prev acc None l d = Some (ns, d') -> Forall okn ns.
Proof.
  intros IH. induction l as [l IHl] using (induction_ltof1 _ (@length item)). unfold ltof in IHl.
  destruct l as [|i r]; intros L x after prev acc d ns d' P T Pl If A H.
  { cbn [S_Formula.den_items] in H. injection H as <- <-. exact A. }
  cbn [placed forallb existsb] in P, T, Pl, If. apply andb_prop in P as [_ P]. apply andb_prop in T as [T1 T2]. apply andb_prop in Pl as [Pl1 Pl2]. apply orb_false_iff in If as [If1 If2]. cbn [andb] in P.
  unfold items_size in L. cbn [map list_sum] in L. unfold list_sum in L. cbn [fold_right] in L. fold (list_sum (map item_size r)) in L. fold (items_size r) in L. pose proof (item_size_pos i) as Pos.
  assert (L1 : items_size r < n) by (clear - L; lia). assert (L2 : item_size i < n) by (clear - L; lia).
  assert (L3 : length r < length (i :: r)) by (cbn [length]; clear; lia).
  assert (Put : forall m, okn m -> Forall okn (acc ++ [m])) by (intros m Hm; apply Forall_app; split; [exact A|fl; exact Hm]).
  (* more of the sequence *)
  assert (Go : forall y after' prev' m d0, cx_rows y = cx_rows x -> switch mean i = false -> Forall okn m -> den_items y after' prev' m None r d0 = Some (ns, d') -> Forall okn ns).
  { clear H. intros y after' prev' m d0 E Sw F H. rewrite Sw in P. refine (IHl r L3 L1 y after' prev' m d0 ns d' _ _ Pl2 If2 F H); now rewrite E. }
  (* an atom *)
  assert (Atom : forall next, switch mean i = false -> dbind (den_item x PaSequence prev next i) (fun cn => den_items x after (fst cn) (acc ++ [snd cn]) None r) d = Some (ns, d') -> Forall okn ns).
  { clear H. intros next Sw H0. apply dbind_some in H0 as ([c m] & d1 & H1 & H2). cbn [fst snd] in H2. destruct (IH i L2 x PaSequence prev next d c m d1 T1 Pl1 H1) as [S1 _].
    refine (Go x after c (acc ++ [m]) d1 eq_refl Sw (Put _ (or_introl S1)) H2). }
  (* the rest in a row *)
  assert (Rest : forall a y rest d1, cx_rows y = cx_rows x -> switch mean i = true -> den_items y after prev [] None r d = Some (rest, d1) -> infix_node None (acc ++ [Row rest a]) = ns -> Forall okn ns).
  { clear H. intros a y rest d1 E Sw H1 <-. rewrite Sw in P. cbn [infix_node]. apply Put. left. destruct (items_fol mean usize_max n IH r L1 y after prev [] None d rest d1 false) as [U _]; try (rewrite E; assumption); try assumption; [discriminate|reflexivity|]. unfold unt. rewrite tags_row. now apply unt_all. }
  rewrite den_items_cons in H.
  destruct i as [h ms]; destruct h as [s args|s|w|w|o w c|e args w]; try (apply dguard_some in H as [_ H]; exact (Atom _ eq_refl H)).
  unfold infix_command, head_token in If1.
  assert (Sw : switch mean (Item (HSym s args) ms) = match args, ms with _, _ => match head_token mean (Item (HSym s args) ms) with Some (T_Style _) | Some T_Color => true | _ => false end end) by reflexivity.
  unfold head_token in Sw.
  assert (Bad : tok s = T_Color \/ (exists y, tok s = T_Style y) -> forall next, dbind (den_item x PaSequence prev next (Item (HSym s args) ms)) (fun cn => den_items x after (fst cn) (acc ++ [snd cn]) None r) d = Some (ns, d') -> Forall okn ns).
  { clear. intros Et next H. apply dbind_some in H as ([c m] & d1 & H1 & _). exfalso. rewrite den_item_eq in H1. cbv zeta in H1.
    assert (H2 : exists prev next d1 c1 m1 d2, S_Formula.den_head mean usize_max x PaSequence prev next (HSym s args) d1 = Some ((c1, m1), d2)).
    { destruct Et as [Et|[y Et]]; rewrite Et in H1; cbn [operator_of] in H1; apply dbind_some in H1 as ([c1 m1] & d2 & H1 & _); repeat eexists; exact H1. }
    destruct H2 as (p0 & n0 & d2 & c1 & m1 & d3 & H2). rewrite den_sym_eq in H2. cbv zeta in H2. destruct Et as [Et|[y Et]]; rewrite Et in H2; (destruct args; [|discriminate H2]; destruct (word_char _ _); discriminate H2). }
  destruct (tok s) eqn:Et;
  try (apply dguard_some in H as [_ H]; exact (Atom _ Sw H));
  try (repeat match type of H with dguard _ _ _ = _ => apply dguard_some in H as [_ H] end; exact (Atom _ Sw H));
  try (destruct args as [|a args]; [|apply dguard_some in H as [_ H]; exact (Atom _ Sw H)]; destruct ms as [|m ms]; [|apply dguard_some in H as [_ H]; exact (Atom _ Sw H)]);
  try (destruct args as [|[]  [|]]; try (apply dguard_some in H as [_ H]; exact (Atom _ Sw H)); destruct ms as [|m ms]; [|apply dguard_some in H as [_ H]; exact (Atom _ Sw H)]).
  - (* NewColumn *) apply dguard_some in H as [_ H]. refine (Go x after ClClose (acc ++ [ColumnSeparator]) d eq_refl Sw (Put _ _) H). now left.
  - (* NewLine *) destruct (cx_rows x) eqn:Ex.
    + apply dbind_some in H as ([info k] & d1 & He & H). cbn [fst] in H.
      assert (Here : forall lt, den_items x after ClOpen (acc ++ [RowSeparator info lt]) None r d1 = Some (ns, d') -> Forall okn ns).
      { clear H. intros lt H. refine (Go x after ClOpen _ d1 Ex Sw (Put _ _) H). right. now exists info, lt. }
      destruct r as [|j r']; [exact (Here _ H)|]. destruct (hline_of mean j) as [lt|] eqn:Eh; [|exact (Here _ H)].
      apply dguard_some in H as [_ H]. destruct (hline_facts mean j lt Eh) as (H1 & H2 & H3 & H4 & H5). rewrite Sw in P. cbn [placed negb andb] in P. apply andb_prop in P as [_ P]. rewrite H1 in P.
      cbn [forallb existsb] in T2, Pl2, If2. apply andb_prop in T2 as [_ T2]. apply andb_prop in Pl2 as [_ Pl2]. apply orb_false_iff in If2 as [_ If2].
      unfold items_size in L1. cbn [map] in L1. change (list_sum (item_size j :: map item_size r')) with (item_size j + items_size r') in L1.
      refine (IHl r' _ _ x after ClOpen (acc ++ [RowSeparator info (Some lt)]) d1 ns d' _ _ Pl2 If2 (Put _ _) H); [cbn [length]; clear; lia|clear - L1; lia|rewrite Ex; exact P|now rewrite Ex|]. right. now exists info, (Some lt).
    + refine (Go x after ClOpen (acc ++ [EMPTY_ROW]) d Ex Sw (Put _ _) H). now left.
  - (* NoNumber *) apply dbind_some in H as (u & d1 & Hr & H). exact (Go x _ _ _ d1 eq_refl Sw A H).
  - (* Tag *) apply dbind_some in H as (u & d1 & Hr & H). exact (Go x _ _ _ d1 eq_refl Sw A H).
  - (* Label *) apply dbind_some in H as (u & d1 & Hr & H). exact (Go x _ _ _ d1 eq_refl Sw A H).
  - (* InfixGenFrac *) discriminate If1.
  - (* TransformSwitch *) refine (Go _ _ _ _ d _ Sw A H). reflexivity.
  - (* Style *) destruct args as [|a args]; [|apply dguard_some in H as [_ H]; exact (Bad ltac:(eauto) _ H)]. destruct ms as [|m ms]; [|apply dguard_some in H as [_ H]; exact (Bad ltac:(eauto) _ H)].
    apply dguard_some in H as [_ H]. apply dbind_some in H as (rest & d1 & H1 & H). injection H as H E1. refine (Rest _ _ rest d1 _ Sw H1 H). reflexivity.
  - (* Color *)
    destruct args as [|[?|?|?|?|?|? ?] [|[?|?|?|?|?|? ?] [|? ?]]]; try (apply dguard_some in H as [_ H]; exact (Bad ltac:(eauto) _ H)); (destruct ms as [|m ms]; [|apply dguard_some in H as [_ H]; exact (Bad ltac:(eauto) _ H)]); clear Bad.
    + apply dguard_some in H as [_ H]. apply dbind_some in H as (col & d0 & H0 & H). apply dopt_some in H0 as [H0 ->]. apply dbind_some in H as (rest & d1 & H1 & H). injection H as H E1. refine (Rest _ _ rest d1 _ Sw H1 H). reflexivity.
    + apply dguard_some in H as [_ H]. apply dbind_some in H as (col & d0 & H0 & H). apply dopt_some in H0 as [_ ->]. apply dbind_some in H as (rest & d1 & H1 & H). injection H as H E1. refine (Rest _ _ rest d1 _ Sw H1 H). reflexivity.
  - (* Relax *) refine (Go _ _ _ _ d _ Sw A H). reflexivity.
Qed.

(** A numbered environment. *)
Lemma construct_shown e content spec info rows border n : numbered e = true -> construct_node e content spec info rows border = Some n ->
  shown n = flat_map (fun n => match n with RowSeparator i _ => one_tag i | _ => shown n end) content ++ one_tag info.
Proof. intros E H. unfold construct_node in H. destruct e; try discriminate E; injection H as <-; reflexivity. Qed.
Lemma content_shown e x l d ns d' : list_tidy (item_tidy (has_rows e)) (has_rows e) true l = true -> forallb item_plain l = true ->
  den_items (in_env e x) ClEnd ClOpen [] None l d = Some (ns, d') -> flat_map (fun n => match n with RowSeparator i _ => one_tag i | _ => shown n end) ns = flat_map tags ns.
Proof.
  intros T P H. apply okn_shown. apply andb_prop in T as [T1 T2]. destruct (all_fol mean usize_max (S (items_size l))) as [F _]. destruct (existsb (infix_command mean) l) eqn:E; cbn [negb andb] in T1.
  - destruct (items_fol mean usize_max _ F l (Nat.lt_succ_diag_r _) (in_env e x) ClEnd ClOpen [] None d ns d' false T1 T2 P ltac:(discriminate) eq_refl H) as [U _]. eapply Forall_impl; [|exact U]. intros n Hn. now left.
  - exact (body_shape _ F l (Nat.lt_succ_diag_r _) (in_env e x) ClEnd ClOpen [] d ns d' T1 T2 P E (Forall_nil _) H).
Qed.
Lemma env_numbers x prev next e args l ms d c m d' : numbered e = true -> forallb item_plain l = true -> forallb mark_plain ms = true -> item_tidy (cx_rows x) (Item (HEnv e args l) ms) = true ->
  nu_row d = None -> den_item x PaSequence prev next (Item (HEnv e args l) ms) d = Some ((c, m), d') ->
  exists infos k c' ls', run_env usize_max e (nu_count d) (nu_labels d) (env_rows mean e l) = Some (infos, k, c', ls') /\ d' = mkNu c' ls' None /\ shown m = flat_map one_tag infos.
Proof.
  intros E P Pm T Q H. change (list_tidy (item_tidy (has_rows e)) (has_rows e) true l && forallb (mark_tidy mean (cx_rows x)) ms = true) in T. apply andb_prop in T as [T Tm].
  rewrite den_item_eq in H. cbv zeta in H. apply dbind_some in H as ([c1 m1] & d1 & H1 & H). apply dbind_some in H as (vs & d2 & H2 & H). apply dbind_some in H as ([b k] & d3 & H3 & H). apply dopt_some in H3 as [H3 ->]. cbn [fst snd] in H.
  destruct k as [k|]; [discriminate H|]. injection H as <- <- <-.
  destruct (all_fol mean usize_max (S (marks_size ms))) as [_ Fa]. destruct (marks_fol mean usize_max _ Fa ms) with (4 := H2) as [V1 V2]; [clear; lia|exact Tm|exact Pm|]. clear Fa.
  rewrite (scripts_shown _ _ (scripts_of_unt _ _ _ V1 H3)). clear H3 V1 vs b H2.
  cut (exists infos k c' ls', run_env usize_max e (nu_count d) (nu_labels d) (env_rows mean e l) = Some (infos, k, c', ls') /\ d1 = mkNu c' ls' None /\ shown m1 = flat_map one_tag infos).
  { intros (infos & k & c' & ls' & K1 & K2 & K3). exists infos, k, c', ls'. split; [exact K1|]. split; [|exact K3]. rewrite K2 in V2. exact (follows_none _ _ _ V2 eq_refl). }
  clear V2 Pm Tm d2. rewrite den_env_eq in H1. apply dbind_some in H1 as (spec & d0 & H0 & H). cbv zeta in H. apply dguard_some in H as [_ H].
  assert (D0 : d0 = d). { clear - H0. destruct e, args as [|[] [|]]; try discriminate H0; first [apply dopt_some in H0 as [_ ->]; reflexivity | injection H0 as _ ->; reflexivity]. } subst d0.
  destruct (numbered_env_state e) as [ne|] eqn:Ne; [|unfold numbered in E; now rewrite Ne in E]. unfold run_env. rewrite Ne.
  assert (K : forall border l0, list_tidy (item_tidy (has_rows e)) (has_rows e) true l0 = true -> forallb item_plain l0 = true -> rows_of mean (has_rows e) l0 = rows_of mean (has_rows e) l ->
      dbind (new_rows e (dbind (den_items (in_env e x) ClEnd ClOpen [] None l0) (fun ns => dbind (end_row usize_max true) (fun info => dret (ns, info)))))
        (fun r => dbind (dopt (construct_node e (fst r) (option_map (fun c => mkArraySpec (as_border_left c) border (match e with ESubarray => true | _ => as_is_sub c end) (as_columns c)) spec)
                                              (fst (snd r)) (snd (snd r)) border)) (fun n => dret (ClClose, n))) d = Some ((c1, m1), d1) ->
      exists infos k c' ls', run_rows usize_max ne (nu_count d) (nu_labels d) (fst (env_rows mean e l)) (snd (env_rows mean e l)) = Some (infos, k, c', ls') /\ d1 = mkNu c' ls' None /\ shown m1 = flat_map one_tag infos).
  { clear H T P. intros border l0 T P R H. pose proof (proj2 (andb_prop _ _ T)) as T2. apply dbind_some in H as ([ns [info rows]] & d6 & H1 & H). cbn [fst snd] in H. apply dbind_some in H as (v & d3 & Hc & H). apply dopt_some in Hc as [Hc ->]. injection H as _ -> ->.
    unfold new_rows in H1. rewrite Ne in H1. match type of H1 with match ?q with _ => _ end = _ => destruct q as [[r3 d3]|] eqn:Eq; [|discriminate H1] end. injection H1 as -> <-. apply dbind_some in Eq as (ns1 & d4 & Hd & Eq). apply dbind_some in Eq as (info1 & d5 & He & Eq). injection Eq as -> -> ->.
    destruct (all_fol mean usize_max (S (items_size l0))) as [Fi _]. pose proof (fun W => body_fol _ Fi l0 (Nat.lt_succ_diag_r _) (in_env e x) _ _ _ _ _ _ _ T2 P W Hd) as B. specialize (B ltac:(discriminate)). unfold body_ok in B. cbn [nu_row nu_count nu_labels infix_node flat_map app] in B.
    change (cx_rows (in_env e x)) with (has_rows e) in B. destruct B as (infos & ne1 & c2 & ls2 & B1 & -> & B3). rewrite R in B1. unfold end_row in He. cbn [nu_row nu_count nu_labels] in He.
    destruct (finish_row usize_max ne1 c2 ls2 true) as [[[[j ne2] c3] ls3]|] eqn:Ef; [|discriminate He]. injection He as <- <- <-. cbn [nu_count nu_labels]. rewrite Q.
    exists (infos ++ [j]), (ne_num_rows ne2), c3, ls3. split; [exact (run_rows_body _ _ _ _ _ _ _ _ _ _ _ _ _ _ B1 Ef)|]. split; [reflexivity|]. rewrite (construct_shown _ _ _ _ _ _ _ E Hc), (content_shown e x l0 _ _ _ T P Hd), B3, flat_map_app. cbn [flat_map]. now rewrite app_nil_r. }
  destruct l as [|i rest]; [exact (K _ _ T P eq_refl H)|]. destruct (hline_of mean i) as [lt|] eqn:Eh; [|exact (K _ _ T P eq_refl H)].
  apply dguard_some in H as [_ H]. cbn [forallb] in P. apply andb_prop in P as [_ P]. refine (K _ _ (tidy_hline _ _ _ _ _ _ Eh T) P _ H).
  destruct (hline_facts mean i lt Eh) as (_ & _ & E1 & E2 & _). cbn [rows_of]. rewrite E1, E2, andb_false_r. cbn [app]. now destruct (rows_of mean (has_rows e) rest).
Qed.

Definition top_ok (l : list item) (d : numbering) (before ts : list row_label_info) (d' : numbering) : Prop :=
  exists infos, run_envs usize_max (nu_count d) (nu_labels d) (environments mean l) = Some (infos, nu_count d', nu_labels d') /\ nu_row d' = None /\ ts = before ++ flat_map one_tag (concat infos).
Definition env_of (i : item) := match i with Item (HEnv e args l) _ => if numbered e then [(e, env_rows mean e l)] else [] | _ => [] end.
Lemma top_plain i l d before ts d' : env_of i = [] -> top_ok l d before ts d' -> top_ok (i :: l) d before ts d'.
Proof. intros E (infos & H). exists infos. unfold environments. cbn [flat_map]. fold (env_of i). rewrite E. exact H. Qed.
Lemma plain_env i : item_plain i = true -> env_of i = [].
Proof. destruct i as [[] ms]; try reflexivity. intros H. unfold env_of. change (negb (numbered e) && forallb arg_plain args && forallb item_plain l && forallb mark_plain ms = true) in H. destruct (numbered e); [discriminate H|reflexivity]. Qed.
Lemma top_fol : forall l x after prev acc infix d ns d', cx_rows x = false -> forallb (item_tidy false) l = true -> all_on_top l = true -> nu_row d = None ->
  den_items x after prev acc infix l d = Some (ns, d') -> top_ok l d (flat_map shown (infix_node infix acc)) (flat_map shown ns) d'.
Proof.
  induction l as [|i r IHl]; intros x after prev acc infix d ns d' X T Pl Q H.
  { cbn [S_Formula.den_items] in H. injection H as <- <-. exists []. split; [reflexivity|]. split; [exact Q|]. cbn [concat flat_map]. now rewrite app_nil_r. }
  cbn [forallb all_on_top] in T, Pl. apply andb_prop in T as [T1 T2]. apply andb_prop in Pl as [Pl1 Pl2].
  assert (Put : forall m, flat_map shown (infix_node infix (acc ++ [m])) = flat_map shown (infix_node infix acc) ++ shown m).
  { intros m. rewrite !infix_shown, flat_map_app. cbn [flat_map]. now rewrite app_nil_r, app_assoc. }
  (* more of the sequence *)
  assert (Go : forall y after' prev' m infix0 d0 ns0, cx_rows y = cx_rows x -> env_of i = [] -> d0 = d ->
     den_items y after' prev' m infix0 r d0 = Some (ns0, d') -> top_ok (i :: r) d (flat_map shown (infix_node infix0 m)) (flat_map shown ns0) d').
  { clear H. intros y after' prev' m infix0 d0 ns0 E Ei -> H. apply (top_plain _ _ _ _ _ _ Ei). refine (IHl y after' prev' m infix0 d ns0 d' _ T2 Pl2 Q H). now rewrite E. }
  (* an atom *)
  assert (Atom : forall next d0, d0 = d -> dbind (den_item x PaSequence prev next i) (fun cn => den_items x after (fst cn) (acc ++ [snd cn]) infix r) d0 = Some (ns, d') ->
     top_ok (i :: r) d (flat_map shown (infix_node infix acc)) (flat_map shown ns) d').
  { clear H. intros next d0 -> H0. apply dbind_some in H0 as ([c m] & d1 & H1 & H2). cbn [fst snd] in H2. rewrite <- X in T1.
    assert (Here : item_plain i = true -> top_ok (i :: r) d (flat_map shown (infix_node infix acc)) (flat_map shown ns) d').
    { intros P. destruct (all_fol mean usize_max (S (item_size i))) as [Fi _]. destruct (Fi i (Nat.lt_succ_diag_r _) x PaSequence prev next d c m d1 T1 P H1) as [S1 S2]. pose proof (follows_none _ _ _ S2 Q) as ->.
      pose proof (Go x after c (acc ++ [m]) infix d ns eq_refl (plain_env _ P) eq_refl H2) as G. rewrite Put, (unt_shown _ S1), app_nil_r in G. exact G. }
    destruct i as [h ms]. destruct h as [s args|s|w|w|o w cl|e args w]; try exact (Here Pl1). unfold on_top in Pl1. destruct (numbered e) eqn:En; [|exact (Here Pl1)]. clear Here.
    apply andb_prop in Pl1 as [P1 P2]. apply andb_prop in P1 as [_ P1]. destruct (env_numbers _ _ _ _ _ _ _ _ _ _ _ En P1 P2 T1 Q H1) as (infos & k & c' & ls' & K1 & -> & K3).
    destruct (IHl x after c (acc ++ [m]) infix (mkNu c' ls' None) ns d' X T2 Pl2 eq_refl H2) as (infos2 & J1 & J2 & J3). cbn [nu_count nu_labels] in J1.
    exists (infos :: infos2). unfold environments. cbn [flat_map]. rewrite En. fold (environments mean r). cbn [app run_envs]. rewrite K1, J1. split; [reflexivity|]. split; [exact J2|]. cbn [concat]. rewrite J3, Put, K3, flat_map_app. now rewrite app_assoc. }
  (* the rest in a row *)
  assert (Rest : forall a y rest d1, cx_rows y = cx_rows x -> env_of i = [] -> den_items y after prev [] None r d = Some (rest, d1) -> infix_node infix (acc ++ [Row rest a]) = ns -> d1 = d' ->
     top_ok (i :: r) d (flat_map shown (infix_node infix acc)) (flat_map shown ns) d').
  { clear H. intros a y rest d1 E Ei H1 <- ->. pose proof (Go y after prev [] None d rest E Ei eq_refl H1) as G. rewrite Put, shown_row.
    destruct G as (infos & G1 & G2 & G3). exists infos. split; [exact G1|]. split; [exact G2|]. now rewrite G3. }
  rewrite den_items_cons in H.
  destruct i as [h ms]; destruct h as [s args|s|w|w|o w c|e args w]; try (apply dguard_some in H as [_ H]; exact (Atom _ _ eq_refl H)).
  assert (Ei : env_of (Item (HSym s args) ms) = []) by reflexivity.
  destruct (tok s) eqn:Et; try (apply dguard_some in H as [_ H]; exact (Atom _ _ eq_refl H));
  try (repeat match type of H with dguard _ _ _ = _ => apply dguard_some in H as [_ H] end; exact (Atom _ _ eq_refl H));
  try (destruct args as [|a args]; [|apply dguard_some in H as [_ H]; exact (Atom _ _ eq_refl H)]; destruct ms as [|m ms]; [|apply dguard_some in H as [_ H]; exact (Atom _ _ eq_refl H)]);
  try (destruct args as [|[]  [|]]; try (apply dguard_some in H as [_ H]; exact (Atom _ _ eq_refl H)); destruct ms as [|m ms]; [|apply dguard_some in H as [_ H]; exact (Atom _ _ eq_refl H)]);
  match type of Et with _ = T_Color => idtac | _ => clear Atom end.
  - (* NewColumn *) apply dguard_some in H as [_ H]. pose proof (Go x after ClClose (acc ++ [ColumnSeparator]) infix d ns eq_refl Ei eq_refl H) as G. rewrite Put in G. cbn [shown] in G. now rewrite app_nil_r in G.
  - (* NewLine *) rewrite X in H. pose proof (Go x after ClOpen (acc ++ [EMPTY_ROW]) infix d ns eq_refl Ei eq_refl H) as G. rewrite Put in G. change (shown EMPTY_ROW) with (@nil row_label_info) in G. now rewrite app_nil_r in G.
  - (* NoNumber *) apply dbind_some in H as (u & d1 & Hr & H). refine (Go x _ _ _ _ d1 ns eq_refl Ei _ H).
    unfold drow_if in Hr. injection Hr as _ <-. destruct d as [c0 l0 [ne|]]; [discriminate Q|reflexivity].
  - (* Tag *) apply dbind_some in H as (u & d1 & Hr & H). unfold drow in Hr. rewrite Q in Hr. discriminate Hr.
  - (* Label *) apply dbind_some in H as (u & d1 & Hr & H). unfold drow in Hr. rewrite Q in Hr. discriminate Hr.
  - (* InfixGenFrac *) destruct infix as [f|]; [discriminate H|]. cbn [infix_node].
    pose proof (Go (with_style (style_shrink (cx_style x)) x) after prev [] (Some (acc, with_line, delim)) d ns eq_refl Ei eq_refl H) as G. rewrite infix_shown in G. cbn [flat_map] in G. now rewrite app_nil_r in G.
  - (* TransformSwitch *) refine (Go _ _ _ _ _ d ns _ Ei eq_refl H). reflexivity.
  - (* Style *) apply dguard_some in H as [_ H]. apply dbind_some in H as (rest & d1 & H1 & H). injection H as H E1. refine (Rest _ _ rest d1 _ Ei H1 H E1). reflexivity.
  - (* Color *)
    destruct args as [|[?|?|?|?|?|? ?] [|[?|?|?|?|?|? ?] [|? ?]]]; try (apply dguard_some in H as [_ H]; exact (Atom _ _ eq_refl H)); (destruct ms as [|m ms]; [|apply dguard_some in H as [_ H]; exact (Atom _ _ eq_refl H)]).
    + apply dguard_some in H as [_ H]. apply dbind_some in H as (col & d0 & H0 & H). apply dopt_some in H0 as [H0 ->]. apply dbind_some in H as (rest & d1 & H1 & H). injection H as H E1. refine (Rest _ _ rest d1 _ Ei H1 H E1). reflexivity.
    + apply dguard_some in H as [_ H]. apply dbind_some in H as (col & d0 & H0 & H). apply dopt_some in H0 as [_ ->]. apply dbind_some in H as (rest & d1 & H1 & H). injection H as H E1. refine (Rest _ _ rest d1 _ Ei H1 H E1). reflexivity.
  - (* Relax *) refine (Go _ _ _ _ _ d ns _ Ei eq_refl H). reflexivity.
Qed.
End Form.
