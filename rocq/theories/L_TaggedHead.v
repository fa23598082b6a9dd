(** The tags in the trees of formulas: atoms, environments and whole formulas. *)
From Verif Require Import Str M_SuperChar M_Transform M_Length M_Spec M_Ast M_Token M_Symbols M_Commands M_Env M_Emit M_Output
  M_LatexError M_Lexer M_CustomCmds M_Queue M_Spacing M_Colors M_Leaf M_TextParser M_Parser
  S_Node S_Emit S_Env S_Queue S_Scripts S_Formula S_Valid S_Tidy S_Tagged L_FormEq L_Form L_WinLeaf L_Tidy L_Tagged.
Local Open Scope nat_scope.

Section Form.
Context (mean : str -> token) (usize_max : N).
Notation tok := (tok mean).
Notation den_item := (den_item mean usize_max).
Notation den_head := (den_head mean usize_max).
Notation den_arg := (den_arg mean usize_max).
Notation den_target := (den_target mean usize_max).
Notation den_mark := (den_mark mean usize_max).
Notation den_items := (den_items mean usize_max den_item).
Notation item_tidy := (item_tidy mean).
Notation list_tidy := (list_tidy mean).
Notation item_cmds := (item_cmds mean).
Notation head_cmds := (head_cmds mean).
Notation arg_cmds := (arg_cmds mean).
Notation mark_cmds := (mark_cmds mean).
Notation item_fol := (item_fol mean usize_max).
Notation arg_fol := (arg_fol mean usize_max).

(** The parts of a meaning. *)
Ltac steps := repeat match goal with
  | H : dbind _ _ _ = Some _ |- _ => let a := fresh "v" in let d1 := fresh "d" in let H1 := fresh "H" in apply dbind_some in H as (a & d1 & H1 & H)
  | H : dguard _ _ _ = Some _ |- _ => apply dguard_some in H as [_ H]
  | H : dopt _ _ = Some (_, _) |- _ => let E := fresh "E" in apply dopt_some in H as [H E]; subst
  | H : dret _ _ = Some _ |- _ => injection H; clear H; intros; subst
  end.
(** The arguments of a command. *)
Ltac opens := repeat match goal with
  | H : match ?args with [] => _ | _ :: _ => _ end _ = Some _ |- _ => destruct args; try discriminate H; steps
  | H : match ?a with AGroup _ => _ | ASym _ => _ | ABracket _ => _ | ALit _ => _ | AItem _ => _ | AScripts _ _ => _ end _ = Some _ |- _ => destruct a; try discriminate H; steps
  end.
Definition sym_cmds (t : token) (args : list arg) : list row_cmd :=
  match t, args with T_NoNumber, [] => [RowNotag] | T_Tag parens, [ALit u] => [RowTag (mkTag u parens)] | T_Label, [ALit u] => [RowLabel u] | _, _ => flat_map arg_cmds args end.
Lemma genfrac_cmds a : (exists f, genfrac_fence mean a = Some f) \/ (exists y, genfrac_style_of mean a = Some y) -> arg_cmds a = [].
Proof.
  intros H. assert (K : forall s, at_most_one a = Some (Some s) -> sym_cmds (tok s) [] = []).
  { intros s E. destruct H as [[f H]|[y H]]; unfold genfrac_fence, genfrac_style_of in H; rewrite E in H; unfold delimiter, extract_delimiter in H; cbn [fst snd] in H; destruct (tok s); try reflexivity; discriminate H. }
  assert (Q : at_most_one a <> None) by (intros E; destruct H as [[f H]|[y H]]; unfold genfrac_fence, genfrac_style_of in H; rewrite E in H; discriminate H). clear H.
  destruct a as [[|[[s [|]|[|? [|]]| | | |] [|]] [|]]|s|l|t|i|? ?]; try reflexivity; try (now destruct Q). change ((sym_cmds (tok s) [] ++ []) ++ [] = []). now rewrite (K s eq_refl).
Qed.
Lemma side_cmds a o : side_operator mean a = Some o -> arg_cmds a = [].
Proof.
  unfold side_operator. destruct (at_most_one a) as [[s|]|] eqn:E; try discriminate. destruct (tok s) eqn:Et; try discriminate. intros _.
  destruct a as [[|[[s1 [|]|[|? [|]]| | | |] [|]] [|]]|s1|l|t|i|? ?]; try discriminate E; try reflexivity. injection E as ->. change ((sym_cmds (tok s) [] ++ []) ++ [] = []). now rewrite Et.
Qed.
Lemma side_unt x prev next b1 ns1 b2 ns2 o b k : bounds_unt b1 -> bounds_unt b2 -> Forall unt ns1 -> Forall unt ns2 -> bounds_unt b -> unt (side_node x prev next (b1, ns1) (b2, ns2) o b k).
Proof.
  intros A B F1 F2 C. unfold side_node. cbn [fst snd].
  set (base := op_node _ _ _). assert (Sb : unt base) by now apply unt_leaf. set (inner := match ns1 with [] => base | _ :: _ => _ end).
  assert (Row' : forall l a, Forall unt l -> unt (Row l a)) by (intros l a H; apply unt_intro; [reflexivity|exact H]).
  assert (Si : unt inner) by (unfold inner; destruct ns1; [exact Sb|apply Row', Forall_app; split; [exact F1|fl; exact Sb]]).
  assert (K : forall q, bounds_unt q -> unt (fst (corner q)) /\ unt (snd (corner q))).
  { intros q [Q1 Q2]. unfold corner. cbn [fst snd]. split; [destruct (b_sub q)|destruct (b_sup q)]; try assumption; now apply unt_leaf. }
  assert (Sm : unt (Multiscripts inner [corner b1] [corner b2])). { destruct (K b1 A), (K b2 B). apply unt_intro; [reflexivity|]. cbn [children app flat_map]. fl; assumption. }
  apply wrap_unt; [|exact C]. destruct ns2; [exact Sm|]. apply Row'. now constructor.
Qed.
Lemma sym_row_cmd x a prev next t : t = T_NoNumber \/ (exists b, t = T_Tag b) \/ t = T_Label -> sym_node x a prev next t = None.
Proof. intros [E|[[b E]|E]]; subst t; reflexivity. Qed.

Ltac follow := repeat match goal with
  | |- follows (arg_cmds ?a ++ _) _ _ => (eapply follows_app; [eassumption|]) || (rewrite (genfrac_cmds a) by (first [left; eexists; eassumption | right; eexists; eassumption]); cbn [app])
  | |- follows (S_Tagged.arg_cmds _ (ALit _) ++ _) _ _ => cbn [S_Tagged.arg_cmds app]
  | |- follows (S_Tagged.arg_cmds _ (ASym _) ++ _) _ _ => cbn [S_Tagged.arg_cmds app]
  | |- follows [] ?d ?d => apply follows_nil
  end.

(** A line at the start of the first row. *)
Lemma tidy_hline (f : item -> bool) rows i lt rest : hline_of mean i = Some lt -> list_tidy f rows true (i :: rest) = true -> list_tidy f rows true rest = true.
Proof.
  intros E T. apply andb_prop in T as [T1 T2]. cbn [forallb] in T2. apply andb_prop in T2 as [_ T2]. unfold S_Tidy.list_tidy. rewrite T2, andb_true_r. cbn [placed existsb] in T1. apply andb_prop in T1 as [_ T1].
  destruct (hline_facts _ _ _ E) as (Q1 & Q2 & _). rewrite Q1, Q2 in T1. cbn [negb orb] in T1. now rewrite andb_true_r in T1.
Qed.

Lemma head_fol n : item_fol n -> arg_fol n -> forall h, head_size h < S n -> forall x p prev next d c m d', head_tidy mean (cx_rows x) h = true -> head_plain h = true ->
  den_head x p prev next h d = Some ((c, m), d') -> unt m /\ follows (head_cmds h) d d'.
Proof.
  intros IH IHa h L x p prev next d c m d' T P H.
  destruct h as [s args|s|l|l|o l cl|e args l].
  - (* a symbol *)
    change (head_cmds (HSym s args)) with (sym_cmds (tok s) args).
    change (head_size (HSym s args)) with (S (args_size args)) in L. change (forallb (arg_tidy mean (cx_rows x)) args = true) in T. rewrite forallb_forall in T. change (forallb arg_plain args = true) in P. rewrite forallb_forall in P.
    assert (K : forall a, In a args -> forall y, cx_rows y = cx_rows x ->
      (forall pa prev d m d', den_arg y pa prev a d = Some (m, d') -> unt m /\ follows (arg_cmds a) d d') /\
      (forall pa prev next d c m d', den_target y pa prev next a d = Some ((c, m), d') -> unt m /\ follows (arg_cmds a) d d') /\
      (forall l after prev d ns d', a = ABracket l -> den_items y after prev [] None l d = Some (ns, d') -> Forall unt ns /\ follows (arg_cmds a) d d')).
    { intros a I y E. destruct (IHa a) with (x := y) as (K1 & K2 & K3); [pose proof (list_sum_in arg_size args a I) as B; unfold args_size in L; clear - L B; lia|rewrite E; now apply T|now apply P|].
      split; [exact K1|]. split; [exact K2|]. intros l after prev0 d0 ns d1 -> H0. exact (K3 _ _ _ _ _ _ eq_refl H0). }
    rewrite den_sym_eq in H. cbv zeta in H. clear T L P.
    assert (In1 : forall (a : arg) r, In a (a :: r)) by (intros; now left).
    assert (In2 : forall (a b : arg) r, In b (a :: b :: r)) by (intros; right; now left).
    assert (In3 : forall (a b e : arg) r, In e (a :: b :: e :: r)) by (intros; right; right; now left).
    assert (In5 : forall (a b e f g : arg) r, In g (a :: b :: e :: f :: g :: r)) by (intros; do 4 right; now left).
    assert (In6 : forall (a b e f g h : arg) r, In h (a :: b :: e :: f :: g :: h :: r)) by (intros; do 5 right; now left).
    destruct (tok s) eqn:Et;
      try (destruct args as [|a args]; [|discriminate H]; destruct (word_char (cx_tf x) (raw mean s)); [discriminate H|]; apply dopt_some in H as [H E]; rewrite ?sym_row_cmd in H by eauto;
           first [discriminate H | subst; split; [exact (sym_unt _ _ _ _ _ _ _ H)|apply follows_nil]]).
    all: steps; opens.
    all: try (destruct (word_char (cx_tf x) (raw mean s)); discriminate H).
    all: repeat match goal with
      | H1 : S_Formula.den_arg _ _ ?y _ _ ?a ?d1 = Some (?v, ?d2) |- _ =>
          assert (unt v /\ follows (arg_cmds a) d1 d2) as [? ?] by (refine (proj1 (K a _ y eq_refl) _ _ _ _ _ H1); first [apply In1 | apply In2 | apply In3 | apply In5 | apply In6]); clear H1
      | H1 : S_Formula.den_target _ _ ?y _ _ _ ?a ?d1 = Some (?v, ?d2) |- _ =>
          let c1 := fresh "c" in let n1 := fresh "n" in destruct v as [c1 n1]; cbn [fst snd] in *;
          assert (unt n1 /\ follows (arg_cmds a) d1 d2) as [? ?] by (refine (proj1 (proj2 (K a _ y eq_refl)) _ _ _ _ _ _ _ H1); first [apply In1 | apply In2 | apply In3 | apply In5 | apply In6]); clear H1
      | H1 : S_Formula.den_items _ _ _ (in_bracket true ?y) _ _ _ _ ?l ?d1 = Some (?v, ?d2) |- _ =>
          assert (Forall unt v /\ follows (arg_cmds (ABracket l)) d1 d2) as [? ?] by (refine (proj2 (proj2 (K (ABracket l) _ (in_bracket true y) eq_refl)) _ _ _ _ _ _ eq_refl H1); first [apply In1 | apply In2 | apply In3 | apply In5 | apply In6]); clear H1
      end.
    all: unfold sym_cmds; cbn [flat_map].
    all: try (split; [|follow; fail]).
    all: match goal with |- _ /\ _ => idtac | _ => try assumption; try (unfold unt; rewrite fenced_tags; apply unt_all; fl; unt; fail); try (apply arrow_unt; [first [exact Logic.I | now apply vec_unt]|assumption]); try (unt; fail) end.
    + (* Sqrt *) apply unt_intro; [reflexivity|]. cbn [children]. fl; [now apply vec_unt|assumption].
    + (* CustomSpace *) destruct (parse_length_specification _) as [[[ln ok] im]|]; [|discriminate H]. steps. split; [now apply unt_leaf|follow].
    + (* Big *) destruct (big_spacing _ _ _ _ _) as [at1 sp]. steps. split; [now apply unt_leaf|follow].
    + (* Accent *) destruct is_over; unt.
    + (* Op *) destruct (op_cat o); try discriminate H. destruct (op_limits _ _ _). steps. split; [now apply unt_leaf|follow].
    + (* MathClass *) destruct (class_spacing _ _ _ _ _) as [c1 sp]. steps. split; [now apply class_node_unt|follow].
    + (* Overlay *) match goal with E : overlay_node _ _ = Some _ |- _ => exact (overlay_unt _ _ _ E) end.
    + (* Text *) destruct s1; now apply unt_leaf.
    + (* Cramped *) split; [unt|]. assert (Q : arg_cmds (ABracket l) = []).
      { destruct l as [|[[s1 [|]| | | | |] [|]] [|]]; try discriminate; try reflexivity. change ((sym_cmds (tok s1) [] ++ []) ++ [] = []). destruct (tok s1); try discriminate; reflexivity. }
      rewrite Q. cbn [app]. follow.
    + (* Phantom *) assert (unt (Phantom v)) by unt. destruct k; [assumption| |]; unt.
    + (* RaiseBox *) destruct (parse_length_specification _) as [[[ln u] [|]]|]; try discriminate H. steps. split; [|follow]. unfold raised_text. destruct s1; [now apply unt_leaf|]. destruct (set_eqb _ _); [now apply unt_leaf|].
      assert (unt (Text None None (text_of (n0 :: s1)))) by now apply unt_leaf. unt.
  - rewrite den_num_eq in H. steps. split; [now apply unt_leaf|apply follows_nil].
  - rewrite den_word_eq in H. steps. split; [exact (word_unt _ _ _ H1)|apply follows_nil].
  - rewrite den_group_eq in H. steps. destruct (list_fol mean usize_max n IH l) with (4 := H0) as [A B]; [change (head_size (HGroup l)) with (S (items_size l)) in L; clear - L; lia|exact T|exact P|]. split; [now apply vec_unt|exact B].
  - rewrite den_fence_eq in H. destruct (mean (lit "left")); try discriminate H. destruct (mean (lit "right")); try discriminate H. destruct (fence_of mean o); [|discriminate H]. destruct (fence_of mean cl); [|discriminate H]. steps.
    destruct (list_fol mean usize_max n IH l) with (4 := H0) as [A B]; [change (head_size (HFence o l cl)) with (S (items_size l)) in L; clear - L; lia|exact T|exact P|]. split; [unfold unt; rewrite fenced_tags; now apply unt_all|exact B].
  - rewrite den_env_eq in H. apply dbind_some in H as (v & d0 & H0 & H). cbv zeta in H. apply dguard_some in H as [_ H]. change (list_tidy (item_tidy (has_rows e)) (has_rows e) true l = true) in T.
    change (head_size (HEnv e args l)) with (S (args_size args + items_size l)) in L. assert (L1 : items_size l < n) by (clear - L; lia). clear L.
    change (head_cmds (HEnv e args l)) with (@nil row_cmd). change (negb (numbered e) && forallb arg_plain args && forallb item_plain l = true) in P. apply andb_prop in P as [P P2]. apply andb_prop in P as [P1 _]. apply negb_true_iff in P1.
    assert (D0 : d0 = d). { clear - H0. destruct e, args as [|[] [|]]; try discriminate H0; first [apply dopt_some in H0 as [_ ->]; reflexivity | injection H0 as _ ->; reflexivity]. } subst d0.
    assert (Ne : numbered_env_state e = None) by (unfold numbered in P1; destruct (numbered_env_state e); [discriminate P1|reflexivity]).
    assert (K : forall border l0, items_size l0 < n -> list_tidy (item_tidy (has_rows e)) (has_rows e) true l0 = true -> forallb item_plain l0 = true ->
      dbind (new_rows e (dbind (den_items (in_env e x) ClEnd ClOpen [] None l0) (fun ns => dbind (end_row usize_max true) (fun info => dret (ns, info)))))
        (fun r => dbind (dopt (construct_node e (fst r) (option_map (fun c => mkArraySpec (as_border_left c) border (match e with ESubarray => true | _ => as_is_sub c end) (as_columns c)) v)
                                              (fst (snd r)) (snd (snd r)) border)) (fun n => dret (ClClose, n))) d = Some ((c, m), d') -> unt m /\ follows [] d d').
    { clear H L1 T P2. intros border l0 L0 T P2 H. apply dbind_some in H as ([ns [info rows]] & d2 & H1 & H). cbn [fst snd] in H. steps.
      unfold new_rows in H1. rewrite Ne in H1. match type of H1 with match ?q with _ => _ end = _ => destruct q as [[r3 d3]|] eqn:Eq; [|discriminate H1] end. injection H1 as -> H1. apply dbind_some in Eq as (ns1 & d4 & Hd & Eq). apply dbind_some in Eq as (info1 & d5 & He & Eq). injection Eq as -> -> ->.
      destruct (table_fol mean usize_max n IH l0 L0 (in_env e x)) with (4 := Hd) as [A ->]; [exact T|exact P2|reflexivity|]. unfold end_row in He. cbn [nu_row] in He. injection He as <- <- <-. cbn [nu_count nu_labels] in H1.
      split; [match goal with E : construct_node _ _ _ _ _ _ = Some _ |- _ => exact (construct_unt _ _ _ _ _ _ P1 A E) end|]. destruct d as [c0 l1 r0]. cbn [nu_row nu_count nu_labels] in H1. subst. apply follows_nil. }
    destruct l as [|i rest]; [exact (K _ _ L1 T P2 H)|]. destruct (hline_of mean i) as [lt|] eqn:Eh; [|exact (K _ _ L1 T P2 H)].
    apply dguard_some in H as [_ H]. cbn [forallb] in P2. apply andb_prop in P2 as [_ P2]. refine (K _ _ _ _ P2 H).
    + change (items_size (i :: rest)) with (item_size i + items_size rest) in L1. clear - L1. lia.
    + exact (tidy_hline _ _ _ _ _ Eh T).
Qed.

Lemma operator_cmds s args t : operator_of (tok s) args = Some t -> head_cmds (HSym s args) = [].
Proof.
  intros H. change (head_cmds (HSym s args)) with (sym_cmds (tok s) args). unfold operator_of in H. destruct (tok s); try discriminate H; unfold sym_cmds; destruct args as [|[] [|]]; try discriminate H; reflexivity.
Qed.
Lemma item_fol_step n : item_fol n -> arg_fol n -> item_fol (S n).
Proof.
  intros IH IHa [h ms] L x p prev next d c m d' T P H. change (item_size (Item h ms)) with (S (head_size h + marks_size ms)) in L.
  change (head_tidy mean (cx_rows x) h && forallb (mark_tidy mean (cx_rows x)) ms = true) in T. apply andb_prop in T as [T1 T2].
  change (head_plain h && forallb mark_plain ms = true) in P. apply andb_prop in P as [P1 P2].
  change (item_cmds (Item h ms)) with (head_cmds h ++ flat_map mark_cmds ms).
  assert (L1 : head_size h < S n) by (clear - L; lia). assert (L2 : marks_size ms < S n) by (clear - L; lia). clear L.
  rewrite den_item_eq in H. cbv zeta in H.
  assert (Put : forall vs d0 c0 m0 d1, Forall value_unt vs -> unt m0 ->
    dbind (dopt (scripts_of vs)) (fun b => match snd b with None => dret (c0, with_scripts m0 (fst b)) | Some _ => dnone end) d0 = Some ((c, m), d1) -> unt m /\ d1 = d0).
  { clear H. intros vs d0 c0 m0 d1 F S1 H. apply dbind_some in H as ([b k] & d2 & H0 & H). apply dopt_some in H0 as [H0 ->]. cbn [fst snd] in H. destruct k as [k|]; [discriminate H|]. injection H as _ <- <-. pose proof (scripts_of_unt _ _ _ F H0). split; [now apply scripts_unt|reflexivity]. }
  assert (Marks : forall d0 vs d1, values (den_mark x) ms d0 = Some (vs, d1) -> Forall value_unt vs /\ follows (flat_map mark_cmds ms) d0 d1) by (intros d0 vs d1; exact (marks_fol mean usize_max n IHa ms L2 x T2 P2 d0 vs d1)).
  assert (Atom : dbind (den_head x p prev (class_ahead (flat_map (mark_toks mean) ms) next) h) (fun cn => dbind (values (den_mark x) ms) (fun vs =>
     dbind (dopt (scripts_of vs)) (fun b => match snd b with None => dret (fst cn, with_scripts (snd cn) (fst b)) | Some _ => dnone end))) d = Some ((c, m), d') -> unt m /\ follows (head_cmds h ++ flat_map mark_cmds ms) d d').
  { clear H. intros H. apply dbind_some in H as ([c1 m1] & d1 & H1 & H). apply dbind_some in H as (vs & d2 & H2 & H). cbn [fst snd] in H.
    destruct (head_fol n IH IHa h L1 x _ _ _ _ _ _ _ T1 P1 H1) as [A1 A2]. destruct (Marks _ _ _ H2) as [B1 B2]. destruct (Put _ _ _ _ _ B1 A1 H) as [U ->]. split; [exact U|]. exact (follows_app _ _ _ _ _ A2 B2). }
  destruct h as [s args|s|l|l|o l cl|e args l]; try exact (Atom H).
  destruct (operator_of (tok s) args) as [t|] eqn:Eo.
  - clear Atom Put. rewrite (operator_cmds _ _ _ Eo). steps. destruct (Marks _ _ _ H0) as [B1 B2]. destruct v0 as [b k]. cbn [fst snd] in *. split; [|exact B2].
    match goal with E : operator_node _ _ _ _ _ _ = Some _ |- _ => refine (operator_unt _ _ _ _ _ _ _ _ E) end. match goal with E : scripts_of _ = Some _ |- _ => exact (scripts_of_unt _ _ _ B1 E) end.
  - assert (Lone : forall (mk : node -> mark_value) a, (forall n0, unt n0 -> value_unt (mk n0)) -> args = [a] -> sym_cmds (tok s) [a] = arg_cmds a ++ [] ->
      dbind (den_arg (with_style (style_scriptify (cx_style x)) x) PaArg ClDefault a) (fun n0 => dbind (values (den_mark x) ms) (fun vs => dbind (dopt (no_limits (mk n0 :: vs))) (fun b => dret (ClDefault, wrap_subsup b EMPTY_ROW)))) d = Some ((c, m), d') ->
      unt m /\ follows (head_cmds (HSym s args) ++ flat_map mark_cmds ms) d d').
    { clear H Atom Put. intros mk a M -> Hc H. change (head_cmds (HSym s [a])) with (sym_cmds (tok s) [a]). rewrite Hc. apply dbind_some in H as (n0 & d1 & H1 & H). apply dbind_some in H as (vs & d2 & H2 & H). apply dbind_some in H as (b & d3 & H3 & H). apply dopt_some in H3 as [H3 ->]. injection H as _ <- <-.
      assert (Sn : unt n0 /\ follows (arg_cmds a) d d1). { change (head_size (HSym s [a])) with (S (arg_size a + 0)) in L1. change (arg_tidy mean (cx_rows x) a && true = true) in T1. rewrite andb_true_r in T1. change (arg_plain a && true = true) in P1. rewrite andb_true_r in P1. refine (proj1 (IHa a _ (with_style (style_scriptify (cx_style x)) x) T1 P1) _ _ _ _ _ H1). clear - L1. lia. }
      destruct Sn as [Sn Fn]. destruct (Marks _ _ _ H2) as [B1 B2].
      unfold no_limits in H3. destruct (scripts_of (mk n0 :: vs)) as [[b' [?|]]|] eqn:V; try discriminate H3. injection H3 as ->.
      split; [exact (wrap_unt false b EMPTY_ROW eq_refl (scripts_of_unt _ _ _ (Forall_cons _ (M _ Sn) B1) V))|]. rewrite app_nil_r. exact (follows_app _ _ _ _ _ Fn B2). }
    destruct (tok s) eqn:Et; try exact (Atom H);
      try (match type of Et with _ = T_Underscore => idtac | _ = T_Circumflex => idtac end; destruct args as [|a [|? ?]]; [exact (Atom H)| |exact (Atom H)];
           first [exact (Lone VSub a (fun _ q => q) eq_refl eq_refl H)|exact (Lone VSup a (fun _ q => q) eq_refl eq_refl H)]).
    { (* Sideset *)
      destruct args as [|[?|?|?|?|?|m1 l1] args]; try exact (Atom H). destruct args as [|[?|?|?|?|?|m2 l2] args]; try exact (Atom H). destruct args as [|o [|? ?]]; try exact (Atom H). clear Atom Put.
      change (head_size (HSym s [AScripts m1 l1; AScripts m2 l2; o])) with (S (S (marks_size m1 + items_size l1) + (S (marks_size m2 + items_size l2) + (arg_size o + 0)))) in L1.
      assert (Q : (marks_size m1 < S n /\ items_size l1 < n) /\ (marks_size m2 < S n /\ items_size l2 < n)) by (clear - L1; lia). destruct Q as [[Q1 Q2] [Q3 Q4]]. clear L1.
      change ((forallb (mark_tidy mean (cx_rows x)) m1 && list_tidy (item_tidy (cx_rows x)) (cx_rows x) false l1) && ((forallb (mark_tidy mean (cx_rows x)) m2 && list_tidy (item_tidy (cx_rows x)) (cx_rows x) false l2) && (arg_tidy mean (cx_rows x) o && true)) = true) in T1.
      apply andb_prop in T1 as [T1 T3]. apply andb_prop in T1 as [T1 T4]. apply andb_prop in T3 as [T3 _]. apply andb_prop in T3 as [T3 T5].
      change ((forallb mark_plain m1 && forallb item_plain l1) && ((forallb mark_plain m2 && forallb item_plain l2) && (arg_plain o && true)) = true) in P1.
      apply andb_prop in P1 as [P1 P3]. apply andb_prop in P1 as [P1 P4]. apply andb_prop in P3 as [P3 _]. apply andb_prop in P3 as [P3 P5].
      apply dbind_some in H as (vs1 & d1 & H1 & H). apply dbind_some in H as (b1 & d2 & H2 & H). apply dopt_some in H2 as [H2 ->]. apply dbind_some in H as (ns1 & d2 & H3 & H).
      apply dbind_some in H as (vs2 & d3 & H4 & H). apply dbind_some in H as (b2 & d4 & H5 & H). apply dopt_some in H5 as [H5 ->]. apply dbind_some in H as (ns2 & d4 & H6 & H).
      apply dbind_some in H as (oo & d5 & H7 & H). apply dopt_some in H7 as [H7 ->]. apply dbind_some in H as (vs & d5 & H8 & H). apply dbind_some in H as ([b k] & d6 & H9 & H). apply dopt_some in H9 as [H9 ->]. injection H as _ <- <-. cbn [fst snd].
      unfold no_limits in H2, H5. destruct (scripts_of vs1) as [[b1' [?|]]|] eqn:V1; try discriminate H2. injection H2 as ->. destruct (scripts_of vs2) as [[b2' [?|]]|] eqn:V2; try discriminate H5. injection H5 as ->.
      destruct (marks_fol mean usize_max n IHa m1 Q1 x T1 P1 _ _ _ H1) as [U1 F1], (marks_fol mean usize_max n IHa m2 Q3 x T3 P3 _ _ _ H4) as [U2 F2], (Marks _ _ _ H8) as [U3 F3].
      destruct (list_fol mean usize_max n IH l1 Q2 (in_bracket false x) _ _ _ _ _ T4 P4 H3) as [U4 F4], (list_fol mean usize_max n IH l2 Q4 (in_bracket false x) _ _ _ _ _ T5 P5 H6) as [U5 F5].
      split; [apply side_unt; first [assumption | exact (scripts_of_unt _ _ _ U1 V1) | exact (scripts_of_unt _ _ _ U2 V2) | exact (scripts_of_unt _ _ _ U3 H9)]|].
      assert (Hc : head_cmds (HSym s [AScripts m1 l1; AScripts m2 l2; o]) = (flat_map mark_cmds m1 ++ flat_map item_cmds l1) ++ (flat_map mark_cmds m2 ++ flat_map item_cmds l2) ++ []).
      { change (head_cmds (HSym s [AScripts m1 l1; AScripts m2 l2; o])) with (sym_cmds (tok s) [AScripts m1 l1; AScripts m2 l2; o]). rewrite Et. unfold sym_cmds. cbn [flat_map]. now rewrite (side_cmds _ _ H7). }
      rewrite Hc. refine (follows_app _ _ _ _ _ _ F3). apply (follows_app _ _ _ d2); [exact (follows_app _ _ _ _ _ F1 F4)|]. rewrite app_nil_r. exact (follows_app _ _ _ _ _ F2 F5). }
    destruct args as [|a [|? ?]]; try exact (Atom H). clear Atom.
    assert (Hc : head_cmds (HSym s [a]) = arg_cmds a). { change (head_cmds (HSym s [a])) with (sym_cmds (tok s) [a]). rewrite Et. unfold sym_cmds. cbn [flat_map]. apply app_nil_r. } rewrite Hc. clear Hc.
    apply dbind_some in H as (t & d1 & H1 & H).
    assert (St : unt t /\ follows (arg_cmds a) d d1). { change (head_size (HSym s [a])) with (S (arg_size a + 0)) in L1. change (arg_tidy mean (cx_rows x) a && true = true) in T1. rewrite andb_true_r in T1. change (arg_plain a && true = true) in P1. rewrite andb_true_r in P1. refine (proj1 (IHa a _ x T1 P1) _ _ _ _ _ H1). clear - L1. lia. }
    destruct St as [St Fa].
    assert (Sb : unt ((if is_over then OverAccent else UnderAccent) (ord_as_op o) A_EMPTY t)) by (destruct is_over; unt).
    assert (Base : dbind (values (den_mark x) ms) (fun vs => dbind (dopt (scripts_of vs)) (fun b => match snd b with None => dret (ClDefault, with_scripts ((if is_over then OverAccent else UnderAccent) (ord_as_op o) A_EMPTY t) (fst b)) | Some _ => dnone end)) d1 = Some ((c, m), d') -> unt m /\ follows (arg_cmds a ++ flat_map mark_cmds ms) d d').
    { clear H. intros H. apply dbind_some in H as (vs & d2 & H2 & H). destruct (Marks _ _ _ H2) as [B1 B2]. destruct (Put _ _ _ _ _ B1 Sb H) as [U ->]. split; [exact U|]. exact (follows_app _ _ _ _ _ Fa B2). }
    assert (Rest : forall e0 rest (f : node -> node -> node), (ms = FSup e0 :: rest \/ ms = FSub e0 :: rest) -> (forall p q, unt p -> unt q -> unt (f p q)) ->
      dbind (den_arg x PaArg ClDefault e0) (fun n0 => dbind (values (den_mark x) rest) (fun vs => dbind (dopt (scripts_of vs)) (fun b => match snd b with
         None => dret (ClDefault, with_scripts (f n0 ((if is_over then OverAccent else UnderAccent) (ord_as_op o) A_EMPTY t)) (fst b)) | Some _ => dnone end))) d1 = Some ((c, m), d') -> unt m /\ follows (arg_cmds a ++ flat_map mark_cmds ms) d d').
    { clear H Base. intros e0 rest f E F H. apply dbind_some in H as (n0 & d2 & H2 & H). apply dbind_some in H as (vs & d3 & H3 & H).
      assert (Q : arg_size e0 < n /\ marks_size rest < S n /\ (arg_tidy mean (cx_rows x) e0 = true /\ forallb (mark_tidy mean (cx_rows x)) rest = true) /\ (arg_plain e0 = true /\ forallb mark_plain rest = true) /\ flat_map mark_cmds ms = arg_cmds e0 ++ flat_map mark_cmds rest).
      { clear H H2 H3 Put Marks. assert (W : S (arg_size e0) + marks_size rest < S n /\ (arg_tidy mean (cx_rows x) e0 && forallb (mark_tidy mean (cx_rows x)) rest = true) /\ (arg_plain e0 && forallb mark_plain rest = true) /\ flat_map mark_cmds ms = arg_cmds e0 ++ flat_map mark_cmds rest)
          by (destruct E as [-> | ->]; (split; [assumption|split; [assumption|split; [assumption|reflexivity]]])).
        destruct W as (W1 & W2 & W3 & W4). apply andb_prop in W2. apply andb_prop in W3. split; [clear - W1; lia|]. split; [clear - W1; lia|]. now split. }
      destruct Q as (Q1 & Q2 & [Q3 Q4] & [Q5 Q6] & Qc). rewrite Qc. destruct (marks_fol mean usize_max n IHa rest Q2 x Q4 Q6 _ _ _ H3) as [B1 B2]. destruct (proj1 (IHa e0 Q1 x Q3 Q5) _ _ _ _ _ H2) as [C1 C2].
      destruct (Put _ _ _ _ _ B1 (F _ _ C1 Sb) H) as [U ->]. split; [exact U|]. exact (follows_app _ _ _ _ _ Fa (follows_app _ _ _ _ _ C2 B2)). }
    clear Put Marks. destruct ms as [|[e0|e0|ps sup|ls] rest]; try exact (Base H); destruct is_over; try exact (Base H).
    + refine (Rest e0 rest Under (or_intror eq_refl) _ H). intros p0 q0 Hp Hq. unt.
    + refine (Rest e0 rest Over (or_introl eq_refl) _ H). intros p0 q0 Hp Hq. unt.
Qed.
Lemma all_fol n : item_fol n /\ arg_fol n.
Proof.
  induction n as [|n [A B]]; [split; intros a L; exfalso; clear - L; lia|]. split; [now apply item_fol_step|now apply arg_fol_step].
Qed.
End Form.
