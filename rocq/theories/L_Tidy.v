(** The trees of tidy formulas have their separators in tables only. *)
From Verif Require Import Str M_SuperChar M_Transform M_Length M_Spec M_Ast M_Token M_Symbols M_Commands M_Env M_Emit M_Output
  M_LatexError M_Lexer M_CustomCmds M_Queue M_Spacing M_Colors M_Leaf M_TextParser M_Parser
  S_Node S_Emit S_Queue S_Scripts S_Formula S_Valid S_Tidy L_FormEq L_Form.
Local Open Scope nat_scope.

(** ** Trees *)

Definition sf (n : node) : Prop := is_sep n = false /\ separated n.
Lemma separated_intro n : separated_here n -> Forall separated (children n) -> separated n.
Proof. intros H F. constructor; [exact H|]. now apply Forall_forall. Qed.
Lemma sf_intro n : is_sep n = false -> Forall sf (children n) -> sf n.
Proof.
  intros H F. split; [exact H|]. apply separated_intro.
  - assert (G : Forall (fun c => is_sep c = false) (children n)) by (eapply Forall_impl; [|exact F]; now intros a [A _]). unfold separated_here. now destruct n.
  - eapply Forall_impl; [|exact F]. now intros a [_ A].
Qed.
Lemma sf_children n : sf n -> match n with Table _ _ _ _ | EquationArray _ _ _ | MultLine _ _ _ | ArrayN _ _ _ => True | _ => Forall sf (children n) end.
Proof.
  intros [_ H]. inversion H as [? A B]; subst. assert (G : forall c, Forall (fun c => is_sep c = false) c -> (forall d, In d c -> separated d) -> Forall sf c).
  { intros c F K. apply Forall_forall. intros d I. split; [|now apply K]. rewrite Forall_forall in F. now apply F. }
  destruct n; try exact Logic.I; apply G; assumption.
Qed.
Ltac fl := repeat first [apply Forall_nil | apply Forall_cons].
Ltac sft := apply sf_intro; [reflexivity|cbn [children]; repeat first [assumption | apply Forall_nil | apply Forall_cons]].
Lemma sf_leaf n : is_sep n = false -> children n = [] -> sf n.
Proof. intros H E. apply sf_intro; [exact H|]. rewrite E. constructor. Qed.
Lemma sf_row l a : Forall sf l -> sf (Row l a).
Proof. intros H. now apply sf_intro. Qed.
Lemma vec_sf l b : Forall sf l -> sf (node_vec_to_node l b).
Proof.
  intros H. unfold node_vec_to_node. destruct l as [|n [|m l]]; try now apply sf_row. inversion H; subst.
  destruct b; [|assumption]. destruct n; try assumption. now apply sf_leaf.
Qed.
Lemma one_sf l : Forall sf l -> sf (one_or_row l).
Proof. intros H. unfold one_or_row. destruct l as [|n [|m l]]; try now apply sf_row. now inversion H. Qed.
Lemma op_sf o a sp : sf (op_node o a sp).
Proof. now apply sf_leaf. Qed.
Lemma fence_op_sf o : sf (fence_operator o).
Proof. unfold fence_operator. destruct o; now apply sf_leaf. Qed.
Lemma fenced_sf l o c st : Forall sf l -> sf (fenced l o c st).
Proof. intros H. apply sf_row. constructor; [apply fence_op_sf|]. apply Forall_app. split; [exact H|]. constructor; [apply fence_op_sf|constructor]. Qed.
Lemma infix_sf infix l : Forall sf l -> match infix with Some (num, _, _) => Forall sf num | None => True end -> Forall sf (infix_node infix l).
Proof.
  intros H K. destruct infix as [[[num w] dl]|]; [|exact H]. cbn [infix_node].
  assert (G : forall a b, sf (Frac (node_vec_to_node num false) (node_vec_to_node l false) a b None)) by (intros; apply sf_intro; [reflexivity|]; cbn [children]; fl; apply vec_sf; assumption).
  constructor; [|constructor]. destruct dl as [[| |]|]; try apply G; apply fenced_sf; (constructor; [apply G|constructor]).
Qed.
Lemma bounds_sf uo b n : sf n -> match b_sub b with Some m => sf m | None => True end -> match b_sup b with Some m => sf m | None => True end -> sf (wrap_bounds uo b n).
Proof. destruct b as [[a|] [c|]]; cbn [b_sub b_sup]; intros; unfold wrap_bounds, wrap_underover, wrap_subsup; cbn [b_sub b_sup]; destruct uo; try assumption; sft. Qed.
Lemma empty_sf : sf EMPTY_ROW.
Proof. now apply sf_leaf. Qed.
Lemma scripts_sf n b : sf n -> match b_sub b with Some m => sf m | None => True end -> match b_sup b with Some m => sf m | None => True end -> sf (with_scripts n b).
Proof.
  intros H S1 S2. assert (G : sf (scripted n (b_sub b) (b_sup b))) by (unfold scripted; destruct (b_sub b), (b_sup b); try assumption; sft).
  unfold with_scripts. destruct n; try exact G.
  destruct post; [|exact G]. destruct (bounds_trivial b); [exact H|]. pose proof (sf_children _ H) as C. cbn [children app] in C. apply sf_intro; [reflexivity|]. cbn [children app flat_map].
  inversion C; subst. constructor; [assumption|]. unfold bounds_pair. cbn [fst snd].
  constructor; [destruct (b_sub b); [assumption|apply empty_sf]|]. constructor; [destruct (b_sup b); [assumption|apply empty_sf]|]. assumption.
Qed.
Lemma class_node_sf n sp : sf n -> sf (class_node n sp).
Proof. intros H. unfold class_node. destruct n; try sft. destruct nodes, attrs as [[] [] []]; try sft. Qed.
Lemma overlay_sf o n m : overlay_node o n = Some m -> sf m.
Proof. destruct n; try discriminate; intros [= <-]; now apply sf_leaf. Qed.
Lemma arrow_sf st r prev next u n : match u with Some m => sf m | None => True end -> sf n -> sf (arrow_node st r prev next u n).
Proof.
  intros U N. assert (L : forall m, sf m -> sf (node_vec_to_node [LABEL_PAD; m; LABEL_PAD] false)) by (intros; apply vec_sf; fl; try assumption; now apply sf_leaf).
  assert (A : sf ARROW_SPACE) by now apply sf_leaf. assert (B : sf LABEL_SPACE) by now apply sf_leaf.
  unfold arrow_node. cbv zeta. apply sf_row. constructor; [exact A|]. constructor; [|now constructor].
  destruct u as [u|].
  - apply sf_intro; [reflexivity|]. cbn [children]. constructor; [apply op_sf|]. constructor; [|constructor; [|constructor]]; (apply sf_intro; [reflexivity|]; cbn [children]; constructor; [exact B|constructor; [now apply L|constructor]]).
  - apply sf_intro; [reflexivity|]. cbn [children]. constructor; [|constructor; [apply op_sf|constructor]]. apply sf_intro; [reflexivity|]; cbn [children]; constructor; [exact B|constructor; [now apply L|constructor]].
Qed.
Lemma primes_sf ks : Forall sf (prime_nodes ks).
Proof.
  apply Forall_flat_map, Forall_forall. intros [dir k] _. unfold primes_nodes. destruct (nth_error _ _); [fl; now apply sf_leaf|].
  constructor; [now apply sf_leaf|]. apply Forall_forall. intros n I. apply in_concat in I as (l & I1 & I2). apply repeat_spec in I1 as ->.
  destruct I2 as [<-|[<-|[]]]; now apply sf_leaf.
Qed.
Lemma construct_sf e content spec info rows border n : Forall separated content -> construct_node e content spec info rows border = Some n -> sf n.
Proof.
  intros F H.
  assert (T : forall m, is_sep m = false -> children m = content -> separated_here m -> sf m) by (intros m H1 H2 H3; split; [exact H1|]; apply separated_intro; [exact H3|now rewrite H2]).
  assert (K : forall al st b o c, sf (fenced [Table al st b content] o c None)) by (intros; apply fenced_sf; constructor; [|constructor]; now apply T).
  unfold construct_node in H. destruct e; try (injection H as <-); try (apply K); try (now apply T);
    (destruct spec; [|discriminate H]; injection H as <-; now apply T).
Qed.
Lemma sym_sf x a prev next t c n : sym_node x a prev next t = Some (c, n) -> sf n.
Proof.
  unfold sym_node. destruct t; try discriminate; try (now intros [= <- <-]; first [apply op_sf | apply sf_leaf]).
  all: intros H; try (destruct (cx_tf x) as [[|]|]; try destruct a); try discriminate; try injection H as <- <-.
  all: try (destruct (nth _ _ _); try discriminate H; injection H as <- <-).
  all: try (destruct (sc_string _) in H; [|discriminate H]; cbn [option_map] in H; injection H as <- <-).
  all: unfold letter, ord_node, paren_node; repeat match goal with |- context [match ?e with _ => _ end] => destruct e end; try apply op_sf; now apply sf_leaf.
Qed.

(** ** Formulas *)

Section Form.
Context (mean : str -> token) (usize_max : N).
Notation tok := (tok mean).
Notation den_item := (den_item mean usize_max).
Notation den_head := (den_head mean usize_max).
Notation den_arg := (den_arg mean usize_max).
Notation den_target := (den_target mean usize_max).
Notation den_mark := (den_mark mean usize_max).
Notation den_items := (den_items mean usize_max den_item).
Notation item_tidy := (item_tidy mean).
Notation list_tidy := (list_tidy mean).

Definition item_sf n := forall i, item_size i < n -> forall x pa prev next d c m d', item_tidy (cx_rows x) i = true ->
  den_item x pa prev next i d = Some ((c, m), d') -> sf m.
Definition arg_sf n := forall a, arg_size a < n -> forall x, arg_tidy mean (cx_rows x) a = true ->
  (forall pa prev d m d', den_arg x pa prev a d = Some (m, d') -> sf m) /\
  (forall pa prev next d c m d', den_target x pa prev next a d = Some ((c, m), d') -> sf m) /\
  (forall l after prev d ns d', a = ABracket l -> den_items x after prev [] None l d = Some (ns, d') -> Forall sf ns).

Lemma items_sep n : item_sf n -> forall l, items_size l < n -> forall x after prev acc infix d ns d' dir,
  placed mean (cx_rows x) dir l = true -> forallb (item_tidy (cx_rows x)) l = true ->
  (dir = true -> infix = None /\ existsb (infix_command mean) l = false) ->
  Forall separated acc -> (dir = false -> Forall (fun m => is_sep m = false) acc) -> match infix with Some (num, _, _) => Forall sf num | None => True end ->
  den_items x after prev acc infix l d = Some (ns, d') -> Forall separated ns /\ (dir = false -> Forall (fun m => is_sep m = false) ns).
Proof.
  intros IH. assert (Two : forall l : list node, Forall separated l -> Forall (fun m => is_sep m = false) l -> Forall sf l).
  { intros l A B. rewrite Forall_forall in *. intros m I. split; auto. }
  assert (Un : forall l : list node, Forall sf l -> Forall separated l /\ Forall (fun m => is_sep m = false) l).
  { intros l A. rewrite !Forall_forall in *. split; intros m I; apply (A m I). }
  (* the end of a sequence *)
  assert (End : forall acc infix dir ns, (dir = true -> infix = None) -> Forall separated acc -> (dir = false -> Forall (fun m => is_sep m = false) acc) ->
    match infix with Some (num, _, _) => Forall sf num | None => True end -> infix_node infix acc = ns -> Forall separated ns /\ (dir = false -> Forall (fun m => is_sep m = false) ns)).
  { intros acc infix dir ns D A B C <-. destruct dir.
    - rewrite (D eq_refl). now split.
    - destruct (Un _ (infix_sf infix acc (Two _ A (B eq_refl)) C)). now split. }
  induction l as [l IHl] using (induction_ltof1 _ (@length item)). unfold ltof in IHl.
  destruct l as [|i r]; intros L x after prev acc infix d ns d' dir P T Dir A B C H.
  { cbn [S_Formula.den_items] in H. injection H as <- <-. apply (End acc infix dir); try assumption; [intros E; now apply Dir|reflexivity]. }
  cbn [placed forallb] in P, T. apply andb_prop in P as [P1 P2]. apply andb_prop in T as [T1 T2]. unfold items_size in L. cbn [map list_sum] in L. unfold list_sum in L. cbn [fold_right] in L. fold (list_sum (map item_size r)) in L. fold (items_size r) in L. pose proof (item_size_pos i) as Pos.
  assert (L1 : items_size r < n) by (clear - L; lia). assert (L2 : item_size i < n) by (clear - L; lia).
  assert (L3 : length r < length (i :: r)) by (cbn [length]; clear; lia).
  assert (Dir' : dir = true -> infix = None /\ existsb (infix_command mean) r = false).
  { intros E. destruct (Dir E) as [D1 D2]. cbn [existsb] in D2. apply orb_false_iff in D2 as [_ D2]. now split. }
  (* more of the sequence *)
  assert (Go : forall y after' prev' m infix d0 dir', cx_rows y = cx_rows x -> placed mean (cx_rows x) dir' r = true -> (dir' = true -> infix = None /\ existsb (infix_command mean) r = false) ->
     (dir' = false -> Forall (fun m => is_sep m = false) m) -> Forall separated m -> match infix with Some (num, _, _) => Forall sf num | None => True end ->
     den_items y after' prev' m infix r d0 = Some (ns, d') -> Forall separated ns /\ (dir' = false -> Forall (fun m => is_sep m = false) ns)).
  { clear H. intros y after' prev' m infix' d0 dir' E Q1 Q2 Q3 Q4 Q5 Q6. apply (IHl r L3 L1 y after' prev' m infix' d0 ns d' dir'); try rewrite E; assumption. }
  assert (Weak : forall r dir b, placed mean (cx_rows x) (dir && b) r = true -> placed mean (cx_rows x) dir r = true).
  { clear. induction r as [|j r IH]; intros dir b H; [reflexivity|]. cbn [placed] in *. apply andb_prop in H as [H1 H2]. destruct b; rewrite ?andb_true_r, ?andb_false_r in *; [now rewrite H1, H2|]. rewrite orb_false_r in H1. rewrite H1. cbn [orb andb].
    apply (IH _ false). now rewrite andb_false_r. }
  assert (P3 : placed mean (cx_rows x) dir r = true) by (eapply Weak; exact P2).
  (* an atom *)
  assert (Atom : forall next d0, dbind (den_item x PaSequence prev next i) (fun cn => den_items x after (fst cn) (acc ++ [snd cn]) infix r) d0 = Some (ns, d') -> Forall separated ns /\ (dir = false -> Forall (fun m => is_sep m = false) ns)).
  { clear H. intros next d0 H0. apply dbind_some in H0 as ([c m] & d1 & H1 & H2). cbn [fst snd] in H2.
    assert (S1 : sf m) by (apply (IH i L2 x PaSequence prev next d0 c m d1); assumption). destruct S1 as [S1 S2].
    apply (Go x after c (acc ++ [m]) infix d1 dir); try assumption; [reflexivity|intros E; apply Forall_app; split; [now apply B|fl; assumption]|apply Forall_app; split; [exact A|fl; exact S2]]. }
  assert (More : forall y prev' d0, cx_rows y = cx_rows x -> den_items y after prev' acc infix r d0 = Some (ns, d') -> Forall separated ns /\ (dir = false -> Forall (fun m => is_sep m = false) ns)).
  { clear H. intros y prev' d0 E H0. apply (Go y after prev' acc infix d0 dir); assumption. }
  rewrite den_items_cons in H.
  destruct i as [h ms]; destruct h as [s args|s|w|w|o w c|e args w]; try (apply dguard_some in H as [_ H]; exact (Atom _ _ H)).
  assert (Sep : Forall separated (acc ++ [ColumnSeparator]) /\ forall a b, Forall separated (acc ++ [RowSeparator a b])).
  { split; [|intros a b]; (apply Forall_app; split; [exact A|]; fl; apply separated_intro; [constructor|constructor]). }
  unfold separator, switch, head_token in *. cbn [existsb] in Dir. unfold infix_command at 1, head_token in Dir.
  destruct (tok s) eqn:Et; try (apply dguard_some in H as [_ H]; exact (Atom _ _ H));
  try (repeat match type of H with dguard _ _ _ = _ => apply dguard_some in H as [_ H] end; exact (Atom _ _ H));
  try (destruct args as [|a args]; [|apply dguard_some in H as [_ H]; exact (Atom _ _ H)]; destruct ms as [|m ms]; [|apply dguard_some in H as [_ H]; exact (Atom _ _ H)]);
  try (destruct args as [|[]  [|]]; try (apply dguard_some in H as [_ H]; exact (Atom _ _ H)); destruct ms as [|m ms]; [|apply dguard_some in H as [_ H]; exact (Atom _ _ H)]).
  - (* NewColumn *) apply dguard_some in H as [_ H]. destruct dir; [|discriminate P1]. apply (Go x after ClClose (acc ++ [ColumnSeparator]) infix d true); try assumption; [reflexivity|discriminate|apply Sep].
  - (* NewLine *) destruct (cx_rows x) eqn:Ex.
    + destruct dir; [|discriminate P1]. apply dbind_some in H as ([info k] & d1 & _ & H). cbn [fst] in H.
      assert (Here : forall lt d0, den_items x after ClOpen (acc ++ [RowSeparator info lt]) infix r d0 = Some (ns, d') -> Forall separated ns /\ (true = false -> Forall (fun m => is_sep m = false) ns)).
      { clear H. intros lt d0 H. apply (Go x after ClOpen (acc ++ [RowSeparator info lt]) infix d0 true); try assumption; [discriminate|apply Sep]. }
      destruct r as [|j r']; [exact (Here _ _ H)|]. destruct (hline_of mean j) as [lt|] eqn:Eh; [|exact (Here _ _ H)].
      apply dguard_some in H as [_ H].
      assert (Q : placed mean true (true && negb (switch mean j)) r' = true /\ forallb (item_tidy true) r' = true /\ switch mean j = false).
      { clear H. cbn [placed] in P3. apply andb_prop in P3 as [_ P3]. cbn [forallb] in T2. apply andb_prop in T2 as [_ T2]. repeat split; try assumption.
        unfold hline_of in Eh. destruct j as [[s1 [|]| | | | |] [|]]; try discriminate. unfold switch, head_token, S_Formula.tok. now destruct (raw mean s1). }
      destruct Q as (Q1 & Q2 & Q3). rewrite Q3 in Q1. cbn [negb andb] in Q1. destruct (Dir' eq_refl) as [D1 D2]. cbn [existsb] in D2. apply orb_false_iff in D2 as [_ D2].
      unfold items_size in L1. cbn [map] in L1. change (list_sum (item_size j :: map item_size r')) with (item_size j + items_size r') in L1.
      refine (IHl r' _ _ x after ClOpen (acc ++ [RowSeparator info (Some lt)]) infix d1 ns d' true _ _ _ _ _ C H); try (rewrite Ex; assumption); [cbn [length]; clear; lia|clear - L1; lia|now intros _|apply Sep|discriminate].
    + refine (Go x after ClOpen (acc ++ [EMPTY_ROW]) infix d dir _ P3 Dir' _ _ C H); [exact Ex|intros E; apply Forall_app; split; [now apply B|now fl]|apply Forall_app; split; [exact A|fl; apply empty_sf]].
  - (* NoNumber *) apply dbind_some in H as (u & d1 & _ & H). exact (More _ _ _ eq_refl H).
  - (* Tag *) apply dbind_some in H as (u & d1 & _ & H). exact (More _ _ _ eq_refl H).
  - (* Label *) apply dbind_some in H as (u & d1 & _ & H). exact (More _ _ _ eq_refl H).
  - (* InfixGenFrac *) destruct infix as [f|]; [discriminate H|]. destruct dir; [now destruct (Dir eq_refl)|].
    refine (Go _ after prev [] (Some (acc, with_line, delim)) d false _ P3 _ _ _ _ H); [reflexivity|discriminate|constructor|constructor|]. now apply Two; [|apply B].
  - (* TransformSwitch *) refine (More _ _ _ _ H). reflexivity.
  - (* Style *) apply dguard_some in H as [_ H]. apply dbind_some in H as (rest & d1 & H1 & H). injection H as H <-. rewrite andb_false_r in P2.
    assert (S1 : Forall separated rest /\ (false = false -> Forall (fun m => is_sep m = false) rest)) by (refine (IHl r L3 L1 (with_style s0 x) after prev [] None d rest d1 false P2 T2 _ _ _ Logic.I H1); [discriminate|constructor|constructor]).
    destruct S1 as [S1 S2]. assert (S3 : forall a, sf (Row rest a)) by (intros a; apply sf_row, Two; [exact S1|exact (S2 eq_refl)]).
    refine (End _ infix dir ns _ _ _ C H); [intros E; now apply Dir|apply Forall_app; split; [exact A|fl; apply S3]|intros E; apply Forall_app; split; [now apply B|now fl]].
  - (* Color *)
    assert (Colored : forall (o : option (N * N * N)), ms = [] -> dguard (negb (cx_bracket x)) (dbind (dopt o) (fun c => dbind (den_items x after prev [] None r) (fun rest => dret (infix_node infix (acc ++ [Row rest (mkRowAttrs (Some c) None false)]))))) d = Some (ns, d') ->
      Forall separated ns /\ (dir = false -> Forall (fun m => is_sep m = false) ns)).
    { clear H. intros o Em H. subst ms. apply dguard_some in H as [_ H]. apply dbind_some in H as (col & d0 & _ & H). apply dbind_some in H as (rest & d1 & H1 & H). injection H as H <-. rewrite andb_false_r in P2.
      assert (S1 : Forall separated rest /\ (false = false -> Forall (fun m => is_sep m = false) rest)) by (refine (IHl r L3 L1 _ after prev [] None d0 rest d1 false P2 T2 _ _ _ Logic.I H1); [discriminate|constructor|constructor]).
      destruct S1 as [S1 S2]. assert (S3 : forall a, sf (Row rest a)) by (intros a; apply sf_row, Two; [exact S1|exact (S2 eq_refl)]).
      refine (End _ infix dir ns _ _ _ C H); [intros E; now apply Dir|apply Forall_app; split; [exact A|fl; apply S3]|intros E; apply Forall_app; split; [now apply B|now fl]]. }
    destruct args as [|[?|?|?|?|?|? ?] [|[?|?|?|?|?|? ?] [|? ?]]]; try (apply dguard_some in H as [_ H]; exact (Atom _ _ H)).
    + destruct ms as [|m ms]; [exact (Colored _ eq_refl H)|apply dguard_some in H as [_ H]; exact (Atom _ _ H)].
    + destruct ms as [|m ms]; [exact (Colored _ eq_refl H)|apply dguard_some in H as [_ H]; exact (Atom _ _ H)].
  - (* Relax *) exact (More _ _ _ eq_refl H).
Qed.

(** A sequence that is not the content of an environment. *)
Lemma list_sf n : item_sf n -> forall l, items_size l < n -> forall x after prev d ns d',
  list_tidy (item_tidy (cx_rows x)) (cx_rows x) false l = true -> den_items x after prev [] None l d = Some (ns, d') -> Forall sf ns.
Proof.
  intros IH l L x after prev d ns d' T H. apply andb_prop in T as [T1 T2].
  destruct (items_sep n IH l L x after prev [] None d ns d' false T1 T2) as [A B]; try assumption; try discriminate; try constructor.
  specialize (B eq_refl). rewrite Forall_forall in *. intros m I. split; auto.
Qed.
(** ... and one that is. *)
Lemma table_sf n : item_sf n -> forall l, items_size l < n -> forall x after prev d ns d',
  list_tidy (item_tidy (cx_rows x)) (cx_rows x) true l = true -> den_items x after prev [] None l d = Some (ns, d') -> Forall separated ns.
Proof.
  intros IH l L x after prev d ns d' T H. apply andb_prop in T as [T1 T2].
  refine (proj1 (items_sep n IH l L x after prev [] None d ns d' _ T1 T2 _ (Forall_nil _) (fun _ => Forall_nil _) Logic.I H)).
  intros E. split; [reflexivity|]. now destruct (existsb _ _).
Qed.

Lemma arg_step n : item_sf n -> arg_sf (S n).
Proof.
  intros IH a L x T. assert (G : forall l, arg_size (AGroup l) = S (items_size l)) by reflexivity.
  destruct a as [l|s|l|t|i|? ?].
  - rewrite G in L. assert (K : forall y after prev d ns d', cx_rows y = cx_rows x -> den_items y after prev [] None l d = Some (ns, d') -> Forall sf ns).
    { intros y after prev d ns d' E H. refine (list_sf n IH l _ y after prev d ns d' _ H); [clear - L; lia|]. rewrite E. exact T. }
    split; [|split].
    + intros pa prev d m d' H. rewrite den_arg_eq in H. apply dbind_some in H as (ns & d1 & H1 & H). injection H as <- _. apply vec_sf. refine (K _ _ _ _ _ _ _ H1). reflexivity.
    + intros pa prev next d c m d' H. rewrite den_target_eq in H. apply dbind_some in H as (ns & d1 & H1 & H). injection H as _ <- _. apply vec_sf. refine (K _ _ _ _ _ _ _ H1). reflexivity.
    + discriminate.
  - split; [|split]; [| |discriminate].
    + intros pa prev d m d' H. rewrite den_arg_eq in H. apply dbind_some in H as ([c m'] & d1 & H1 & H). apply dopt_some in H1 as [H1 _]. injection H as <- _. exact (sym_sf _ _ _ _ _ _ _ H1).
    + intros pa prev next d c m d' H. rewrite den_target_eq in H. apply dopt_some in H as [H _]. exact (sym_sf _ _ _ _ _ _ _ H).
  - split; [|split]; [intros pa prev d m d' H; rewrite den_arg_eq in H; discriminate H|intros pa prev next d c m d' H; rewrite den_target_eq in H; discriminate H|].
    intros l' after prev d ns d' [= <-] H. refine (list_sf n IH l _ x after prev d ns d' T H). change (S (items_size l) < S n) in L. clear - L. lia.
  - split; [|split; [|discriminate]]; [intros pa prev d m d' H; rewrite den_arg_eq in H; discriminate H|intros pa prev next d c m d' H; rewrite den_target_eq in H; discriminate H].
  - change (S (item_size i) < S n) in L. apply Nat.succ_lt_mono in L. split; [|split; [|discriminate]].
    + intros pa prev d m d' H. rewrite den_arg_eq in H. apply dguard_some in H as [_ H]. apply dbind_some in H as ([c m'] & d1 & H1 & H). injection H as <- _. exact (IH i L x _ _ _ _ _ _ _ T H1).
    + intros pa prev next d c m d' H. rewrite den_target_eq in H. apply dguard_some in H as [_ H]. exact (IH i L x _ _ _ _ _ _ _ T H).
  - split; [|split; [|discriminate]]; [intros pa prev d m d' H; rewrite den_arg_eq in H; discriminate H|intros pa prev next d c m d' H; rewrite den_target_eq in H; discriminate H].
Qed.
Lemma list_sum_in {A} (f : A -> nat) l a : In a l -> f a <= list_sum (map f l).
Proof. induction l as [|b l IH]; [easy|]. change (list_sum (map f (b :: l))) with (f b + list_sum (map f l)). intros [->|I]; [lia|]. specialize (IH I). lia. Qed.
(** The scripts of an atom. *)
Definition value_sf (v : mark_value) : Prop := match v with VSub n | VSup n => sf n | VLimits _ => True end.
Lemma mark_sf n : arg_sf n -> forall m, mark_size m < S n -> forall x, mark_tidy mean (cx_rows x) m = true -> forall d v d', den_mark x m d = Some (v, d') -> value_sf v.
Proof.
  intros IH m L x T d v d' H. rewrite den_mark_eq in H. cbv zeta in H.
  assert (K : forall a d0 e d1, arg_size a < n -> arg_tidy mean (cx_rows x) a = true -> den_arg (with_style (style_scriptify (cx_style x)) x) PaArg ClDefault a d0 = Some (e, d1) -> sf e).
  { clear H. intros a d0 e d1 L0 T0 H. destruct (IH a L0 (with_style (style_scriptify (cx_style x)) x) T0) as [K _]. exact (K _ _ _ _ _ H). }
  destruct m as [a|a|ps sup|s].
  - apply dbind_some in H as (e & d1 & H1 & H). injection H as <- _. refine (K a _ _ _ _ T H1). cbn [mark_size] in L. clear - L. lia.
  - apply dbind_some in H as (e & d1 & H1 & H). injection H as <- _. refine (K a _ _ _ _ T H1). cbn [mark_size] in L. clear - L. lia.
  - apply dbind_some in H as (ks & d0 & H0 & H). apply dguard_some in H as [_ H]. destruct sup as [a|].
    + apply dbind_some in H as (e & d1 & H1 & H). injection H as <- _. apply one_sf. apply Forall_app. split; [apply primes_sf|]. fl. refine (K a _ _ _ _ T H1). cbn [mark_size] in L. clear - L. lia.
    + injection H as <- _. apply one_sf, primes_sf.
  - destruct (tok s); try discriminate H. injection H as <- _. exact Logic.I.
Qed.
Lemma marks_sf n : arg_sf n -> forall ms, marks_size ms < S n -> forall x, forallb (mark_tidy mean (cx_rows x)) ms = true -> forall d vs d', values (den_mark x) ms d = Some (vs, d') -> Forall value_sf vs.
Proof.
  intros IH ms. induction ms as [|m ms IHm]; intros L x T d vs d' H.
  - injection H as <- _. constructor.
  - change (marks_size (m :: ms)) with (mark_size m + marks_size ms) in L. cbn [forallb] in T. apply andb_prop in T as [T1 T2]. cbn [values] in H.
    apply dbind_some in H as (v & d1 & H1 & H). apply dbind_some in H as (vs' & d2 & H2 & H). injection H as <- _.
    constructor; [refine (mark_sf n IH m _ x T1 _ _ _ H1); clear - L; lia|refine (IHm _ x T2 _ _ _ H2); clear - L; lia].
Qed.
Lemma scripts_of_sf vs b k : Forall value_sf vs -> scripts_of vs = Some (b, k) ->
  match b_sub b with Some m => sf m | None => True end /\ match b_sup b with Some m => sf m | None => True end.
Proof.
  intros F H. unfold scripts_of in H. destruct (_ && _); [|discriminate]. injection H as <- _. cbn [b_sub b_sup].
  assert (A : Forall sf (subs vs)) by (apply Forall_flat_map; eapply Forall_impl; [|exact F]; intros [e|e|e] Hv; cbn [value_sf] in Hv; fl; exact Hv).
  assert (B : Forall sf (sups vs)) by (apply Forall_flat_map; eapply Forall_impl; [|exact F]; intros [e|e|e] Hv; cbn [value_sf] in Hv; fl; exact Hv).
  assert (K : forall l, Forall sf l -> match hd_error l with Some m => sf m | None => True end) by (intros l []; [exact Logic.I|assumption]).
  split; now apply K.
Qed.

Lemma operator_sf x prev next t b k m : match b_sub b with Some e => sf e | None => True end -> match b_sup b with Some e => sf e | None => True end ->
  operator_node x prev next t b k = Some m -> sf m.
Proof.
  intros A B H. unfold operator_node in H. destruct t; try discriminate H;
  repeat match type of H with
  | context [op_cat ?o] => destruct (op_cat o); try discriminate H
  | context [let (_, _) := ?e in _] => destruct e
  end; injection H as <-; (apply bounds_sf; [now apply sf_leaf|exact A|exact B]).
Qed.
Lemma word_sf tf l m : word_node tf l = Some m -> sf m.
Proof.
  unfold word_node. destruct l as [|a [|b l]]; [discriminate|intros [= <-]; now apply sf_leaf|]. destruct (sc_string _); [|discriminate]. intros [= <-]. now apply sf_leaf.
Qed.
(** The parts of a meaning. *)
Ltac steps := repeat match goal with
  | H : dbind _ _ _ = Some _ |- _ => let a := fresh "v" in let d1 := fresh "d" in let H1 := fresh "H" in apply dbind_some in H as (a & d1 & H1 & H)
  | H : dguard _ _ _ = Some _ |- _ => apply dguard_some in H as [_ H]
  | H : dopt _ _ = Some (_, _) |- _ => apply dopt_some in H as [H _]
  | H : dret _ _ = Some _ |- _ => injection H; clear H; intros; subst
  end.
(** The arguments of a command. *)
Ltac opens := repeat match goal with
  | H : match ?args with [] => _ | _ :: _ => _ end _ = Some _ |- _ => destruct args; try discriminate H; steps
  | H : match ?a with AGroup _ => _ | ASym _ => _ | ABracket _ => _ | ALit _ => _ | AItem _ => _ | AScripts _ _ => _ end _ = Some _ |- _ => destruct a; try discriminate H; steps
  end.
Lemma head_step n : item_sf n -> arg_sf n -> forall h, head_size h < S n -> forall x p prev next d c m d', head_tidy mean (cx_rows x) h = true ->
  den_head x p prev next h d = Some ((c, m), d') -> sf m.
Proof.
  intros IH IHa h L x p prev next d c m d' T H.
  destruct h as [s args|s|l|l|o l cl|e args l].
  - (* a symbol *)
    change (head_size (HSym s args)) with (S (args_size args)) in L. change (forallb (arg_tidy mean (cx_rows x)) args = true) in T. rewrite forallb_forall in T.
    assert (K : forall a, In a args -> forall y, cx_rows y = cx_rows x ->
      (forall pa prev d m d', den_arg y pa prev a d = Some (m, d') -> sf m) /\
      (forall pa prev next d c m d', den_target y pa prev next a d = Some ((c, m), d') -> sf m) /\
      (forall l after prev d ns d', a = ABracket l -> den_items y after prev [] None l d = Some (ns, d') -> Forall sf ns)).
    { intros a I y E. apply IHa; [pose proof (list_sum_in arg_size args a I) as B; unfold args_size in L; clear - L B; lia|rewrite E; now apply T]. }
    rewrite den_sym_eq in H. cbv zeta in H. clear T L.
    assert (In1 : forall (a : arg) r, In a (a :: r)) by (intros; now left).
    assert (In2 : forall (a b : arg) r, In b (a :: b :: r)) by (intros; right; now left).
    assert (In3 : forall (a b e : arg) r, In e (a :: b :: e :: r)) by (intros; right; right; now left).
    assert (In5 : forall (a b e f g : arg) r, In g (a :: b :: e :: f :: g :: r)) by (intros; do 4 right; now left).
    assert (In6 : forall (a b e f g h : arg) r, In h (a :: b :: e :: f :: g :: h :: r)) by (intros; do 5 right; now left).
    destruct (tok s) eqn:Et;
      try (destruct args as [|a args]; [|discriminate H]; destruct (word_char (cx_tf x) (raw mean s)); [discriminate H|]; apply dopt_some in H as [H _]; exact (sym_sf _ _ _ _ _ _ _ H)).
    all: steps; opens.
    all: try (destruct (word_char (cx_tf x) (raw mean s)); discriminate H).
    all: repeat match goal with
      | H1 : S_Formula.den_arg _ _ ?y _ _ ?a _ = Some (?v, _) |- _ =>
          assert (sf v) by (refine (proj1 (K a _ y eq_refl) _ _ _ _ _ H1); first [apply In1 | apply In2 | apply In3 | apply In5 | apply In6]); clear H1
      | H1 : S_Formula.den_target _ _ ?y _ _ _ ?a _ = Some (?v, _) |- _ =>
          let c1 := fresh "c" in let n1 := fresh "n" in destruct v as [c1 n1]; cbn [fst snd] in *;
          assert (sf n1) by (refine (proj1 (proj2 (K a _ y eq_refl)) _ _ _ _ _ _ _ H1); first [apply In1 | apply In2 | apply In3 | apply In5 | apply In6]); clear H1
      | H1 : S_Formula.den_items _ _ _ (in_bracket true ?y) _ _ _ _ ?l _ = Some (?v, _) |- _ =>
          assert (Forall sf v) by (refine (proj2 (proj2 (K (ABracket l) _ (in_bracket true y) eq_refl)) _ _ _ _ _ _ eq_refl H1); first [apply In1 | apply In2 | apply In3 | apply In5 | apply In6]); clear H1
      end.
    all: try assumption; try (apply fenced_sf; fl; sft); try (apply arrow_sf; [first [exact Logic.I | now apply vec_sf]|assumption]); try (sft; fail).
    + (* Sqrt *) apply sf_intro; [reflexivity|]. cbn [children]. fl; [now apply vec_sf|assumption].
    + (* CustomSpace *) destruct (parse_length_specification _) as [[[ln ok] im]|]; [|discriminate H]. steps. now apply sf_leaf.
    + (* Big *) destruct (big_spacing _ _ _ _ _) as [at1 sp]. steps. now apply sf_leaf.
    + (* Accent *) destruct is_over; sft.
    + (* Op *) destruct (op_cat o); try discriminate H. destruct (op_limits _ _ _). steps. now apply sf_leaf.
    + (* MathClass *) destruct (class_spacing _ _ _ _ _) as [c1 sp]. steps. now apply class_node_sf.
    + (* Overlay *) match goal with E : overlay_node _ _ = Some _ |- _ => exact (overlay_sf _ _ _ E) end.
    + (* Text *) destruct s1; now apply sf_leaf.
    + (* Phantom *) assert (sf (Phantom v)) by sft. destruct k; [assumption| |]; sft.
    + (* RaiseBox *) destruct (parse_length_specification _) as [[[ln u] [|]]|]; try discriminate H. steps. unfold raised_text. destruct s1; [apply empty_sf|]. destruct (set_eqb _ _); [now apply sf_leaf|].
      assert (sf (Text None None (text_of (n0 :: s1)))) by now apply sf_leaf. sft.
  - rewrite den_num_eq in H. steps. now apply sf_leaf.
  - rewrite den_word_eq in H. steps. exact (word_sf _ _ _ H1).
  - rewrite den_group_eq in H. steps. apply vec_sf. refine (list_sf n IH l _ (in_bracket false x) _ _ _ _ _ T H0). change (head_size (HGroup l)) with (S (items_size l)) in L. clear - L. lia.
  - rewrite den_fence_eq in H. destruct (mean (lit "left")); try discriminate H. destruct (mean (lit "right")); try discriminate H. destruct (fence_of mean o); [|discriminate H]. destruct (fence_of mean cl); [|discriminate H]. steps.
    apply fenced_sf. refine (list_sf n IH l _ (in_bracket false x) _ _ _ _ _ T H0). change (head_size (HFence o l cl)) with (S (items_size l)) in L. clear - L. lia.
  - rewrite den_env_eq in H. apply dbind_some in H as (v & d0 & H0 & H). cbv zeta in H. apply dguard_some in H as [_ H]. change (list_tidy (item_tidy (has_rows e)) (has_rows e) true l = true) in T.
    change (head_size (HEnv e args l)) with (S (args_size args + items_size l)) in L. assert (L1 : items_size l < n) by (clear - L; lia). clear L.
    assert (K : forall border l0 d0, items_size l0 < n -> list_tidy (item_tidy (has_rows e)) (has_rows e) true l0 = true ->
      dbind (new_rows e (dbind (den_items (in_env e x) ClEnd ClOpen [] None l0) (fun ns => dbind (end_row usize_max true) (fun info => dret (ns, info)))))
        (fun r => dbind (dopt (construct_node e (fst r) (option_map (fun c => mkArraySpec (as_border_left c) border (match e with ESubarray => true | _ => as_is_sub c end) (as_columns c)) v)
                                              (fst (snd r)) (snd (snd r)) border)) (fun n => dret (ClClose, n))) d0 = Some ((c, m), d') -> sf m).
    { clear H L1 T. intros border l0 d1 L0 T H. apply dbind_some in H as ([ns [info rows]] & d2 & H1 & H). cbn [fst snd] in H. steps.
      unfold new_rows in H1. match type of H1 with match ?q with _ => _ end = _ => destruct q as [[r3 d3]|] eqn:Eq; [|discriminate H1] end. injection H1 as -> _. steps.
      refine (construct_sf _ _ _ _ _ _ _ _ H2). refine (table_sf n IH l0 L0 (in_env e x) _ _ _ _ _ T _). eassumption. }
    destruct l as [|i rest]; [exact (K _ _ _ L1 T H)|]. destruct (hline_of mean i) as [lt|] eqn:Eh; [|exact (K _ _ _ L1 T H)].
    apply dguard_some in H as [_ H]. refine (K _ _ _ _ _ H).
    + change (items_size (i :: rest)) with (item_size i + items_size rest) in L1. clear - L1. lia.
    + apply andb_prop in T as [T1 T2]. cbn [forallb] in T2. apply andb_prop in T2 as [_ T2]. unfold S_Tidy.list_tidy. rewrite T2, andb_true_r. cbn [placed existsb] in T1. apply andb_prop in T1 as [_ T1].
      assert (Q : switch mean i = false /\ infix_command mean i = false).
      { clear - Eh. unfold hline_of in Eh. destruct i as [[s1 [|]| | | | |] [|]]; try discriminate. unfold switch, infix_command, head_token, S_Formula.tok. now destruct (raw mean s1). }
      destruct Q as [Q1 Q2]. rewrite Q1, Q2 in T1. cbn [negb orb] in T1. now rewrite andb_true_r in T1.
Qed.

Lemma side_sf x prev next b1 ns1 b2 ns2 o b k : match b_sub b1 with Some e => sf e | None => True end -> match b_sup b1 with Some e => sf e | None => True end ->
  match b_sub b2 with Some e => sf e | None => True end -> match b_sup b2 with Some e => sf e | None => True end -> Forall sf ns1 -> Forall sf ns2 ->
  match b_sub b with Some e => sf e | None => True end -> match b_sup b with Some e => sf e | None => True end -> sf (side_node x prev next (b1, ns1) (b2, ns2) o b k).
Proof.
  intros A1 A2 B1 B2 F1 F2 C1 C2. unfold side_node. cbn [fst snd].
  set (base := op_node _ _ _). assert (Sb : sf base) by now apply sf_leaf. set (inner := match ns1 with [] => base | _ :: _ => _ end). assert (Si : sf inner) by (unfold inner; destruct ns1; [exact Sb|apply sf_row, Forall_app; split; [exact F1|fl; exact Sb]]).
  assert (K : forall q, match b_sub q with Some e => sf e | None => True end -> match b_sup q with Some e => sf e | None => True end -> sf (fst (corner q)) /\ sf (snd (corner q))).
  { intros q Q1 Q2. unfold corner. cbn [fst snd]. split; [destruct (b_sub q)|destruct (b_sup q)]; try assumption; apply empty_sf. }
  assert (Sm : sf (Multiscripts inner [corner b1] [corner b2])). { destruct (K b1 A1 A2), (K b2 B1 B2). apply sf_intro; [reflexivity|]. cbn [children app flat_map]. fl; assumption. }
  apply bounds_sf; [|exact C1|exact C2]. destruct ns2; [exact Sm|]. apply sf_row. now constructor.
Qed.
Lemma item_step n : item_sf n -> arg_sf n -> item_sf (S n).
Proof.
  intros IH IHa [h ms] L x p prev next d c m d' T H. change (item_size (Item h ms)) with (S (head_size h + marks_size ms)) in L.
  change (head_tidy mean (cx_rows x) h && forallb (mark_tidy mean (cx_rows x)) ms = true) in T. apply andb_prop in T as [T1 T2].
  assert (L1 : head_size h < S n) by (clear - L; lia). assert (L2 : marks_size ms < S n) by (clear - L; lia). clear L.
  rewrite den_item_eq in H. cbv zeta in H.
  assert (Put : forall vs d0 c0 m0 d1, Forall value_sf vs -> sf m0 ->
    dbind (dopt (scripts_of vs)) (fun b => match snd b with None => dret (c0, with_scripts m0 (fst b)) | Some _ => dnone end) d0 = Some ((c, m), d1) -> sf m).
  { clear H. intros vs d0 c0 m0 d1 F S1 H. steps. destruct v as [b [k|]]; cbn [fst snd] in H; [discriminate H|]. steps. destruct (scripts_of_sf _ _ _ F H0). now apply scripts_sf. }
  assert (Marks : forall d0 vs d1, values (den_mark x) ms d0 = Some (vs, d1) -> Forall value_sf vs) by (intros d0 vs d1; exact (marks_sf n IHa ms L2 x T2 d0 vs d1)).
  assert (Atom : dbind (den_head x p prev (class_ahead (flat_map (mark_toks mean) ms) next) h) (fun cn => dbind (values (den_mark x) ms) (fun vs =>
     dbind (dopt (scripts_of vs)) (fun b => match snd b with None => dret (fst cn, with_scripts (snd cn) (fst b)) | Some _ => dnone end))) d = Some ((c, m), d') -> sf m).
  { clear H. intros H. apply dbind_some in H as ([c1 m1] & d1 & H1 & H). apply dbind_some in H as (vs & d2 & H2 & H). cbn [fst snd] in H. refine (Put _ _ _ _ _ (Marks _ _ _ H2) _ H). exact (head_step n IH IHa h L1 x _ _ _ _ _ _ _ T1 H1). }
  destruct h as [s args|s|l|l|o l cl|e args l]; try exact (Atom H).
  destruct (operator_of (tok s) args) as [t|].
  - clear Atom Put. steps. destruct v0 as [b k]. cbn [fst snd] in *. destruct (scripts_of_sf _ _ _ (Marks _ _ _ H0) H1) as [B1 B2]. exact (operator_sf _ _ _ _ _ _ _ B1 B2 H2).
  - assert (Lone : forall (mk : node -> mark_value) a, (forall n0, sf n0 -> value_sf (mk n0)) -> args = [a] ->
      dbind (den_arg (with_style (style_scriptify (cx_style x)) x) PaArg ClDefault a) (fun n0 => dbind (values (den_mark x) ms) (fun vs => dbind (dopt (no_limits (mk n0 :: vs))) (fun b => dret (ClDefault, wrap_subsup b EMPTY_ROW)))) d = Some ((c, m), d') -> sf m).
    { clear H Atom Put. intros mk a M -> H. apply dbind_some in H as (n0 & d1 & H1 & H). apply dbind_some in H as (vs & d2 & H2 & H). apply dbind_some in H as (b & d3 & H3 & H). apply dopt_some in H3 as [H3 ->]. injection H as _ <- _.
      assert (Sn : sf n0). { change (head_size (HSym s [a])) with (S (arg_size a + 0)) in L1. change (arg_tidy mean (cx_rows x) a && true = true) in T1. rewrite andb_true_r in T1. refine (proj1 (IHa a _ (with_style (style_scriptify (cx_style x)) x) T1) _ _ _ _ _ H1). clear - L1. lia. }
      unfold no_limits in H3. destruct (scripts_of (mk n0 :: vs)) as [[b' [?|]]|] eqn:V; try discriminate H3. injection H3 as ->.
      destruct (scripts_of_sf _ _ _ (Forall_cons _ (M _ Sn) (Marks _ _ _ H2)) V) as [B1 B2]. exact (bounds_sf false b EMPTY_ROW empty_sf B1 B2). }
    destruct (tok s) eqn:Et; try exact (Atom H);
      try (match type of Et with _ = T_Underscore => idtac | _ = T_Circumflex => idtac end; destruct args as [|a [|? ?]]; [exact (Atom H)| |exact (Atom H)]; first [exact (Lone VSub a (fun _ q => q) eq_refl H)|exact (Lone VSup a (fun _ q => q) eq_refl H)]).
    { (* Sideset *)
      destruct args as [|[?|?|?|?|?|m1 l1] args]; try exact (Atom H). destruct args as [|[?|?|?|?|?|m2 l2] args]; try exact (Atom H). destruct args as [|o [|? ?]]; try exact (Atom H). clear Atom Put.
      change (head_size (HSym s [AScripts m1 l1; AScripts m2 l2; o])) with (S (S (marks_size m1 + items_size l1) + (S (marks_size m2 + items_size l2) + (arg_size o + 0)))) in L1.
      assert (Q : (marks_size m1 < S n /\ items_size l1 < n) /\ (marks_size m2 < S n /\ items_size l2 < n)) by (clear - L1; lia). destruct Q as [[Q1 Q2] [Q3 Q4]]. clear L1.
      change ((forallb (mark_tidy mean (cx_rows x)) m1 && list_tidy (item_tidy (cx_rows x)) (cx_rows x) false l1) && ((forallb (mark_tidy mean (cx_rows x)) m2 && list_tidy (item_tidy (cx_rows x)) (cx_rows x) false l2) && (arg_tidy mean (cx_rows x) o && true)) = true) in T1.
      apply andb_prop in T1 as [T1 T3]. apply andb_prop in T1 as [T1 T4]. apply andb_prop in T3 as [T3 _]. apply andb_prop in T3 as [T3 T5].
      apply dbind_some in H as (vs1 & d1 & H1 & H). apply dbind_some in H as (b1 & d2 & H2 & H). apply dopt_some in H2 as [H2 ->]. apply dbind_some in H as (ns1 & d2 & H3 & H).
      apply dbind_some in H as (vs2 & d3 & H4 & H). apply dbind_some in H as (b2 & d4 & H5 & H). apply dopt_some in H5 as [H5 ->]. apply dbind_some in H as (ns2 & d4 & H6 & H).
      apply dbind_some in H as (oo & d5 & H7 & H). apply dopt_some in H7 as [H7 ->]. apply dbind_some in H as (vs & d5 & H8 & H). apply dbind_some in H as ([b k] & d6 & H9 & H). apply dopt_some in H9 as [H9 ->]. injection H as _ <- _. cbn [fst snd].
      unfold no_limits in H2, H5. destruct (scripts_of vs1) as [[b1' [?|]]|] eqn:V1; try discriminate H2. injection H2 as ->. destruct (scripts_of vs2) as [[b2' [?|]]|] eqn:V2; try discriminate H5. injection H5 as ->.
      destruct (scripts_of_sf _ _ _ (marks_sf n IHa m1 Q1 x T1 _ _ _ H1) V1), (scripts_of_sf _ _ _ (marks_sf n IHa m2 Q3 x T3 _ _ _ H4) V2), (scripts_of_sf _ _ _ (Marks _ _ _ H8) H9).
      apply side_sf; try assumption; [exact (list_sf n IH l1 Q2 (in_bracket false x) _ _ _ _ _ T4 H3)|exact (list_sf n IH l2 Q4 (in_bracket false x) _ _ _ _ _ T5 H6)]. }
    destruct args as [|a [|? ?]]; try exact (Atom H). clear Atom.
    apply dbind_some in H as (t & d1 & H1 & H).
    assert (St : sf t). { change (head_size (HSym s [a])) with (S (arg_size a + 0)) in L1. change (arg_tidy mean (cx_rows x) a && true = true) in T1. rewrite andb_true_r in T1. refine (proj1 (IHa a _ x T1) _ _ _ _ _ H1). clear - L1. lia. }
    assert (Sb : sf ((if is_over then OverAccent else UnderAccent) (ord_as_op o) A_EMPTY t)) by (destruct is_over; sft).
    assert (Base : dbind (values (den_mark x) ms) (fun vs => dbind (dopt (scripts_of vs)) (fun b => match snd b with None => dret (ClDefault, with_scripts ((if is_over then OverAccent else UnderAccent) (ord_as_op o) A_EMPTY t) (fst b)) | Some _ => dnone end)) d1 = Some ((c, m), d') -> sf m).
    { clear H. intros H. apply dbind_some in H as (vs & d2 & H2 & H). exact (Put _ _ _ _ _ (Marks _ _ _ H2) Sb H). }
    assert (Rest : forall e0 rest (f : node -> node -> node), (ms = FSup e0 :: rest \/ ms = FSub e0 :: rest) -> (forall p q, sf p -> sf q -> sf (f p q)) ->
      dbind (den_arg x PaArg ClDefault e0) (fun n0 => dbind (values (den_mark x) rest) (fun vs => dbind (dopt (scripts_of vs)) (fun b => match snd b with
         None => dret (ClDefault, with_scripts (f n0 ((if is_over then OverAccent else UnderAccent) (ord_as_op o) A_EMPTY t)) (fst b)) | Some _ => dnone end))) d1 = Some ((c, m), d') -> sf m).
    { clear H Base. intros e0 rest f E F H. apply dbind_some in H as (n0 & d2 & H2 & H). apply dbind_some in H as (vs & d3 & H3 & H).
      assert (Q : arg_size e0 < n /\ marks_size rest < S n /\ arg_tidy mean (cx_rows x) e0 = true /\ forallb (mark_tidy mean (cx_rows x)) rest = true).
      { clear H H2 H3 Put Marks. assert (W : S (arg_size e0) + marks_size rest < S n /\ (arg_tidy mean (cx_rows x) e0 && forallb (mark_tidy mean (cx_rows x)) rest = true)) by (destruct E as [-> | ->]; split; assumption).
        destruct W as [W1 W2]. apply andb_prop in W2 as [W2 W3]. split; [clear - W1; lia|]. split; [clear - W1; lia|]. now split. }
      destruct Q as (Q1 & Q2 & Q3 & Q4). refine (Put _ _ _ _ _ (marks_sf n IHa rest Q2 x Q4 _ _ _ H3) _ H). apply F; [|exact Sb]. exact (proj1 (IHa e0 Q1 x Q3) _ _ _ _ _ H2). }
    clear Put Marks. destruct ms as [|[e0|e0|ps sup|ls] rest]; try exact (Base H); destruct is_over; try exact (Base H).
    + refine (Rest e0 rest Under (or_intror eq_refl) _ H). intros p0 q0 Hp Hq. sft.
    + refine (Rest e0 rest Over (or_introl eq_refl) _ H). intros p0 q0 Hp Hq. sft.
Qed.
Lemma all_sf n : item_sf n /\ arg_sf n.
Proof.
  induction n as [|n [A B]]; [split; intros a L; exfalso; clear - L; lia|]. split; [now apply item_step|now apply arg_step].
Qed.
Theorem tidy_separated x l d ns d' : cx_rows x = false -> formula_tidy mean l = true -> den mean usize_max x l d = Some (ns, d') -> all_separated ns.
Proof.
  intros E T H. destruct (all_sf (S (items_size l))) as [A _]. refine (list_sf _ A l (Nat.lt_succ_diag_r _) x _ _ _ _ _ _ H). rewrite E. exact T.
Qed.
End Form.
