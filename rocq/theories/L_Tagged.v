(** The tags in the trees of formulas are those of their numbered environments. *)
From Verif Require Import Str M_SuperChar M_Transform M_Length M_Spec M_Ast M_Token M_Symbols M_Commands M_Env M_Emit M_Output
  M_LatexError M_Lexer M_CustomCmds M_Queue M_Spacing M_Colors M_Leaf M_TextParser M_Parser
  S_Node S_Emit S_Env S_Queue S_Scripts S_Formula S_Valid S_Tidy S_Tagged L_FormEq L_Form L_WinLeaf L_Tidy.
Local Open Scope nat_scope.

(** ** Trees *)

Definition own_tag (n : node) : list row_label_info :=
  match n with RowSeparator i _ | EquationArray _ i _ | MultLine _ i _ => one_tag i | _ => [] end.
Lemma tags_eq n : tags n = flat_map tags (children n) ++ own_tag n.
Proof.
  destruct n; cbn [tags children own_tag flat_map]; rewrite ?app_nil_r, <- ?app_assoc; try reflexivity.
  f_equal. assert (H : forall l : list (node * node), flat_map (fun p : node * node => let (c, d) := p in tags c ++ tags d) l = flat_map tags (flat_map (fun p => [fst p; snd p]) l)).
  { induction l as [|[c d] l IH]; [reflexivity|]. cbn [flat_map app fst snd]. rewrite IH. now rewrite <- app_assoc. }
  now rewrite !H, <- flat_map_app, <- flat_map_app.
Qed.
Definition unt (n : node) : Prop := tags n = [].
Lemma unt_all l : Forall unt l -> flat_map tags l = [].
Proof. induction 1 as [|n l H _ IH]; [reflexivity|]. cbn [flat_map]. now rewrite H, IH. Qed.
Lemma unt_intro n : own_tag n = [] -> Forall unt (children n) -> unt n.
Proof. intros H F. unfold unt. rewrite tags_eq, H, unt_all by exact F. reflexivity. Qed.
Lemma all_unt l : flat_map tags l = [] -> Forall unt l.
Proof. induction l as [|n l IH]; intros H; [constructor|]. cbn [flat_map] in H. apply app_eq_nil in H as [H1 H2]. constructor; [exact H1|auto]. Qed.
Lemma unt_children n : unt n -> Forall unt (children n).
Proof. intros H. unfold unt in H. rewrite tags_eq in H. apply app_eq_nil in H as [H _]. now apply all_unt. Qed.
Ltac unt := apply unt_intro; [reflexivity|cbn [children]; repeat first [assumption | apply Forall_nil | apply Forall_cons]].
Lemma unt_leaf n : own_tag n = [] -> children n = [] -> unt n.
Proof. intros H E. apply unt_intro; [exact H|]. rewrite E. constructor. Qed.
Lemma tags_row l a : tags (Row l a) = flat_map tags l.
Proof. reflexivity. Qed.
Lemma vec_tags l b : tags (node_vec_to_node l b) = flat_map tags l.
Proof.
  unfold node_vec_to_node. destruct l as [|n [|m l]]; try reflexivity. cbn [flat_map]. rewrite app_nil_r.
  destruct b; [|reflexivity]. now destruct n.
Qed.
Lemma vec_unt l b : Forall unt l -> unt (node_vec_to_node l b).
Proof. intros H. unfold unt. rewrite vec_tags. now apply unt_all. Qed.
Lemma one_unt l : Forall unt l -> unt (one_or_row l).
Proof. intros H. unfold one_or_row. destruct l as [|n [|m l]]; try (apply unt_all; exact H). now inversion H. Qed.
Lemma fence_op_tags o : tags (fence_operator o) = [].
Proof. unfold fence_operator. now destruct o. Qed.
Lemma fenced_tags l o c st : tags (fenced l o c st) = flat_map tags l.
Proof. unfold fenced. rewrite tags_row. cbn [flat_map]. rewrite fence_op_tags, flat_map_app. cbn [flat_map]. rewrite fence_op_tags. now rewrite !app_nil_r. Qed.
Lemma infix_tags infix l : flat_map tags (infix_node infix l) = match infix with Some (num, _, _) => flat_map tags num | None => [] end ++ flat_map tags l.
Proof.
  destruct infix as [[[num w] dl]|]; [|reflexivity]. cbn [infix_node].
  assert (G : forall a b, tags (Frac (node_vec_to_node num false) (node_vec_to_node l false) a b None) = flat_map tags num ++ flat_map tags l) by (intros; cbn [tags]; now rewrite !vec_tags).
  cbn [flat_map]. rewrite app_nil_r. destruct dl as [[| |]|]; try apply G; rewrite fenced_tags; cbn [flat_map]; rewrite app_nil_r; apply G.
Qed.
Definition bounds_unt (b : bounds) : Prop := match b_sub b with Some m => unt m | None => True end /\ match b_sup b with Some m => unt m | None => True end.
Lemma wrap_unt uo b n : unt n -> bounds_unt b -> unt (wrap_bounds uo b n).
Proof. unfold bounds_unt. destruct b as [[a|] [c|]]; cbn [b_sub b_sup]; intros H [H1 H2]; unfold wrap_bounds, wrap_underover, wrap_subsup; cbn [b_sub b_sup]; destruct uo; try assumption; unt. Qed.
Lemma scripts_tags n b : bounds_unt b -> tags (with_scripts n b) = tags n.
Proof.
  intros [S1 S2]. assert (G : tags (scripted n (b_sub b) (b_sup b)) = tags n).
  { unfold scripted. destruct (b_sub b) as [p|], (b_sup b) as [q|]; cbn [tags]; rewrite ?S1, ?S2, ?app_nil_r; reflexivity. }
  unfold with_scripts. destruct n; try exact G.
  destruct post; [|exact G]. destruct (bounds_trivial b); [reflexivity|]. cbn [tags flat_map]. unfold bounds_pair.
  assert (E1 : tags (match b_sub b with Some m => m | None => EMPTY_ROW end) = []) by (destruct (b_sub b); [exact S1|reflexivity]).
  assert (E2 : tags (match b_sup b with Some m => m | None => EMPTY_ROW end) = []) by (destruct (b_sup b); [exact S2|reflexivity]).
  now rewrite E1, E2.
Qed.
Lemma scripts_unt n b : unt n -> bounds_unt b -> unt (with_scripts n b).
Proof. intros H B. unfold unt. now rewrite scripts_tags. Qed.
Lemma class_node_unt n sp : unt n -> unt (class_node n sp).
Proof. intros H. unfold class_node. destruct n; try exact H; try unt. destruct nodes, attrs as [[] [] []]; try unt. Qed.
Lemma overlay_unt o n m : overlay_node o n = Some m -> unt m.
Proof. destruct n; try discriminate; intros [= <-]; now apply unt_leaf. Qed.
Lemma arrow_unt st r prev next u n : match u with Some m => unt m | None => True end -> unt n -> unt (arrow_node st r prev next u n).
Proof.
  intros U N. assert (L : forall m, unt m -> unt (node_vec_to_node [LABEL_PAD; m; LABEL_PAD] false)) by (intros; apply vec_unt; fl; try assumption; now apply unt_leaf).
  assert (A : unt ARROW_SPACE) by now apply unt_leaf. assert (B : unt LABEL_SPACE) by now apply unt_leaf.
  assert (O : forall o a sp, unt (op_node o a sp)) by (intros; now apply unt_leaf).
  unfold arrow_node. cbv zeta. apply unt_intro; [reflexivity|]. cbn [children]. constructor; [exact A|]. constructor; [|now constructor].
  destruct u as [u|].
  - apply unt_intro; [reflexivity|]. cbn [children]. constructor; [apply O|]. constructor; [|constructor; [|constructor]]; (apply unt_intro; [reflexivity|]; cbn [children]; constructor; [exact B|constructor; [now apply L|constructor]]).
  - apply unt_intro; [reflexivity|]. cbn [children]. constructor; [|constructor; [apply O|constructor]]. apply unt_intro; [reflexivity|]; cbn [children]; constructor; [exact B|constructor; [now apply L|constructor]].
Qed.
Lemma primes_unt ks : Forall unt (prime_nodes ks).
Proof.
  apply Forall_flat_map, Forall_forall. intros [dir k] _. unfold primes_nodes. destruct (nth_error _ _); [fl; now apply unt_leaf|].
  constructor; [now apply unt_leaf|]. apply Forall_forall. intros n I. apply in_concat in I as (l & I1 & I2). apply repeat_spec in I1 as ->.
  destruct I2 as [<-|[<-|[]]]; now apply unt_leaf.
Qed.
Lemma construct_unt e content spec rows border n : numbered e = false -> Forall unt content -> construct_node e content spec None rows border = Some n -> unt n.
Proof.
  intros E F H. unfold unt.
  assert (T : forall m, own_tag m = [] -> children m = content -> tags m = []) by (intros m H1 H2; apply unt_intro; [exact H1|now rewrite H2]).
  assert (K : forall al st b o c, tags (fenced [Table al st b content] o c None) = []) by (intros; rewrite fenced_tags; cbn [flat_map]; rewrite app_nil_r; now apply T).
  unfold construct_node in H. destruct e; try discriminate E; try (injection H as <-); try (apply K); try (now apply T);
    (destruct spec; [|discriminate H]; injection H as <-; now apply T).
Qed.
Lemma construct_tags e content spec info rows border n : numbered e = true -> construct_node e content spec info rows border = Some n -> tags n = flat_map tags content ++ one_tag info.
Proof. intros E H. unfold construct_node in H. destruct e; try discriminate E; injection H as <-; reflexivity. Qed.
Lemma sym_unt x a prev next t c n : sym_node x a prev next t = Some (c, n) -> unt n.
Proof.
  unfold sym_node. destruct t; try discriminate; try (now intros [= <- <-]; apply unt_leaf).
  all: intros H; try (destruct (cx_tf x) as [[|]|]; try destruct a); try discriminate; try injection H as <- <-.
  all: try (destruct (nth _ _ _); try discriminate H; injection H as <- <-).
  all: try (destruct (sc_string _) in H; [|discriminate H]; cbn [option_map] in H; injection H as <- <-).
  all: unfold letter, ord_node, paren_node; repeat match goal with |- context [match ?e with _ => _ end] => destruct e end; now apply unt_leaf.
Qed.
Definition value_unt (v : mark_value) : Prop := match v with VSub n | VSup n => unt n | VLimits _ => True end.
Lemma scripts_of_unt vs b k : Forall value_unt vs -> scripts_of vs = Some (b, k) -> bounds_unt b.
Proof.
  intros F H. unfold scripts_of in H. destruct (_ && _); [|discriminate]. injection H as <- _. unfold bounds_unt. cbn [b_sub b_sup].
  assert (A : Forall unt (subs vs)) by (apply Forall_flat_map; eapply Forall_impl; [|exact F]; intros [e|e|e] Hv; cbn [value_unt] in Hv; fl; exact Hv).
  assert (B : Forall unt (sups vs)) by (apply Forall_flat_map; eapply Forall_impl; [|exact F]; intros [e|e|e] Hv; cbn [value_unt] in Hv; fl; exact Hv).
  assert (K : forall l, Forall unt l -> match hd_error l with Some m => unt m | None => True end) by (intros l []; [exact Logic.I|assumption]).
  split; now apply K.
Qed.
Lemma operator_unt x prev next t b k m : bounds_unt b -> operator_node x prev next t b k = Some m -> unt m.
Proof.
  intros B H. unfold operator_node in H. destruct t; try discriminate H;
  repeat match type of H with
  | context [op_cat ?o] => destruct (op_cat o); try discriminate H
  | context [let (_, _) := ?e in _] => destruct e
  end; injection H as <-; (apply wrap_unt; [now apply unt_leaf|exact B]).
Qed.
Lemma word_unt tf l m : word_node tf l = Some m -> unt m.
Proof.
  unfold word_node. destruct l as [|a [|b l]]; [discriminate|intros [= <-]; now apply unt_leaf|]. destruct (sc_string _); [|discriminate]. intros [= <-]. now apply unt_leaf.
Qed.

(** ** The commands of a row *)

Definition follows (cs : list row_cmd) (d d' : numbering) : Prop :=
  match nu_row d with
  | Some ne => exists ne', run_cmds ne cs = Some ne' /\ d' = mkNu (nu_count d) (nu_labels d) (Some ne')
  | None => d' = d
  end.
Lemma follows_nil d : follows [] d d.
Proof. unfold follows. destruct d as [c l [ne|]]; cbn; [now exists ne|reflexivity]. Qed.
Lemma run_cmds_app a : forall b ne, run_cmds ne (a ++ b) = match run_cmds ne a with Some ne' => run_cmds ne' b | None => None end.
Proof.
  induction a as [|c a IH]; intros b ne; [reflexivity|]. cbn [app run_cmds]. destruct c; try apply IH. destruct (numbered_label l ne); [apply IH|reflexivity].
Qed.
Lemma follows_app a b d d1 d2 : follows a d d1 -> follows b d1 d2 -> follows (a ++ b) d d2.
Proof.
  unfold follows. destruct (nu_row d) as [ne|] eqn:E.
  - intros (ne1 & H1 & ->). cbn [nu_row nu_count nu_labels]. intros (ne2 & H2 & ->). exists ne2. split; [|reflexivity]. now rewrite run_cmds_app, H1.
  - intros ->. now rewrite E.
Qed.
Lemma follows_none cs d d' : follows cs d d' -> nu_row d = None -> d' = d.
Proof. unfold follows. intros H E. now rewrite E in H. Qed.
Lemma follows_end cs d d1 d2 : follows cs d d1 -> d2 = d1 -> follows cs d d2.
Proof. now intros H ->. Qed.

(** ** Formulas without numbered environments *)

Section Form.
Context (mean : str -> token) (usize_max : N).
Notation tok := (tok mean).
Notation den_item := (den_item mean usize_max).
Notation den_head := (den_head mean usize_max).
Notation den_arg := (den_arg mean usize_max).
Notation den_target := (den_target mean usize_max).
Notation den_mark := (den_mark mean usize_max).
Notation den_items := (den_items mean usize_max den_item).
Notation item_tidy := (item_tidy mean).
Notation list_tidy := (list_tidy mean).
Notation item_cmds := (item_cmds mean).
Notation head_cmds := (head_cmds mean).
Notation arg_cmds := (arg_cmds mean).
Notation mark_cmds := (mark_cmds mean).

Definition item_fol n := forall i, item_size i < n -> forall x pa prev next d c m d', item_tidy (cx_rows x) i = true -> item_plain i = true ->
  den_item x pa prev next i d = Some ((c, m), d') -> unt m /\ follows (item_cmds i) d d'.
Definition arg_fol n := forall a, arg_size a < n -> forall x, arg_tidy mean (cx_rows x) a = true -> arg_plain a = true ->
  (forall pa prev d m d', den_arg x pa prev a d = Some (m, d') -> unt m /\ follows (arg_cmds a) d d') /\
  (forall pa prev next d c m d', den_target x pa prev next a d = Some ((c, m), d') -> unt m /\ follows (arg_cmds a) d d') /\
  (forall l after prev d ns d', a = ABracket l -> den_items x after prev [] None l d = Some (ns, d') -> Forall unt ns /\ follows (flat_map item_cmds l) d d').

Lemma hline_facts i lt : hline_of mean i = Some lt -> switch mean i = false /\ infix_command mean i = false /\ item_cmds i = [] /\ ends_row mean i = false /\ item_plain i = true.
Proof.
  intros E. unfold hline_of in E. destruct i as [[s1 [|]| | | | |] [|]]; try discriminate.
  assert (R : S_Formula.tok mean s1 = T_HLine lt) by (unfold S_Formula.tok; destruct (raw mean s1); try discriminate E; injection E as ->; reflexivity).
  unfold switch, infix_command, head_token. cbn [S_Tagged.item_cmds S_Tagged.head_cmds ends_row item_plain head_plain forallb andb]. rewrite R. repeat split; reflexivity.
Qed.
Lemma model_cmds model desc c : color_in model desc = Some c -> flat_map item_cmds model = [].
Proof.
  unfold color_in. destruct (all_some _ model) as [m|] eqn:E; [|discriminate]. intros _. revert m E. induction model as [|i r IH]; intros m E; [reflexivity|]. cbn [all_some] in E. cbn [flat_map].
  destruct i as [[[c0| |] [|]| | | | |] [|]]; try discriminate E. destruct (is_ascii_alpha c0) eqn:Al; [|discriminate E]. destruct (all_some _ r) as [bs|]; [|discriminate E]. rewrite (IH bs eq_refl).
  cbn [S_Tagged.item_cmds S_Tagged.head_cmds flat_map]. unfold S_Formula.tok. cbn [raw]. destruct (alpha_token c0 Al) as (s0 & m0 & -> & _). reflexivity.
Qed.

Lemma items_fol n : item_fol n -> forall l, items_size l < n -> forall x after prev acc infix d ns d' dir,
  placed mean (cx_rows x) dir l = true -> forallb (item_tidy (cx_rows x)) l = true -> forallb item_plain l = true -> (dir = true -> nu_row d = None) ->
  flat_map tags (infix_node infix acc) = [] ->
  den_items x after prev acc infix l d = Some (ns, d') -> Forall unt ns /\ follows (flat_map item_cmds l) d d'.
Proof.
  intros IH. induction l as [l IHl] using (induction_ltof1 _ (@length item)). unfold ltof in IHl.
  destruct l as [|i r]; intros L x after prev acc infix d ns d' dir P T Pl Dir A H.
  { cbn [S_Formula.den_items] in H. injection H as <- <-. split; [now apply all_unt|apply follows_nil]. }
  cbn [placed forallb] in P, T, Pl. apply andb_prop in P as [P1 P2]. apply andb_prop in T as [T1 T2]. apply andb_prop in Pl as [Pl1 Pl2].
  unfold items_size in L. cbn [map list_sum] in L. unfold list_sum in L. cbn [fold_right] in L. fold (list_sum (map item_size r)) in L. fold (items_size r) in L. pose proof (item_size_pos i) as Pos.
  assert (L1 : items_size r < n) by (clear - L; lia). assert (L2 : item_size i < n) by (clear - L; lia).
  assert (L3 : length r < length (i :: r)) by (cbn [length]; clear; lia).
  assert (Put : forall m, unt m -> flat_map tags (infix_node infix (acc ++ [m])) = []).
  { intros m Hm. rewrite infix_tags, flat_map_app. rewrite infix_tags in A. apply app_eq_nil in A as [-> ->]. cbn [flat_map app]. now rewrite Hm. }
  (* more of the sequence *)
  assert (Go : forall cs y after' prev' m infix0 d0 ns0, cx_rows y = cx_rows x -> follows cs d d0 -> flat_map tags (infix_node infix0 m) = [] ->
     den_items y after' prev' m infix0 r d0 = Some (ns0, d') -> Forall unt ns0 /\ follows (cs ++ flat_map item_cmds r) d d').
  { clear H. intros cs y after' prev' m infix0 d0 ns0 E F Q H.
    destruct (IHl r L3 L1 y after' prev' m infix0 d0 ns0 d' (dir && negb (switch mean i))) as [U V]; try rewrite E; try assumption.
    - intros B. apply andb_prop in B as [B _]. specialize (Dir B). now rewrite (follows_none _ _ _ F Dir).
    - split; [exact U|]. exact (follows_app _ _ _ _ _ F V). }
  (* an atom *)
  assert (Atom : forall next d0, d0 = d -> dbind (den_item x PaSequence prev next i) (fun cn => den_items x after (fst cn) (acc ++ [snd cn]) infix r) d0 = Some (ns, d') -> Forall unt ns /\ follows (item_cmds i ++ flat_map item_cmds r) d d').
  { clear H. intros next d0 -> H0. apply dbind_some in H0 as ([c m] & d1 & H1 & H2). cbn [fst snd] in H2.
    destruct (IH i L2 x PaSequence prev next d c m d1 T1 Pl1 H1) as [S1 S2].
    exact (Go _ x after c (acc ++ [m]) infix d1 ns eq_refl S2 (Put _ S1) H2). }
  (* the rest in a row *)
  assert (Rest : forall a y rest d1, cx_rows y = cx_rows x -> den_items y after prev [] None r d = Some (rest, d1) -> infix_node infix (acc ++ [Row rest a]) = ns -> d1 = d' -> Forall unt ns /\ follows (flat_map item_cmds r) d d').
  { clear H. intros a y rest d1 E H1 <- ->. destruct (Go [] y after prev [] None d rest E (follows_nil d) eq_refl H1) as [U V]. split; [|exact V]. apply all_unt, Put. unfold unt. rewrite tags_row. now apply unt_all. }
  rewrite den_items_cons in H. cbn [flat_map].
  destruct i as [h ms]; destruct h as [s args|s|w|w|o w c|e args w]; try (apply dguard_some in H as [_ H]; exact (Atom _ _ eq_refl H)).
  unfold separator, switch, head_token in P1.
  assert (Ic : item_cmds (Item (HSym s args) ms) = head_cmds (HSym s args) ++ flat_map mark_cmds ms) by reflexivity.
  assert (Hc : head_cmds (HSym s args) = match tok s, args with T_NoNumber, [] => [RowNotag] | T_Tag parens, [ALit t] => [RowTag (mkTag t parens)] | T_Label, [ALit t] => [RowLabel t] | _, _ => flat_map arg_cmds args end) by reflexivity.
  rewrite Hc in Ic. clear Hc.
  destruct (tok s) eqn:Et; try (apply dguard_some in H as [_ H]; exact (Atom _ _ eq_refl H));
  try (repeat match type of H with dguard _ _ _ = _ => apply dguard_some in H as [_ H] end; exact (Atom _ _ eq_refl H));
  try (destruct args as [|a args]; [|apply dguard_some in H as [_ H]; exact (Atom _ _ eq_refl H)]; destruct ms as [|m ms]; [|apply dguard_some in H as [_ H]; exact (Atom _ _ eq_refl H)]);
  try (destruct args as [|[]  [|]]; try (apply dguard_some in H as [_ H]; exact (Atom _ _ eq_refl H)); destruct ms as [|m ms]; [|apply dguard_some in H as [_ H]; exact (Atom _ _ eq_refl H)]);
  match type of Et with _ = T_Color => idtac | _ => rewrite Ic; cbn [flat_map app]; clear Atom end.
  - (* NewColumn *) apply dguard_some in H as [_ H]. refine (Go [] x after ClClose (acc ++ [ColumnSeparator]) infix d ns eq_refl (follows_nil d) (Put _ _) H). reflexivity.
  - (* NewLine *) destruct (cx_rows x) eqn:Ex.
    + destruct dir; [|discriminate P1]. specialize (Dir eq_refl). apply dbind_some in H as ([info k] & d1 & He & H). cbn [fst] in H. unfold end_row in He. rewrite Dir in He. injection He as <- <- <-.
      assert (Here : forall lt, den_items x after ClOpen (acc ++ [RowSeparator None lt]) infix r d = Some (ns, d') -> Forall unt ns /\ follows (flat_map item_cmds r) d d').
      { clear H. intros lt H. refine (Go [] x after ClOpen (acc ++ [RowSeparator None lt]) infix d ns Ex (follows_nil d) (Put _ _) H). reflexivity. }
      destruct r as [|j r']; [exact (Here _ H)|]. destruct (hline_of mean j) as [lt|] eqn:Eh; [|exact (Here _ H)].
      apply dguard_some in H as [_ H]. destruct (hline_facts j lt Eh) as (Q1 & Q2 & Q3 & Q4 & Q5). cbn [flat_map]. rewrite Q3. cbn [app].
      cbn [placed] in P2. apply andb_prop in P2 as [_ P2]. cbn [forallb] in T2, Pl2. apply andb_prop in T2 as [_ T2]. apply andb_prop in Pl2 as [_ Pl2]. rewrite Q1 in P2.
      unfold items_size in L1. cbn [map] in L1. change (list_sum (item_size j :: map item_size r')) with (item_size j + items_size r') in L1.
      refine (IHl r' _ _ x after ClOpen (acc ++ [RowSeparator None (Some lt)]) infix d ns d' _ _ _ Pl2 _ _ H); [cbn [length]; clear; lia|clear - L1; lia|rewrite Ex; exact P2|rewrite Ex; exact T2|now intros _|]. apply Put. reflexivity.
    + refine (Go [] x after ClOpen (acc ++ [EMPTY_ROW]) infix d ns Ex (follows_nil d) (Put _ _) H). reflexivity.
  - (* NoNumber *) apply dbind_some in H as (u & d1 & Hr & H). refine (Go [RowNotag] x _ _ _ _ d1 ns eq_refl _ A H).
    unfold drow_if in Hr. injection Hr as _ <-. unfold follows. destruct d as [c0 l0 [ne|]]; cbn [nu_row nu_count nu_labels option_map run_cmds]; [eexists; split; reflexivity|reflexivity].
  - (* Tag *) apply dbind_some in H as (u & d1 & Hr & H). refine (Go [RowTag _] x _ _ _ _ d1 ns eq_refl _ A H).
    unfold drow in Hr. unfold follows. destruct (nu_row d) as [ne|]; [|discriminate Hr]. injection Hr as _ <-. eexists. split; reflexivity.
  - (* Label *) apply dbind_some in H as (u & d1 & Hr & H). refine (Go [RowLabel _] x _ _ _ _ d1 ns eq_refl _ A H).
    unfold drow in Hr. unfold follows. destruct (nu_row d) as [ne|]; [|discriminate Hr]. cbn [run_cmds]. destruct (numbered_label _ ne) as [ne'|]; [|discriminate Hr]. injection Hr as _ <-. exists ne'. split; reflexivity.
  - (* InfixGenFrac *) destruct infix as [f|]; [discriminate H|]. cbn [infix_node] in A.
    refine (Go [] _ after prev [] (Some (acc, with_line, delim)) d ns _ (follows_nil d) _ H); [reflexivity|]. rewrite infix_tags, A. reflexivity.
  - (* TransformSwitch *) refine (Go [] _ _ _ _ _ d ns _ (follows_nil d) A H). reflexivity.
  - (* Style *) apply dguard_some in H as [_ H]. apply dbind_some in H as (rest & d1 & H1 & H). injection H as H E1. refine (Rest _ _ rest d1 _ H1 H E1). reflexivity.
  - (* Color *)
    destruct args as [|[?|?|?|?|?|? ?] [|[?|?|?|?|?|? ?] [|? ?]]]; try (apply dguard_some in H as [_ H]; exact (Atom _ _ eq_refl H)); (destruct ms as [|m ms]; [|apply dguard_some in H as [_ H]; exact (Atom _ _ eq_refl H)]).
    + rewrite Ic. apply dguard_some in H as [_ H]. apply dbind_some in H as (col & d0 & H0 & H). apply dopt_some in H0 as [H0 ->]. apply dbind_some in H as (rest & d1 & H1 & H). injection H as H E1.
      change (flat_map arg_cmds [ABracket l; ALit s0]) with (flat_map item_cmds l ++ []). rewrite (model_cmds _ _ _ H0). refine (Rest _ _ rest d1 _ H1 H E1). reflexivity.
    + rewrite Ic. cbn [flat_map app S_Tagged.arg_cmds]. apply dguard_some in H as [_ H]. apply dbind_some in H as (col & d0 & H0 & H). apply dopt_some in H0 as [_ ->]. apply dbind_some in H as (rest & d1 & H1 & H). injection H as H E1. refine (Rest _ _ rest d1 _ H1 H E1). reflexivity.
  - (* Relax *) refine (Go [] _ _ _ _ _ d ns _ (follows_nil d) A H). reflexivity.
Qed.


(** A sequence that is not the content of an environment. *)
Lemma list_fol n : item_fol n -> forall l, items_size l < n -> forall x after prev d ns d',
  list_tidy (item_tidy (cx_rows x)) (cx_rows x) false l = true -> forallb item_plain l = true -> den_items x after prev [] None l d = Some (ns, d') ->
  Forall unt ns /\ follows (flat_map item_cmds l) d d'.
Proof.
  intros IH l L x after prev d ns d' T P H. apply andb_prop in T as [T1 T2].
  exact (items_fol n IH l L x after prev [] None d ns d' false T1 T2 P (fun E => ltac:(discriminate E)) eq_refl H).
Qed.
(** ... and the content of an environment without numbers. *)
Lemma table_fol n : item_fol n -> forall l, items_size l < n -> forall x after prev d ns d',
  list_tidy (item_tidy (cx_rows x)) (cx_rows x) true l = true -> forallb item_plain l = true -> nu_row d = None -> den_items x after prev [] None l d = Some (ns, d') ->
  Forall unt ns /\ d' = d.
Proof.
  intros IH l L x after prev d ns d' T P E H. apply andb_prop in T as [T1 T2].
  destruct (items_fol n IH l L x after prev [] None d ns d' _ T1 T2 P (fun _ => E) eq_refl H) as [A B]. split; [exact A|]. exact (follows_none _ _ _ B E).
Qed.

Lemma arg_fol_step n : item_fol n -> arg_fol (S n).
Proof.
  intros IH a L x T P. assert (G : forall l, arg_size (AGroup l) = S (items_size l)) by reflexivity.
  destruct a as [l|s|l|t|i|? ?].
  - rewrite G in L. change (forallb item_plain l = true) in P. change (arg_cmds (AGroup l)) with (flat_map item_cmds l).
    assert (K : forall y after prev d ns d', cx_rows y = cx_rows x -> den_items y after prev [] None l d = Some (ns, d') -> Forall unt ns /\ follows (flat_map item_cmds l) d d').
    { intros y after prev d ns d' E H. refine (list_fol n IH l _ y after prev d ns d' _ P H); [clear - L; lia|]. rewrite E. exact T. }
    split; [|split].
    + intros pa prev d m d' H. rewrite den_arg_eq in H. apply dbind_some in H as (ns & d1 & H1 & H). injection H as <- <-. destruct (K (in_bracket false x) _ _ _ _ _ eq_refl H1) as [K1 K2]. split; [now apply vec_unt|exact K2].
    + intros pa prev next d c m d' H. rewrite den_target_eq in H. apply dbind_some in H as (ns & d1 & H1 & H). injection H as _ <- <-. destruct (K (in_bracket false x) _ _ _ _ _ eq_refl H1) as [K1 K2]. split; [now apply vec_unt|exact K2].
    + discriminate.
  - change (arg_cmds (ASym s)) with (@nil row_cmd). split; [|split]; [| |discriminate].
    + intros pa prev d m d' H. rewrite den_arg_eq in H. apply dbind_some in H as ([c m'] & d1 & H1 & H). apply dopt_some in H1 as [H1 ->]. injection H as <- <-. split; [exact (sym_unt _ _ _ _ _ _ _ H1)|apply follows_nil].
    + intros pa prev next d c m d' H. rewrite den_target_eq in H. apply dopt_some in H as [H ->]. split; [exact (sym_unt _ _ _ _ _ _ _ H)|apply follows_nil].
  - split; [|split]; [intros pa prev d m d' H; rewrite den_arg_eq in H; discriminate H|intros pa prev next d c m d' H; rewrite den_target_eq in H; discriminate H|].
    intros l' after prev d ns d' [= <-] H. refine (list_fol n IH l _ x after prev d ns d' T P H). change (S (items_size l) < S n) in L. clear - L. lia.
  - split; [|split; [|discriminate]]; [intros pa prev d m d' H; rewrite den_arg_eq in H; discriminate H|intros pa prev next d c m d' H; rewrite den_target_eq in H; discriminate H].
  - change (S (item_size i) < S n) in L. apply Nat.succ_lt_mono in L. change (arg_cmds (AItem i)) with (item_cmds i). split; [|split; [|discriminate]].
    + intros pa prev d m d' H. rewrite den_arg_eq in H. apply dguard_some in H as [_ H]. apply dbind_some in H as ([c m'] & d1 & H1 & H). injection H as <- <-. exact (IH i L x _ _ _ _ _ _ _ T P H1).
    + intros pa prev next d c m d' H. rewrite den_target_eq in H. apply dguard_some in H as [_ H]. exact (IH i L x _ _ _ _ _ _ _ T P H).
  - split; [|split; [|discriminate]]; [intros pa prev d m d' H; rewrite den_arg_eq in H; discriminate H|intros pa prev next d c m d' H; rewrite den_target_eq in H; discriminate H].
Qed.
(** The scripts of an atom. *)
Lemma mark_fol n : arg_fol n -> forall m, mark_size m < S n -> forall x, mark_tidy mean (cx_rows x) m = true -> mark_plain m = true ->
  forall d v d', den_mark x m d = Some (v, d') -> value_unt v /\ follows (mark_cmds m) d d'.
Proof.
  intros IH m L x T P d v d' H. rewrite den_mark_eq in H. cbv zeta in H.
  assert (K : forall a d0 e d1, arg_size a < n -> arg_tidy mean (cx_rows x) a = true -> arg_plain a = true -> den_arg (with_style (style_scriptify (cx_style x)) x) PaArg ClDefault a d0 = Some (e, d1) -> unt e /\ follows (arg_cmds a) d0 d1).
  { clear H. intros a d0 e d1 L0 T0 P0 H. destruct (IH a L0 (with_style (style_scriptify (cx_style x)) x) T0 P0) as [K _]. exact (K _ _ _ _ _ H). }
  destruct m as [a|a|ps sup|s].
  - apply dbind_some in H as (e & d1 & H1 & H). injection H as <- <-. refine (K a _ _ _ _ T P H1). cbn [mark_size] in L. clear - L. lia.
  - apply dbind_some in H as (e & d1 & H1 & H). injection H as <- <-. refine (K a _ _ _ _ T P H1). cbn [mark_size] in L. clear - L. lia.
  - apply dbind_some in H as (ks & d0 & H0 & H). apply dopt_some in H0 as [_ ->]. apply dguard_some in H as [_ H]. destruct sup as [a|].
    + apply dbind_some in H as (e & d1 & H1 & H). injection H as <- <-. destruct (K a _ _ _ ltac:(cbn [mark_size] in L; clear - L; lia) T P H1) as [K1 K2].
      split; [|exact K2]. apply one_unt. apply Forall_app. split; [apply primes_unt|]. fl. exact K1.
    + injection H as <- <-. split; [apply one_unt, primes_unt|apply follows_nil].
  - destruct (tok s); try discriminate H. injection H as <- <-. split; [exact Logic.I|apply follows_nil].
Qed.
Lemma marks_fol n : arg_fol n -> forall ms, marks_size ms < S n -> forall x, forallb (mark_tidy mean (cx_rows x)) ms = true -> forallb mark_plain ms = true ->
  forall d vs d', values (den_mark x) ms d = Some (vs, d') -> Forall value_unt vs /\ follows (flat_map mark_cmds ms) d d'.
Proof.
  intros IH ms. induction ms as [|m ms IHm]; intros L x T P d vs d' H.
  - injection H as <- <-. split; [constructor|apply follows_nil].
  - change (marks_size (m :: ms)) with (mark_size m + marks_size ms) in L. cbn [forallb] in T, P. apply andb_prop in T as [T1 T2]. apply andb_prop in P as [P1 P2]. cbn [values] in H.
    apply dbind_some in H as (v & d1 & H1 & H). apply dbind_some in H as (vs' & d2 & H2 & H). injection H as <- <-.
    destruct (mark_fol n IH m ltac:(clear - L; lia) x T1 P1 _ _ _ H1) as [A B]. destruct (IHm ltac:(clear - L; lia) x T2 P2 _ _ _ H2) as [C D].
    split; [now constructor|]. cbn [flat_map]. exact (follows_app _ _ _ _ _ B D).
Qed.

End Form.
