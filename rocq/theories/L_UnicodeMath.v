(** Proofs about the tables of symbols. *)
From Coq Require Import String.
From Verif Require Import Str M_SuperChar M_Length M_Spec M_Ast M_Token M_Symbols M_Commands M_Env M_LatexError M_Lexer M_CustomCmds M_Queue
  M_Spacing M_Leaf M_Parser M_Emit S_Html S_Store S_Emit S_MathML S_Spacing S_Queue S_Scripts S_Formula S_Dictionary S_UnicodeMath L_Form L_FormEq L_WinLeaf L_Dictionary L_DictRow.

Definition atom_eqb (a b : atom) : bool :=
  match a, b with AOrd, AOrd | AOp, AOp | ABin, ABin | ARel, ARel | AOpen, AOpen | AClose, AClose | APunct, APunct | AInner, AInner => true | _, _ => false end.
Lemma atom_eqb_eq a b : atom_eqb a b = true <-> a = b.
Proof. destruct a, b; split; intros H; try reflexivity; discriminate H. Qed.
Definition symbolb (t : token) (c : N) (a : atom) : bool := match sym_atom t with Some b => atom_eqb b a | None => false end && str_eqb (shown t) [c].
Lemma symbolb_is t c a : symbolb t c a = true <-> is_symbol t c a.
Proof.
  unfold symbolb, is_symbol. rewrite andb_true_iff. split; intros [H1 H2].
  - destruct (sym_atom t) as [b|]; [|discriminate]. apply atom_eqb_eq in H1. apply str_eqb_eq in H2. now subst.
  - rewrite H1, H2. split; [now apply atom_eqb_eq|now apply str_eqb_eq].
Qed.
Definition flags : list bool := [true; false].
Lemma every_flag b : In b flags.
Proof. destruct b; cbn; tauto. Qed.
(** A table holds for all names but those listed, and not for those. *)
Definition holds_for {A} (f : A -> atom) (u v : bool) (p : str * (N * A)) : bool :=
  match resolve_builtin u v (fst p) with Some t => symbolb (unwrap_math t) (fst (snd p)) (f (snd (snd p))) | None => true end.
Lemma um_holds : forallb (fun p => Bool.eqb (forallb (fun u => forallb (fun v => holds_for um_atom u v p) flags) flags) (negb (listed um_others (fst p)))) unicode_math = true.
Proof. vm_cast_no_check (eq_refl true). Qed.
Lemma latex_holds : forallb (fun p => Bool.eqb (forallb (fun u => forallb (fun v => holds_for (fun a => a) u v p) flags) flags) (negb (listed latex_others (fst p)))) latex = true.
Proof. vm_cast_no_check (eq_refl true). Qed.
Lemma table_out {A} (f : A -> atom) others (l : list (str * (N * A))) :
  forallb (fun p => Bool.eqb (forallb (fun u => forallb (fun v => holds_for f u v p) flags) flags) (negb (listed others (fst p)))) l = true ->
  forall n c k, In (n, (c, k)) l -> listed others n = false <-> forall u v t, resolve_builtin u v n = Some t -> is_symbol (unwrap_math t) c (f k).
Proof.
  intros H n c k I. rewrite forallb_forall in H. specialize (H _ I). cbn [fst snd] in H. apply Bool.eqb_prop in H.
  assert (Q : forallb (fun u => forallb (fun v => holds_for f u v (n, (c, k))) flags) flags = true <-> forall u v t, resolve_builtin u v n = Some t -> is_symbol (unwrap_math t) c (f k)).
  { rewrite forallb_forall. split.
    - intros G u v t R. specialize (G u (every_flag u)). rewrite forallb_forall in G. specialize (G v (every_flag v)). unfold holds_for in G. cbn [fst snd] in G. rewrite R in G. now apply symbolb_is.
    - intros G u _. apply forallb_forall. intros v _. unfold holds_for. cbn [fst snd]. destruct (resolve_builtin u v n) as [t|] eqn:R; [|reflexivity]. apply symbolb_is. now apply (G u v). }
  rewrite <- Q, H. now destruct (listed others n).
Qed.
Lemma chars_hold : forallb (fun p => negb (sym_char_ok (fst (snd p))) || existsb (N.eqb (fst (snd p))) um_char_others ||
  symbolb (unwrap_math (char_token (fst (snd p)))) (fst (snd p)) (um_atom (snd (snd p)))) unicode_math = true.
Proof. vm_cast_no_check (eq_refl true). Qed.
Lemma char_out n c k : In (n, (c, k)) unicode_math -> sym_char_ok c = true -> existsb (N.eqb c) um_char_others = false -> is_symbol (unwrap_math (char_token c)) c (um_atom k).
Proof.
  intros I O X. pose proof chars_hold as H. rewrite forallb_forall in H. specialize (H _ I). cbn [fst snd] in H. rewrite O, X in H. cbn [negb orb] in H. apply (proj1 (symbolb_is _ _ _)). exact H.
Qed.
Lemma chars_exact : forallb (fun c => existsb (fun p => if fst (snd p) =? c then negb (symbolb (unwrap_math (char_token c)) c (um_atom (snd (snd p)))) else false) unicode_math) um_char_others = true.
Proof. vm_cast_no_check (eq_refl true). Qed.
Lemma char_exact c : existsb (N.eqb c) um_char_others = true -> exists n k, In (n, (c, k)) unicode_math /\ ~ is_symbol (unwrap_math (char_token c)) c (um_atom k).
Proof.
  intros X. apply existsb_exists in X as (c' & I & E). apply N.eqb_eq in E as <-. pose proof chars_exact as H. rewrite forallb_forall in H. specialize (H _ I).
  apply existsb_exists in H as ([n [c' k]] & J & E). cbn [fst snd] in E. destruct (c' =? c) eqn:H; [|discriminate E]. apply N.eqb_eq in H as ->. exists n, k. split; [exact J|].
  intros S. apply (proj2 (symbolb_is _ _ _)) in S. now rewrite S in E.
Qed.
(** Names and their characters. *)
Definition like_typed (n : str) (t : token) : bool :=
  match sym_atom t, shown t with Some a, [c] => listed unlike_typed n || symbolb (unwrap_math (char_token c)) c a | _, _ => true end.
Lemma typed_hold : forallb (fun p => like_typed (fst p) (unwrap_math (snd p))) (UNRELIABLE ++ SUBSTITUTED ++ COMMANDS) && forallb (fun n => like_typed n (T_PseudoOperator n)) FUNCTIONS = true.
Proof. vm_cast_no_check (eq_refl true). Qed.
Lemma builtin_cases (P : str -> token -> Prop) : (forall n t, In (n, t) (UNRELIABLE ++ SUBSTITUTED ++ COMMANDS) -> P n t) -> (forall n, In n FUNCTIONS -> P n (T_PseudoOperator n)) ->
  forall (a b : bool) n t, resolve_builtin a b n = Some t -> P n t.
Proof.
  intros H F a b name t R. unfold resolve_builtin in R. destruct (if a then assoc_str name UNRELIABLE else None) as [t1|] eqn:E1.
  { injection R as <-. destruct a; [|discriminate]. apply assoc_str_in in E1. apply H. apply in_app_iff. now left. }
  destruct (if b then assoc_str name SUBSTITUTED else None) as [t2|] eqn:E2.
  { injection R as <-. destruct b; [|discriminate]. apply assoc_str_in in E2. apply H. apply in_app_iff. right. apply in_app_iff. now left. }
  destruct (assoc_str name COMMANDS) as [t3|] eqn:E3.
  { injection R as <-. apply assoc_str_in in E3. apply H. apply in_app_iff. right. apply in_app_iff. now right. }
  destruct (existsb (str_eqb name) FUNCTIONS) eqn:E4; [|discriminate R]. injection R as <-. apply existsb_exists in E4 as (n & J & E4). apply str_eqb_eq in E4 as ->. now apply F.
Qed.
Lemma typed_out (u v : bool) n t c a : resolve_builtin u v n = Some t -> is_symbol (unwrap_math t) c a -> listed unlike_typed n = false -> is_symbol (unwrap_math (char_token c)) c a.
Proof.
  intros R S X. assert (H : like_typed n (unwrap_math t) = true).
  { pose proof typed_hold as H. apply andb_prop in H as [H F]. rewrite forallb_forall in H, F. revert R. apply (builtin_cases (fun n t => like_typed n (unwrap_math t) = true)).
    - intros m s I. exact (H _ I).
    - intros m I. exact (F _ I). }
  destruct S as [S1 S2]. unfold like_typed in H. rewrite S1, S2, X in H. cbn [orb] in H. apply (proj1 (symbolb_is _ _ _)). exact H.
Qed.

(** What is drawn. *)
Lemma chars_data s : blank s = false -> flat_map xml_chars (data s) = s.
Proof. unfold data. intros ->. cbn. apply app_nil_r. Qed.
Lemma chars_op e o attrs sp : blank (sc_text o) = false -> exists y, mathml e (op_node o attrs sp) = [y] /\ core y = y /\ xml_chars y = sc_text o.
Proof.
  intros B. eexists. split; [reflexivity|]. unfold el. split; [unfold data; cbn [opt]; rewrite app_nil_r, B; reflexivity|]. cbn [xml_chars]. now apply chars_data.
Qed.
Lemma sym_shown e x prev next t c n : sym_atom t <> None -> is_operator t = false -> cx_tf x = None -> blank (shown t) = false -> sym_node x PaSequence prev next t = Some (c, n) ->
  exists y, mathml e n = [y] /\ core y = y /\ xml_chars y = shown t.
Proof.
  intros A O T B N. destruct t; try (now elim A); try discriminate O; cbn [sym_node in_sequence] in N; cbv zeta in N; apply some_pair in N; subst n; cbn [shown] in *; try (now apply chars_op).
  all: try (unfold letter; rewrite T; cbn [mathml]; try destruct (lone _); eexists; (split; [reflexivity|]); unfold el, data; rewrite B; (split; [reflexivity|cbn; now rewrite ?app_nil_r])).
  all: try (now apply (chars_op e (sc_from_char c0))).
  unfold ord_node. destruct (is_vertical_line o); now apply chars_op.
Qed.
Lemma core_bounds e uo b n y : mathml e n = [y] -> core y = y -> exists z, mathml e (wrap_bounds uo b n) = [z] /\ core z = y.
Proof.
  intros M C. unfold wrap_bounds, wrap_underover, wrap_subsup. destruct uo; destruct b as [[u|] [v|]]; cbn [b_sub b_sup mathml]; try rewrite M; eexists; (split; [try reflexivity; exact M|]); try exact C; cbn; exact C.
Qed.
Lemma operator_shown e x prev next t b k n : is_operator t = true -> blank (shown t) = false -> operator_node x prev next t b k = Some n ->
  exists y, mathml e n = [y] /\ xml_chars (core y) = shown t.
Proof.
  intros O B N. apply operator_node_base in N. rewrite N. clear N.
  assert (H : exists y, mathml e (snd (base_of t b k (mathop_spacing (cx_style x) prev next))) = [y] /\ core y = y /\ xml_chars y = shown t).
  { unfold base_of. destruct t; try discriminate O; cbn [shown] in *.
    - destruct (op_limits k (is_jop o) (bounds_trivial b)). now apply chars_op.
    - destruct (large_op_limits k (bounds_trivial b)). now apply chars_op.
    - destruct (pseudo_limits k false (bounds_trivial b)). eexists. split; [reflexivity|]. unfold el, data. rewrite B. split; [reflexivity|cbn; now rewrite app_nil_r].
    - destruct (pseudo_limits k true (bounds_trivial b)). eexists. split; [reflexivity|]. unfold el, data. rewrite B. split; [reflexivity|cbn; now rewrite app_nil_r]. }
  destruct H as (y & M & C & X). destruct (core_bounds e (fst (base_of t b k (mathop_spacing (cx_style x) prev next))) b _ y M C) as (z & Z & CZ). exists z. split; [exact Z|]. now rewrite CZ.
Qed.
Lemma sym_plain x prev next t c n : sym_atom t <> None -> is_operator t = false -> sym_node x PaSequence prev next t = Some (c, n) ->
  match n with Multiscripts _ _ _ => False | _ => True end.
Proof.
  intros A O N. destruct t; try (now elim A); try discriminate O; cbn [sym_node in_sequence] in N; cbv zeta in N; apply some_pair in N; subst n; try exact I.
  all: try (unfold letter; destruct (cx_tf x) as [[|]|]; exact I). unfold ord_node. now destruct (is_vertical_line o).
Qed.
Section Items.
Context (mean : str -> token) (umax : N).
Notation den_item := (den_item mean umax).
Notation den_items := (den_items mean umax den_item).
Definition text_at (i : item) : str := match i with Item (HSym s _) _ => shown (tok mean s) | Item (HNum s) _ => s | _ => [] end.
Lemma shown_scripts e n b y : match n with Multiscripts _ _ _ => False | _ => True end -> mathml e n = [y] -> core y = y ->
  exists z, mathml e (with_scripts n b) = [z] /\ core z = y.
Proof. intros M E C. destruct (scripts_core e n b y M E) as (z & Z & CZ). exists z. split; [exact Z|]. now rewrite CZ. Qed.
Lemma item_shown e x prev next i a d c n d' : cx_tf x = None -> item_atom mean i = Some a -> blank (text_at i) = false ->
  den_item x PaSequence prev next i d = Some ((c, n), d') -> exists y, mathml e n = [y] /\ xml_chars (core y) = text_at i.
Proof.
  intros T A B E. destruct i as [h ms]. rewrite den_item_eq in E. cbv zeta in E. destruct h as [s args|s| | | |]; try discriminate A.
  - destruct args; [|discriminate A]. cbn [item_atom text_at] in A, B |- *. rewrite operator_of_is in E. unfold sym_atom in A. destruct (is_operator (tok mean s)) eqn:O.
    + apply dbind_some in E as (vs & d1 & _ & E). apply dbind_some in E as (b & d2 & _ & E). apply dbind_some in E as (m & d3 & N & E). apply dopt_some in N as [N ->].
      injection E as <- <- <-. exact (operator_shown e _ _ _ _ _ _ _ O B N).
    + assert (H : dbind (den_head mean umax x PaSequence prev (class_ahead (flat_map (mark_toks mean) ms) next) (HSym s []))
                     (fun cn => dbind (values (den_mark mean umax x) ms) (fun vs => dbind (dopt (scripts_of vs)) (fun b => match snd b with None => dret (fst cn, with_scripts (snd cn) (fst b)) | Some _ => dnone end))) d = Some ((c, n), d')).
      { destruct (tok mean s); exact E. }
      clear E. apply dbind_some in H as (cn & d1 & H & E). apply dbind_some in E as (vs & d2 & V & E). apply dbind_some in E as (b & d3 & W & E). apply dopt_some in W as [W ->].
      destruct (snd b) eqn:SB; [discriminate E|]. injection E as <- <- <-. clear V W SB.
      rewrite den_sym_eq in H. cbv zeta in H.
      assert (S : exists nx, sym_node x PaSequence prev nx (tok mean s) = Some cn).
      { eexists. destruct (tok mean s); try discriminate O; try discriminate A; try (now destruct ms); cbv iota in H; destruct (word_char _ _); try discriminate H; apply dopt_some in H as [H _]; exact H. }
      destruct S as (nx & S). destruct cn as [c0 n0]. cbn [fst snd].
      assert (AS : sym_atom (tok mean s) <> None).
      { unfold sym_atom. rewrite O. intros X. destruct (tok mean s); try discriminate X; cbn in A; try discriminate A; rewrite X in A; discriminate A. }
      destruct (sym_shown e x prev nx _ c0 n0 AS O T B S) as (y & M & C & Y).
      assert (NM : match n0 with Multiscripts _ _ _ => False | _ => True end) by exact (sym_plain _ _ _ _ _ _ AS O S).
      destruct (shown_scripts e n0 (fst b) y NM M C) as (z & Z & CZ). exists z. split; [exact Z|]. now rewrite CZ.
  - apply dbind_some in E as (cn & d1 & H & E). apply dbind_some in E as (vs & d2 & _ & E). apply dbind_some in E as (b & d3 & _ & E).
    destruct (snd b); [discriminate E|]. injection E as <- <- <-. rewrite den_num_eq in H. apply dguard_some in H as [_ H]. injection H as <- <-. cbn [fst snd text_at] in *.
    destruct (shown_scripts e (Number s) (fst b) (el "mn" [] (data s)) I eq_refl) as (z & Z & CZ); [unfold el, data; now rewrite B|]. exists z. split; [exact Z|]. rewrite CZ. unfold el. cbn [xml_chars]. now apply chars_data.
Qed.
Lemma items_shown e x l : cx_tf x = None -> forall atoms prev acc d ns d', all_some (item_atom mean) l = Some atoms -> forallb (fun i => negb (blank (text_at i))) l = true ->
  den_items x ClEnd prev acc None l d = Some (ns, d') ->
  exists ns', ns = acc ++ ns' /\ map (fun y => xml_chars (core y)) (flat_map (mathml e) ns') = map text_at l.
Proof.
  intros T. induction l as [|i r IH]; intros atoms prev acc d ns d' A B E.
  - cbn in E. injection E as <- <-. exists []. now rewrite app_nil_r.
  - cbn [all_some] in A. destruct (item_atom mean i) as [a|] eqn:AI; [|discriminate A]. destruct (all_some (item_atom mean) r) as [as_|] eqn:AR; [|discriminate A].
    cbn [forallb] in B. apply andb_prop in B as [Bi Br]. apply negb_true_iff in Bi.
    destruct (items_step mean umax x ClEnd prev acc None i r a d _ AI E) as ([c n] & d1 & E1 & E2). cbn [fst snd] in E2.
    destruct (item_shown e x _ _ i a _ _ _ _ T AI Bi E1) as (y & Y & X).
    destruct (IH as_ c (acc ++ [n]) d1 ns d' eq_refl Br E2) as (ns' & -> & Z). exists (n :: ns'). rewrite <- app_assoc. split; [reflexivity|].
    cbn [flat_map map]. rewrite Y, <- Z, <- X. reflexivity.
Qed.
End Items.

(** Texts. *)
Lemma no_newline : forallb (fun p => negb (fst (snd p) =? 10)) unicode_math && forallb (fun p => negb (fst (snd p) =? 10)) latex = true.
Proof. vm_cast_no_check (eq_refl true). Qed.
Lemma one_char c : c <> 10 -> blank [c] = false.
Proof. intros H. cbn. rewrite andb_true_r. now apply N.eqb_neq. Qed.
Lemma letter_symbol c : is_ascii_alpha c = true -> is_symbol (unwrap_math (char_token c)) c AOrd /\ c <> 10.
Proof.
  intros A. assert (R : forall l, forallb (fun c => negb (is_ascii_alpha c) || symbolb (unwrap_math (char_token c)) c AOrd && negb (c =? 10)) l = true -> In c l -> is_symbol (unwrap_math (char_token c)) c AOrd /\ c <> 10).
  { intros l H I. rewrite forallb_forall in H. specialize (H _ I). rewrite A in H. cbn [negb orb] in H. apply andb_prop in H as [H1 H2]. split; [now apply (proj1 (symbolb_is _ _ _))|]. intros ->. discriminate H2. }
  apply (R (map N.of_nat (seq 0 123))); [vm_compute; reflexivity|]. apply in_map_iff. exists (N.to_nat c). rewrite N2Nat.id. split; [reflexivity|]. apply in_seq.
  unfold is_ascii_alpha, is_ascii_upper, is_ascii_lower in A. apply orb_prop in A as [A|A]; apply andb_prop in A as [_ A]; apply N.leb_le in A; lia.
Qed.
Lemma name_is (u v : bool) n t c a : name_symbol n = Some (c, a) -> resolve_builtin u v n = Some t -> is_symbol (unwrap_math t) c a /\ c <> 10.
Proof.
  pose proof no_newline as NL. apply andb_prop in NL as [N1 N2]. rewrite forallb_forall in N1, N2.
  unfold name_symbol. intros H R. destruct (assoc_str n latex) as [[c' a']|] eqn:E.
  - apply assoc_str_in in E. destruct (listed latex_others n) eqn:X; [discriminate H|]. injection H as -> ->. split.
    + exact (proj1 (table_out (fun a => a) _ _ latex_holds n c a E) X u v t R).
    + specialize (N2 _ E). cbn [fst snd] in N2. intros ->. discriminate N2.
  - clear E. destruct (assoc_str n unicode_math) as [[c' k]|] eqn:E; [|discriminate H]. apply assoc_str_in in E. destruct (listed um_others n) eqn:X; [discriminate H|]. injection H as -> <-. split.
    + exact (proj1 (table_out um_atom _ _ um_holds n c k E) X u v t R).
    + specialize (N1 _ E). cbn [fst snd] in N1. intros ->. discriminate N1.
Qed.
Lemma char_is c d a : char_symbol c = Some (d, a) -> d = c /\ is_symbol (unwrap_math (char_token c)) c a /\ c <> 10.
Proof.
  unfold char_symbol. destruct (existsb (N.eqb c) um_char_others || negb (sym_char_ok c)) eqn:X; [discriminate|]. apply orb_false_elim in X as [X O]. apply negb_false_iff in O.
  destruct (find _ _) as [[n [c' k]]|] eqn:F; [|discriminate]. intros [= <- <-]. apply find_some in F as [I F]. cbn [fst snd] in *. apply N.eqb_eq in F as ->. split; [reflexivity|].
  split; [exact (char_out n c k I O X)|]. intros ->. discriminate O.
Qed.
Lemma symbol_item cfg gs i s a : pc_custom cfg = cmds_empty -> gs_cmds gs = cmds_empty -> item_known (pc_allow_unreliable cfg) (pc_conventional cfg) i = true -> item_symbol i = Some (s, a) ->
  item_atom (name_meaning cfg gs) i = Some a /\ text_at (name_meaning cfg gs) i = s /\ blank s = false.
Proof.
  intros C G K H. destruct i as [[y args|m| | | |] ms]; try discriminate H.
  - destruct args; [|discriminate H]. cbn [item_symbol] in H. destruct (text_symbol y) as [[c b]|] eqn:Y; [|destruct ms; discriminate H].
    assert (Q : is_symbol (tok (name_meaning cfg gs) y) c b /\ c <> 10).
    { unfold tok. destruct y as [d|n|t]; [| |discriminate Y]; cbn [text_symbol raw item_known] in *.
      - destruct (is_ascii_alpha d) eqn:L; [injection Y as <- <-; now apply letter_symbol|]. destruct (char_is _ _ _ Y) as (-> & S & N). now split.
      - unfold name_meaning, resolve_command. rewrite C, G. change (cmds_get cmds_empty n SrcLocal) with (@None token). change (cmds_get cmds_empty n SrcDocument) with (@None token). change (cmds_get cmds_empty n SrcConfig) with (@None token). cbv iota.
        destruct (resolve_builtin _ _ n) as [t|] eqn:R; [|discriminate K]. exact (name_is _ _ n t c b Y R). }
    destruct Q as [[S1 S2] N]. cbn [item_atom text_at]. rewrite S1, S2.
    assert (E : ([c], b) = (s, a) /\ match ms with [] => True | _ => In b [AOrd; AOp; AOpen; AClose] end) by (destruct ms, b; try discriminate H; injection H as <- <-; (split; [reflexivity|cbn; tauto])).
    destruct E as [E M]. injection E as <- <-. split; [|split; [reflexivity|now apply one_char]].
    destruct ms; [now destruct b|]. cbn in M. destruct M as [<-|[<-|[<-|[<-|[]]]]]; reflexivity.
  - cbn [item_symbol item_atom text_at] in *. destruct (number_ok m) eqn:N; [|discriminate H]. injection H as <- <-. split; [reflexivity|]. split; [reflexivity|].
    destruct m as [|c m]; [discriminate N|]. cbn [number_ok] in N. apply andb_prop in N as [N _]. cbn [blank]. destruct (c =? 10) eqn:E; [apply N.eqb_eq in E as ->; discriminate N|reflexivity].
Qed.
Lemma symbols_items cfg gs l : pc_custom cfg = cmds_empty -> gs_cmds gs = cmds_empty -> forall ys, forallb (item_known (pc_allow_unreliable cfg) (pc_conventional cfg)) l = true -> all_some item_symbol l = Some ys ->
  all_some (item_atom (name_meaning cfg gs)) l = Some (map snd ys) /\ map (text_at (name_meaning cfg gs)) l = map fst ys /\ forallb (fun i => negb (blank (text_at (name_meaning cfg gs) i))) l = true.
Proof.
  intros C G. induction l as [|i l IH]; intros ys K H.
  - injection H as <-. repeat split.
  - cbn [all_some forallb] in *. apply andb_prop in K as [K1 K2]. destruct (item_symbol i) as [[s a]|] eqn:E; [|discriminate H]. destruct (all_some item_symbol l) as [zs|]; [|discriminate H]. injection H as <-.
    destruct (IH zs K2 eq_refl) as (A & T & B). destruct (symbol_item cfg gs i s a C G K1 E) as (A1 & T1 & B1). rewrite A1, A, T1, B1, B. cbn [map fst snd]. rewrite T1, T. repeat split.
Qed.

(** Differences. *)
Definition unlike (p : string * N) : bool :=
  match resolve_builtin false false (lit (fst p)) with Some t => symbolb (unwrap_math t) (snd p) ARel | None => false end && symbolb (unwrap_math (char_token (snd p))) (snd p) AOrd.
Lemma unlike_out l : forallb unlike l = true -> Forall (fun p =>
    (exists t, resolve_builtin false false (lit (fst p)) = Some t /\ is_symbol (unwrap_math t) (snd p) ARel) /\ is_symbol (unwrap_math (char_token (snd p))) (snd p) AOrd) l.
Proof.
  intros H. apply Forall_forall. intros p I. rewrite forallb_forall in H. specialize (H p I). apply andb_prop in H as [H1 H2]. split; [|apply (proj1 (symbolb_is _ _ _)); exact H2].
  destruct (resolve_builtin false false (lit (fst p))) as [t|]; [|discriminate H1]. exists t. split; [reflexivity|]. apply (proj1 (symbolb_is _ _ _)). exact H1.
Qed.
Definition unlike_latex (p : string * atom) : bool :=
  match assoc_str (lit (fst p)) latex, resolve_builtin false false (lit (fst p)) with
  | Some (c, a), Some t => negb (atom_eqb a (snd p)) && symbolb (unwrap_math t) c (snd p)
  | _, _ => false
  end.
Lemma unlike_latex_out l : forallb unlike_latex l = true ->
  Forall (fun p => exists c a t, In (lit (fst p), (c, a)) latex /\ a <> snd p /\ resolve_builtin false false (lit (fst p)) = Some t /\ is_symbol (unwrap_math t) c (snd p)) l.
Proof.
  intros H. apply Forall_forall. intros p I. rewrite forallb_forall in H. specialize (H p I). unfold unlike_latex in H. destruct (assoc_str (lit (fst p)) latex) as [[c a]|] eqn:E; [|discriminate H].
  destruct (resolve_builtin false false (lit (fst p))) as [t|]; [|discriminate H]. apply andb_prop in H as [H1 H2]. exists c, a, t. split; [now apply assoc_str_in|]. split; [|split; [reflexivity|apply (proj1 (symbolb_is _ _ _)); exact H2]].
  intros ->. now rewrite (proj2 (atom_eqb_eq _ _) eq_refl) in H1.
Qed.
