(** Proofs about rows of atoms and the operator dictionary. *)
From Verif Require Import Str M_SuperChar M_Length M_Spec M_Ast M_Token M_Symbols M_Commands M_Env M_LatexError M_Lexer M_CustomCmds M_Queue
  M_Spacing M_Leaf M_Parser M_Emit S_Html S_Store S_Emit S_MathML S_Spacing S_Queue S_Scripts S_Formula S_Dictionary L_Form L_FormEq L_WinLeaf L_Dictionary P_Spacing.

Lemma scripts_core e n b y : match n with Multiscripts _ _ _ => False | _ => True end -> mathml e n = [y] ->
  exists z, mathml e (with_scripts n b) = [z] /\ core z = core y.
Proof.
  intros M E. assert (W : with_scripts n b = scripted n (b_sub b) (b_sup b)) by (destruct n; try reflexivity; contradiction). rewrite W.
  destruct b as [[u|] [v|]]; cbn [b_sub b_sup scripted mathml]; try rewrite E; eauto.
Qed.
Definition same_class (a b : class) : Prop := a = b \/ (a = ClClose /\ b = ClDefault).
Lemma same_class_atom st a b next t : same_class a b -> code_atom true st a next t = code_atom true st b next t.
Proof. intros [->|[-> ->]]; [reflexivity|]. now destruct st, next, t. Qed.
Lemma same_class_starts a b : same_class a b -> starts_operand a = starts_operand b.
Proof. now intros [->|[-> ->]]. Qed.
Lemma code_atoms_same st a b l : same_class a b -> code_atoms true st a l = code_atoms true st b l.
Proof. intros S. destruct l as [|t l]; [reflexivity|]. cbn [code_atoms]. now rewrite (same_class_atom st a b _ t S). Qed.
Lemma sym_class x prev next t a c n : atom_of t = Some a -> sym_node x PaSequence prev next t = Some (c, n) ->
  same_class c (snd (code_atom true (cx_style x) prev next a)) /\ match n with Multiscripts _ _ _ => False | _ => True end.
Proof.
  intros A N. destruct t; try discriminate A; injection A as <-; cbn [sym_node in_sequence] in N; cbv zeta in N; injection N as <- <-; cbn [code_atom snd];
    (split; [|try exact I; unfold ord_node, paren_node; try destruct (is_vertical_line _); exact I]); try (left; reflexivity).
  - left. destruct (cx_style x), prev, next; reflexivity.
  - right. split; reflexivity.
Qed.
Section Items.
Context (mean : str -> token) (umax : N).
Notation den_item := (den_item mean umax).
Notation den_items := (den_items mean umax den_item).

Lemma letter_drawn rd e x c (u : bool) : exists y, mathml e (letter (cx_tf x) c u) = [y] /\ drawn rd (core y) = None.
Proof.
  unfold letter. destruct (cx_tf x) as [[|]|]; try destruct u; cbn [mathml]; try (destruct (lone _)); eexists; (split; [reflexivity|unfold data; try (destruct (blank _)); reflexivity]).
Qed.
Lemma operator_of_is t : operator_of t [] = if is_operator t then Some t else None.
Proof. destruct t; try reflexivity. cbn [operator_of is_operator]. now destruct (op_cat o). Qed.
Lemma item_drawn v pf len e x prev next i a d c n d' : cx_hack x = false -> item_atom mean i = Some a -> item_fits mean v i = true ->
  den_item x PaSequence prev next i d = Some ((c, n), d') ->
  same_class c (snd (code_atom true (cx_style x) prev next a)) /\
  exists y, mathml e n = [y] /\
    forall f, (f = Prefix -> starts_operand prev = true) -> side_spaces (mkRenderer f v pf len) y = fst (code_atom true (cx_style x) prev next a).
Proof.
  intros K A F E. destruct i as [h ms]. rewrite den_item_eq in E. cbv zeta in E. destruct h as [s args|s| | | |]; try discriminate A.
  - destruct args; [|discriminate A]. cbn [item_atom item_fits] in A, F. rewrite operator_of_is in E. unfold sym_atom in A. destruct (is_operator (tok mean s)) eqn:O.
    + assert (a = AOp) as -> by (destruct (tok mean s); try discriminate O; destruct ms; now injection A).
      apply dbind_some in E as (vs & d1 & _ & E). apply dbind_some in E as (b & d2 & _ & E). apply dbind_some in E as (m & d3 & N & E). apply dopt_some in N as [N ->].
      injection E as <- <- <-. split; [left; reflexivity|].
      destruct (operator_drawn (mkRenderer Infix v pf len) e _ _ _ _ _ _ _ N F) as (y & _ & M & _). exists y. split; [exact M|]. intros f _.
      destruct (operator_drawn (mkRenderer f v pf len) e _ _ _ _ _ _ _ N F) as (y' & dr & M' & D & (L & R & _) & _).
      rewrite M in M'. injection M' as <-. unfold side_spaces. rewrite D, L, R. cbn [next_as in_sequence]. now destruct (fst (code_atom true (cx_style x) prev next AOp)).
    + assert (B : exists t1 d1 t2, den_head mean umax x PaSequence prev (class_ahead (flat_map (mark_toks mean) ms) next) (HSym s []) d = Some (t1, d1) /\
                 c = fst t1 /\ n = with_scripts (snd t1) t2 /\ (ms = [] -> t2 = bounds_none)).
      { assert (H : dbind (den_head mean umax x PaSequence prev (class_ahead (flat_map (mark_toks mean) ms) next) (HSym s []))
                     (fun cn => dbind (values (den_mark mean umax x) ms) (fun vs => dbind (dopt (scripts_of vs)) (fun b => match snd b with None => dret (fst cn, with_scripts (snd cn) (fst b)) | Some _ => dnone end))) d = Some ((c, n), d')).
        { destruct (tok mean s); exact E. }
        clear E. apply dbind_some in H as (cn & d1 & H & E). apply dbind_some in E as (vs & d2 & V & E). apply dbind_some in E as (b & d3 & W & E). apply dopt_some in W as [W ->].
        destruct (snd b) eqn:SB; [discriminate E|]. injection E as <- <- <-. exists cn, d1, (fst b). split; [exact H|]. split; [reflexivity|]. split; [reflexivity|].
        intros ->. cbn [values] in V. injection V as <- <-. cbn in W. now injection W as <-. }
      destruct B as (cn & d1 & b & H & -> & -> & NM). clear E. rewrite den_sym_eq in H. cbv zeta in H.
      assert (S : exists nx, sym_node x PaSequence prev nx (tok mean s) = Some cn /\ (nx = next \/ In a [AOrd; AOpen; AClose])).
      { exists (seen x (next_as PaSequence (class_ahead (flat_map (mark_toks mean) ms) next))). split.
        - destruct (tok mean s); try discriminate O; try discriminate A; try (now destruct ms); cbv iota in H; destruct (word_char _ _); try discriminate H; apply dopt_some in H as [H _]; exact H.
        - unfold seen. rewrite K. cbn [next_as in_sequence]. destruct ms; [left; reflexivity|]. right.
          destruct (tok mean s); try discriminate O; try discriminate A; injection A as <-; cbn; tauto. }
      clear H. destruct S as (nx & S & NX).
      assert (CA : code_atom true (cx_style x) prev nx a = code_atom true (cx_style x) prev next a).
      { destruct NX as [->|I]; [reflexivity|]. cbn in I. destruct I as [<-|[<-|[<-|[]]]]; reflexivity. }
      destruct cn as [c0 n0]. cbn [fst snd] in *.
      destruct (atom_of (tok mean s)) as [a'|] eqn:AT.
      * assert (a' = a) as -> by (destruct (tok mean s); try discriminate AT; try discriminate O; injection AT as <-; destruct ms; try discriminate A; now injection A).
        destruct (sym_class _ _ _ _ _ _ _ AT S) as [C M]. rewrite CA in C. split; [exact C|].
        destruct (sym_drawn (mkRenderer Infix v pf len) e _ _ _ _ _ _ _ AT F (fun _ H => ltac:(discriminate H)) S) as (y & _ & Y & _).
        destruct (scripts_core e n0 b y M Y) as (z & Z & CZ). exists z. split; [exact Z|]. intros f G.
        destruct (sym_drawn (mkRenderer f v pf len) e _ _ _ _ _ _ _ AT F (fun _ H => G H) S) as (y' & dr & Y' & CY & D & L & R & _).
        rewrite Y in Y'. injection Y' as <-. unfold side_spaces. rewrite CZ, CY, D, L, R, CA. now destruct (fst (code_atom true (cx_style x) prev next a)).
      * assert (LT : exists l u, c0 = ClDefault /\ n0 = letter (cx_tf x) l u /\ a = AOrd).
        { destruct (tok mean s); try discriminate AT; try discriminate O; try discriminate A; cbn [sym_node] in S; injection S as <- <-; do 2 eexists; (split; [reflexivity|]); (split; [reflexivity|]); destruct ms; now injection A. }
        destruct LT as (l & u & -> & -> & ->). split; [left; reflexivity|].
        destruct (letter_drawn (mkRenderer Infix v pf len) e x l u) as (y & Y & _).
        destruct (scripts_core e (letter (cx_tf x) l u) b y) as (z & Z & CZ); [unfold letter; now destruct (cx_tf x) as [[|]|]|exact Y|].
        exists z. split; [exact Z|]. intros f _. unfold side_spaces. rewrite CZ. destruct (letter_drawn (mkRenderer f v pf len) e x l u) as (y' & Y' & D). rewrite Y in Y'. injection Y' as <-. now rewrite D.
  - cbn [item_atom] in A. destruct (number_ok s); [|discriminate A]. injection A as <-. apply dbind_some in E as (cn & d1 & H & E). apply dbind_some in E as (vs & d2 & _ & E). apply dbind_some in E as (b & d3 & _ & E).
    destruct (snd b); [discriminate E|]. injection E as <- <- <-. rewrite den_num_eq in H. apply dguard_some in H as [_ H]. injection H as <- <-. cbn [fst snd].
    split; [left; reflexivity|]. destruct (scripts_core e (Number s) (fst b) (el "mn" [] (data s)) I eq_refl) as (z & Z & CZ). exists z. split; [exact Z|].
    intros f _. unfold side_spaces. rewrite CZ. unfold data. now destruct (blank s).
Qed.
Lemma item_class i a r : item_atom mean i = Some a -> class_ahead (item_toks mean i ++ r) ClEnd = class_of_atom a.
Proof.
  destruct i as [[s args|s| | | |] ms]; try discriminate.
  - destruct args; [|discriminate]. cbn [item_atom item_toks head_toks flat_map app]. unfold class_ahead. cbn [find_map]. intros A.
    assert (T : token_class (raw mean s) = Some (class_of_atom a)).
    { unfold tok in A. unfold token_class. destruct (raw mean s); cbn [unwrap_math] in A;
        try (destruct ms; [|]; cbn in A; first [discriminate A|injection A as <-; reflexivity]);
        try (cbn in A; destruct (op_cat o); destruct ms; first [discriminate A|injection A as <-; reflexivity]).
      destruct t; try (destruct ms; cbn in A; first [discriminate A|injection A as <-; reflexivity]);
        try (cbn in A; destruct (op_cat o); destruct ms; first [discriminate A|injection A as <-; reflexivity]). }
    now rewrite T.
  - cbn [item_atom]. destruct (number_ok s) eqn:N; [|discriminate]. intros [= <-]. destruct s as [|c s]; [discriminate N|]. cbn [number_ok] in N. apply andb_prop in N as [N _].
    cbn [item_toks head_toks map app]. rewrite (digit_token c N). reflexivity.
Qed.
Lemma items_step x after prev acc infix i r a d R : item_atom mean i = Some a -> den_items x after prev acc infix (i :: r) d = Some R ->
  exists cn d1, den_item x PaSequence prev (class_ahead (flat_map (item_toks mean) r) after) i d = Some (cn, d1) /\
    den_items x after (fst cn) (acc ++ [snd cn]) infix r d1 = Some R.
Proof.
  intros A E. rewrite den_items_cons in E.
  assert (H : dguard (item_over mean (cx_tf x) i (flat_map (item_toks mean) r))
            (dbind (den_item x PaSequence prev (class_ahead (flat_map (item_toks mean) r) after) i) (fun cn => den_items x after (fst cn) (acc ++ [snd cn]) infix r)) d = Some R).
  { destruct i as [[s args|s| | | |] ms]; try discriminate A; [|exact E]. destruct args; [|discriminate A]. cbn [item_atom] in A.
    destruct (tok mean s) eqn:T; try discriminate A; try exact E. apply dguard_some in E as [_ E]. exact E. }
  apply dguard_some in H as [_ H]. apply dbind_some in H as (cn & d1 & H1 & H2). eauto.
Qed.
Lemma items_drawn v pf len e x l : cx_hack x = false -> forall atoms prev prev' acc d ns d', all_some (item_atom mean) l = Some atoms -> forallb (item_fits mean v) l = true -> same_class prev prev' ->
  den_items x ClEnd prev acc None l d = Some (ns, d') ->
  exists ns' ys, ns = acc ++ ns' /\ flat_map (mathml e) ns' = ys /\
    Forall2 (fun y s => forall f, f <> Prefix -> side_spaces (mkRenderer f v pf len) y = s) ys (code_atoms true (cx_style x) prev' atoms) /\
    match ys, code_atoms true (cx_style x) prev' atoms with
    | y :: _, s :: _ => starts_operand prev' = true -> forall f, side_spaces (mkRenderer f v pf len) y = s
    | _, _ => True
    end.
Proof.
  intros K. induction l as [|i r IH]; intros atoms prev prev' acc d ns d' A F S E.
  - injection A as <-. cbn in E. injection E as <- <-. exists [], []. rewrite app_nil_r. repeat split. constructor.
  - cbn [all_some] in A. destruct (item_atom mean i) as [a|] eqn:AI; [|discriminate A]. destruct (all_some (item_atom mean) r) as [as_|] eqn:AR; [|discriminate A]. injection A as <-.
    cbn [forallb] in F. apply andb_prop in F as [Fi Fr].
    destruct (items_step x ClEnd prev acc None i r a d _ AI E) as ([c n] & d1 & E1 & E2). cbn [fst snd] in E2.
    destruct (item_drawn v pf len e x _ _ i a _ _ _ _ K AI Fi E1) as [C (y & Y & G)].
    assert (N : class_ahead (flat_map (item_toks mean) r) ClEnd = next_class (hd_error as_)).
    { destruct r as [|j r']; [injection AR as <-; reflexivity|]. cbn [all_some] in AR. destruct (item_atom mean j) as [b|] eqn:B; [|discriminate AR]. destruct (all_some (item_atom mean) r'); [|discriminate AR]. injection AR as <-.
      cbn [flat_map hd_error next_class]. now apply item_class. }
    rewrite N in C, G. cbn [code_atoms]. rewrite <- (same_class_atom _ _ _ _ _ S).
    destruct (code_atom true (cx_style x) prev (next_class (hd_error as_)) a) as [sp cl] eqn:CA. cbn [fst snd] in C, G.
    destruct (IH as_ c cl (acc ++ [n]) d1 ns d' eq_refl Fr C E2) as (ns' & ys & -> & Y2 & P & _).
    exists (n :: ns'), (y :: ys). rewrite <- app_assoc. split; [reflexivity|]. split; [cbn [flat_map]; rewrite Y, Y2; reflexivity|].
    split; [constructor; [intros f Hf; apply G; intros ->; now elim Hf|exact P]|]. intros St f. apply G. intros _. now rewrite (same_class_starts _ _ S).
Qed.
End Items.

Lemma form_at_later n i : i <> 0%nat -> form_at n i <> Prefix.
Proof. intros H. unfold form_at. destruct (Nat.leb n 1); [discriminate|]. destruct (Nat.eqb i 0) eqn:E; [apply Nat.eqb_eq in E; contradiction|]. now destruct (Nat.eqb (S i) n). Qed.
Lemma mapi_forall (v : version) pf len (n : nat) ys : forall ss i, i <> 0%nat ->
  Forall2 (fun y s => forall f, f <> Prefix -> side_spaces (mkRenderer f v pf len) y = s) ys ss ->
  mapi (fun i x => side_spaces (mkRenderer (form_at n i) v pf len) x) i ys = ss.
Proof.
  induction ys as [|y ys IH]; intros ss i I H; inversion H as [|y0 s0 ys0 ss0 H1 H2]; subst; [reflexivity|]. cbn [mapi]. rewrite (H1 _ (form_at_later n i I)). f_equal. apply IH; [discriminate|exact H2].
Qed.
Lemma row_drawn mean umax v pf len e x l atoms d ns d' : cx_hack x = false -> all_some (item_atom mean) l = Some atoms -> forallb (item_fits mean v) l = true ->
  den mean umax x l d = Some (ns, d') -> row_spaces v pf len (flat_map (mathml e) ns) = code_atoms true (cx_style x) ClOpen atoms.
Proof.
  intros K A F E. unfold den in E. destruct (items_drawn mean umax v pf len e x l K atoms ClOpen ClOpen [] d ns d' A F (or_introl eq_refl) E) as (ns' & ys & -> & Y & P & G).
  cbn [app]. rewrite Y. unfold row_spaces. clear Y. destruct ys as [|y ys]; destruct (code_atoms true (cx_style x) ClOpen atoms) as [|s ss]; inversion P as [|y0 s0 ys0 ss0 H1 H2]; subst; [reflexivity|]. cbn [mapi].
  rewrite (G eq_refl). f_equal. now apply mapi_forall.
Qed.

(** Names without definitions. *)
Lemma assoc_str_in {A} k (m : list (str * A)) t : assoc_str k m = Some t -> In (k, t) m.
Proof. induction m as [|[k' t'] m IH]; [discriminate|]. cbn [assoc_str]. destruct (str_eqb k k') eqn:E; [apply str_eqb_eq in E; intros [= ->]; subst; now left|intros H; right; now apply IH]. Qed.
Lemma others_fit : forallb (fun v => forallb (fun p => forallb (fits v) (parts (snd p))) (UNRELIABLE ++ SUBSTITUTED) && forallb (fun n => fits v (T_PseudoOperator n)) FUNCTIONS) versions = true.
Proof. vm_compute. reflexivity. Qed.
Lemma builtin_fits v (a b : bool) name t u : usual_name name = true -> resolve_builtin a b name = Some t -> In u (parts t) -> fits v u = true.
Proof.
  intros U R I. pose proof others_fit as F. rewrite forallb_forall in F. specialize (F v (every_version v)). apply andb_prop in F as [F1 F2]. rewrite forallb_forall in F1, F2.
  assert (O : forall n s, In (n, s) (UNRELIABLE ++ SUBSTITUTED) -> In u (parts s) -> fits v u = true).
  { intros n s J K. specialize (F1 _ J). cbn [snd] in F1. rewrite forallb_forall in F1. now apply F1. }
  unfold resolve_builtin in R. destruct (if a then assoc_str name UNRELIABLE else None) as [t1|] eqn:E1.
  { injection R as <-. destruct a; [|discriminate]. apply assoc_str_in in E1. apply (O name t1); [apply in_app_iff; now left|exact I]. }
  destruct (if b then assoc_str name SUBSTITUTED else None) as [t2|] eqn:E2.
  { injection R as <-. destruct b; [|discriminate]. apply assoc_str_in in E2. apply (O name t2); [apply in_app_iff; now right|exact I]. }
  destruct (assoc_str name COMMANDS) as [t3|] eqn:E3.
  { injection R as <-. apply assoc_str_in in E3. apply (command_fits v name t3 u E3); [|exact I]. unfold usual_name in U. now destruct (existsb _ _). }
  destruct (existsb (str_eqb name) FUNCTIONS) eqn:E4; [|discriminate R]. injection R as <-. apply existsb_exists in E4 as (n & J & E4). apply str_eqb_eq in E4 as ->. cbn [parts In] in I. destruct I as [<-|[]]. now apply F2.
Qed.
Lemma unwrap_part t : In (unwrap_math t) (parts t).
Proof. destruct t; try (left; reflexivity). right. cbn [unwrap_math]. destruct t; left; reflexivity. Qed.
Lemma usual_fits cfg gs v i : pc_custom cfg = cmds_empty -> gs_cmds gs = cmds_empty -> usual i = true -> item_fits (name_meaning cfg gs) v i = true.
Proof.
  intros C G U. destruct i as [[s args| | | | |] ms]; try reflexivity. destruct args; [|reflexivity]. cbn [item_fits]. unfold tok. destruct s as [c|n|t]; cbn [usual raw] in *; [| |discriminate U].
  - apply (char_fits v c); [unfold usual_char in U; now destruct (existsb _ _)|apply unwrap_part].
  - unfold name_meaning, resolve_command. rewrite C, G. change (cmds_get cmds_empty n SrcLocal) with (@None token). change (cmds_get cmds_empty n SrcDocument) with (@None token). change (cmds_get cmds_empty n SrcConfig) with (@None token). cbv iota.
    destruct (resolve_builtin _ _ n) as [t|] eqn:R; [|reflexivity]. apply (builtin_fits v _ _ n t _ U R). apply unwrap_part.
Qed.

(** Accents and braces. *)
Definition flags2 : list (bool * bool) := [(true, true); (true, false); (false, true); (false, false)].
Lemma accents_drawn : forallb (fun v => forallb (fun pl => forallb (fun p =>
  match snd p with
  | T_Accent c _ attrs =>
      existsb (str_eqb (fst p)) (wide_accents ++ narrow_accents) &&
      match drawn (mkRenderer Postfix v (fst pl) (snd pl)) (accent_mark c attrs) with Some d => Bool.eqb (d_stretchy d) (existsb (str_eqb (fst p)) wide_accents) | None => false end
  | _ => true
  end) COMMANDS) flags2) versions = true.
Proof. vm_compute. reflexivity. Qed.
Lemma accent_drawn rd name c o attrs : In (name, T_Accent c o attrs) COMMANDS -> rd_form rd = Postfix ->
  exists d, drawn rd (accent_mark c attrs) = Some d /\ d_stretchy d = existsb (str_eqb name) wide_accents /\ In name (wide_accents ++ narrow_accents).
Proof.
  intros I P. pose proof accents_drawn as F. rewrite forallb_forall in F. specialize (F (rd_version rd) (every_version _)). rewrite forallb_forall in F.
  specialize (F (rd_postfix_first rd, rd_lenient rd)). rewrite forallb_forall in F.
  assert (J : In (rd_postfix_first rd, rd_lenient rd) flags2) by (destruct (rd_postfix_first rd), (rd_lenient rd); cbn; tauto).
  specialize (F J _ I). cbn [fst snd] in F. apply andb_prop in F as [N F]. destruct rd as [f v p l]. cbn [rd_form rd_version rd_postfix_first rd_lenient] in *. subst f.
  destruct (drawn _ _) as [d|]; [|discriminate F]. exists d. split; [reflexivity|]. split; [now apply Bool.eqb_prop|].
  apply existsb_exists in N as (n & K & N). apply str_eqb_eq in N as ->. exact K.
Qed.
Lemma brace_drawn rd o over : fits (rd_version rd) (T_OverUnderBrace o over) = true ->
  exists d, drawn rd (brace_mark o) = Some d /\ d_stretchy d = true.
Proof.
  cbn [fits]. intros F. apply has_entries_out in F as [B I]. unfold brace_mark, data. rewrite B. eexists. split.
  - unfold el. cbn [drawn]. change (str_eqb (lit "mo") (lit "mo")) with true. cbv iota. reflexivity.
  - cbn [ord_entries] in I. destruct I as [<-|[]]. renderers rd; reflexivity.
Qed.
