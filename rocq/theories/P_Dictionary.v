(** Operators are drawn as they are meant (C61). *)
From Verif Require Import Str M_SuperChar M_Length M_Spec M_Ast M_Token M_Symbols M_Commands M_Env M_LatexError M_Lexer M_CustomCmds M_Queue
  M_Spacing M_Leaf M_Parser M_Emit S_Html S_Store S_Emit S_MathML S_Spacing S_Queue S_Scripts S_Formula S_Api S_Dictionary
  L_Dictionary L_DictRow P_Spacing P_Formula.

(** Symbols have the entries of the operator dictionary that their categories stand for: those of all characters and all
    names but a few. *)
Theorem C61_entries : forall v,
  (forall c t, usual_char c = true -> In t (parts (char_token c)) -> fits v t = true) /\
  (forall allow_unreliable conventional name t u, usual_name name = true -> resolve_builtin allow_unreliable conventional name = Some t -> In u (parts t) -> fits v u = true).
Proof.
  intros v. split.
  - intros c t U. apply char_fits. unfold usual_char in U. now destruct (existsb _ _).
  - intros a b name t u. apply builtin_fits.
Qed.
(** A symbol in a sequence has the spaces that C36 says, and does not stretch. *)
Theorem C61_symbols : forall rd e x prev next t a c n, atom_of t = Some a -> fits (rd_version rd) t = true ->
  (sign t = true -> rd_form rd = Prefix -> starts_operand prev = true) -> sym_node x PaSequence prev next t = Some (c, n) ->
  exists y d, mathml e n = [y] /\ drawn rd y = Some d /\ (d_left d, d_right d) = fst (code_atom true (cx_style x) prev next a) /\ d_stretchy d = false.
Proof.
  intros rd e x prev next t a c n A F G N. destruct (sym_drawn rd e x prev next t a c n A F G N) as (y & d & E & _ & D & L & R & S). exists y, d.
  split; [exact E|]. split; [exact D|]. split; [|exact S]. rewrite L, R. now destruct (fst (code_atom true (cx_style x) prev next a)).
Qed.
(** So the spaces in a row of atoms are those of C36, and between the atoms they are those of TeX, with the same exceptions. *)
Theorem C61_row : forall cfg usize_max gs st l ns gs' atoms v postfix_first lenient e,
  snippet_meaning cfg usize_max gs st l = Some (ns, gs') -> all_some (item_atom (name_meaning cfg gs)) l = Some atoms ->
  forallb (item_fits (name_meaning cfg gs) v) l = true ->
  row_spaces v postfix_first lenient (flat_map (mathml e) ns) = code_atoms true st ClOpen atoms /\
  (gaps (row_spaces v postfix_first lenient (flat_map (mathml e) ns)) = tex_spacing st atoms <-> exceptional st None atoms = false).
Proof.
  intros cfg um gs st l ns gs' atoms v pf len e E A F. unfold snippet_meaning in E. destruct (_ && _); [|discriminate E]. destruct (den _ _ _ _ _) as [[ns0 d]|] eqn:D; [|discriminate E]. injection E as -> _.
  assert (R : row_spaces v pf len (flat_map (mathml e) ns) = code_atoms true st ClOpen atoms) by exact (row_drawn _ _ v pf len e (snippet_ctx st) l atoms _ _ _ eq_refl A F D).
  split; [exact R|]. rewrite R. apply C36_tex_spacing.
Qed.
(** Written out for texts without definitions. *)
Theorem C61_text : forall cfg usize_max gs st l ns gs' atoms v postfix_first lenient e,
  pc_custom cfg = cmds_empty -> gs_cmds gs = cmds_empty -> forallb usual l = true -> formula_ok l = true ->
  snippet_meaning cfg usize_max gs st l = Some (ns, gs') -> all_some (item_atom (name_meaning cfg gs)) l = Some atoms -> exceptional st None atoms = false ->
  exists F, forall f, (F <= f)%nat ->
    exists ns, fst (parse_snippet cfg usize_max f gs (formula_text l) st) = Ok ns /\
      gaps (row_spaces v postfix_first lenient (flat_map (mathml e) ns)) = tex_spacing st atoms.
Proof.
  intros cfg um gs st l ns gs' atoms v pf len e C G U O E A X. destruct (C52_parsed cfg um gs st l ns gs' O E) as (F & P). exists F. intros f L. exists ns. rewrite (P f L). split; [reflexivity|].
  apply (C61_row cfg um gs st l ns gs' atoms v pf len e E A); [|exact X]. rewrite forallb_forall in *. intros i I. apply usual_fits; [exact C|exact G|now apply U].
Qed.
(** Large operators and named operators: their spaces, which of them are larger in display style, and where their scripts are. *)
Theorem C61_operators : forall rd e x prev next t b k n, operator_node x prev next t b k = Some n -> fits (rd_version rd) t = true ->
  exists y d, mathml e n = [y] /\ drawn rd (core y) = Some d /\ operator_drawing t (fst (code_atom true (cx_style x) prev next AOp)) d /\
    (bounds_trivial b = false -> forall display, scripts_place display rd y = Some (tex_place display (takes_limits t) k)).
Proof.
  intros rd e x prev next t b k n E F. destruct (operator_drawn rd e x prev next t b k n E F) as (y & d & M & D & (L & R & S & G) & P). exists y, d.
  split; [exact M|]. split; [exact D|]. split; [|exact P]. split; [|split; [exact S|exact G]]. rewrite L, R. now destruct (fst (code_atom true (cx_style x) prev next AOp)).
Qed.
(** The delimiters at the ends stretch, but for those that cannot, and those in the dictionary have no spaces. *)
Theorem C61_fences : forall rd e t sp loc d, extract_delimiter (t, sp) loc = Ok d -> fits (rd_version rd) t = true -> rd_form rd <> Infix ->
  exists y dr, mathml e (fence_operator (Some d)) = [y] /\ drawn rd y = Some dr /\ delimiter_drawing t dr.
Proof. exact fence_drawn. Qed.
(** So do those in the middle. *)
Theorem C61_middle : forall rd e x p prev next s args c n d nu nu' mean usize_max,
  tok mean s = T_Middle -> args = [ASym d] -> fits (rd_version rd) (tok mean d) = true ->
  den_head mean usize_max x p prev next (HSym s args) nu = Some ((c, n), nu') ->
  exists y dr, mathml e n = [y] /\ drawn rd y = Some dr /\ delimiter_drawing (tok mean d) dr.
Proof.
  intros rd e x p prev next s args c n d nu nu' mean um T -> F E. rewrite L_FormEq.den_sym_eq in E. cbv zeta in E. rewrite T in E.
  apply L_Form.dbind_some in E as (o & nu1 & D & E). apply L_Form.dopt_some in D as [D ->]. unfold delimiter in D.
  destruct (extract_delimiter (tok mean d, span_default) DmBig) as [o'| |] eqn:X; try discriminate D. injection D as ->. injection E as <- <- <-. exact (middle_drawn rd e _ _ _ _ X F).
Qed.
(** Delimiters of a given size stretch to that size and are centered; in the middle they have the spaces of a relation, otherwise none. *)
Theorem C61_sized : forall rd e t sp loc d sz st prev next pt, extract_delimiter (t, sp) loc = Ok d -> fits (rd_version rd) t = true ->
  (at_form (entries (rd_version rd) (sc_text (so_op d))) Infix = None -> so_spacing d = DsInfixRelation -> rd_lenient rd = false) ->
  let (attrs, spaces) := big_spacing st prev next pt d in
  exists y dr, mathml e (Operator (so_op d) attrs (Some sz) (fst spaces) (snd spaces)) = [y] /\ drawn rd y = Some dr /\ d_stretchy dr = negb (pretended t) /\
    (pretended t = false -> d_symmetric dr = true) /\
    match pt with
    | Some PtMiddle => (d_left dr, d_right dr) = fst (code_atom true st prev next ARel)
    | _ => forced t = false -> (d_left dr, d_right dr) = (0, 0)
    end.
Proof.
  intros rd e t sp loc d sz st prev next pt X F L. destruct (big_drawn rd e t sp loc d sz st prev next pt X F L) as (y & dr & M & D & S & Y & P).
  destruct (big_spacing st prev next pt d) as [attrs [l r]]. cbn [fst snd] in M. exists y, dr. split; [exact M|]. split; [exact D|]. split; [exact S|]. split; [exact Y|].
  destruct pt as [[]|]; try (intros H; destruct (P H) as [-> ->]; reflexivity). destruct P as [-> ->]. now destruct (fst (code_atom true st prev next ARel)).
Qed.
(** Wide accents, braces and arrows with labels stretch, other accents do not. *)
Theorem C61_accents : forall rd e name c is_over attrs n, In (name, T_Accent c is_over attrs) COMMANDS -> rd_form rd = Postfix ->
  exists tag a d, mathml e ((if is_over then OverAccent else UnderAccent) (sc_from_char c) attrs n) = [el tag a (mathml e n ++ [accent_mark c attrs])] /\
    drawn rd (accent_mark c attrs) = Some d /\ d_stretchy d = existsb (str_eqb name) wide_accents /\ In name (wide_accents ++ narrow_accents).
Proof.
  intros rd e name c o attrs n I P. destruct (accent_drawn rd name c o attrs I P) as (d & D & S & N). destruct o; do 2 eexists; exists d; (split; [reflexivity|]); (split; [exact D|]); (split; [exact S|exact N]).
Qed.
Theorem C61_braces : forall rd e o is_over n, fits (rd_version rd) (T_OverUnderBrace o is_over) = true ->
  exists tag a d, mathml e ((if is_over then OverAccent else UnderAccent) (ord_as_op o) A_EMPTY n) = [el tag a (mathml e n ++ [brace_mark o])] /\
    drawn rd (brace_mark o) = Some d /\ d_stretchy d = true.
Proof.
  intros rd e o is_over n F. destruct (brace_drawn rd o is_over F) as (d & D & S). destruct is_over; do 2 eexists; exists d; (split; [reflexivity|]); (split; [exact D|exact S]).
Qed.
Theorem C61_arrows : forall rd e st r prev next under over, fits (rd_version rd) (T_XArrow r) = true ->
  exists y rest1 rest2 d, mathml e (arrow_node st r prev next under over) = [el "mrow" [] (rest1 :: y :: rest2)] /\ drawn rd (core y) = Some d /\ d_stretchy d = true /\
    (rd_form rd = Infix -> (d_left d, d_right d) = fst (code_atom true st prev next ARel)).
Proof.
  intros rd e st r prev next under over F. destruct (arrow_drawn rd e r st prev next F) as (y & d & M & C & D & S & P).
  unfold arrow_node. cbv zeta. cbn [mathml flat_map].
  destruct under as [u|]; cbn [mathml]; rewrite M; do 3 eexists; exists d; (split; [reflexivity|]); cbn [app]; change (core (el _ _ (y :: _))) with (core y); rewrite C; (split; [exact D|]); (split; [exact S|exact P]).
Qed.

(** ** Where operators are drawn otherwise *)

(** A sign at the start of a row is taken for one without a left side, though there is something before the row. *)
Theorem C61_row_start_refuted : forall v postfix_first lenient,
  option_map (fun r => map (fun x => row_spaces v postfix_first lenient (children x)) (tl r)) (shown StDisplay [i1 "a"; i2 "color" [ALit (lit "red")]; i1 "+"; i1 "b"]) = Some [[(0, 0); (0, 0)]] /\
  option_map (fun r => map (fun x => row_spaces v postfix_first lenient (children x)) (tl (children (first_child (hd (XText []) r)))))
    (shown StDisplay [Item (HEnv EAligned [] [i1 "a"; i1 "&"; i1 "+"; i1 "b"]) []]) = Some [[(0, 0); (0, 0)]] /\
  tex_spacing StDisplay [AOrd; ABin; AOrd] = [4; 4].
Proof. intros [[] []] [] []; vm_compute; repeat split. Qed.
(** A group counts as an opening delimiter after an operator, and a script as an ordinary symbol after a relation. *)
Theorem C61_next_refuted : forall v postfix_first lenient,
  option_map (row_spaces v postfix_first lenient) (shown StDisplay [i1 "sin"; Item (HGroup [i1 "x"]) []]) = Some [(0, 0); (0, 0)] /\
  tex_spacing StDisplay [AOp; AOrd] = [3] /\
  option_map (row_spaces v postfix_first lenient) (shown StDisplay [i1 "a"; i3 "=" [] [FSub (a1 "b")]; i1 "="; i1 "c"]) = Some [(0, 0); (5, 5); (0, 5); (0, 0)] /\
  tex_spacing StDisplay [AOrd; ARel; ARel; AOrd] = [5; 0; 5].
Proof. intros [[] []] [] []; vm_compute; repeat split. Qed.
(** Two relations stretch. *)
Theorem C61_stretchy_refuted : forall rd,
  option_map (fun r => map (fun x => option_map d_stretchy (drawn rd (first_child x))) r)
    (shown StDisplay [i2 "overset" [AGroup [i1 "a"; i1 "b"; i1 "c"]; a1 "smile"]; i2 "overset" [AGroup [i1 "a"; i1 "b"; i1 "c"]; a1 "frown"]]) = Some [Some true; Some true].
Proof. intros [[] [[] []] [] []]; vm_compute; repeat split. Qed.
(** For two operators at the start of a row [\limits] has no effect in text style. *)
Theorem C61_limits_refuted : forall rd, rd_form rd = Prefix ->
  option_map (fun r => map (scripts_place false rd) r)
    (shown StText [Item (HSym (SChar 0x2a1d) []) [FLimits (c1 "limits"); FSub (a1 "i")]; Item (HSym (SChar 0x2a1e) []) [FLimits (c1 "limits"); FSub (a1 "i")]]) = Some [Some Beside; Some Beside] /\
  tex_place false true (Some LkAlways) = AboveAndBelow.
Proof. intros [f [[] []] [] []] F; cbn in F; subst f; vm_compute; repeat split. Qed.
(** Delimiters that are not in the dictionary have the spaces of relations. *)
Theorem C61_delimiter_spaces_refuted : forall v postfix_first lenient,
  option_map (fun r => map (fun x => row_spaces v postfix_first lenient (children x)) r)
    (shown StDisplay [Item (HFence (c1 "lmoustache") [i1 "x"] (c1 "rmoustache")) []; Item (HFence (c1 "ulcorner") [i1 "x"] (c1 "urcorner")) []]) = Some [[(5, 5); (0, 0); (5, 5)]; [(5, 5); (0, 0); (5, 5)]].
Proof. intros [[] []] [] []; vm_compute; repeat split. Qed.
(** Arrows as delimiters are not centered, unlike other delimiters, unless they are in the middle or have a given size. *)
Theorem C61_centered_refuted : forall rd,
  option_map (fun r => map (fun x => map (fun y => option_map d_symmetric (drawn rd y)) (children x)) r)
    (shown StDisplay [Item (HFence (c1 "uparrow") [i2 "middle" [a1 "uparrow"]; i2 "big" [a1 "uparrow"]] (c1 "downarrow")) []; Item (HFence (c1 "(") [i2 "middle" [a1 "("]; i2 "big" [a1 "("]] (c1 ")")) []]) =
    Some [[Some false; Some true; Some true; Some false]; [Some true; Some true; Some true; Some true]].
Proof. intros [[] [[] []] [] []]; vm_compute; repeat split. Qed.

Example C61_nonvacuous :
  let l := [i1 "-"; i3 "x" [] [FSup (a1 "2")]; i1 "+"; i3 "sum" [] [FSub (a1 "i"); FSup (a1 "n")]; i1 "sin"; i1 "("; i1 "y"; i1 ")"; i1 "leq"; num "3.14"; i1 ","; i1 "a"; i1 "uparrow"; i1 "|"; i1 "b"; i1 "|"] in
  let atoms := [ABin; AOrd; ABin; AOp; AOp; AOpen; AOrd; AClose; ARel; AOrd; APunct; AOrd; ARel; AOrd; AOrd; AOrd] in
  formula_ok l = true /\ forallb usual l = true /\ all_some (item_atom (name_meaning plain_cfg gs_default)) l = Some atoms /\
  exceptional StDisplay None atoms = false /\ match snippet_meaning plain_cfg 1000 gs_default StDisplay l with Some _ => true | None => false end = true /\
  tex_spacing StDisplay atoms = [0; 4; 4; 3; 0; 0; 0; 5; 5; 0; 3; 5; 5; 0; 0] /\
  tok (name_meaning plain_cfg gs_default) (c1 "middle") = T_Middle /\
  (forall v, usual_char 40 = true /\ fits v (unwrap_math (char_token 40)) = true /\ fits v (T_Relation SYM_UPWARDS_ARROW) = true) /\
  match extract_delimiter (unwrap_math (char_token 40), span_default) DmLeft with Ok _ => true | _ => false end = true.
Proof. cbv zeta. repeat (split; [vm_compute; reflexivity|]). split; [|vm_compute; reflexivity]. intros [[] []]; vm_compute; repeat split. Qed.
Print Assumptions C61_entries.
Print Assumptions C61_symbols.
Print Assumptions C61_row.
Print Assumptions C61_text.
Print Assumptions C61_operators.
Print Assumptions C61_fences.
Print Assumptions C61_middle.
Print Assumptions C61_sized.
Print Assumptions C61_accents.
Print Assumptions C61_braces.
Print Assumptions C61_arrows.
Print Assumptions C61_row_start_refuted.
Print Assumptions C61_next_refuted.
Print Assumptions C61_stretchy_refuted.
Print Assumptions C61_limits_refuted.
Print Assumptions C61_delimiter_spaces_refuted.
Print Assumptions C61_centered_refuted.
