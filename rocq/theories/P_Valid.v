(** Properties C54 and C55: elements have the children that MathML prescribes, and no attribute twice. *)
From Verif Require Import Str M_SuperChar M_Transform M_Length M_Spec M_Escape M_Ast M_Emit M_Output M_Token M_Symbols M_Commands M_Env
  M_LatexError M_Lexer M_CustomCmds M_Queue M_Spacing M_Colors M_Leaf M_TextParser M_Parser M_Api
  S_Html S_Node S_Store S_Emit S_Tree S_Queue S_Api S_Exposed S_Convert S_Formula S_MathML S_Valid S_Tidy
  L_Emit L_Document L_Api L_Convert L_Exposed L_Valid L_Once L_Tidy P_Formula P_MathML.

(** Trees with their separators in tables only: every element of the document has the children it should have. *)
Theorem C54_trees : forall c labels ast latex d, all_separated ast -> valid (document_xml c labels ast latex d) = true.
Proof. exact document_valid. Qed.

(** The text of a formula in which [&] and [\\] are where the table can see them is converted to valid
    MathML. *)
Theorem C54_formula : forall cfg usize_max ec gs d l ns gs', formula_ok l = true -> cfg_ok ec ->
  formula_tidy (name_meaning cfg gs) l = true ->
  snippet_meaning cfg usize_max gs (display_style d) l = Some (ns, gs') -> Forall readable ns ->
  exists F, forall f, (F <= f)%nat -> exists r x, convert usize_max f ec cfg gs (formula_text l) d = (Ok r, gs') /\
    read_xml (cr_mathml r) = Some [x] /\ valid x = true.
Proof.
  intros cfg um ec gs d l ns gs' O K T E R. destruct (C53_formula cfg um ec gs d l ns gs' O K E R) as (F & H).
  exists F. intros f L. destruct (H f L) as (r & H1 & H2). exists r, (document_xml ec (label_lookup (gs_labels gs')) ns (formula_text l) d).
  split; [exact H1|]. split; [exact H2|]. apply document_valid. unfold snippet_meaning in E.
  destruct ((_ || _) && _); [|discriminate]. destruct (den _ _ _ _ _) as [[ns' d']|] eqn:D; [|discriminate]. injection E as -> _. exact (tidy_separated _ _ (snippet_ctx (display_style d)) _ _ _ _ eq_refl T D).
Qed.

(** Any conversion whose trees have their separators in tables only. *)
Theorem C54_conversion_partial : forall umax f config c calls latex d ast gs',
  scalar_config config -> cfg_ok (co_emitter config) -> converter_new config = NewOk c ->
  Forall scalar_call calls -> Forall reply_answered (replies umax f c calls) -> scalar_text latex ->
  let c' := after umax f c calls in
  parse umax f (cv_parser c') (cv_state c') latex d = (Ok ast, gs') -> unexposed ast -> all_separated ast ->
  exists r x, fst (convert_with_global_state umax f c' latex d) = Ok r /\ read_xml (cr_mathml r) = Some [x] /\ valid x = true.
Proof.
  intros umax f config c calls latex d ast gs' S K E Hc Hr Hl c' P U A.
  destruct (C53_conversion umax f config c calls latex d ast gs' S K E Hc Hr Hl P U) as (r & H1 & H2).
  eexists r, _. split; [exact H1|]. split; [exact H2|]. now apply document_valid.
Qed.

(** A subscript, a fraction and a root without one of their parts: the separator is taken as an argument. *)
Theorem C54_refuted : exists latex1 latex2 latex3,
  let invalid latex := match fst (convert_with_global_state 1000 100 (plain_converter []) latex Block) with
    | Ok r => match read_xml (cr_mathml r) with Some [x] => negb (valid x) | _ => false end
    | _ => false
    end in
  invalid latex1 = true /\ invalid latex2 = true /\ invalid latex3 = true.
Proof.
  exists (lit "\begin{matrix} a_& b\end{matrix}"), (lit "\begin{matrix}\frac & b\end{matrix}"), (lit "\begin{matrix}\sqrt[2]\\ b\end{matrix}").
  vm_compute. repeat split; reflexivity.
Qed.

(** For whole conversions, whatever macros are configured and whatever was converted before: no element
    has an attribute twice, except perhaps [stretchy]; and not even that if no operator is told both to stretch
    and not to stretch. *)
Theorem C55_conversion_partial : forall umax f config c calls latex d ast gs',
  scalar_config config -> cfg_ok (co_emitter config) -> converter_new config = NewOk c ->
  Forall scalar_call calls -> Forall reply_answered (replies umax f c calls) -> scalar_text latex ->
  let c' := after umax f c calls in
  parse umax f (cv_parser c') (cv_state c') latex d = (Ok ast, gs') -> unexposed ast ->
  exists r x, fst (convert_with_global_state umax f c' latex d) = Ok r /\ read_xml (cr_mathml r) = Some [x] /\
    attributes_once true x = true /\ (untorn ast -> attributes_once false x = true).
Proof.
  intros umax f config c calls latex d ast gs' S K E Hc Hr Hl c' P U.
  destruct (C53_conversion umax f config c calls latex d ast gs' S K E Hc Hr Hl P U) as (r & H1 & H2).
  destruct (run_arises umax f calls Hc c (new_cv_arises config c S E) Hr) as [C D]. fold c' in C, D.
  pose proof (parse_trees umax f _ _ _ _ _ _ C (document_gs_ok _ _ D) Hl P) as T.
  eexists r, _. split; [exact H1|]. split; [exact H2|]. now apply trees_once.
Qed.
(** A delimiter made larger and then made a relation is told both. *)
Theorem C55_refuted : exists latex1 latex2,
  let twice latex := match fst (convert_with_global_state 1000 100 (plain_converter []) latex Block) with
    | Ok r => match read_xml (cr_mathml r) with Some [x] => negb (attributes_once false x) | _ => false end
    | _ => false
    end in
  twice latex1 = true /\ twice latex2 = true.
Proof. exists (lit "\mathrel{\big|}"), (lit "\Set{x\mathrel{|}y}"). vm_compute. split; reflexivity. Qed.

(** What is valid, and what is not. *)
Example C54_nonvacuous :
  let f := [Item (HEnv EMatrix [] [i3 "a" [] [FSub (a1 "i")]; i1 "&"; i2 "frac" [a1 "b"; AGroup [i1 "c"; Item (HEnv EMatrix [] [i1 "&"; next_row]) []]]; next_row; i1 "displaystyle"; i1 "x"]) []; next_row] in
  let g := [Item (HEnv EMatrix [] [i1 "displaystyle"; i1 "&"]) []] in
  let h := [Item (HEnv EMatrix [] [i3 "a" [] [FSub (AGroup [i1 "&"])]]) []] in
  let tidy := formula_tidy (name_meaning plain_cfg gs_default) in
  tidy f = true /\ tidy g = false /\ tidy h = false /\
  match snippet_meaning plain_cfg 1000 gs_default StText f with
  | Some (ns, _) => valid (document_xml (co_emitter (plain_config [])) (fun _ => None) ns [] Block) = true /\ length ns = 2%nat
  | None => False
  end /\
  valid (el "msub" [] [el "mi" [] []]) = false /\ valid (el "mrow" [] [XText (lit "x")]) = false /\ valid (el "mtable" [] [el "mtd" [] []]) = false.
Proof. vm_compute. repeat split; reflexivity. Qed.
Example C55_nonvacuous :
  let mo := el "mo" [att "stretchy" (lit "false"); att "stretchy" (lit "true"); att "lspace" (lit "0")] [] in
  attributes_once false mo = false /\ attributes_once true mo = true /\ attributes_once true (el "mo" [att "form" []; att "form" []] []) = false /\
  match fst (convert_with_global_state 1000 100 (plain_converter []) (lit "\sum\limits_i\left(\big|\mathrel{/}\right)") Block) with
  | Ok r => match read_xml (cr_mathml r) with Some [x] => attributes_once false x = true | _ => False end
  | _ => False
  end.
Proof. vm_compute. repeat split; reflexivity. Qed.

Print Assumptions C54_trees.
Print Assumptions C54_formula.
Print Assumptions C54_conversion_partial.
Print Assumptions C54_refuted.
Print Assumptions C55_conversion_partial.
Print Assumptions C55_refuted.
