(** Property C53: the output reads back as the MathML of the trees. *)
From Verif Require Import Str M_SuperChar M_Transform M_Length M_Spec M_Escape M_Ast M_Emit M_Output M_Token M_Symbols M_Commands M_Env
  M_LatexError M_Lexer M_CustomCmds M_Queue M_Spacing M_Colors M_Leaf M_TextParser M_Parser M_Api
  S_Html S_Node S_Store S_Emit S_Tree S_Api S_Exposed S_Convert S_Formula S_MathML
  L_Emit L_Document L_Api L_Convert L_Exposed L_ReadBack L_Readable P_Formula.

(** For every list of trees, configuration and table of labels, an XML reader finds exactly one [math]
    element in the output, with the elements, attributes and texts of the trees, if the strings that
    are copied as they are have no markup characters. *)
Theorem C53_read_back : forall c labels ast latex d, cfg_ok c -> Forall readable ast ->
  read_xml (cr_mathml (emit_document c labels ast latex d)) = Some [document_xml c labels ast latex d].
Proof. exact document_reads. Qed.

(** Pretty printing is invisible to the reader. *)
Theorem C53_pretty : forall c labels ast latex d, cfg_ok c -> Forall readable ast ->
  read_xml (cr_mathml (emit_document c labels ast latex d)) = read_xml (cr_mathml (emit_document (compact c) labels ast latex d)).
Proof. intros c labels ast latex d H K. rewrite !C53_read_back by assumption. reflexivity. Qed.

(** For whole conversions, whatever macros are configured and whatever was converted before: the
    output reads back as the trees, with the labels known after the conversion, unless an operator
    name or an unknown command with a markup character is in the trees. *)
Theorem C53_conversion : forall umax f config c calls latex d ast gs',
  scalar_config config -> cfg_ok (co_emitter config) -> converter_new config = NewOk c ->
  Forall scalar_call calls -> Forall reply_answered (replies umax f c calls) -> scalar_text latex ->
  let c' := after umax f c calls in
  parse umax f (cv_parser c') (cv_state c') latex d = (Ok ast, gs') -> unexposed ast ->
  exists r, fst (convert_with_global_state umax f c' latex d) = Ok r /\
    read_xml (cr_mathml r) = Some [document_xml (co_emitter config) (label_lookup (gs_labels gs')) ast latex d].
Proof.
  intros umax f config c calls latex d ast gs' S K E Hc Hr Hl c' P U.
  destruct (run_arises umax f calls Hc c (new_cv_arises config c S E) Hr) as [C D]. fold c' in C, D.
  pose proof (parse_trees umax f _ _ _ _ _ _ C (document_gs_ok _ _ D) Hl P) as T.
  assert (X : cv_emitter c' = co_emitter config).
  { unfold c', after. rewrite (proj1 (run_config umax f calls c)). unfold converter_new in E. destruct (parse_custom_commands _ _ _); try discriminate. now injection E as <-. }
  rewrite <- X in *. eexists. split; [unfold convert_with_global_state, convert; rewrite P; reflexivity|].
  apply C53_read_back; [exact K|now apply trees_readable].
Qed.

(** From the text of a formula to the elements: what the conversion writes reads back as the meaning of
    the formula, with the formula's text as the annotation. *)
Theorem C53_formula : forall cfg usize_max ec gs d l ns gs', formula_ok l = true -> cfg_ok ec ->
  snippet_meaning cfg usize_max gs (display_style d) l = Some (ns, gs') -> Forall readable ns ->
  exists F, forall f, (F <= f)%nat -> exists r, convert usize_max f ec cfg gs (formula_text l) d = (Ok r, gs') /\
    read_xml (cr_mathml r) = Some [document_xml ec (label_lookup (gs_labels gs')) ns (formula_text l) d].
Proof.
  intros cfg um ec gs d l ns gs' O K E R. destruct (C52_converted cfg um ec gs d l ns gs' O E) as (F & H).
  exists F. intros f L. eexists. split; [exact (H f L)|]. now apply C53_read_back.
Qed.

(** A conversion, and what the reader makes of it. *)
Example C53_nonvacuous :
  let c := plain_converter [(lit "half", lit "\frac{#1}{2}")] in
  let r := fst (convert_with_global_state 1000 100 c (lit "\half{a}<\text{ \&b}\begin{matrix}1&\\2\end{matrix}") Block) in
  match r with
  | Ok r => read_xml (cr_mathml r) = Some
      [el "math" [att "display" (lit "block")]
         [el "mfrac" [] [el "mi" [] [XText (lit "a")]; el "mn" [] [XText (lit "2")]];
          el "mo" [] [XText (lit "<")]; el "mtext" [] [XText (160 :: lit "&b")];
          el "mtable" [att "displaystyle" (lit "false"); att "scriptlevel" (lit "0")]
            [el "mtr" [] [el "mtd" [] [el "mn" [] [XText (lit "1")]]; el "mtd" [] []];
             el "mtr" [] [el "mtd" [] [el "mn" [] [XText (lit "2")]]]]]]
  | _ => False
  end /\
  (* what the reader refuses *)
  read_xml (lit "<mi>x</mn>") = None /\ read_xml (lit "<mrow><mi>x</mi>") = None /\ read_xml (lit "<mi a=b>x</mi>") = None /\ read_xml (lit "<mi a=""<"">x</mi>") = None.
Proof. vm_compute. repeat split; reflexivity. Qed.

Print Assumptions C53_read_back.
Print Assumptions C53_pretty.
Print Assumptions C53_conversion.
Print Assumptions C53_formula.
