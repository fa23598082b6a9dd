(** Properties C05 and C06 for whole conversions. *)
From Verif Require Import Str M_SuperChar M_Transform M_Length M_Spec M_Escape M_Ast M_Emit M_Output M_Token M_Symbols M_Commands M_Env
  M_LatexError M_Lexer M_CustomCmds M_Queue M_Spacing M_Colors M_Leaf M_TextParser M_Parser M_Api
  S_Html S_Xml S_Node S_Store S_Emit S_Tree S_Api S_Exposed S_Convert
  L_Emit L_Tags L_Document L_Api L_Convert L_Exposed P_Emit.

(** Whatever macros are configured and whatever was converted before: a successful conversion gives one
    [math] element with properly nested content, made of the renderer's elements and attributes only,
    unless an operator name or an unknown command with a markup character is in the trees. *)
Theorem C05_conversion : forall umax f config c calls latex d ast gs',
  scalar_config config -> cfg_ok (co_emitter config) -> converter_new config = NewOk c ->
  Forall scalar_call calls -> Forall reply_answered (replies umax f c calls) -> scalar_text latex ->
  let c' := after umax f c calls in
  parse umax f (cv_parser c') (cv_state c') latex d = (Ok ast, gs') -> unexposed ast ->
  exists r a body, fst (convert_with_global_state umax f c' latex d) = Ok r /\
    cr_mathml r = elem (lit "math") a body /\ attrs a /\ markup body.
Proof.
  intros umax f config c calls latex d ast gs' S K E Hc Hr Hl c' P U.
  destruct (run_arises umax f calls Hc c (new_cv_arises config c S E) Hr) as [C D]. fold c' in C, D.
  pose proof (parse_trees umax f _ _ _ _ _ _ C (document_gs_ok _ _ D) Hl P) as T.
  assert (X : cfg_ok (cv_emitter c')).
  { unfold c', after. rewrite (proj1 (run_config umax f calls c)). unfold converter_new in E. destruct (parse_custom_commands _ _ _); try discriminate. injection E as <-. exact K. }
  destruct (C05_well_formed (cv_emitter c') (label_lookup (gs_labels gs')) ast latex d X (trees_clean _ T U)) as (a & body & H).
  eexists. exists a, body. split; [|exact H]. unfold convert_with_global_state, convert. now rewrite P.
Qed.

Example C05_conversion_nonvacuous :
  let c := plain_converter [(lit "half", lit "\frac{#1}{2}")] in
  let r := fst (convert_with_global_state 1000 100 (after 1000 100 c [ApiGlobal (lit "\gdef\x{<}") Inline]) (lit "\half{a}\x\text{<b>}\cos") Inline) in
  Forall reply_answered (replies 1000 100 c [ApiGlobal (lit "\gdef\x{<}") Inline]) /\
  match r with
  | Ok r => cr_mathml r = lit "<math><mfrac><mi>a</mi><mn>2</mn></mfrac><mo>&lt;</mo><mtext>&lt;b&gt;</mtext><mo lspace=""0.1667em"" rspace=""0"">cos</mo></math>"
  | _ => False
  end.
Proof. split; [vm_compute; apply Forall_cons; [exact I|apply Forall_nil]|vm_compute; reflexivity]. Qed.

(** The tags of the output (names, attributes and all) are those of the output for the trees with every
    text erased and an empty source: nothing typed as text becomes a tag. Missing: operator names
    and unknown commands with markup characters, see [C06_refuted]. *)
Theorem C06_conversion_partial : forall umax f config c calls latex d ast gs',
  scalar_config config -> cfg_ok (co_emitter config) -> converter_new config = NewOk c ->
  Forall scalar_call calls -> Forall reply_answered (replies umax f c calls) -> scalar_text latex ->
  let c' := after umax f c calls in
  parse umax f (cv_parser c') (cv_state c') latex d = (Ok ast, gs') -> unexposed ast ->
  exists r, fst (convert_with_global_state umax f c' latex d) = Ok r /\
    tags (cr_mathml r) = tags (cr_mathml (emit_document (co_emitter config) (fun _ => Some []) (map erase ast) [] d)).
Proof.
  intros umax f config c calls latex d ast gs' S K E Hc Hr Hl c' P U.
  destruct (run_arises umax f calls Hc c (new_cv_arises config c S E) Hr) as [C D]. fold c' in C, D.
  pose proof (parse_trees umax f _ _ _ _ _ _ C (document_gs_ok _ _ D) Hl P) as T.
  assert (X : cv_emitter c' = co_emitter config).
  { unfold c', after. rewrite (proj1 (run_config umax f calls c)). unfold converter_new in E. destruct (parse_custom_commands _ _ _); try discriminate. now injection E as <-. }
  rewrite <- X in *. eexists. split; [unfold convert_with_global_state, convert; rewrite P; reflexivity|].
  apply C06_tags_independent_of_text_partial; [exact K|now apply trees_clean].
Qed.

(** An operator name becomes an element of its own; unknown commands reach the output as they
    were typed. *)
Theorem C06_refuted :
  (exists latex r, fst (convert_with_global_state 1000 100 (plain_converter []) latex Inline) = Ok r /\
     In (lit "img/src=x/onerror=alert(1)") (tags (cr_mathml r))) /\
  (exists latex r, fst (convert_with_global_state 1000 100 (plain_converter []) latex Inline) = Ok r /\
     cr_mathml r = lit "<math><mo lspace=""0"" rspace=""0"">&lt;</mo></math>" /\ latex = lit "\operatorname{\&lt;}") /\
  (exists latex r, fst (convert_with_global_state 1000 100 (mkConverter (cv_emitter (plain_converter [])) gs_default (mkCfg cmds_empty true false false true 1000)) latex Inline) = Ok r /\
     latex = lit "\<a" /\ cr_mathml r = lit "<math><merror class=""u""><mtext>\<</mtext></merror><mi>a</mi></math>").
Proof.
  split; [|split].
  - exists (lit "\operatorname{<img/src=x/onerror=alert(1)>}"). eexists. split; [vm_compute; reflexivity|]. vm_compute. auto.
  - exists (lit "\operatorname{\&lt;}"). eexists. split; [vm_compute; reflexivity|]. split; vm_compute; reflexivity.
  - exists (lit "\<a"). eexists. split; [vm_compute; reflexivity|]. split; vm_compute; reflexivity.
Qed.

Print Assumptions C05_conversion.
Print Assumptions C06_conversion_partial.
Print Assumptions C06_refuted.
