(** Properties C05, C06, C07, C16, C35 and C49: the emitter. *)
From Verif Require Import Str M_SuperChar M_Length M_Spec M_Escape M_Ast M_Emit M_Output.
From Verif Require Import S_Html S_Xml S_Node S_Emit L_Escape L_Node L_Emit L_Table L_Markup L_Tags L_Layout L_Document.

(** The output for any list of trees whose verbatim strings are markup free, under every
    configuration, is one [math] element whose content is properly nested markup over the
    renderer's element and attribute names. *)
Theorem C05_well_formed : forall c labels ast latex d, cfg_ok c -> Forall clean ast ->
  exists a body, cr_mathml (emit_document c labels ast latex d) = elem (lit "math") a body /\ attrs a /\ markup body.
Proof.
  intros c labels ast latex d Hc Ha. rewrite document_eq. do 2 eexists. split; [reflexivity|].
  split; [apply math_attrs_ok|]. apply mk_app; [now apply document_body_markup|apply nl_safe].
Qed.

Example C05_nonvacuous :
  let c := mkEmitterCfg PpNever false true (lit "err") (IndSpaces 4) (lit "p-") (fun _ => lit "1") in
  let ast := [Sup (IdentifierChar 120 LDefault) (Number (lit "2")); UnknownCommand (lit "foo")] in
  cfg_ok c /\ Forall clean ast /\
  cr_mathml (emit_document c (fun _ => None) ast (lit "x^2<\foo") Inline) =
    lit "<math><semantics><mrow><msup><mi>x</mi><mn>2</mn></msup><merror class=""err""><mtext>\foo</mtext></merror></mrow><annotation encoding=""application/x-tex"">x^2&lt;\foo</annotation></semantics></math>".
Proof.
  split; [|split].
  - split; [apply plain_value; reflexivity|]. split; [reflexivity|intros x; reflexivity].
  - assert (L : forall n, leaf_clean n -> children n = [] -> clean n)
      by (intros n H1 H2; constructor; [exact H1|rewrite H2; intros m []]).
    assert (P : forall s, forallb plain_char s = true -> content_safe s) by exact plain_content.
    apply Forall_cons; [|apply Forall_cons; [|apply Forall_nil]].
    + apply NA; [exact I|]. intros m [<-|[<-|[]]]; apply L; try reflexivity; apply P; vm_compute; reflexivity.
    + apply L; [apply P; vm_compute; reflexivity|reflexivity].
  - vm_compute. reflexivity.
Qed.

(** The tags of the output (names, attributes and all) do not depend on the user's text: erasing
    every text, number, tag, reference text and the embedded source leaves them unchanged. *)
Theorem C06_tags_independent_of_text_partial : forall c labels ast latex d, cfg_ok c -> Forall clean ast ->
  tags (cr_mathml (emit_document c labels ast latex d)) =
  tags (cr_mathml (emit_document c (fun _ => Some []) (map erase ast) [] d)).
Proof. intros c labels ast latex d Hc Ha. now apply document_sim. Qed.

Example C06_nonvacuous :
  let c := mkEmitterCfg PpNever false true (lit "err") (IndSpaces 4) [] (fun _ => lit "1") in
  let ast := [Text None None (lit "<b>&")] in
  tags (cr_mathml (emit_document c (fun _ => None) ast (lit "<script>") Inline)) =
    map lit ["math"; "semantics"; "mtext"; "/mtext"; "annotation encoding=""application/x-tex"""; "/annotation"; "/semantics"; "/math"]%string.
Proof. vm_compute. reflexivity. Qed.

(** Pretty printing only inserts line breaks, each followed by whole indentation units, in front
    of tags; for every tree (clean or not), configuration and label table. The warnings agree. *)
Theorem C07_pretty_only_inserts : forall c labels ast latex d,
  layout (indent_unit (ec_indentation c)) (cr_mathml (emit_document c labels ast latex d))
    (cr_mathml (emit_document (compact c) labels ast latex d)) /\
  cr_warnings (emit_document c labels ast latex d) = cr_warnings (emit_document (compact c) labels ast latex d).
Proof.
  intros c labels ast latex d. split; [apply document_layout|].
  unfold emit_document. change (ec_annotation (compact c)) with (ec_annotation c). destruct (ec_annotation c); reflexivity.
Qed.

(** Without pretty printing the renderer adds no line break of its own. *)
Theorem C07_compact_is_compact : forall c labels ast latex d, ec_pretty c = PpNever ->
  emit_document (compact c) labels ast latex d = emit_document c labels ast latex d.
Proof. intros [p x a cs i pr dt] labels ast latex d H. cbn [ec_pretty] in H. now subst. Qed.

Example C07_nonvacuous :
  let c := mkEmitterCfg PpAlways false false [] (IndSpaces 2) [] (fun _ => []) in
  let ast := [Sqrt (Number (lit "2"))] in
  cr_mathml (emit_document c (fun _ => None) ast [] Inline) =
    lit "<math>" ++ 10 :: lit "  <msqrt>" ++ 10 :: lit "    <mn>2</mn>" ++ 10 :: lit "  </msqrt>" ++ 10 :: lit "</math>" /\
  cr_mathml (emit_document (compact c) (fun _ => None) ast [] Inline) = lit "<math><msqrt><mn>2</mn></msqrt></math>".
Proof. split; vm_compute; reflexivity. Qed.

(** A reference links to the encoded label and shows, in parentheses, the tag the label table
    holds, or two question marks. *)
Theorem C16_reference_text : forall e l b,
  exists shown,
    emit e (EqRef l) b = nl e b ++ elem (lit "mtext") [] (elem (lit "a") (lit " href=""#" ++ ee_id_prefix e ++ percent_encode l ++ q) (lit "(" ++ shown ++ lit ")")) /\
    content_safe shown /\
    html_decode shown = match ee_labels e l with Some t => t | None => lit "??" end.
Proof.
  intros e l b. rewrite sh_eqref. eexists. split; [reflexivity|]. split; [apply escape_html_content_safe|].
  apply escape_html_spec.
Qed.

(** The undefined reference warning is raised iff some reference in the trees names a label that
    the table does not hold; the unknown command warning iff an unknown command is present. *)
Theorem C16_warnings : forall c labels ast latex d,
  let w := cr_warnings (emit_document c labels ast latex d) in
  (w_undefined_refs w = true <-> exists n l, In n ast /\ below (EqRef l) n /\ labels l = None) /\
  (w_unknown_cmds w = true <-> exists n s, In n ast /\ below (UnknownCommand s) n).
Proof.
  intros c labels ast latex d w. unfold w. rewrite !document_warnings by auto. split; split.
  - intros (n & m & H1 & H2 & H3). destruct m; try discriminate. cbn in H3. exists n, label. repeat split; auto.
    now destruct (labels label).
  - intros (n & l & H1 & H2 & H3). exists n, (EqRef l). cbn. rewrite H3. auto.
  - intros (n & m & H1 & H2 & H3). destruct m; try discriminate; eauto. cbn in H3. now destruct (labels label).
  - intros (n & s & H1 & H2). exists n, (UnknownCommand s). auto.
Qed.

Example C16_nonvacuous :
  let c := mkEmitterCfg PpNever false false [] IndTab [] (fun _ => []) in
  let labels := fun l => if str_eqb l (lit "a b") then Some (lit "3<") else None in
  cr_mathml (emit_document c labels [EqRef (lit "a b")] [] Inline) = lit "<math><mtext><a href=""#a%20b"">(3&lt;)</a></mtext></math>" /\
  cr_warnings (emit_document c labels [EqRef (lit "a b")] [] Inline) = mkWarn false false /\
  cr_mathml (emit_document c labels [EqRef (lit "c")] [] Inline) = lit "<math><mtext><a href=""#c"">(??)</a></mtext></math>" /\
  cr_warnings (emit_document c labels [Sqrt (EqRef (lit "c"))] [] Inline) = mkWarn true false.
Proof. repeat split; vm_compute; reflexivity. Qed.

(** A color becomes [color:#rrggbb;] with six upper case digits that read back as its channels. *)
Theorem C35_color_written : forall r g b st m, r < 256 -> g < 256 -> b < 256 ->
  exists h rest, row_attrs_str (mkRowAttrs (Some (r, g, b)) st m) = lit " style=""color:#" ++ h ++ lit ";" ++ rest /\
    read_rgb h = Some (r, g, b).
Proof.
  assert (H : forall x, x < 256 -> (upper_hex (hex_digit (x / 16)) && upper_hex (hex_digit (x mod 16)) = true /\
     unhex (hex_digit (x / 16)) = Some (x / 16) /\ unhex (hex_digit (x mod 16)) = Some (x mod 16))).
  { intros x Hx.
    set (p := fun x => upper_hex (hex_digit (x / 16)) && upper_hex (hex_digit (x mod 16)) &&
      match unhex (hex_digit (x / 16)), unhex (hex_digit (x mod 16)) with Some a, Some b => (a =? x / 16) && (b =? x mod 16) | _, _ => false end).
    assert (P : p x = true) by (apply (byte_forall p); [vm_compute; reflexivity|exact Hx]).
    unfold p in P. apply andb_true_iff in P as [P1 P2]. split; [exact P1|].
    destruct (unhex (hex_digit (x / 16))), (unhex (hex_digit (x mod 16))); try discriminate.
    apply andb_true_iff in P2 as [Q1 Q2]. apply N.eqb_eq in Q1, Q2. now subst. }
  intros r g b st m Hr Hg Hb. exists (hex_u8 r ++ hex_u8 g ++ hex_u8 b), ((if m then lit "math-shift:compact;" else []) ++ q ++ opt_str style_str st). split.
  - unfold row_attrs_str. cbn [ra_color ra_math_shift_compact ra_style opt_str].
    destruct m; rewrite <- !app_assoc; reflexivity.
  - unfold hex_u8, read_rgb. cbn [app forallb].
    apply H in Hr as (R1 & R2 & R3), Hg as (G1 & G2 & G3), Hb as (B1 & B2 & B3).
    apply andb_true_iff in R1 as [-> ->], G1 as [-> ->], B1 as [-> ->]. cbn [andb]. rewrite R2, R3, G2, G3, B2, B3.
    now rewrite <- !N.div_mod by discriminate.
Qed.

Example C35_nonvacuous :
  row_attrs_str (mkRowAttrs (Some (171, 5, 255)) None false) = lit " style=""color:#AB05FF;""" /\
  read_rgb (lit "AB05FF") = Some (171, 5, 255) /\ read_rgb (lit "ab05ff") = None.
Proof. repeat split; vm_compute; reflexivity. Qed.

(** The rows of a table body: one more than the row separators; the cells: one more than all
    separators; no cell content is lost, added or reordered; no row is without a cell. *)
Theorem C49_row_structure : forall last content,
  length (table_rows last content) = S (length (filter is_row_sep content)) /\
  length (flat_map tr_cells (table_rows last content)) = S (length (filter is_sep content)) /\
  concat (flat_map tr_cells (table_rows last content)) = filter (fun n => negb (is_sep n)) content /\
  Forall (fun r => tr_cells r <> []) (table_rows last content).
Proof. exact table_rows_facts. Qed.

(** Every kind of table is emitted with exactly one [mtr] per row and one content [mtd] per cell,
    in order, each row with its own number cell in numbered environments. [row_text] and
    [cell_text] depend on the position only, not on any state. *)
Theorem C49_table_shape : forall e b content, 
  let i1 := match b with O => O | _ => S b end in
  let i2 := match b with O => O | _ => S i1 end in
  let i3 := match b with O => O | _ => S i2 end in
  let rows last := table_rows last content in
  let body t nc last := concat (mapi (row_text e (emit e) t nc i1 i2 i3) 0 (rows last)) ++ nl e b in
  (forall al st bt, exists a, attrs a /\
     emit e (Table al st bt content) b = nl e b ++ elem (lit "mtable") a (body (Predefined al) None None)) /\
  (forall st sp, exists a, attrs a /\
     emit e (ArrayN st sp content) b = nl e b ++ elem (lit "mtable") a (body (Custom sp) None None)) /\
  (forall al last, exists a, attrs a /\
     emit e (EquationArray al last content) b = nl e b ++ elem (lit "mtable") a (body (Predefined al) (Some Wide) last)) /\
  (forall k last, exists a, attrs a /\
     emit e (MultLine k last content) b = nl e b ++ elem (lit "mtable") a (body (CgMultLine k) (Some Narrow) last)).
Proof.
  intros e b content i1 i2 i3 rows body.
  assert (E : forall a t nc last,
     nl e b ++ lit "<mtable" ++ a ++ lit ">" ++ emit_table e (emit e) b i1 content (col_gen_new t) nc last
     = nl e b ++ elem (lit "mtable") a (body t nc last)).
  { intros a t nc last. rewrite emit_table_spec. unfold table_text, elem.
    replace (lit "<mtable") with ([60] ++ lit "mtable") by reflexivity. replace (lit "</mtable>") with ([60; 47] ++ lit "mtable" ++ [62]) by reflexivity.
    replace (lit ">") with [62] by reflexivity. unfold body, rows. rewrite <- !app_assoc. reflexivity. }
  repeat apply conj.
  - intros al st bt. eexists. split; [|rewrite sh_table; apply E].
    apply attrs_app; [|apply attrs_opt, style_attrs]. apply attrs_opt. intros []; attr_lit.
  - intros st sp. eexists. split; [|rewrite sh_array; apply E].
    apply attrs_app; [apply array_attrs_attrs|apply attrs_opt, style_attrs].
  - intros al last. eexists. split; [|rewrite sh_eqarray; apply E]. attr_lit.
  - intros k last. eexists. split; [|rewrite sh_multline; apply E]. attr_lit.
Qed.

Example C49_nonvacuous :
  let e := mkEmitEnv (fun _ => None) [] IndTab [] (fun _ => []) in
  emit e (Table AlAlternating None None [Number (lit "1"); ColumnSeparator; Number (lit "2"); RowSeparator None None; ColumnSeparator]) 0 =
    lit "<mtable><mtr><mtd style=""text-align: right;justify-items: end;padding-right: 0;""><mn>1</mn></mtd><mtd style=""text-align: left;justify-items: start;padding-left: 0;""><mn>2</mn></mtd></mtr><mtr><mtd style=""text-align: right;justify-items: end;padding-right: 0;""></mtd><mtd style=""text-align: left;justify-items: start;padding-left: 0;""></mtd></mtr></mtable>".
Proof. vm_compute. reflexivity. Qed.

Print Assumptions C05_well_formed.
Print Assumptions C06_tags_independent_of_text_partial.
Print Assumptions C07_pretty_only_inserts.
Print Assumptions C16_reference_text.
Print Assumptions C16_warnings.
Print Assumptions C35_color_written.
Print Assumptions C49_table_shape.
