(** Every clean tree is emitted as well-formed markup of the renderer's vocabulary (C05), and the
    tags do not depend on the user's text (C06). *)
From Verif Require Import Str M_SuperChar M_Length M_Spec M_Escape M_Ast M_Emit M_Output.
From Verif Require Import S_Html S_Xml S_Node S_Emit L_Escape L_Node L_Emit L_Table.

Ltac in_elems := apply str_in_b; vm_compute; reflexivity.
Ltac el := apply mk_elem; [in_elems| |].

Lemma border_right_plain l : plain (border_right_str l).
Proof. destruct l; vm_compute; reflexivity. Qed.
Lemma border_top_plain o : plain (opt_str border_top_str o).
Proof. destruct o as [[]|]; vm_compute; reflexivity. Qed.

Lemma mtd_attrs st : plain st -> attrs (match st with [] => [] | _ => lit " style=""" ++ st ++ q end).
Proof.
  intros H. destruct st as [|c s]; [constructor|].
  apply (attrs_one (lit "style") (c :: s)); [in_names|now apply plain_value|]. norm.
Qed.
Lemma markup_mtd st body : plain st -> markup body -> markup (mtd st body).
Proof. intros H1 H2. unfold mtd. el; [now apply mtd_attrs|exact H2]. Qed.

Lemma cell_style_plain t bt i j : plain bt -> plain (cell_style t bt i j).
Proof.
  intros H. unfold cell_style. apply plain_app. split; [exact H|].
  destruct t as [[]|sp|rows].
  - reflexivity.
  - destruct (Nat.even j); vm_compute; reflexivity.
  - destruct (Nat.even j); vm_compute; reflexivity.
  - destruct (snd (column_group (as_columns sp) j)) as [[] [[]|]], (as_is_sub sp); vm_compute; reflexivity.
  - destruct (Nat.eqb i 0); [vm_compute; reflexivity|]. destruct (_ =? rows); vm_compute; reflexivity.
Qed.
Lemma cell_lines_plain t bt j : plain bt -> Forall plain (cell_lines t bt j).
Proof.
  intros H. destruct t as [al|sp|rows]; cbn [cell_lines]; try constructor.
  apply Forall_map. apply Forall_forall. intros l _. rewrite !plain_app. repeat apply conj; [exact H|apply border_right_plain| |vm_compute; reflexivity].
  destruct (as_is_sub sp); vm_compute; reflexivity.
Qed.

Lemma markup_dummy e nc ind : markup (opt_num (fun c => initial_dummy_column e c ind) nc).
Proof.
  destruct nc as [c|]; [|constructor]. cbn. unfold initial_dummy_column, dummy_column_opening. rewrite <- app_assoc.
  apply mk_app; [apply markup_nl|].
  apply (mk_elem_eq (lit "mtd") (match c with Narrow => lit " style=""width: 7.5%""" | Wide => lit " style=""width: 50%""" end) []);
    [in_elems|destruct c; attr_lit|constructor|destruct c; reflexivity].
Qed.

Definition eqnum_attrs (e : emit_env) (nc : number_columns) (i : option row_label_info) : str :=
  lit " style=""" ++ match nc with Narrow => lit "width: 7.5%" | Wide => lit "width: 50%" end ++
  match i with
  | Some x => lit ";" ++ RIGHT_ALIGN ++ q ++
      match li_link_target x with Some t => lit " id=""" ++ ee_id_prefix e ++ percent_encode t ++ q | None => [] end
  | None => q
  end.
Definition eqnum_body (e : emit_env) (ind2 ind3 : nat) (i : option row_label_info) : str :=
  match i with
  | Some x => nl e ind3 ++ elem (lit "mtext") []
      (if tag_parenthesized (li_tag x) then lit "(" ++ escape_html (tag_text (li_tag x)) ++ lit ")" else escape_html (tag_text (li_tag x))) ++
      nl e ind2
  | None => []
  end.
Lemma eqnum_eq e ind2 ind3 i nc :
  write_equation_num e ind2 ind3 i nc = nl e ind2 ++ elem (lit "mtd") (eqnum_attrs e nc i) (eqnum_body e ind2 ind3 i).
Proof.
  unfold write_equation_num, dummy_column_opening, eqnum_attrs, eqnum_body. rewrite <- app_assoc. apply f_equal2; [reflexivity|].
  destruct i as [[[tx p] tgt]|]; cbn [li_link_target li_tag tag_parenthesized tag_text]; [|destruct nc; reflexivity].
  destruct tgt as [t|], p, nc; unfold RIGHT_ALIGN; norm.
Qed.
Lemma eqnum_attrs_ok e nc i : env_ok e -> info_ok i -> attrs (eqnum_attrs e nc i).
Proof.
  intros (_ & Hp & _) Hi. unfold eqnum_attrs. destruct i as [[tg [t|]]|]; cbn [li_link_target] in *.
  - match goal with |- attrs ?s => assert (E : s = (lit " style=""" ++ (match nc with Narrow => lit "width: 7.5%" | Wide => lit "width: 50%" end ++ lit ";" ++ RIGHT_ALIGN) ++ q)
                ++ (lit " id=""" ++ (ee_id_prefix e ++ percent_encode t) ++ q)) by (destruct nc; unfold RIGHT_ALIGN; norm); rewrite E; clear E end.
    apply attrs_app; [destruct nc; attr_lit|].
    apply (attrs_one (lit "id") (ee_id_prefix e ++ percent_encode t)); [in_names| |norm].
    apply value_app; apply plain_value; [exact Hp|]. cbn in Hi. now apply label_plain.
  - destruct nc; attr_lit.
  - destruct nc; attr_lit.
Qed.
Lemma eqnum_body_ok e ind2 ind3 i : markup (eqnum_body e ind2 ind3 i).
Proof.
  destruct i as [x|]; [|constructor]. cbn [eqnum_body]. apply mk_app; [apply markup_nl|]. apply mk_app; [|apply markup_nl].
  el; [constructor|]. apply mk_text. destruct (tag_parenthesized _); [|apply escape_html_content_safe].
  apply content_app; [apply plain_content; reflexivity|]. apply content_app; [apply escape_html_content_safe|apply plain_content; reflexivity].
Qed.
Lemma markup_eqnum e ind2 ind3 i nc : env_ok e -> info_ok i -> markup (opt_num (write_equation_num e ind2 ind3 i) nc).
Proof.
  intros He Hi. destruct nc as [c|]; [|constructor]. cbn. rewrite eqnum_eq. apply mk_app; [apply markup_nl|].
  el; [now apply eqnum_attrs_ok|apply eqnum_body_ok].
Qed.

(** the information attached to the rows of a table *)
Lemma table_rows_info last l : info_ok last -> (forall li bt, In (RowSeparator li bt) l -> info_ok li) ->
  Forall (fun r => info_ok (tr_info r)) (table_rows last l).
Proof.
  intros Hl. unfold table_rows. induction l as [|n l IH]; intros H.
  - cbn. now repeat constructor.
  - assert (IH' := IH (fun li bt Hin => H li bt (or_intror Hin))). clear IH. cbn [table_rows_from].
    destruct (table_rows_from last l) as [[[c cs] info] rows].
    destruct n; try exact IH'; try (constructor; [now inversion IH'|now inversion IH']).
    constructor; [apply (H label_info border_top); now left|]. constructor; [cbn; now inversion IH'|now inversion IH'].
Qed.
(** the nodes in the cells come from the content *)
Lemma table_rows_nodes last l : Forall (fun r => Forall (Forall (fun n => In n l)) (tr_cells r)) (table_rows last l).
Proof.
  destruct (table_rows_facts last l) as (_ & _ & H3 & _).
  apply Forall_forall. intros r Hr. apply Forall_forall. intros c Hc. apply Forall_forall. intros n Hn.
  assert (Hin : In n (concat (flat_map tr_cells (table_rows last l)))).
  { apply in_concat. exists c. split; [|exact Hn]. apply in_flat_map. now exists r. }
  rewrite H3 in Hin. apply filter_In in Hin. tauto.
Qed.

Lemma Forall_mapi {A B} (P : B -> Prop) (f : nat -> A -> B) l : forall i,
  (forall i x, In x l -> P (f i x)) -> Forall P (mapi f i l).
Proof.
  induction l as [|x l IH]; intros i H; cbn [mapi]; constructor.
  - apply H. now left.
  - apply IH. intros k y Hy. apply H. now right.
Qed.

Lemma markup_rows e em t nc ind1 ind2 ind3 last content : env_ok e -> info_ok last ->
  (forall li bt, In (RowSeparator li bt) content -> info_ok li) ->
  (forall n, In n content -> markup (em n ind3)) ->
  markup (concat (mapi (row_text e em t nc ind1 ind2 ind3) 0 (table_rows last content))).
Proof.
  intros He Hl Hs Hm. apply markup_concat. apply Forall_mapi. intros i r Hr.
  pose proof (proj1 (Forall_forall _ _) (table_rows_info last content Hl Hs) r Hr) as Hinfo.
  pose proof (proj1 (Forall_forall _ _) (table_rows_nodes last content) r Hr) as Hcells. cbn beta in Hcells.
  unfold row_text. apply mk_app; [apply markup_nl|]. el; [constructor|].
  apply mk_app; [apply markup_dummy|]. apply mk_app.
  - apply markup_concat. apply Forall_mapi. intros j c Hc. unfold cell_text.
    apply mk_app; [apply markup_nl|]. apply mk_app.
    + apply markup_concat. apply Forall_map. eapply Forall_impl; [|apply cell_lines_plain, border_top_plain].
      intros st Hst. cbn beta. apply mk_app; [apply markup_mtd; [exact Hst|constructor]|apply markup_nl].
    + apply markup_mtd; [apply cell_style_plain, border_top_plain|]. apply mk_app; [|apply markup_nl].
      apply markup_concat. apply Forall_map. apply Forall_forall. intros n Hn.
      apply Hm. rewrite Forall_forall in Hcells. specialize (Hcells c Hc). rewrite Forall_forall in Hcells. now apply Hcells.
  - apply mk_app; [now apply markup_eqnum|apply markup_nl].
Qed.

Lemma markup_table e em t nc b ind1 a last content : env_ok e -> info_ok last -> attrs a ->
  (forall li bt, In (RowSeparator li bt) content -> info_ok li) ->
  (forall n k, In n content -> markup (em n k)) ->
  markup (nl e b ++ lit "<mtable" ++ a ++ lit ">" ++ emit_table e em b ind1 content (col_gen_new t) nc last).
Proof.
  intros He Hl Ha Hs Hm. rewrite emit_table_spec. unfold table_text. apply mk_app; [apply markup_nl|].
  match goal with |- context [concat ?m ++ nl e b ++ _] => apply (mk_elem_eq (lit "mtable") a (concat m ++ nl e b)) end;
    [in_elems|exact Ha| |norm].
  apply mk_app; [|apply markup_nl]. apply markup_rows; auto.
Qed.

Lemma frac_attrs_ok e v u a : env_ok e -> attrs (frac_attrs_text e v u a).
Proof.
  intros (_ & _ & Hd). unfold frac_attrs_text. apply attrs_app; [|apply attrs_opt, frac_attrs].
  apply attrs_opt. intros l. apply (attrs_one (lit "linethickness") (length_text (ee_dtoa e) l)); [in_names| |norm].
  apply plain_value. now apply length_text_plain.
Qed.
Lemma space_attrs_ok e l : env_ok e -> attrs (space_attrs e l).
Proof.
  intros (_ & _ & Hd). unfold space_attrs. set (t := length_text (ee_dtoa e) l).
  assert (Ht : plain t) by (now apply length_text_plain). clearbody t.
  destruct (length_is_negative l).
  - apply (attrs_one (lit "style") (lit "margin-left:" ++ t ++ lit ";")); [in_names| |norm].
    apply plain_value. rewrite !plain_app. repeat apply conj; [vm_compute; reflexivity|exact Ht|reflexivity].
  - match goal with |- attrs (?x ++ ?y ++ ?z ++ ?w) => replace (x ++ y ++ z ++ w) with ((x ++ y ++ z) ++ w) by (now rewrite <- !app_assoc) end.
    apply attrs_app.
    + apply (attrs_one (lit "width") t); [in_names|now apply plain_value|norm].
    + destruct (len_unit l); try constructor.
      apply (attrs_one (lit "style") (lit "width:" ++ t)); [in_names| |norm].
      apply plain_value. rewrite !plain_app. split; [vm_compute; reflexivity|exact Ht].
Qed.
Lemma padded_attr_ok e l : env_ok e -> attrs (padded_attr e l).
Proof.
  intros (_ & _ & Hd). unfold padded_attr. apply (attrs_one (lit "voffset") (length_text (ee_dtoa e) l)); [in_names| |norm].
  apply plain_value. now apply length_text_plain.
Qed.
Lemma padded_text_ok e ls a body : env_ok e -> attrs a -> markup body -> markup (padded_text e ls a body).
Proof.
  intros He Ha Hb. induction ls as [|l ls IH]; [now el|]. destruct ls as [|l2 ls].
  - cbn [padded_text]. el; [|exact Hb]. apply attrs_app; [now apply padded_attr_ok|exact Ha].
  - change (markup (elem (lit "mpadded") (padded_attr e l) (padded_text e (l2 :: ls) a body))).
    el; [now apply padded_attr_ok|exact IH].
Qed.
Lemma text_style_ok s x : content_safe x -> markup (text_style_open s ++ x ++ text_style_close s).
Proof.
  intros H. apply mk_text in H. destruct s as [[]|]; cbn [text_style_open text_style_close]; [..|cbn [app]; now rewrite app_nil_r].
  - eapply (mk_elem_eq (lit "b") [] x); [in_elems|constructor|exact H|norm].
  - eapply (mk_elem_eq (lit "i") [] x); [in_elems|constructor|exact H|norm].
  - eapply (mk_elem_eq (lit "b") [] (elem (lit "i") [] x)); [in_elems|constructor|now el; [constructor|]|norm].
  - eapply (mk_elem_eq (lit "em") [] x); [in_elems|constructor|exact H|norm].
  - eapply (mk_elem_eq (lit "code") [] x); [in_elems|constructor|exact H|norm].
  - eapply (mk_elem_eq (lit "span") (lit " style=""font-variant-caps: small-caps""") x); [in_elems|attr_lit|exact H|norm].
  - eapply (mk_elem_eq (lit "span") (lit " class=""math-core-sans-serif-font""") x); [in_elems|attr_lit|exact H|norm].
  - eapply (mk_elem_eq (lit "span") (lit " class=""math-core-serif-font""") x); [in_elems|attr_lit|exact H|norm].
  - eapply (mk_elem_eq (lit "s") [] x); [in_elems|constructor|exact H|norm].
  - eapply (mk_elem_eq (lit "u") [] x); [in_elems|constructor|exact H|norm].
Qed.
Lemma enclose_extras_ok e ind no : markup (enclose_extras e ind no).
Proof.
  unfold enclose_extras. repeat apply mk_app; apply markup_if; (apply mk_app; [apply markup_nl|]).
  - eapply (mk_elem_eq (lit "mrow") (lit " class=""menclose-phasorangle""") []); [in_elems|attr_lit|constructor|reflexivity].
  - eapply (mk_elem_eq (lit "mrow") (lit " class=""menclose-updiagonalstrike""") []); [in_elems|attr_lit|constructor|reflexivity].
  - eapply (mk_elem_eq (lit "mrow") (lit " class=""menclose-downdiagonalstrike""") []); [in_elems|attr_lit|constructor|reflexivity].
Qed.
Lemma notation_ok no : attrs (lit " notation=""" ++ sep_concat (lit " ") (notation_names no) ++ q).
Proof.
  unfold notation_names.
  destruct (has_attr no N_BOX), (has_attr no N_ACTUARIAL), (has_attr no N_PHASOR_ANGLE), (has_attr no N_UP_DIAGONAL), (has_attr no N_DOWN_DIAGONAL); attr_lit.
Qed.

Theorem emit_markup e n : env_ok e -> clean n -> forall b, markup (emit e n b).
Proof.
  intros He. induction n as [n IH] using node_ind'. intros Hc b.
  apply node_all_inv in Hc as [Hleaf Hch].
  assert (IHc : forall c, In c (children n) -> forall b, markup (emit e c b)) by (intros c Hc; apply (IH c Hc), (Hch c Hc)).
  clear IH. destruct n.
  - rewrite sh_number. apply mk_app; [apply markup_nl|]. el; [constructor|now apply mk_text].
  - rewrite sh_identchar. apply mk_app; [apply markup_nl|]. cbn in Hleaf. unfold identchar_text.
    assert (M0 : markup (elem0 (lit "mspace") [])) by (apply mk_elem0; [in_elems|constructor]).
    destruct a; [destruct (sc_try_as_char c)|].
    + el; [constructor|now apply mk_text].
    + el; [constructor|]. apply mk_app; [exact M0|]. el; [constructor|now apply mk_text].
    + el; [constructor|]. apply mk_app; [exact M0|]. el; [attr_lit|now apply mk_text].
  - rewrite sh_identstr. apply mk_app; [apply markup_nl|]. el; [constructor|].
    apply mk_app; [apply mk_elem0; [in_elems|constructor]|]. el; [constructor|apply mk_text, escape_html_content_safe].
  - rewrite sh_operator. apply mk_app; [apply markup_nl|]. el; [|apply mk_text, op_text_safe].
    apply attrs_app; [apply mo_attrs_attrs|apply sizes_attrs].
  - rewrite sh_pseudo. apply mk_app; [apply markup_nl|]. el; [apply mo_attrs_attrs|now apply mk_text].
  - rewrite sh_space. apply mk_app; [apply markup_nl|]. apply mk_elem0; [in_elems|now apply space_attrs_ok].
  - rewrite sh_sub. apply mk_app; [apply markup_nl|]. el; [constructor|].
    repeat apply mk_app; try apply markup_nl; apply IHc; cbn; tauto.
  - rewrite sh_sup. apply mk_app; [apply markup_nl|]. el; [constructor|].
    repeat apply mk_app; try apply markup_nl; apply IHc; cbn; tauto.
  - rewrite sh_subsup. apply mk_app; [apply markup_nl|]. el; [constructor|].
    repeat apply mk_app; try apply markup_nl; apply IHc; cbn; tauto.
  - rewrite sh_overaccent. apply mk_app; [apply markup_nl|]. el; [attr_lit|].
    apply mk_app; [apply IHc; cbn; tauto|]. apply mk_app; [apply markup_nl|]. apply mk_app; [|apply markup_nl].
    el; [apply op_attrs_attrs|apply mk_text, op_text_safe].
  - rewrite sh_underaccent. apply mk_app; [apply markup_nl|]. el; [attr_lit|].
    apply mk_app; [apply IHc; cbn; tauto|]. apply mk_app; [apply markup_nl|]. apply mk_app; [|apply markup_nl].
    el; [apply op_attrs_attrs|apply mk_text, op_text_safe].
  - rewrite sh_over. apply mk_app; [apply markup_nl|]. el; [constructor|].
    repeat apply mk_app; try apply markup_nl; apply IHc; cbn; tauto.
  - rewrite sh_under. apply mk_app; [apply markup_nl|]. el; [constructor|].
    repeat apply mk_app; try apply markup_nl; apply IHc; cbn; tauto.
  - rewrite sh_underover. apply mk_app; [apply markup_nl|]. el; [constructor|].
    repeat apply mk_app; try apply markup_nl; apply IHc; cbn; tauto.
  - rewrite sh_sqrt. apply mk_app; [apply markup_nl|]. el; [constructor|].
    apply mk_app; [apply IHc; cbn; tauto|apply markup_nl].
  - rewrite sh_root. apply mk_app; [apply markup_nl|]. el; [constructor|].
    repeat apply mk_app; try apply markup_nl; apply IHc; cbn; tauto.
  - rewrite sh_frac. apply mk_app; [apply markup_nl|]. el; [now apply frac_attrs_ok|].
    repeat apply mk_app; try apply markup_nl; apply IHc; cbn; tauto.
  - rewrite sh_row. apply mk_app; [apply markup_nl|]. el; [now apply row_attrs_attrs|].
    apply mk_app; [|destruct nodes; [constructor|apply markup_nl]].
    apply markup_concat, Forall_map, Forall_forall. intros c Hc. now apply IHc.
  - rewrite sh_padded. apply mk_app; [apply markup_nl|]. apply padded_text_ok; [exact He|apply padded_attrs_attrs|].
    apply mk_app; [apply IHc; cbn; tauto|apply markup_nl].
  - rewrite sh_phantom. apply mk_app; [apply markup_nl|]. el; [constructor|].
    apply mk_app; [apply IHc; cbn; tauto|apply markup_nl].
  - rewrite sh_text. apply mk_app; [apply markup_nl|]. el; [|apply text_style_ok, escape_html_content_safe].
    apply attrs_opt. intros s. destruct s; attr_lit.
  - rewrite sh_ahref. apply mk_app; [apply markup_nl|]. el; [constructor|]. el; [|apply mk_text, escape_html_content_safe].
    apply (attrs_one (lit "href") (escape_html href)); [in_names|apply escape_html_value|norm].
  - rewrite sh_eqref. apply mk_app; [apply markup_nl|]. el; [constructor|]. el.
    + destruct He as (_ & Hp & _). apply (attrs_one (lit "href") (lit "#" ++ ee_id_prefix e ++ percent_encode label)); [in_names| |norm].
      apply plain_value. rewrite !plain_app. repeat apply conj; [reflexivity|exact Hp|]. now apply label_plain.
    + apply mk_text. apply content_app; [apply plain_content; reflexivity|]. apply content_app; [apply escape_html_content_safe|apply plain_content; reflexivity].
  - rewrite sh_table. apply markup_table; auto; try exact I.
    + apply attrs_app; [|apply attrs_opt, style_attrs]. apply attrs_opt. intros []; attr_lit.
    + intros li bt Hin. apply node_all_inv with (P := leaf_clean) (n := RowSeparator li bt). now apply Hch.
  - rewrite sh_eqarray. apply markup_table; auto.
    + attr_lit.
    + intros li bt Hin. apply node_all_inv with (P := leaf_clean) (n := RowSeparator li bt). now apply Hch.
  - rewrite sh_multline. apply markup_table; auto.
    + attr_lit.
    + intros li bt Hin. apply node_all_inv with (P := leaf_clean) (n := RowSeparator li bt). now apply Hch.
  - rewrite sh_array. apply markup_table; auto; try exact I.
    + apply attrs_app; [apply array_attrs_attrs|apply attrs_opt, style_attrs].
    + intros li bt Hin. apply node_all_inv with (P := leaf_clean) (n := RowSeparator li bt). now apply Hch.
  - cbn [emit]. rewrite app_nil_r. apply markup_nl.
  - cbn [emit]. rewrite app_nil_r. apply markup_nl.
  - rewrite sh_enclose. apply mk_app; [apply markup_nl|]. el; [apply notation_ok|].
    apply mk_app; [apply IHc; cbn; tauto|]. apply mk_app; [apply enclose_extras_ok|apply markup_nl].
  - rewrite sh_multi. apply mk_app; [apply markup_nl|]. el; [constructor|].
    assert (HP : forall l b', (forall p, In p l -> In p (post ++ pre)) ->
       markup (concat (map (fun p : node * node => match p with (x, y) => emit e x b' ++ emit e y b' end) l))).
    { intros l b' Hl. apply markup_concat, Forall_map, Forall_forall. intros [x y] Hp.
      assert (Hx : forall z, z = x \/ z = y -> In z (children (Multiscripts n pre post))).
      { intros z Hz. cbn [children]. right. apply in_flat_map. exists (x, y). split; [now apply Hl|]. cbn. destruct Hz; subst; tauto. }
      apply mk_app; apply IHc; apply Hx; tauto. }
    apply mk_app; [apply IHc; cbn; tauto|]. apply mk_app; [apply HP; intros p Hp; apply in_or_app; tauto|].
    apply mk_app; [|apply markup_nl]. destruct pre as [|p0 pre0]; [constructor|].
    apply mk_app; [apply markup_nl|]. apply mk_app; [apply mk_elem0; [in_elems|constructor]|].
    apply HP. intros p Hp. apply in_or_app. tauto.
  - rewrite sh_unknown. apply mk_app; [apply markup_nl|]. el.
    + apply (attrs_one (lit "class") (ee_css_unknown e)); [in_names|apply He|norm].
    + el; [constructor|]. apply mk_text. apply content_app; [apply plain_content; reflexivity|exact Hleaf].
Qed.
