(** Reading the output of the emitter gives the elements of the tree (C53). *)
From Verif Require Import Str M_SuperChar M_Length M_Spec M_Escape M_Ast M_Emit M_Output.
From Verif Require Import S_Html S_Xml S_SuperChar S_Node S_Store S_Emit S_Exposed S_MathML
  L_SuperChar L_Escape L_Node L_Emit L_Table L_Markup L_Tags L_Layout L_Document L_Sound L_Read.

(** ** Text *)

Lemma markup_free s : ~ has_markup s -> ~ In 60 s /\ ~ In 38 s.
Proof.
  intros H. split; intros X; apply H; apply existsb_exists; eexists; (split; [exact X|reflexivity]).
Qed.
Lemma verbatim_holds s : ~ has_markup s -> holds s (data s).
Proof. intros H. apply markup_free in H as [H1 H2]. apply text_holds; [exact H1|now apply decode_plain]. Qed.
Lemma escaped_holds s : holds (escape_html s) (data s).
Proof.
  apply text_holds; [apply (escape_html_content_safe s)|]. rewrite escape_html_eq. apply decode_flat_map, esc_html_escaper.
Qed.
Lemma op_holds c : holds (op_text c) (data (sc_text c)).
Proof.
  apply text_holds; [apply (op_text_safe c)|]. unfold op_text. rewrite escape_op_eq. apply decode_flat_map, esc_op_escaper.
Qed.
Lemma decode_amp_app a t : ~ In 38 t -> html_decode (escape_html a ++ t) = a ++ t.
Proof.
  intros H. rewrite escape_html_eq. unfold html_decode. induction a as [|c a IH]; [now apply decode_plain|].
  cbn [flat_map app]. rewrite <- app_assoc. destruct (esc_html_escaper c) as [[E Hc]|Hin].
  - rewrite E. cbn [app html_decode_go]. rewrite match_entity_plain by exact Hc. now rewrite IH.
  - rewrite (decode_entity _ c _ Hin), IH. reflexivity.
Qed.
Lemma paren_holds s : holds (lit "(" ++ escape_html s ++ lit ")") (data (lit "(" ++ s ++ lit ")")).
Proof.
  apply text_holds.
  - intros H. apply in_app_or in H as [H|H]; [destruct H as [H|[]]; discriminate|]. apply in_app_or in H as [H|[H|[]]]; [|discriminate].
    now apply (proj1 (escape_html_content_safe s)).
  - rewrite decode_plain_app by (intros [X|[]]; discriminate). f_equal. apply decode_amp_app. intros [X|[]]; discriminate.
Qed.

(** ** Attributes *)

Ltac atl := eapply at_plain; [nm_ok| |].
Lemma spacing_em s : spacing_str s = em_of s.
Proof. now destruct s. Qed.
Lemma op_at a : attr_text (op_attrs_str a) (operator_attributes a).
Proof.
  unfold op_attrs_str, operator_attributes, flags. cbn [flat_map fst snd].
  repeat (apply at_app; [apply at_if; at_lit|]). rewrite app_nil_r. apply at_if; at_lit.
Qed.
Lemma mo_at a l r : attr_text (mo_attrs a l r) (spaced_attributes a l r).
Proof.
  unfold mo_attrs, spaced_attributes. apply at_app; [apply op_at|].
  apply at_app; apply at_opt; intros []; at_lit.
Qed.
Lemma size_at o : attr_text (opt_str (fun s => lit " minsize=""" ++ size_str s ++ lit """ maxsize=""" ++ size_str s ++ q) o) (opt fixed_size o).
Proof. apply at_opt. intros []; at_lit. Qed.
Lemma style_at o : attr_text (opt_str style_str o) (opt style_attributes o).
Proof. apply at_opt. intros []; at_lit. Qed.
Lemma hex_hex2 b : b < 256 -> hex_u8 b = hex2 b.
Proof.
  intros H. apply str_eqb_eq. revert b H. apply (byte_forall (fun b => str_eqb (hex_u8 b) (hex2 b))). vm_compute. reflexivity.
Qed.
Lemma row_at a : color_ok a -> attr_text (row_attrs_str a) (row_attributes a).
Proof.
  intros Hc. unfold row_attrs_str, row_attributes. apply at_app; [|apply style_at].
  unfold color_ok in Hc. destruct (ra_color a) as [[[r g] b]|]; [|destruct (ra_math_shift_compact a); [at_lit|constructor]].
  destruct Hc as (Hr & Hg & Hb). cbn [opt_str]. rewrite <- !hex_hex2 by assumption.
  set (m := ra_math_shift_compact a).
  match goal with |- attr_text _ (match ?x with [] => _ | _ => _ end) =>
    apply (at_plain (lit "style") x) end.
  - nm_ok.
  - rewrite !plain_app. repeat apply conj; try (now apply hex_u8_plain); try (destruct m; vm_compute; reflexivity).
  - destruct m; norm.
Qed.
Lemma length_at e nm l s : env_ok e -> name_ok nm -> s = 32 :: nm ++ [61; 34] ++ length_text (ee_dtoa e) l ++ [34] ->
  attr_text s [(nm, length_text (ee_dtoa e) l)].
Proof. intros (_ & _ & Hd) H E. apply at_plain; [exact H|now apply length_text_plain|exact E]. Qed.
Lemma frac_at e v u a : env_ok e ->
  attr_text (frac_attrs_text e v u a) (opt (fun l => [att "linethickness" (length_text (ee_dtoa e) l)]) (length_from_parts v u) ++ opt frac_attributes a).
Proof.
  intros He. unfold frac_attrs_text. apply at_app; apply at_opt; [|intros []; at_lit].
  intros l. apply length_at; [exact He|nm_ok|norm].
Qed.
Lemma padded_at w h l r : attr_text (padded_attrs_str w h l r) (padded_attributes w h l r).
Proof.
  unfold padded_attrs_str, padded_attributes. apply at_app; [apply at_if; at_lit|]. apply at_app; [apply at_if; at_lit|].
  destruct l as [[]|], r as [[]|]; at_lit || constructor.
Qed.
Lemma array_at sp : attr_text (array_attrs_str sp)
  (style_of (match as_border_left sp with Some b => border "left" b | None => [] end ++
             match as_border_top sp with Some b => border "top" b | None => [] end)).
Proof. unfold array_attrs_str. destruct (as_border_left sp) as [[]|], (as_border_top sp) as [[]|]; at_lit || constructor. Qed.

(** ** Spaces and boxes *)

Lemma space_bl e l : env_ok e -> blocks (elem0 (lit "mspace") (space_attrs e l)) (mathml e (Space l)).
Proof.
  intros He. pose proof He as (_ & _ & Hd). unfold space_attrs. cbn [mathml]. set (t := length_text (ee_dtoa e) l).
  assert (Ht : plain t) by (now apply length_text_plain). clearbody t.
  destruct (length_is_negative l).
  - apply bl_elem0; [nm_ok|]. apply (at_plain (lit "style") (lit "margin-left:" ++ t ++ lit ";")); [nm_ok| |norm].
    rewrite !plain_app. repeat apply conj; [vm_compute; reflexivity|exact Ht|reflexivity].
  - apply bl_elem0; [nm_ok|].
    match goal with |- attr_text (?x ++ ?y ++ ?z ++ ?w) (?a :: ?b) => replace (x ++ y ++ z ++ w) with ((x ++ y ++ z) ++ w) by (now rewrite <- !app_assoc);
      change (a :: b) with ([a] ++ b) end.
    apply at_app.
    + apply (at_plain (lit "width") t); [nm_ok|exact Ht|norm].
    + destruct (len_unit l); try constructor.
      apply (at_plain (lit "style") (lit "width:" ++ t)); [nm_ok| |norm].
      rewrite !plain_app. split; [vm_compute; reflexivity|exact Ht].
Qed.
Lemma padded_bl e ls a al body f : env_ok e -> attr_text a al -> blocks body f -> blocks (padded_text e ls a body) [xpadded e ls al f].
Proof.
  intros He Ha Hb. assert (Hp : forall l, attr_text (padded_attr e l) [att "voffset" (length_text (ee_dtoa e) l)]).
  { intros l. apply length_at; [exact He|nm_ok|unfold padded_attr; norm]. }
  induction ls as [|l ls IH]; [apply bl_elem; [nm_ok|exact Ha|now apply blocks_holds]|]. destruct ls as [|l2 ls].
  - cbn [padded_text xpadded]. apply bl_elem; [nm_ok| |now apply blocks_holds]. apply (at_app _ _ [_] al); [apply Hp|exact Ha].
  - change (blocks (elem (lit "mpadded") (padded_attr e l) (padded_text e (l2 :: ls) a body))
      [el "mpadded" [att "voffset" (length_text (ee_dtoa e) l)] [xpadded e (l2 :: ls) al f]]).
    apply bl_elem; [nm_ok|apply Hp|now apply blocks_holds].
Qed.
Lemma styled_holds s x c : holds x c -> holds (text_style_open s ++ x ++ text_style_close s) (styled s c).
Proof.
  intros H. destruct s as [[]|]; cbn [text_style_open text_style_close styled]; [..|cbn [app]; now rewrite app_nil_r]; apply blocks_holds.
  - eapply (bl_elem_eq (lit "b") [] [] x); [norm|reflexivity|nm_ok|constructor|exact H].
  - eapply (bl_elem_eq (lit "i") [] [] x); [norm|reflexivity|nm_ok|constructor|exact H].
  - eapply (bl_elem_eq (lit "b") [] [] (elem (lit "i") [] x)); [norm|reflexivity|nm_ok|constructor|].
    apply blocks_holds. apply bl_elem; [nm_ok|constructor|exact H].
  - eapply (bl_elem_eq (lit "em") [] [] x); [norm|reflexivity|nm_ok|constructor|exact H].
  - eapply (bl_elem_eq (lit "code") [] [] x); [norm|reflexivity|nm_ok|constructor|exact H].
  - eapply (bl_elem_eq (lit "span") (lit " style=""font-variant-caps: small-caps""") _ x); [norm|reflexivity|nm_ok|at_lit|exact H].
  - eapply (bl_elem_eq (lit "span") (lit " class=""math-core-sans-serif-font""") _ x); [norm|reflexivity|nm_ok|at_lit|exact H].
  - eapply (bl_elem_eq (lit "span") (lit " class=""math-core-serif-font""") _ x); [norm|reflexivity|nm_ok|at_lit|exact H].
  - eapply (bl_elem_eq (lit "s") [] [] x); [norm|reflexivity|nm_ok|constructor|exact H].
  - eapply (bl_elem_eq (lit "u") [] [] x); [norm|reflexivity|nm_ok|constructor|exact H].
Qed.

(** ** Tables *)

Lemma right_css l : border_right_str l = border "right" l.
Proof. now destruct l. Qed.
Lemma top_css o : opt_str border_top_str o = match o with Some l => border "top" l | None => [] end.
Proof. now destruct o as [[]|]. Qed.
Lemma cell_css_eq t bt i j : cell_style t bt i j = bt ++ cell_css t i j.
Proof.
  unfold cell_style, cell_css. f_equal. destruct t as [[]|sp|rows]; try reflexivity.
  - destruct (snd (column_group (as_columns sp) j)) as [[] [[]|]]; destruct (as_is_sub sp); reflexivity.
  - rewrite Nat2N.inj_succ, <- N.add_1_r. reflexivity.
Qed.
Lemma mtd_bl st body f : plain st -> holds body f -> blocks (mtd st body) [el "mtd" (style_of st) f].
Proof.
  intros H1 H2. unfold mtd. apply bl_elem; [nm_ok| |exact H2]. unfold style_of. destruct st as [|c s]; [constructor|].
  apply (at_plain (lit "style") (c :: s)); [nm_ok|exact H1|norm].
Qed.
Lemma bl_flat_map {A} (F : A -> str) (G : A -> list xml) l : (forall x, In x l -> blocks (F x) (G x)) -> blocks (concat (map F l)) (flat_map G l).
Proof.
  induction l as [|x l IH]; intros H; [apply bl_nil|]. cbn [map concat flat_map]. apply bl_app; [apply H; now left|]. apply IH. intros y Hy. apply H. now right.
Qed.
Lemma bl_map {A} (F : A -> str) (G : A -> xml) l : (forall x, In x l -> blocks (F x) [G x]) -> blocks (concat (map F l)) (map G l).
Proof.
  induction l as [|x l IH]; intros H; [apply bl_nil|]. cbn [map concat]. apply (bl_app _ _ [G x]); [apply H; now left|]. apply IH. intros y Hy. apply H. now right.
Qed.
Lemma bl_mapi {A} (F : nat -> A -> str) (G : nat -> A -> list xml) l : forall i,
  (forall i x, In x l -> blocks (F i x) (G i x)) -> blocks (concat (mapi F i l)) (concat (mapi G i l)).
Proof.
  induction l as [|x l IH]; intros i H; [apply bl_nil|]. cbn [mapi concat]. apply bl_app; [apply H; now left|]. apply IH. intros k y Hy. apply H. now right.
Qed.
Lemma mapi_map {A B C} (g : nat -> B -> C) (h : A -> B) l : forall i, mapi g i (map h l) = mapi (fun i x => g i (h x)) i l.
Proof. induction l as [|x l IH]; intros i; cbn [map mapi]; [reflexivity|]. now rewrite IH. Qed.
Lemma mapi_ext {A B} (g h : nat -> A -> B) l : (forall i x, g i x = h i x) -> forall i, mapi g i l = mapi h i l.
Proof. intros H. induction l as [|x l IH]; intros i; cbn [mapi]; [reflexivity|]. now rewrite H, IH. Qed.
Lemma concat_single {A B} (g : nat -> A -> B) l : forall i, concat (mapi (fun i x => [g i x]) i l) = mapi g i l.
Proof. induction l as [|x l IH]; intros i; cbn [mapi concat app]; [reflexivity|]. now rewrite IH. Qed.

Definition part_of (f : node -> list xml) (n : node) : table_part :=
  match n with ColumnSeparator => NextCell | RowSeparator i b => NextRow i b | _ => Content (f n) end.
Definition xrow_of (f : node -> list xml) (r : table_row) : xrow := (tr_top r, map (flat_map f) (tr_cells r), tr_info r).
Lemma xrows_spec f last l : forall top cells cur,
  xrows top cells cur last (map (part_of f) l) =
  match table_rows_from last l with
  | (c, cs, i, rows) => (top, cells ++ (cur ++ flat_map f c) :: map (flat_map f) cs, i) :: map (xrow_of f) rows
  end.
Proof.
  induction l as [|n l IH]; intros top cells cur.
  - cbn. now rewrite app_nil_r.
  - assert (D : part_of f n = Content (f n) -> table_rows_from last (n :: l) = match table_rows_from last l with (c, cs, i, rows) => (n :: c, cs, i, rows) end ->
      xrows top cells cur last (map (part_of f) (n :: l)) =
      match table_rows_from last (n :: l) with
      | (c, cs, i, rows) => (top, cells ++ (cur ++ flat_map f c) :: map (flat_map f) cs, i) :: map (xrow_of f) rows
      end).
    { intros E1 E2. cbn [map]. rewrite E1, E2. cbn [xrows]. rewrite IH. destruct (table_rows_from last l) as [[[c cs] i] rows].
      cbn [flat_map]. now rewrite <- app_assoc. }
    destruct n; try (apply D; reflexivity); clear D; cbn [map part_of xrows table_rows_from]; rewrite IH;
      destruct (table_rows_from last l) as [[[c cs] i] rows]; cbn [flat_map map]; rewrite ?app_nil_r, <- ?app_assoc; reflexivity.
Qed.
Lemma xrows_rows f last l : xrows None [] [] last (map (part_of f) l) = map (xrow_of f) (table_rows last l).
Proof.
  rewrite xrows_spec. unfold table_rows. destruct (table_rows_from last l) as [[[c cs] i] rows]. reflexivity.
Qed.

Lemma cell_bl e em f t ind2 ind3 i top j cell : (forall n, In n cell -> blocks (em n ind3) (f n)) ->
  blocks (cell_text e em t ind2 ind3 i (opt_str border_top_str top) j cell) (xcell t top i j (flat_map f cell)).
Proof.
  intros H. unfold cell_text, xcell. apply bl_nl_app. rewrite <- top_css. set (bt := opt_str border_top_str top).
  assert (Hbt : plain bt) by apply border_top_plain. clearbody bt. apply bl_app.
  - destruct t as [al|sp|rows]; try apply bl_nil. cbn [cell_lines]. rewrite map_map. apply bl_map. intros l _. apply bl_app_nl.
    rewrite <- right_css. change (css_flat (as_is_sub sp)) with (if as_is_sub sp then PADDING_TOP_BOTTOM_ZERO else []).
    match goal with |- blocks (mtd ?st []) _ => assert (P : plain st) end.
    { rewrite !plain_app. repeat apply conj; [exact Hbt|apply border_right_plain|destruct (as_is_sub sp); vm_compute; reflexivity|vm_compute; reflexivity]. }
    match goal with |- blocks (mtd ?st []) _ => assert (Q : style_of st = [att "style" st]) by (destruct bt; [destruct l|]; reflexivity) end.
    match goal with |- blocks (mtd ?st []) ?r => pose proof (mtd_bl st [] [] P (blocks_holds _ _ bl_nil)) as M end.
    rewrite Q in M. exact M.
  - rewrite cell_css_eq. apply mtd_bl; [rewrite <- cell_css_eq; now apply cell_style_plain|].
    apply blocks_holds, bl_app_nl. now apply bl_flat_map.
Qed.
Lemma dummy_bl e nc ind : blocks (opt_num (fun c => initial_dummy_column e c ind) nc) (opt (fun nc => [el "mtd" [att "style" (width nc)] []]) nc).
Proof.
  destruct nc as [c|]; [|apply bl_nil]. cbn [opt_num opt_str opt]. unfold initial_dummy_column, dummy_column_opening. rewrite <- app_assoc. apply bl_nl_app.
  eapply (bl_elem_eq (lit "mtd") (match c with Narrow => lit " style=""width: 7.5%""" | Wide => lit " style=""width: 50%""" end) _ []);
    [destruct c; reflexivity|reflexivity|nm_ok|destruct c; at_lit|apply blocks_holds, bl_nil].
Qed.
Lemma number_bl e nc ind2 ind3 i : env_ok e -> info_ok i ->
  blocks (opt_num (write_equation_num e ind2 ind3 i) nc) (opt (fun nc => [xnumber e nc i]) nc).
Proof.
  intros He Hi. destruct nc as [c|]; [|apply bl_nil]. cbn [opt_num opt_str opt]. rewrite eqnum_eq. apply bl_nl_app.
  destruct i as [[[tx p] tgt]|]; cbn [xnumber eqnum_body li_link_target li_tag tag_parenthesized tag_text].
  - apply bl_elem; [nm_ok| |].
    + unfold eqnum_attrs. cbn [li_link_target]. destruct He as (_ & Hp & _).
      match goal with |- attr_text ?s (?x :: ?l) => assert (E : s = (lit " style=""" ++ (width c ++ lit ";" ++ css_right) ++ q)
                ++ match tgt with Some t => lit " id=""" ++ (ee_id_prefix e ++ percent_encode t) ++ q | None => [] end)
          by (destruct c, tgt; unfold RIGHT_ALIGN, css_right, width; norm); rewrite E; clear E; change (x :: l) with ([x] ++ l) end.
      apply at_app; [destruct c; at_lit|]. destruct tgt as [t|]; [|constructor].
      apply (at_plain (lit "id") (ee_id_prefix e ++ percent_encode t)); [nm_ok| |norm].
      apply plain_app. split; [exact Hp|]. cbn in Hi. now apply label_plain.
    + apply blocks_holds, bl_nl_app, bl_app_nl. apply bl_elem; [nm_ok|constructor|].
      destruct p; [apply paren_holds|apply escaped_holds].
  - apply bl_elem; [nm_ok| |apply blocks_holds, bl_nil]. destruct c; at_lit.
Qed.
Lemma table_bl e em f t nc b ind1 a al last content : env_ok e -> info_ok last -> attr_text a al ->
  (forall li bt, In (RowSeparator li bt) content -> info_ok li) ->
  (forall n k, In n content -> blocks (em n k) (f n)) ->
  blocks (nl e b ++ lit "<mtable" ++ a ++ lit ">" ++ emit_table e em b ind1 content (col_gen_new t) nc last)
    [xtable e t nc al (xrows None [] [] last (map (part_of f) content))].
Proof.
  intros He Hl Ha Hs Hm. rewrite emit_table_spec. unfold table_text. apply bl_nl_app.
  match goal with |- context [concat ?m ++ nl e b ++ _] => eapply (bl_elem_eq (lit "mtable") a al (concat m ++ nl e b)) end;
    [norm|reflexivity|nm_ok|exact Ha|].
  apply blocks_holds, bl_app_nl. rewrite xrows_rows, mapi_map.
  match goal with |- blocks _ (mapi ?g 0 ?l) => rewrite <- (concat_single g l 0) end.
  apply bl_mapi. intros i r Hr.
  pose proof (proj1 (Forall_forall _ _) (table_rows_info last content Hl Hs) r Hr) as Hinfo.
  pose proof (proj1 (Forall_forall _ _) (table_rows_nodes last content) r Hr) as Hcells. cbn beta in Hcells.
  unfold row_text, xrow_of. apply bl_nl_app. apply bl_elem; [nm_ok|constructor|]. apply blocks_holds.
  apply bl_app; [apply dummy_bl|]. apply bl_app.
  - rewrite mapi_map. apply bl_mapi. intros j c Hc. apply cell_bl. intros n Hn. apply Hm.
    rewrite Forall_forall in Hcells. specialize (Hcells c Hc). rewrite Forall_forall in Hcells. now apply Hcells.
  - apply bl_app_nl. now apply number_bl.
Qed.

(** ** Trees *)

Lemma lone_char c : sc_valid c = true -> lone (sc_text c) = match sc_try_as_char c with Some _ => true | None => false end.
Proof.
  intros V. apply sc_valid_inv in V as (x & V & ->). unfold sc_text. rewrite chars_pack by exact V.
  rewrite try_as_char_pack by exact V. unfold cc_text. destruct (cc_vs x =? 0), (cc_solidus x), (cc_vline x); reflexivity.
Qed.
Lemma leaf_below n : readable n -> leaf_readable n.
Proof. intros H. now apply node_all_inv in H. Qed.
Ltac ew := apply bl_elem; [nm_ok| |].

Theorem emit_reads e n : env_ok e -> readable n -> forall b, blocks (emit e n b) (mathml e n).
Proof.
  intros He. induction n as [n IH] using node_ind'. intros Hc b.
  apply node_all_inv in Hc as [Hleaf Hch].
  assert (IHc : forall c, In c (children n) -> forall b, blocks (emit e c b) (mathml e c)) by (intros c Hc; apply (IH c Hc), (Hch c Hc)).
  assert (Hsep : forall li bt, In (RowSeparator li bt) (children n) -> info_ok li) by (intros li bt Hin; exact (leaf_below _ (Hch _ Hin))).
  assert (S0 : blocks (elem0 (lit "mspace") []) [el "mspace" [] []]) by (apply bl_elem0; [nm_ok|constructor]).
  assert (TB : forall t nc a al last content, children n = content -> info_ok last -> attr_text a al -> 
    blocks (nl e b ++ lit "<mtable" ++ a ++ lit ">" ++ emit_table e (emit e) b (match b with O => O | S _ => S b end) content (col_gen_new t) nc last)
      [xtable e t nc al (xrows None [] [] last (map (part_of (mathml e)) content))]).
  { intros t nc a al last content E Hl Ha. rewrite <- E. apply table_bl; auto. }
  clear IH. destruct n.
  - rewrite sh_number. apply bl_nl_app. ew; [constructor|now apply verbatim_holds].
  - rewrite sh_identchar. apply bl_nl_app. destruct Hleaf as [Hl Hv]. unfold identchar_text. cbn [mathml]. rewrite (lone_char c Hv).
    destruct a; [destruct (sc_try_as_char c)|].
    + ew; [constructor|now apply verbatim_holds].
    + ew; [constructor|]. apply blocks_holds. apply (bl_app _ _ [_] [_]); [exact S0|]. ew; [constructor|now apply verbatim_holds].
    + ew; [constructor|]. apply blocks_holds. apply (bl_app _ _ [_] [_]); [exact S0|]. ew; [at_lit|now apply verbatim_holds].
  - rewrite sh_identstr. apply bl_nl_app. ew; [constructor|]. apply blocks_holds. apply (bl_app _ _ [_] [_]); [exact S0|]. ew; [constructor|apply escaped_holds].
  - rewrite sh_operator. apply bl_nl_app. ew; [|apply op_holds]. apply at_app; [apply mo_at|apply size_at].
  - rewrite sh_pseudo. apply bl_nl_app. ew; [apply mo_at|now apply verbatim_holds].
  - rewrite sh_space. apply bl_nl_app. now apply space_bl.
  - rewrite sh_sub. apply bl_nl_app. ew; [constructor|]. apply blocks_holds. apply bl_app; [|apply bl_app_nl]; apply IHc; cbn; tauto.
  - rewrite sh_sup. apply bl_nl_app. ew; [constructor|]. apply blocks_holds. apply bl_app; [|apply bl_app_nl]; apply IHc; cbn; tauto.
  - rewrite sh_subsup. apply bl_nl_app. ew; [constructor|]. apply blocks_holds. apply bl_app; [|apply bl_app; [|apply bl_app_nl]]; apply IHc; cbn; tauto.
  - rewrite sh_overaccent. apply bl_nl_app. ew; [at_lit|]. apply blocks_holds. apply bl_app; [apply IHc; cbn; tauto|].
    apply bl_nl_app, bl_app_nl. ew; [apply op_at|apply op_holds].
  - rewrite sh_underaccent. apply bl_nl_app. ew; [at_lit|]. apply blocks_holds. apply bl_app; [apply IHc; cbn; tauto|].
    apply bl_nl_app, bl_app_nl. ew; [apply op_at|apply op_holds].
  - rewrite sh_over. apply bl_nl_app. ew; [constructor|]. apply blocks_holds. apply bl_app; [|apply bl_app_nl]; apply IHc; cbn; tauto.
  - rewrite sh_under. apply bl_nl_app. ew; [constructor|]. apply blocks_holds. apply bl_app; [|apply bl_app_nl]; apply IHc; cbn; tauto.
  - rewrite sh_underover. apply bl_nl_app. ew; [constructor|]. apply blocks_holds. apply bl_app; [|apply bl_app; [|apply bl_app_nl]]; apply IHc; cbn; tauto.
  - rewrite sh_sqrt. apply bl_nl_app. ew; [constructor|]. apply blocks_holds, bl_app_nl, IHc; cbn; tauto.
  - rewrite sh_root. apply bl_nl_app. ew; [constructor|]. apply blocks_holds. apply bl_app; [|apply bl_app_nl]; apply IHc; cbn; tauto.
  - rewrite sh_frac. apply bl_nl_app. ew; [now apply frac_at|]. apply blocks_holds. apply bl_app; [|apply bl_app_nl]; apply IHc; cbn; tauto.
  - rewrite sh_row. apply bl_nl_app. ew; [now apply row_at|]. apply blocks_holds. rewrite <- (app_nil_r (flat_map _ _)). apply bl_app.
    + apply bl_flat_map. intros c Hc. now apply IHc.
    + destruct nodes; [apply bl_nil|apply bl_nl].
  - rewrite sh_padded. apply bl_nl_app. apply padded_bl; [exact He|apply padded_at|]. apply bl_app_nl, IHc; cbn; tauto.
  - rewrite sh_phantom. apply bl_nl_app. ew; [constructor|]. apply blocks_holds, bl_app_nl, IHc; cbn; tauto.
  - rewrite sh_text. apply bl_nl_app. ew; [|apply styled_holds, escaped_holds]. apply at_opt. intros []; at_lit.
  - rewrite sh_ahref. apply bl_nl_app. ew; [constructor|]. apply blocks_holds. ew; [|apply escaped_holds].
    destruct (escape_html_value href) as (V1 & V2 & _). apply (at_one (lit "href") (escape_html href) href); [nm_ok|exact V1|exact V2| |norm].
    rewrite escape_html_eq. apply decode_flat_map, esc_html_escaper.
  - rewrite sh_eqref. apply bl_nl_app. ew; [constructor|]. apply blocks_holds. ew; [|apply paren_holds].
    destruct He as (_ & Hp & _). apply (at_plain (lit "href") (lit "#" ++ ee_id_prefix e ++ percent_encode label)); [nm_ok| |norm].
    rewrite !plain_app. repeat apply conj; [reflexivity|exact Hp|]. now apply label_plain.
  - rewrite sh_table. apply TB; [reflexivity|exact I|]. apply at_app; [|apply style_at]. apply at_opt. intros []; at_lit.
  - rewrite sh_eqarray. apply TB; [reflexivity|exact Hleaf|at_lit].
  - rewrite sh_multline. apply TB; [reflexivity|exact Hleaf|at_lit].
  - rewrite sh_array. apply TB; [reflexivity|exact I|]. apply at_app; [apply array_at|apply style_at].
  - cbn [emit mathml]. rewrite app_nil_r. apply bl_nl.
  - cbn [emit mathml]. rewrite app_nil_r. apply bl_nl.
  - rewrite sh_enclose. apply bl_nl_app. ew.
    + destruct (has_attr notation N_BOX) eqn:E1, (has_attr notation N_ACTUARIAL) eqn:E2, (has_attr notation N_PHASOR_ANGLE) eqn:E3,
        (has_attr notation N_UP_DIAGONAL) eqn:E4, (has_attr notation N_DOWN_DIAGONAL) eqn:E5;
        unfold notation_names; rewrite E1, E2, E3, E4, E5; at_lit.
    + apply blocks_holds. apply bl_app; [apply IHc; cbn; tauto|]. apply bl_app_nl. unfold enclose_extras.
      repeat apply bl_app; apply bl_if; apply bl_nl_app.
      * eapply (bl_elem_eq (lit "mrow") (lit " class=""menclose-phasorangle""") _ []); [reflexivity|reflexivity|nm_ok|at_lit|apply blocks_holds, bl_nil].
      * eapply (bl_elem_eq (lit "mrow") (lit " class=""menclose-updiagonalstrike""") _ []); [reflexivity|reflexivity|nm_ok|at_lit|apply blocks_holds, bl_nil].
      * eapply (bl_elem_eq (lit "mrow") (lit " class=""menclose-downdiagonalstrike""") _ []); [reflexivity|reflexivity|nm_ok|at_lit|apply blocks_holds, bl_nil].
  - rewrite sh_multi. apply bl_nl_app. ew; [constructor|]. apply blocks_holds.
    assert (HP : forall l b', (forall p, In p l -> In p (post ++ pre)) ->
       blocks (concat (map (fun p : node * node => match p with (x, y) => emit e x b' ++ emit e y b' end) l))
         (flat_map (fun p : node * node => match p with (x, y) => mathml e x ++ mathml e y end) l)).
    { intros l b' Hl. apply bl_flat_map. intros [x y] Hp.
      assert (Hx : forall z, z = x \/ z = y -> In z (children (Multiscripts n pre post))).
      { intros z Hz. cbn [children]. right. apply in_flat_map. exists (x, y). split; [now apply Hl|]. cbn. destruct Hz; subst; tauto. }
      apply bl_app; apply IHc; apply Hx; tauto. }
    apply bl_app; [apply IHc; cbn; tauto|]. apply bl_app; [apply HP; intros p Hp; apply in_or_app; tauto|].
    apply bl_app_nl. destruct pre as [|p0 pre0]; [apply bl_nil|]. apply bl_nl_app.
    match goal with |- blocks _ (?x :: ?l) => change (x :: l) with ([x] ++ l) end.
    apply bl_app; [apply bl_elem0; [nm_ok|constructor]|]. apply HP. intros p Hp. apply in_or_app. tauto.
  - rewrite sh_unknown. apply bl_nl_app. ew.
    + destruct He as ((V1 & V2 & _) & _). apply (at_one (lit "class") (ee_css_unknown e) _); [nm_ok|exact V1|exact V2|reflexivity|norm].
    + apply blocks_holds. ew; [constructor|]. apply markup_free in Hleaf as [M1 M2]. apply text_holds.
      * intros X. apply in_app_or in X as [[X|[]]|X]; [discriminate|contradiction].
      * apply decode_plain. intros X. apply in_app_or in X as [[X|[]]|X]; [discriminate|contradiction].
Qed.

Lemma readable_vec ast : Forall readable ast -> readable (node_vec_to_node ast false).
Proof.
  intros H. destruct ast as [|a [|b l]].
  - constructor; [exact I|intros c []].
  - now inversion H.
  - cbn [node_vec_to_node]. constructor; [exact I|]. intros c Hc. cbn [children] in Hc. rewrite Forall_forall in H. now apply H.
Qed.
Theorem document_reads c labels ast latex d : cfg_ok c -> Forall readable ast ->
  read_xml (cr_mathml (emit_document c labels ast latex d)) = Some [document_xml c labels ast latex d].
Proof.
  intros Hc Ha. apply read_blocks. rewrite document_eq. pose proof (cfg_env c labels Hc) as He.
  unfold document_xml. ew.
  - unfold math_attrs. apply at_app; [destruct (ec_xml_namespace c); [at_lit|constructor]|destruct d; [constructor|at_lit]].
  - apply blocks_holds. unfold last_nl.
    assert (NL : forall s f, blocks s f -> blocks (s ++ if is_pretty c d then [10] else []) f).
    { intros s f H. destruct (is_pretty c d); [|now rewrite app_nil_r]. apply (bl_app_nl (mkEmitEnv labels [] (IndSpaces 0) [] (ec_dtoa c)) 1 s f H). }
    apply NL. unfold document_body. destruct (ec_annotation c).
    + apply bl_nl_app. ew; [constructor|]. apply blocks_holds. apply bl_app.
      * assert (E : mathml (env_of c labels) (node_vec_to_node ast false) =
          match ast with [n] => mathml (env_of c labels) n | _ => [el "mrow" [] (flat_map (mathml (env_of c labels)) ast)] end) by (destruct ast as [|? []]; reflexivity).
        rewrite <- E. apply emit_reads; [exact He|now apply readable_vec].
      * apply bl_nl_app, bl_app_nl. ew; [at_lit|]. destruct (annotation_safe latex) as [A1 A2]. apply text_holds; [apply A1|exact A2].
    + apply bl_flat_map. intros n Hn. rewrite Forall_forall in Ha. apply emit_reads; [exact He|now apply Ha].
Qed.
