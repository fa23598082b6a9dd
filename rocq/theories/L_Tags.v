(** The tags of the output are a function of the tree's structure, not of the user's text (C06). *)
From Verif Require Import Str M_SuperChar M_Length M_Spec M_Escape M_Ast M_Emit M_Output.
From Verif Require Import S_Html S_Xml S_Node S_Emit L_Escape L_Node L_Emit L_Table L_Markup.

Fixpoint tags_state (cur : option str) (s : str) : option str :=
  match s with
  | [] => cur
  | c :: r =>
      match cur with
      | None => if c =? 60 then tags_state (Some []) r else tags_state None r
      | Some acc => if c =? 62 then tags_state None r else tags_state (Some (acc ++ [c])) r
      end
  end.
Lemma tags_go_app a b : forall cur, tags_go cur (a ++ b) = tags_go cur a ++ tags_go (tags_state cur a) b.
Proof.
  induction a as [|c a IH]; intros cur; [reflexivity|]. cbn [app tags_go tags_state].
  destruct cur as [acc|]; [destruct (c =? 62)|destruct (c =? 60)]; rewrite IH; reflexivity.
Qed.
Lemma tags_state_app a b : forall cur, tags_state cur (a ++ b) = tags_state (tags_state cur a) b.
Proof.
  induction a as [|c a IH]; intros cur; [reflexivity|]. cbn [app tags_state].
  destruct cur as [acc|]; [destruct (c =? 62)|destruct (c =? 60)]; apply IH.
Qed.
Lemma tags_text t : ~ In 60 t -> tags_go None t = [] /\ tags_state None t = None.
Proof.
  induction t as [|c t IH]; intros H; [split; reflexivity|]. cbn [tags_go tags_state].
  destruct (N.eqb_spec c 60) as [->|]; [exfalso; apply H; now left|]. apply IH. intros X. apply H. now right.
Qed.
Lemma tags_inside t r : ~ In 62 t -> forall acc,
  tags_go (@Some (list N) acc) (t ++ 62 :: r) = (acc ++ t) :: tags_go None r /\
  tags_state (@Some (list N) acc) (t ++ 62 :: r) = tags_state None r.
Proof.
  induction t as [|c t IH]; intros H acc; cbn [app tags_go tags_state].
  - change (62 =? 62) with true. rewrite app_nil_r. split; reflexivity.
  - destruct (N.eqb_spec c 62) as [->|]; [exfalso; apply H; now left|].
    destruct (IH (fun X => H (or_intror X)) (acc ++ [c])) as [E1 E2]. rewrite <- app_assoc in E1. split; [exact E1|exact E2].
Qed.

Lemma names_no62 nm : In nm element_names -> ~ In 62 nm.
Proof.
  assert (H : forallb (fun s => negb (existsb (N.eqb 62) s)) element_names = true) by (vm_compute; reflexivity).
  rewrite forallb_forall in H. intros Hn Hin. apply H in Hn. apply negb_true_iff in Hn.
  assert (existsb (N.eqb 62) nm = true) by (apply existsb_exists; exists 62; split; [exact Hin|reflexivity]). congruence.
Qed.
Lemma attrs_no62 a : attrs a -> ~ In 62 a.
Proof.
  assert (H : forallb (fun s => negb (existsb (N.eqb 62) s)) attribute_names = true) by (vm_compute; reflexivity).
  rewrite forallb_forall in H.
  induction 1 as [|nm v r Hn Hv Hr IH]; intros Hin; [destruct Hin|].
  destruct Hin as [Hin|Hin]; [discriminate|]. apply in_app_or in Hin as [Hin|Hin].
  - apply H in Hn. apply negb_true_iff in Hn.
    assert (existsb (N.eqb 62) nm = true) by (apply existsb_exists; exists 62; split; [exact Hin|reflexivity]). congruence.
  - cbn [app] in Hin. destruct Hin as [Hin|[Hin|Hin]]; try discriminate. apply in_app_or in Hin as [Hin|Hin].
    + apply Hv in Hin. exact Hin.
    + destruct Hin as [Hin|Hin]; [discriminate|]. contradiction.
Qed.

(** Opening and closing tag of an element. *)
Lemma elem_tags nm a body : In nm element_names -> attrs a -> tags_state None body = None ->
  tags (elem nm a body) = [nm ++ a] ++ tags body ++ [47 :: nm] /\ tags_state None (elem nm a body) = None.
Proof.
  intros Hn Ha Hb. unfold tags, elem.
  assert (H1 : ~ In 62 (nm ++ a)).
  { intros X. apply in_app_or in X as [X|X]; [now apply names_no62 in X|now apply attrs_no62 in X]. }
  assert (H2 : ~ In 62 (47 :: nm)) by (intros [X|X]; [discriminate|now apply names_no62 in X]).
  replace ([60] ++ nm ++ a ++ [62] ++ body ++ [60; 47] ++ nm ++ [62])
    with (60 :: (nm ++ a) ++ 62 :: (body ++ 60 :: (47 :: nm) ++ 62 :: [])) by (cbn [app]; rewrite <- !app_assoc; reflexivity).
  cbn [tags_go tags_state]. change (60 =? 60) with true. cbn iota.
  destruct (tags_inside (nm ++ a) (body ++ 60 :: (47 :: nm) ++ [62]) H1 []) as [-> ->].
  rewrite tags_go_app, tags_state_app, Hb. cbn [tags_go tags_state]. change (60 =? 60) with true. cbn iota.
  destruct (tags_inside (47 :: nm) [] H2 []) as [-> ->]. split; reflexivity.
Qed.
Lemma elem0_tags nm a : In nm element_names -> attrs a -> tags_state None (elem0 nm a) = None.
Proof.
  intros Hn Ha. unfold elem0.
  assert (H1 : ~ In 62 (nm ++ a ++ [47])).
  { intros X. apply in_app_or in X as [X|X]; [now apply names_no62 in X|].
    apply in_app_or in X as [X|X]; [now apply attrs_no62 in X|]. destruct X as [X|[]]. discriminate. }
  replace ([60] ++ nm ++ a ++ [47; 62]) with (60 :: (nm ++ a ++ [47]) ++ 62 :: []) by (cbn [app]; rewrite <- !app_assoc; reflexivity).
  cbn [tags_state]. change (60 =? 60) with true. cbn iota.
  now destruct (tags_inside (nm ++ a ++ [47]) [] H1 []) as [_ ->].
Qed.

Lemma markup_closed s : markup s -> tags_state None s = None.
Proof.
  induction 1 as [|t Ht|nm a body Hn Ha Hb IH|nm a Hn Ha|x y Hx IHx Hy IHy].
  - reflexivity.
  - apply tags_text, Ht.
  - now apply elem_tags.
  - now apply elem0_tags.
  - now rewrite tags_state_app, IHx.
Qed.

(** Two well-formed texts with the same tags. *)
Definition sim (x y : str) : Prop := markup x /\ markup y /\ tags x = tags y.

Lemma sim_refl x : markup x -> sim x x.
Proof. unfold sim. tauto. Qed.
Lemma sim_app a b c d : sim a c -> sim b d -> sim (a ++ b) (c ++ d).
Proof.
  intros (A1 & A2 & A3) (B1 & B2 & B3). repeat split; try now apply mk_app.
  unfold tags in *. rewrite !tags_go_app, (markup_closed a), (markup_closed c) by assumption. congruence.
Qed.
Lemma sim_text t u : content_safe t -> content_safe u -> sim t u.
Proof.
  intros H1 H2. repeat split; try now apply mk_text. unfold tags.
  rewrite (proj1 (tags_text t (proj1 H1))), (proj1 (tags_text u (proj1 H2))). reflexivity.
Qed.
Lemma sim_elem nm a x y : In nm element_names -> attrs a -> sim x y -> sim (elem nm a x) (elem nm a y).
Proof.
  intros Hn Ha (H1 & H2 & H3). repeat split; try (now apply mk_elem).
  rewrite (proj1 (elem_tags nm a x Hn Ha (markup_closed x H1))), (proj1 (elem_tags nm a y Hn Ha (markup_closed y H2))). congruence.
Qed.
Lemma sim_nl e e' n : sim (nl e n) (nl e' n).
Proof. apply sim_text; apply plain_content, nl_plain. Qed.
Lemma sim_concat l m : Forall2 sim l m -> sim (concat l) (concat m).
Proof. induction 1 as [|x y l m Hx Hl IH]; [apply sim_refl; constructor|]. cbn [concat]. now apply sim_app. Qed.
Lemma sim_nil : sim [] [].
Proof. apply sim_refl. constructor. Qed.
Lemma empty_safe : content_safe [].
Proof. apply plain_content. reflexivity. Qed.

Ltac sel := apply sim_elem; [in_elems| |].

(** Erasing keeps separators, hence the table structure. *)
Definition erase_row (r : table_row) : table_row :=
  mkRow (tr_top r) (map (map erase) (tr_cells r)) (erase_info (tr_info r)).
Lemma table_rows_erase last l : table_rows (erase_info last) (map erase l) = map erase_row (table_rows last l).
Proof.
  assert (H : forall l, table_rows_from (erase_info last) (map erase l) =
    match table_rows_from last l with
    | (c, cs, i, rows) => (map erase c, map (map erase) cs, erase_info i, map erase_row rows)
    end).
  { clear l. induction l as [|n l IH]; [reflexivity|]. cbn [map table_rows_from].
    destruct (table_rows_from last l) as [[[c cs] i] rows].
    destruct n; cbn [erase]; rewrite IH; reflexivity. }
  unfold table_rows. rewrite H. destruct (table_rows_from last l) as [[[c cs] i] rows]. reflexivity.
Qed.

Lemma info_ok_erase i : info_ok i -> info_ok (erase_info i).
Proof. destruct i as [x|]; cbn; auto. Qed.

Lemma sim_eqnum e ind2 ind3 i nc : env_ok e -> info_ok i ->
  sim (opt_num (write_equation_num e ind2 ind3 i) nc) (opt_num (write_equation_num (erase_env e) ind2 ind3 (erase_info i)) nc).
Proof.
  intros He Hi. destruct nc as [c|]; [|apply sim_nil]. cbn [opt_num opt_str]. rewrite !eqnum_eq. apply sim_app; [apply sim_nl|].
  replace (eqnum_attrs (erase_env e) c (erase_info i)) with (eqnum_attrs e c i) by (now destruct i).
  sel; [now apply eqnum_attrs_ok|].
  destruct i as [x|]; [|apply sim_nil]. cbn [eqnum_body erase_info option_map li_tag tag_parenthesized tag_text].
  apply sim_app; [apply sim_nl|]. apply sim_app; [|apply sim_nl]. sel; [constructor|].
  assert (P1 : content_safe (lit "(")) by (apply plain_content; reflexivity).
  assert (P2 : content_safe (lit ")")) by (apply plain_content; reflexivity).
  destruct (tag_parenthesized (li_tag x)); apply sim_text; repeat apply content_app; auto using escape_html_content_safe.
Qed.

Lemma Forall2_mapi {A A' B} (R : B -> B -> Prop) (f : nat -> A -> B) (g : nat -> A' -> B) (h : A -> A') l : forall i,
  (forall i x, In x l -> R (f i x) (g i (h x))) -> Forall2 R (mapi f i l) (mapi g i (map h l)).
Proof.
  induction l as [|x l IH]; intros i H; cbn [mapi map]; constructor.
  - apply H. now left.
  - apply IH. intros k y Hy. apply H. now right.
Qed.
Lemma Forall2_map2 {A A' B} (R : B -> B -> Prop) (f : A -> B) (g : A' -> B) (h : A -> A') l :
  (forall x, In x l -> R (f x) (g (h x))) -> Forall2 R (map f l) (map g (map h l)).
Proof.
  induction l as [|x l IH]; intros H; cbn [map]; constructor; [apply H; now left|].
  apply IH. intros y Hy. apply H. now right.
Qed.

Lemma sim_table e em em' t nc b ind1 a last content : env_ok e -> info_ok last -> attrs a ->
  (forall li bt, In (RowSeparator li bt) content -> info_ok li) ->
  (forall n k, In n content -> sim (em n k) (em' (erase n) k)) ->
  sim (nl e b ++ lit "<mtable" ++ a ++ lit ">" ++ emit_table e em b ind1 content (col_gen_new t) nc last)
      (nl (erase_env e) b ++ lit "<mtable" ++ a ++ lit ">" ++
       emit_table (erase_env e) em' b ind1 (map erase content) (col_gen_new t) nc (erase_info last)).
Proof.
  intros He Hl Ha Hs Hm. rewrite !emit_table_spec. rewrite table_rows_erase. unfold table_text.
  apply sim_app; [apply sim_nl|].
  match goal with |- sim (lit "<mtable" ++ a ++ lit ">" ++ concat ?x ++ ?y ++ lit "</mtable>") (lit "<mtable" ++ a ++ lit ">" ++ concat ?x' ++ ?y' ++ lit "</mtable>") =>
    assert (E1 : lit "<mtable" ++ a ++ lit ">" ++ concat x ++ y ++ lit "</mtable>" = elem (lit "mtable") a (concat x ++ y)) by norm;
    assert (E2 : lit "<mtable" ++ a ++ lit ">" ++ concat x' ++ y' ++ lit "</mtable>" = elem (lit "mtable") a (concat x' ++ y')) by norm;
    rewrite E1, E2; clear E1 E2 end.
  sel; [exact Ha|]. apply sim_app; [|apply sim_nl]. apply sim_concat. apply Forall2_mapi. intros i r Hr.
  pose proof (proj1 (Forall_forall _ _) (table_rows_info last content Hl Hs) r Hr) as Hinfo. cbn beta in Hinfo.
  pose proof (proj1 (Forall_forall _ _) (table_rows_nodes last content) r Hr) as Hcells. cbn beta in Hcells.
  unfold row_text. apply sim_app; [apply sim_nl|]. sel; [constructor|].
  cbn [erase_row tr_top tr_cells tr_info].
  apply sim_app; [apply sim_refl, (markup_dummy e)|]. apply sim_app.
  - apply sim_concat. apply Forall2_mapi. intros j c Hc. unfold cell_text.
    apply sim_app; [apply sim_nl|]. apply sim_app.
    + apply sim_concat. rewrite <- (map_id (cell_lines t _ j)) at 2. apply Forall2_map2. intros st Hst.
      pose proof (cell_lines_plain t (opt_str border_top_str (tr_top r)) j (border_top_plain _)) as HP.
      rewrite Forall_forall in HP. apply sim_app; [apply sim_refl, markup_mtd; [now apply HP|constructor]|apply sim_nl].
    + unfold mtd. sel; [apply mtd_attrs, cell_style_plain, border_top_plain|]. apply sim_app; [|apply sim_nl].
      apply sim_concat. apply Forall2_map2. intros n Hn. apply Hm.
      rewrite Forall_forall in Hcells. specialize (Hcells c Hc). rewrite Forall_forall in Hcells. now apply Hcells.
  - apply sim_app; [now apply sim_eqnum|apply sim_nl].
Qed.

Lemma sim_padded e ls a x y : env_ok e -> attrs a -> sim x y -> sim (padded_text e ls a x) (padded_text (erase_env e) ls a y).
Proof.
  intros He Ha Hb. induction ls as [|l ls IH]; [now sel|]. destruct ls as [|l2 ls].
  - cbn [padded_text]. change (padded_attr (erase_env e) l) with (padded_attr e l).
    sel; [|exact Hb]. apply attrs_app; [now apply padded_attr_ok|exact Ha].
  - change (sim (elem (lit "mpadded") (padded_attr e l) (padded_text e (l2 :: ls) a x))
              (elem (lit "mpadded") (padded_attr e l) (padded_text (erase_env e) (l2 :: ls) a y))).
    sel; [now apply padded_attr_ok|exact IH].
Qed.

Ltac som := cbn [text_style_open text_style_close]; norm.
Lemma sim_style s x y : content_safe x -> content_safe y ->
  sim (text_style_open s ++ x ++ text_style_close s) (text_style_open s ++ y ++ text_style_close s).
Proof.
  intros Hx Hy. pose proof (sim_text x y Hx Hy) as H.
  assert (K : forall nm a, In nm element_names -> attrs a -> (forall z, text_style_open s ++ z ++ text_style_close s = elem nm a z) ->
     sim (text_style_open s ++ x ++ text_style_close s) (text_style_open s ++ y ++ text_style_close s)).
  { intros nm a Hn Ha E. rewrite !E. now apply sim_elem. }
  destruct s as [[]|]; [..|cbn [text_style_open text_style_close app]; now rewrite !app_nil_r].
  - apply (K (lit "b") []); [in_elems|constructor|intros z; som].
  - apply (K (lit "i") []); [in_elems|constructor|intros z; som].
  - assert (E : forall z, text_style_open (Some TsBoldItalic) ++ z ++ text_style_close (Some TsBoldItalic) = elem (lit "b") [] (elem (lit "i") [] z)) by (intros z; som).
    rewrite !E. sel; [constructor|]. sel; [constructor|exact H].
  - apply (K (lit "em") []); [in_elems|constructor|intros z; som].
  - apply (K (lit "code") []); [in_elems|constructor|intros z; som].
  - apply (K (lit "span") (lit " style=""font-variant-caps: small-caps""")); [in_elems|attr_lit|intros z; som].
  - apply (K (lit "span") (lit " class=""math-core-sans-serif-font""")); [in_elems|attr_lit|intros z; som].
  - apply (K (lit "span") (lit " class=""math-core-serif-font""")); [in_elems|attr_lit|intros z; som].
  - apply (K (lit "s") []); [in_elems|constructor|intros z; som].
  - apply (K (lit "u") []); [in_elems|constructor|intros z; som].
Qed.

Theorem emit_sim e n : env_ok e -> clean n -> forall b, sim (emit e n b) (emit (erase_env e) (erase n) b).
Proof.
  intros He. induction n as [n IH] using node_ind'. intros Hc b.
  pose proof (emit_markup e n He Hc) as Hself.
  apply node_all_inv in Hc as [Hleaf Hch].
  assert (IHc : forall c, In c (children n) -> forall b, sim (emit e c b) (emit (erase_env e) (erase c) b))
    by (intros c Hc; apply (IH c Hc), (Hch c Hc)).
  clear IH.
  assert (Hrow : forall l li bt, (forall c, In c l -> In c (children n)) -> In (RowSeparator li bt) l -> info_ok li).
  { intros l li bt Hl Hin. apply node_all_inv with (P := leaf_clean) (n := RowSeparator li bt). now apply Hch, Hl. }
  destruct n; cbn [erase].
  - rewrite !sh_number. apply sim_app; [apply sim_nl|]. sel; [constructor|]. apply sim_text; [exact Hleaf|apply empty_safe].
  - apply sim_refl, Hself.
  - rewrite !sh_identstr. apply sim_app; [apply sim_nl|]. sel; [constructor|].
    apply sim_app; [apply sim_refl, mk_elem0; [in_elems|constructor]|]. sel; [constructor|apply sim_text; apply escape_html_content_safe].
  - apply sim_refl, Hself.
  - rewrite !sh_pseudo. apply sim_app; [apply sim_nl|]. sel; [apply mo_attrs_attrs|]. apply sim_text; [exact Hleaf|apply empty_safe].
  - apply sim_refl, Hself.
  - rewrite !sh_sub. apply sim_app; [apply sim_nl|]. sel; [constructor|].
    repeat (apply sim_app; [apply IHc; cbn; tauto|]). apply sim_nl.
  - rewrite !sh_sup. apply sim_app; [apply sim_nl|]. sel; [constructor|].
    repeat (apply sim_app; [apply IHc; cbn; tauto|]). apply sim_nl.
  - rewrite !sh_subsup. apply sim_app; [apply sim_nl|]. sel; [constructor|].
    repeat (apply sim_app; [apply IHc; cbn; tauto|]). apply sim_nl.
  - rewrite !sh_overaccent. apply sim_app; [apply sim_nl|]. sel; [attr_lit|].
    apply sim_app; [apply IHc; cbn; tauto|]. apply sim_app; [apply sim_nl|]. apply sim_app; [|apply sim_nl].
    apply sim_refl. el; [apply op_attrs_attrs|apply mk_text, op_text_safe].
  - rewrite !sh_underaccent. apply sim_app; [apply sim_nl|]. sel; [attr_lit|].
    apply sim_app; [apply IHc; cbn; tauto|]. apply sim_app; [apply sim_nl|]. apply sim_app; [|apply sim_nl].
    apply sim_refl. el; [apply op_attrs_attrs|apply mk_text, op_text_safe].
  - rewrite !sh_over. apply sim_app; [apply sim_nl|]. sel; [constructor|].
    repeat (apply sim_app; [apply IHc; cbn; tauto|]). apply sim_nl.
  - rewrite !sh_under. apply sim_app; [apply sim_nl|]. sel; [constructor|].
    repeat (apply sim_app; [apply IHc; cbn; tauto|]). apply sim_nl.
  - rewrite !sh_underover. apply sim_app; [apply sim_nl|]. sel; [constructor|].
    repeat (apply sim_app; [apply IHc; cbn; tauto|]). apply sim_nl.
  - rewrite !sh_sqrt. apply sim_app; [apply sim_nl|]. sel; [constructor|].
    apply sim_app; [apply IHc; cbn; tauto|apply sim_nl].
  - rewrite !sh_root. apply sim_app; [apply sim_nl|]. sel; [constructor|].
    repeat (apply sim_app; [apply IHc; cbn; tauto|]). apply sim_nl.
  - rewrite !sh_frac. apply sim_app; [apply sim_nl|]. sel; [now apply frac_attrs_ok|].
    repeat (apply sim_app; [apply IHc; cbn; tauto|]). apply sim_nl.
  - rewrite !sh_row. apply sim_app; [apply sim_nl|]. sel; [now apply row_attrs_attrs|].
    apply sim_app; [|destruct nodes; [apply sim_nil|apply sim_nl]].
    apply sim_concat, Forall2_map2. intros c Hc. now apply IHc.
  - rewrite !sh_padded. apply sim_app; [apply sim_nl|]. apply sim_padded; [exact He|apply padded_attrs_attrs|].
    apply sim_app; [apply IHc; cbn; tauto|apply sim_nl].
  - rewrite !sh_phantom. apply sim_app; [apply sim_nl|]. sel; [constructor|].
    apply sim_app; [apply IHc; cbn; tauto|apply sim_nl].
  - rewrite !sh_text. apply sim_app; [apply sim_nl|]. sel.
    + apply attrs_opt. intros s. destruct s; attr_lit.
    + apply sim_style; apply escape_html_content_safe.
  - rewrite !sh_ahref. apply sim_app; [apply sim_nl|]. sel; [constructor|]. sel; [|apply sim_text; apply escape_html_content_safe].
    apply (attrs_one (lit "href") (escape_html href)); [in_names|apply escape_html_value|norm].
  - rewrite !sh_eqref. apply sim_app; [apply sim_nl|]. sel; [constructor|]. cbn [erase_env ee_id_prefix]. sel.
    + destruct He as (_ & Hp & _). apply (attrs_one (lit "href") (lit "#" ++ ee_id_prefix e ++ percent_encode label)); [in_names| |norm].
      apply plain_value. rewrite !plain_app. repeat apply conj; [reflexivity|exact Hp|]. now apply label_plain.
    + apply sim_text; (apply content_app; [apply plain_content; reflexivity|]; apply content_app; [apply escape_html_content_safe|apply plain_content; reflexivity]).
  - rewrite !sh_table. apply (sim_table e (emit e) (emit (erase_env e)) (Predefined align) None b _ _ None); auto; try exact I.
    + apply attrs_app; [|apply attrs_opt, style_attrs]. apply attrs_opt. intros []; attr_lit.
    + intros li bt. apply Hrow. auto.
  - rewrite !sh_eqarray. apply sim_table; auto; [attr_lit|]. intros li bt. apply Hrow. auto.
  - rewrite !sh_multline. apply sim_table; auto; [attr_lit|]. intros li bt. apply Hrow. auto.
  - rewrite !sh_array. apply (sim_table e (emit e) (emit (erase_env e)) (Custom spec) None b _ _ None); auto; try exact I.
    + apply attrs_app; [apply array_attrs_attrs|apply attrs_opt, style_attrs].
    + intros li bt. apply Hrow. auto.
  - apply sim_refl, Hself.
  - cbn [emit]. rewrite !app_nil_r. apply sim_nl.
  - rewrite !sh_enclose. apply sim_app; [apply sim_nl|]. sel; [apply notation_ok|].
    apply sim_app; [apply IHc; cbn; tauto|]. apply sim_app; [apply sim_refl, (enclose_extras_ok e)|apply sim_nl].
  - rewrite !sh_multi. apply sim_app; [apply sim_nl|]. sel; [constructor|].
    assert (HP : forall l b', (forall p, In p l -> In p (post ++ pre)) ->
       sim (concat (map (fun p : node * node => match p with (x, y) => emit e x b' ++ emit e y b' end) l))
           (concat (map (fun p : node * node => match p with (x, y) => emit (erase_env e) x b' ++ emit (erase_env e) y b' end)
              (map (fun p => match p with (x, y) => (erase x, erase y) end) l)))).
    { intros l b' Hl. apply sim_concat, Forall2_map2. intros [x y] Hp.
      assert (Hx : forall z, z = x \/ z = y -> In z (children (Multiscripts n pre post))).
      { intros z Hz. cbn [children]. right. apply in_flat_map. exists (x, y). split; [now apply Hl|]. cbn. destruct Hz; subst; tauto. }
      apply sim_app; apply IHc; apply Hx; tauto. }
    apply sim_app; [apply IHc; cbn; tauto|]. apply sim_app; [apply HP; intros p Hp; apply in_or_app; tauto|].
    apply sim_app; [|apply sim_nl]. destruct pre as [|p0 pre0]; [apply sim_nil|].
    change (map (fun p => match p with (x, y) => (erase x, erase y) end) (p0 :: pre0))
      with ((match p0 with (x, y) => (erase x, erase y) end) :: map (fun p => match p with (x, y) => (erase x, erase y) end) pre0).
    cbn iota. apply sim_app; [apply sim_nl|]. apply sim_app; [apply sim_refl, mk_elem0; [in_elems|constructor]|].
    apply (HP (p0 :: pre0)). intros p Hp. apply in_or_app. tauto.
  - rewrite !sh_unknown. apply sim_app; [apply sim_nl|]. cbn [erase_env ee_css_unknown]. sel.
    + apply (attrs_one (lit "class") (ee_css_unknown e)); [in_names|apply He|norm].
    + sel; [constructor|]. apply sim_text; [|apply plain_content; reflexivity]. apply content_app; [apply plain_content; reflexivity|exact Hleaf].
Qed.
