(** Proofs about tables: the emitter's loop against the stateless description. *)
From Verif Require Import Str M_SuperChar M_Length M_Spec M_Escape M_Ast M_Emit.
From Verif Require Import S_Html S_Xml S_Node S_Emit L_Emit.

Definition default_group : list line_type * (col_align * option line_type) := ([], (Centered, None)).

Lemma column_groups_cons cols : exists g gs, column_groups cols = g :: gs.
Proof.
  induction cols as [|[a b|l] r (g & gs & IH)]; cbn [column_groups]; [eauto|eauto|].
  rewrite IH. destruct g. eauto.
Qed.

Definition line_style (bt : str) (sub : bool) (l : line_type) : str :=
  bt ++ border_right_str l ++ (if sub then PADDING_TOP_BOTTOM_ZERO else []) ++
  lit "padding-left: 0.1em;padding-right: 0.1em;".

Lemma line_style_ne bt sub l : exists c s, line_style bt sub l = c :: s.
Proof. unfold line_style. destruct bt; [destruct l; cbn; eauto|cbn; eauto]. Qed.

Lemma mtd_style_elem st body : st <> [] -> mtd st body = mtd_style st ++ body ++ lit "</mtd>".
Proof. intros H. unfold mtd, mtd_style. destruct st; [contradiction|]. norm. Qed.

Lemma only_lines_spec e ind bt sub cols : forall idx,
  match column_groups cols with
  | (ls, c) :: gs =>
      only_lines e ind bt sub cols idx =
        (concat (map (fun l => mtd (line_style bt sub l) [] ++ nl e ind) ls), c, (idx + length ls + 1)%nat) /\
      (forall k, nth k gs default_group = column_group (skipn (length ls + 1) cols) k)
  | [] => False
  end.
Proof.
  induction cols as [|[a b|l] r IH]; intros idx; cbn [column_groups].
  - cbn. split; [repeat f_equal; lia|]. intros [|[|k]]; reflexivity.
  - cbn. split; [repeat f_equal; lia|]. intros k. reflexivity.
  - specialize (IH (S idx)). destruct (column_groups r) as [|[ls c] gs] eqn:E; [exact IH|].
    destruct IH as [IH1 IH2]. split.
    + cbn [only_lines]. rewrite IH1. cbn [map concat]. fold (line_style bt sub l).
      destruct (line_style_ne bt sub l) as (x & s & Hx).
      rewrite mtd_style_elem by (rewrite Hx; discriminate). cbn [app length].
      f_equal; [|lia]. f_equal. rewrite <- !app_assoc. reflexivity.
    + intros k. rewrite IH2. cbn [length]. reflexivity.
Qed.

(** The generator's column counter after [j] cells of a row have been opened. *)
Definition col_inv (t : alignment_type) (j col : nat) : Prop :=
  match t with
  | Predefined _ => col = j
  | Custom sp => forall k, column_group (skipn col (as_columns sp)) k = column_group (as_columns sp) (j + k)
  | CgMultLine _ => True
  end.

Lemma col_inv_0 t : col_inv t 0 0.
Proof. destruct t; cbn; auto. Qed.

Definition mtd_open (st : str) : str :=
  lit "<mtd" ++ (match st with [] => [] | _ => lit " style=""" ++ st ++ q end) ++ lit ">".
Lemma mtd_open_eq st body : mtd st body = mtd_open st ++ body ++ lit "</mtd>".
Proof. unfold mtd, mtd_open. norm. Qed.
Lemma mtd_style_open st : st <> [] -> mtd_style st = mtd_open st.
Proof. intros H. unfold mtd_style, mtd_open. destruct st; [contradiction|]. norm. Qed.
Lemma simple_mtd_open st : simple_mtd st = mtd_open st.
Proof. unfold simple_mtd. destruct st as [|c s]; [reflexivity|]. now apply mtd_style_open. Qed.

Lemma skipn_add {A} a : forall b (l : list A), skipn a (skipn b l) = skipn (a + b) l.
Proof.
  intros b. revert a. induction b as [|b IH]; intros a l; [now rewrite Nat.add_0_r|].
  rewrite Nat.add_succ_r. destruct l as [|x l]; [now rewrite !skipn_nil|]. cbn [skipn]. apply IH.
Qed.

Lemma app_ne_r (a b : str) : b <> [] -> a ++ b <> [].
Proof. intros H E. apply app_eq_nil in E. tauto. Qed.

Lemma next_mtd_spec e g ind j :
  col_inv (cg_typ g) j (cg_column g) ->
  let bt := opt_str border_top_str (cg_border_top g) in
  exists col',
    next_mtd e g ind =
      (nl e ind ++ concat (map (fun st => mtd st [] ++ nl e ind) (cell_lines (cg_typ g) bt j)) ++
       mtd_open (cell_style (cg_typ g) bt (cg_row g) j),
       mkColGen (cg_typ g) col' (cg_row g) (cg_border_top g)) /\
    col_inv (cg_typ g) (S j) col'.
Proof.
  intros Hinv bt. unfold next_mtd. fold bt. destruct (cg_typ g) as [al|sp|rows] eqn:Et; cbn [col_inv] in Hinv.
  - exists (S (cg_column g)). split; [|cbn; now rewrite Hinv].
    rewrite Hinv. f_equal. cbn [cell_lines map concat app]. f_equal. unfold cell_style.
    destruct al.
    + rewrite app_nil_r. apply simple_mtd_open.
    + apply mtd_style_open. apply app_ne_r. discriminate.
    + apply mtd_style_open. apply app_ne_r. destruct (Nat.even j); discriminate.
  - pose proof (only_lines_spec e ind bt (as_is_sub sp) (skipn (cg_column g) (as_columns sp)) (cg_column g)) as H.
    destruct (column_groups (skipn (cg_column g) (as_columns sp))) as [|[ls [a br]] gs] eqn:Eg; [destruct H|].
    destruct H as [H1 H2]. rewrite H1.
    assert (G0 : column_group (as_columns sp) j = (ls, (a, br))).
    { specialize (Hinv O). rewrite Nat.add_0_r in Hinv. rewrite <- Hinv. unfold column_group. rewrite Eg. reflexivity. }
    exists (cg_column g + length ls + 1)%nat. split.
    + f_equal. cbn [cell_lines]. rewrite G0. cbn [fst]. rewrite map_map. f_equal. unfold line_style. f_equal.
      unfold cell_style. rewrite G0. cbn [snd].
      destruct a, br as [[]|], (as_is_sub sp); cbn [opt_str];
        (rewrite mtd_style_open by (apply app_ne_r; discriminate); reflexivity) || (rewrite ?app_nil_r; apply simple_mtd_open).
    + cbn. intros k. specialize (Hinv (S k)). unfold column_group at 1 in Hinv. rewrite Eg in Hinv. cbn [nth] in Hinv.
      fold default_group in Hinv. rewrite H2, skipn_add in Hinv.
      replace (length ls + 1 + cg_column g)%nat with (cg_column g + length ls + 1)%nat in Hinv by lia.
      rewrite Hinv. f_equal. lia.
  - exists (S (cg_column g)). split; [|exact I].
    f_equal. cbn [cell_lines map concat app]. f_equal. unfold cell_style.
    destruct (Nat.eqb (cg_row g) 0); [apply mtd_style_open; apply app_ne_r; discriminate|].
    destruct (N.of_nat (S (cg_row g)) =? rows); [apply mtd_style_open; apply app_ne_r; discriminate|].
    rewrite app_nil_r. apply simple_mtd_open.
Qed.

Lemma emit_cells_spec e em ind1 ind2 ind3 nc last l : forall g j,
  col_inv (cg_typ g) (S j) (cg_column g) ->
  let t := cg_typ g in let i := cg_row g in let bt := opt_str border_top_str (cg_border_top g) in
  emit_cells e em ind1 ind2 ind3 nc g l ++ nl e ind2 ++ lit "</mtd>" ++
    opt_num (write_equation_num e ind2 ind3 last) nc ++ nl e ind1 ++ lit "</mtr>" =
  match table_rows_from last l with
  | (c, cs, info, rows) =>
      concat (map (fun n => em n ind3) c) ++ nl e ind2 ++ lit "</mtd>" ++
      concat (mapi (cell_text e em t ind2 ind3 i bt) (S j) cs) ++
      opt_num (write_equation_num e ind2 ind3 info) nc ++ nl e ind1 ++ lit "</mtr>" ++
      concat (mapi (row_text e em t nc ind1 ind2 ind3) (S i) rows)
  end.
Proof.
  induction l as [|n l IH]; intros g j Hinv t i bt.
  - cbn [emit_cells table_rows_from map concat mapi app]. now rewrite app_nil_r.
  - assert (Dflt : (emit_cells e em ind1 ind2 ind3 nc g (n :: l) = em n ind3 ++ emit_cells e em ind1 ind2 ind3 nc g l) ->
      (table_rows_from last (n :: l) = match table_rows_from last l with (c, cs, i0, rows) => (n :: c, cs, i0, rows) end) ->
      emit_cells e em ind1 ind2 ind3 nc g (n :: l) ++ nl e ind2 ++ lit "</mtd>" ++
        opt_num (write_equation_num e ind2 ind3 last) nc ++ nl e ind1 ++ lit "</mtr>" =
      match table_rows_from last (n :: l) with
      | (c, cs, info, rows) =>
          concat (map (fun n => em n ind3) c) ++ nl e ind2 ++ lit "</mtd>" ++
          concat (mapi (cell_text e em t ind2 ind3 i bt) (S j) cs) ++
          opt_num (write_equation_num e ind2 ind3 info) nc ++ nl e ind1 ++ lit "</mtr>" ++
          concat (mapi (row_text e em t nc ind1 ind2 ind3) (S i) rows)
      end).
    { intros E1 E2. rewrite E1, E2. rewrite <- app_assoc, (IH g j Hinv).
      destruct (table_rows_from last l) as [[[c cs] info] rows]. cbn [map concat]. now rewrite <- app_assoc. }
    destruct n; try (apply Dflt; reflexivity).
    + cbn [emit_cells table_rows_from].
      destruct (next_mtd_spec e g ind2 (S j) Hinv) as (col' & E & Hinv'). rewrite E.
      rewrite <- !app_assoc.
      specialize (IH (mkColGen (cg_typ g) col' (cg_row g) (cg_border_top g)) (S j)). cbn [cg_typ cg_row cg_border_top cg_column] in IH.
      rewrite IH by exact Hinv'.
      destruct (table_rows_from last l) as [[[c cs] info] rows].
      cbn [map concat app mapi]. unfold cell_text at 2. rewrite mtd_open_eq. fold t i bt. norm.
    + cbn [emit_cells table_rows_from].
      pose proof (next_mtd_spec e (col_gen_new_row g border_top) ind2 0 (col_inv_0 _)) as (col' & E & Hinv'). rewrite E.
      cbn [col_gen_new_row cg_typ cg_row cg_border_top cg_column] in *.
      rewrite <- !app_assoc.
      specialize (IH (mkColGen (cg_typ g) col' (S (cg_row g)) border_top) 0%nat). cbn [cg_typ cg_row cg_border_top cg_column] in IH.
      rewrite IH by exact Hinv'.
      destruct (table_rows_from last l) as [[[c cs] info] rows].
      cbn [map concat app mapi]. unfold row_text at 2. cbn [tr_cells tr_top tr_info mapi concat].
      unfold cell_text at 2. rewrite mtd_open_eq. fold t i bt. norm.
Qed.

Theorem emit_table_spec e em base ind1 content t nc last :
  let ind2 := match base with O => O | _ => S ind1 end in
  let ind3 := match base with O => O | _ => S ind2 end in
  emit_table e em base ind1 content (col_gen_new t) nc last =
  table_text e em t nc base ind1 ind2 ind3 (table_rows last content).
Proof.
  intros ind2 ind3. unfold emit_table. fold ind2. fold ind3.
  destruct (next_mtd_spec e (col_gen_new t) ind2 0 (col_inv_0 _)) as (col' & E & Hinv').
  cbn [col_gen_new cg_typ cg_row cg_border_top cg_column] in *. rewrite E.
  pose proof (emit_cells_spec e em ind1 ind2 ind3 nc last content (mkColGen t col' 0 None) 0 Hinv') as H.
  cbn [cg_typ cg_row cg_border_top cg_column] in H.
  unfold table_text, table_rows.
  destruct (table_rows_from last content) as [[[c cs] info] rows].
  cbn [mapi concat]. unfold row_text at 1. cbn [tr_cells tr_top tr_info mapi concat]. unfold cell_text at 1.
  rewrite mtd_open_eq. rewrite <- !app_assoc.
  apply f_equal2; [reflexivity|]. unfold elem.
  transitivity (lit "<mtr>" ++ opt_num (fun c0 => initial_dummy_column e c0 ind2) nc ++
    nl e ind2 ++ concat (map (fun st => mtd st [] ++ nl e ind2) (cell_lines t [] 0)) ++ mtd_open (cell_style t [] 0 0) ++
    (emit_cells e em ind1 ind2 ind3 nc (mkColGen t col' 0 None) content ++
     nl e ind2 ++ lit "</mtd>" ++ opt_num (write_equation_num e ind2 ind3 last) nc ++ nl e ind1 ++ lit "</mtr>") ++
    nl e base ++ lit "</mtable>").
  { rewrite <- !app_assoc. reflexivity. }
  rewrite H. norm.
Qed.

(** Facts about the row structure itself. *)

Lemma table_rows_facts last l :
  length (table_rows last l) = S (length (filter is_row_sep l)) /\
  length (flat_map tr_cells (table_rows last l)) = S (length (filter is_sep l)) /\
  concat (flat_map tr_cells (table_rows last l)) = filter (fun n => negb (is_sep n)) l /\
  Forall (fun r => tr_cells r <> []) (table_rows last l).
Proof.
  unfold table_rows.
  induction l as [|n l IH]; [cbn; repeat constructor; discriminate|].
  cbn [table_rows_from].
  destruct (table_rows_from last l) as [[[c cs] info] rows]. destruct IH as (I1 & I2 & I3 & I4).
  destruct n; cbn [filter is_row_sep is_sep negb length flat_map tr_cells app concat] in *;
    repeat split; try (f_equal; assumption); try assumption;
    try (constructor; [cbn; discriminate|try now inversion I4]); try exact I4; try lia.
  constructor; [cbn; discriminate|now inversion I4].
Qed.
