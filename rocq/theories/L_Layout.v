(** Pretty printing only inserts line breaks and indentation in front of tags (C07). *)
From Verif Require Import Str M_SuperChar M_Length M_Spec M_Escape M_Ast M_Emit M_Output.
From Verif Require Import S_Html S_Xml S_Node S_Emit L_Escape L_Node L_Emit L_Table L_Markup L_Tags.

(** Empty, or starting with a tag. *)
Definition tag_first (s : str) : Prop := s = [] \/ exists r, s = 60 :: r.
Definition tag_start (s : str) : Prop := exists r, s = 60 :: r.

Section Layout.
  Variable e : emit_env.
  Let u := indent_unit (ee_indentation e).

  (** [x] is [y] with insertions, whatever tag follows. *)
  Definition lay (x y : str) : Prop :=
    tag_first y /\ forall p c, tag_start c -> layout u p c -> layout u (x ++ p) (y ++ c).

  Lemma layout_refl s : layout u s s.
  Proof. induction s; constructor; assumption. Qed.
  Lemma layout_prefix t p c : layout u p c -> layout u (t ++ p) (t ++ c).
  Proof. intros H. induction t; [exact H|]. cbn [app]. now constructor. Qed.
  Lemma tag_first_app a b : tag_first a -> tag_first b -> tag_first (a ++ b).
  Proof. intros [->|[r ->]] H; [exact H|]. right. eexists. reflexivity. Qed.
  Lemma tag_first_start a c : tag_first a -> tag_start c -> tag_start (a ++ c).
  Proof. intros [->|[r ->]] H; [exact H|]. eexists. reflexivity. Qed.

  Lemma lay_app a b c d : lay a c -> lay b d -> lay (a ++ b) (c ++ d).
  Proof.
    intros [A1 A2] [B1 B2]. split; [now apply tag_first_app|]. intros p t Ht Hp. rewrite <- !app_assoc.
    apply A2; [now apply tag_first_start|]. now apply B2.
  Qed.
  Lemma lay_same s : tag_first s -> lay s s.
  Proof. intros H. split; [exact H|]. intros p c _ Hp. now apply layout_prefix. Qed.
  Lemma lay_empty : lay [] [].
  Proof. apply lay_same. now left. Qed.
  Lemma lay_nl k : lay (nl e (S k)) [].
  Proof.
    split; [now left|]. intros p c [r ->] Hp. cbn [nl app]. now apply lay_ins.
  Qed.
  Lemma lay_nl_app k x y : lay x y -> lay (nl e (S k) ++ x) y.
  Proof. intros H. apply (lay_app (nl e (S k)) x [] y); [apply lay_nl|exact H]. Qed.
  Lemma lay_app_nl k x y : lay x y -> lay (x ++ nl e (S k)) y.
  Proof. intros H. rewrite <- (app_nil_r y). apply lay_app; [exact H|apply lay_nl]. Qed.
  Lemma elem_start nm a x : tag_first (elem nm a x).
  Proof. right. unfold elem. cbn [app]. eexists. reflexivity. Qed.
  Lemma lay_elem nm a x y : lay x y -> lay (elem nm a x) (elem nm a y).
  Proof.
    intros [H1 H2]. split; [apply elem_start|]. intros p c Hc Hp. unfold elem. rewrite <- !app_assoc.
    do 4 apply layout_prefix. apply H2; [eexists; reflexivity|]. now do 3 apply layout_prefix.
  Qed.
  Lemma lay_elem_same nm a x : lay (elem nm a x) (elem nm a x).
  Proof. apply lay_same, elem_start. Qed.
  Lemma lay_elem0 nm a : lay (elem0 nm a) (elem0 nm a).
  Proof. apply lay_same. right. eexists. reflexivity. Qed.
  Lemma lay_concat l m : Forall2 lay l m -> lay (concat l) (concat m).
  Proof. induction 1; [apply lay_empty|]. cbn [concat]. now apply lay_app. Qed.
  Lemma lay_body x y z k : lay x y -> z = y -> lay (x ++ nl e (S k)) z.
  Proof. intros H ->. now apply lay_app_nl. Qed.

  Lemma lay_table em t nc b a last content :
    (forall n k, In n content -> lay (em n (S k)) (em n O)) ->
    lay (nl e (S b) ++ lit "<mtable" ++ a ++ lit ">" ++ emit_table e em (S b) (S (S b)) content (col_gen_new t) nc last)
        (nl e O ++ lit "<mtable" ++ a ++ lit ">" ++ emit_table e em O O content (col_gen_new t) nc last).
  Proof.
    intros Hm. rewrite !emit_table_spec. unfold table_text. change (nl e 0) with (@nil N). apply lay_nl_app.
    repeat match goal with |- context [@nil N ++ ?x] => change (@nil N ++ x) with x end.
    match goal with |- lay (lit "<mtable" ++ a ++ lit ">" ++ concat ?x ++ ?y ++ lit "</mtable>") (lit "<mtable" ++ a ++ lit ">" ++ concat ?x' ++ lit "</mtable>") =>
      assert (E1 : lit "<mtable" ++ a ++ lit ">" ++ concat x ++ y ++ lit "</mtable>" = elem (lit "mtable") a (concat x ++ y)) by norm;
      assert (E2 : lit "<mtable" ++ a ++ lit ">" ++ concat x' ++ lit "</mtable>" = elem (lit "mtable") a (concat x')) by norm;
      rewrite E1, E2; clear E1 E2 end.
    apply lay_elem. apply (lay_app_nl b). apply lay_concat.
    rewrite <- (map_id (table_rows last content)) at 2. apply Forall2_mapi. intros i r Hr.
    pose proof (proj1 (Forall_forall _ _) (table_rows_nodes last content) r Hr) as Hcells. cbn beta in Hcells.
    unfold row_text. cbn [id]. change (nl e 0) with (@nil N). apply lay_nl_app. cbn [app]. apply lay_elem. rewrite app_nil_r.
    apply lay_app.
    - destruct nc as [c|]; [|apply lay_empty]. cbn [opt_num opt_str]. unfold initial_dummy_column, dummy_column_opening. rewrite <- !app_assoc.
      apply lay_nl_app. apply lay_same. right. destruct c; eexists; reflexivity.
    - apply lay_app.
      + apply lay_concat. rewrite <- (map_id (tr_cells r)) at 2. apply Forall2_mapi. intros j c Hc.
        unfold cell_text. change (nl e 0) with (@nil N). apply lay_nl_app. cbn [app]. apply lay_app.
        * apply lay_concat. rewrite <- (map_id (cell_lines t _ j)) at 2. apply Forall2_map2. intros st _. cbn [id]. rewrite app_nil_r. apply lay_app_nl, lay_elem_same.
        * unfold mtd. apply lay_elem. rewrite app_nil_r. apply lay_app_nl. apply lay_concat.
          rewrite <- (map_id c) at 2. apply Forall2_map2. intros n Hn. apply Hm.
          rewrite Forall_forall in Hcells. specialize (Hcells c Hc). rewrite Forall_forall in Hcells. now apply Hcells.
      + apply lay_app_nl. destruct nc as [c|]; [|apply lay_empty]. cbn [opt_num opt_str]. rewrite !eqnum_eq.
        change (nl e 0) with (@nil N). apply lay_nl_app. cbn [app]. apply lay_elem.
        destruct (tr_info r) as [x|]; [|apply lay_empty]. unfold eqnum_body. change (nl e 0) with (@nil N). apply lay_nl_app. rewrite app_nil_r. apply lay_app_nl, lay_elem_same.
  Qed.

  Lemma lay_padded ls a x y : lay x y -> lay (padded_text e ls a x) (padded_text e ls a y).
  Proof.
    intros H. induction ls as [|l ls IH]; [now apply lay_elem|]. destruct ls as [|l2 ls]; [now apply lay_elem|].
    apply (lay_elem (lit "mpadded") (padded_attr e l) (padded_text e (l2 :: ls) a x) (padded_text e (l2 :: ls) a y)), IH.
  Qed.

  Ltac kid IHc := apply lay_app; [apply IHc; cbn; tauto|].
  Ltac fin := cbn [app]; try rewrite app_nil_r; apply lay_app_nl.

  Theorem emit_lay n : forall k, lay (emit e n (S k)) (emit e n O).
  Proof.
    induction n as [n IHc] using node_ind'. intros k.
    assert (N0 : nl e 0 = []) by reflexivity.
    destruct n.
    - rewrite !sh_number. apply lay_nl_app, lay_elem_same.
    - rewrite !sh_identchar. apply lay_nl_app, lay_same. unfold identchar_text. right.
      match goal with |- context [match ?a with LDefault => _ | ForcedUpright => _ end] => destruct a end; [destruct (sc_try_as_char c)|]; eexists; reflexivity.
    - rewrite !sh_identstr. apply lay_nl_app, lay_elem_same.
    - rewrite !sh_operator. apply lay_nl_app, lay_elem_same.
    - rewrite !sh_pseudo. apply lay_nl_app, lay_elem_same.
    - rewrite !sh_space. apply lay_nl_app, lay_elem0.
    - rewrite !sh_sub. apply lay_nl_app, lay_elem. do 2 kid IHc. apply lay_nl.
    - rewrite !sh_sup. apply lay_nl_app, lay_elem. do 2 kid IHc. apply lay_nl.
    - rewrite !sh_subsup. apply lay_nl_app, lay_elem. do 3 kid IHc. apply lay_nl.
    - rewrite !sh_overaccent. apply lay_nl_app, lay_elem. kid IHc. apply lay_app; [apply lay_nl|].
      apply lay_app; [apply lay_elem_same|apply lay_nl].
    - rewrite !sh_underaccent. apply lay_nl_app, lay_elem. kid IHc. apply lay_app; [apply lay_nl|].
      apply lay_app; [apply lay_elem_same|apply lay_nl].
    - rewrite !sh_over. apply lay_nl_app, lay_elem. do 2 kid IHc. apply lay_nl.
    - rewrite !sh_under. apply lay_nl_app, lay_elem. do 2 kid IHc. apply lay_nl.
    - rewrite !sh_underover. apply lay_nl_app, lay_elem. do 3 kid IHc. apply lay_nl.
    - rewrite !sh_sqrt. apply lay_nl_app, lay_elem. kid IHc. apply lay_nl.
    - rewrite !sh_root. apply lay_nl_app, lay_elem. do 2 kid IHc. apply lay_nl.
    - rewrite !sh_frac. apply lay_nl_app, lay_elem. do 2 kid IHc. apply lay_nl.
    - rewrite !sh_row. apply lay_nl_app, lay_elem. apply lay_app.
      + apply lay_concat. rewrite <- (map_id nodes) at 2. apply Forall2_map2. intros c Hc. now apply IHc.
      + destruct nodes; [apply lay_empty|apply lay_nl].
    - rewrite !sh_padded. apply lay_nl_app, lay_padded. kid IHc. apply lay_nl.
    - rewrite !sh_phantom. apply lay_nl_app, lay_elem. kid IHc. apply lay_nl.
    - rewrite !sh_text. apply lay_nl_app, lay_elem_same.
    - rewrite !sh_ahref. apply lay_nl_app, lay_elem_same.
    - rewrite !sh_eqref. apply lay_nl_app, lay_elem_same.
    - rewrite !sh_table. apply lay_table. auto.
    - rewrite !sh_eqarray. apply lay_table. auto.
    - rewrite !sh_multline. apply lay_table. auto.
    - rewrite !sh_array. apply lay_table. auto.
    - cbn [emit]. rewrite N0, !app_nil_r. apply lay_nl.
    - cbn [emit]. rewrite N0, !app_nil_r. apply lay_nl.
    - rewrite !sh_enclose. apply lay_nl_app, lay_elem. kid IHc. apply lay_app; [|apply lay_nl].
      unfold enclose_extras.
      repeat apply lay_app; (destruct (has_attr _ _); [apply (lay_nl_app (S k)), lay_same; right; eexists; reflexivity|apply lay_empty]).
    - rewrite !sh_multi. apply lay_nl_app, lay_elem.
      assert (HP : forall l k, (forall p, In p l -> In p (post ++ pre)) ->
         lay (concat (map (fun p : node * node => match p with (x, y) => emit e x (S k) ++ emit e y (S k) end) l))
             (concat (map (fun p : node * node => match p with (x, y) => emit e x O ++ emit e y O end) l))).
      { intros l k' Hl. apply lay_concat. rewrite <- (map_id l) at 2. apply Forall2_map2. intros [x y] Hp.
        assert (Hx : forall z, z = x \/ z = y -> In z (children (Multiscripts n pre post))).
        { intros z Hz. cbn [children]. right. apply in_flat_map. exists (x, y). split; [now apply Hl|]. cbn. destruct Hz; subst; tauto. }
        apply lay_app; apply IHc; apply Hx; tauto. }
      kid IHc. apply lay_app; [apply HP; intros p Hp; apply in_or_app; tauto|].
      apply lay_app; [|apply lay_nl]. destruct pre as [|p0 pre0]; [apply lay_empty|].
      apply lay_app; [apply lay_nl|]. apply lay_app; [apply lay_elem0|]. apply HP. intros p Hp. apply in_or_app. tauto.
    - rewrite !sh_unknown. apply lay_nl_app, lay_elem_same.
  Qed.
End Layout.
