(** The whole [<math>] element, and the warnings (C05-C07, C16). *)
From Verif Require Import Str M_SuperChar M_Length M_Spec M_Escape M_Ast M_Emit M_Output.
From Verif Require Import S_Html S_Xml S_Node S_Emit L_Escape L_Node L_Emit L_Table L_Markup L_Tags L_Layout.

Definition math_attrs (c : emitter_cfg) (d : math_display) : str :=
  (if ec_xml_namespace c then lit " xmlns=""http://www.w3.org/1998/Math/MathML""" else []) ++
  match d with Block => lit " display=""block""" | Inline => [] end.
Definition annot_attrs : str := lit " encoding=""application/x-tex""".
Definition document_body (c : emitter_cfg) (labels : str -> option str) (ast : list node) (latex : str) (d : math_display) : str :=
  let e := env_of c labels in
  let base := if is_pretty c d then 1%nat else O in
  if ec_annotation c then
    let child := if is_pretty c d then 2%nat else O in
    nl e base ++ elem (lit "semantics") []
      (emit e (node_vec_to_node ast false) child ++ nl e child ++ elem (lit "annotation") annot_attrs (annotation_text latex) ++ nl e base)
  else concat (map (fun n => emit e n base) ast).
Definition last_nl (c : emitter_cfg) (d : math_display) : str := if is_pretty c d then [10] else [].

Lemma document_eq c labels ast latex d :
  cr_mathml (emit_document c labels ast latex d) =
  elem (lit "math") (math_attrs c d) (document_body c labels ast latex d ++ last_nl c d).
Proof.
  assert (E1 : lit "<math" = [60] ++ lit "math") by reflexivity.
  assert (E2 : lit "</math>" = [60; 47] ++ lit "math" ++ [62]) by reflexivity.
  assert (E3 : lit "<semantics>" = [60] ++ lit "semantics" ++ [] ++ [62]) by reflexivity.
  assert (E4 : lit "</semantics>" = [60; 47] ++ lit "semantics" ++ [62]) by reflexivity.
  assert (E5 : lit "<annotation encoding=""application/x-tex"">" = [60] ++ lit "annotation" ++ annot_attrs ++ [62]) by reflexivity.
  assert (E6 : lit "</annotation>" = [60; 47] ++ lit "annotation" ++ [62]) by reflexivity.
  assert (E7 : lit ">" = [62]) by reflexivity.
  unfold emit_document, document_body, math_attrs, last_nl, elem. rewrite E1, E2, E3, E4, E5, E6, E7. clear.
  destruct (ec_annotation c); cbn [cr_mathml]; rewrite <- !app_assoc; reflexivity.
Qed.

Lemma annotation_safe latex : content_safe (annotation_text latex) /\ html_decode (annotation_text latex) = latex.
Proof.
  unfold annotation_text. destruct (escape_html_content_spec [] latex) as (e & -> & H1 & H2). auto.
Qed.

Lemma math_attrs_ok c d : attrs (math_attrs c d).
Proof. unfold math_attrs. destruct (ec_xml_namespace c), d; attr_lit. Qed.

Lemma node_vec_clean ast : Forall clean ast -> forall r, clean (node_vec_to_node ast r).
Proof.
  intros H r. destruct ast as [|a [|b l]].
  - constructor; [exact I|intros c []].
  - inversion H as [|? ? H1 H2]; subst. cbn [node_vec_to_node]. destruct r; [|exact H1]. destruct a; try exact H1.
    constructor; [exact I|intros c []].
  - cbn [node_vec_to_node]. constructor; [exact I|]. intros c Hc. cbn [children] in Hc. rewrite Forall_forall in H. now apply H.
Qed.

Lemma cfg_env c labels : cfg_ok c -> env_ok (env_of c labels).
Proof. exact (fun H => H). Qed.

Lemma nl_safe c d : markup (last_nl c d).
Proof. unfold last_nl. destruct (is_pretty c d); [apply mk_text, plain_content; reflexivity|constructor]. Qed.

Lemma document_body_markup c labels ast latex d : cfg_ok c -> Forall clean ast ->
  markup (document_body c labels ast latex d).
Proof.
  intros Hc Ha. unfold document_body. destruct (ec_annotation c).
  - apply mk_app; [apply markup_nl|]. el; [constructor|].
    apply mk_app; [apply emit_markup; [now apply cfg_env|now apply node_vec_clean]|].
    apply mk_app; [apply markup_nl|]. apply mk_app; [|apply markup_nl]. el; [attr_lit|].
    apply mk_text, annotation_safe.
  - apply markup_concat. apply Forall_map. eapply Forall_impl; [|exact Ha]. intros n Hn. now apply emit_markup.
Qed.

Lemma erase_vec ast r : erase (node_vec_to_node ast r) = node_vec_to_node (map erase ast) r.
Proof.
  destruct ast as [|a [|b l]]; [reflexivity| |reflexivity]. cbn [map node_vec_to_node].
  destruct r; [|reflexivity]. destruct a; reflexivity.
Qed.

Lemma document_sim c labels ast latex d : cfg_ok c -> Forall clean ast ->
  sim (cr_mathml (emit_document c labels ast latex d))
      (cr_mathml (emit_document c (fun _ => Some []) (map erase ast) [] d)).
Proof.
  intros Hc Ha. rewrite !document_eq. sel; [apply math_attrs_ok|].
  apply sim_app; [|apply sim_refl, nl_safe]. unfold document_body.
  assert (E : forall n b, clean n -> sim (emit (env_of c labels) n b) (emit (env_of c (fun _ => Some [])) (erase n) b)).
  { intros n b Hn. apply (emit_sim (env_of c labels) n); [now apply cfg_env|exact Hn]. }
  destruct (ec_annotation c).
  - apply sim_app; [apply sim_nl|]. sel; [constructor|].
    apply sim_app; [rewrite <- erase_vec; apply E; now apply node_vec_clean|].
    apply sim_app; [apply sim_nl|]. apply sim_app; [|apply sim_nl]. sel; [attr_lit|].
    apply sim_text; apply annotation_safe.
  - apply sim_concat, Forall2_map2. intros n Hn. apply E. rewrite Forall_forall in Ha. now apply Ha.
Qed.

Lemma document_layout c labels ast latex d :
  layout (indent_unit (ec_indentation c)) (cr_mathml (emit_document c labels ast latex d))
    (cr_mathml (emit_document (compact c) labels ast latex d)).
Proof.
  rewrite !document_eq. unfold last_nl. replace (is_pretty (compact c) d) with false by reflexivity.
  change (math_attrs (compact c) d) with (math_attrs c d). rewrite app_nil_r.
  unfold document_body. change (env_of (compact c) labels) with (env_of c labels).
  change (ec_annotation (compact c)) with (ec_annotation c). replace (is_pretty (compact c) d) with false by reflexivity.
  set (e := env_of c labels). change (indent_unit (ec_indentation c)) with (indent_unit (ee_indentation e)).
  destruct (is_pretty c d).
  - assert (L : lay e
      (if ec_annotation c then nl e 1 ++ elem (lit "semantics") [] (emit e (node_vec_to_node ast false) 2 ++ nl e 2 ++ elem (lit "annotation") annot_attrs (annotation_text latex) ++ nl e 1) else concat (map (fun n => emit e n 1) ast))
      (if ec_annotation c then nl e 0 ++ elem (lit "semantics") [] (emit e (node_vec_to_node ast false) 0 ++ nl e 0 ++ elem (lit "annotation") annot_attrs (annotation_text latex) ++ nl e 0) else concat (map (fun n => emit e n 0) ast))).
    { destruct (ec_annotation c).
      - apply lay_app; [apply lay_nl|]. apply lay_elem. apply lay_app; [apply emit_lay|].
        apply lay_app; [apply lay_nl|]. apply lay_app; [apply lay_elem_same|apply lay_nl].
      - apply lay_concat. rewrite <- (map_id ast) at 2. apply Forall2_map2. intros n _. apply emit_lay. }
    unfold elem. do 4 apply layout_prefix. rewrite <- app_assoc. apply L; [eexists; reflexivity|].
    apply (lay_ins _ 0). apply layout_refl.
  - rewrite app_nil_r. apply layout_refl.
Qed.

(** ** Warnings *)
Lemma warn_or_true a b :
  (w_undefined_refs (warn_or a b) = true <-> w_undefined_refs a = true \/ w_undefined_refs b = true) /\
  (w_unknown_cmds (warn_or a b) = true <-> w_unknown_cmds a = true \/ w_unknown_cmds b = true).
Proof. cbn. rewrite !orb_true_iff. tauto. Qed.

(** A node's warnings are its own and those of its children. *)
Definition has_w (w : warnings -> bool) (labels : str -> option str) (n : node) : Prop :=
  w (own_warning labels n) = true \/ exists c, In c (children n) /\ w (node_warnings labels c) = true.

Lemma fold_warn w labels l : (w = w_undefined_refs \/ w = w_unknown_cmds) ->
  w (fold_right (fun x acc => warn_or (node_warnings labels x) acc) warn_none l) = true <->
  exists c, In c l /\ w (node_warnings labels c) = true.
Proof.
  intros Hw. assert (Hor : forall a b, w (warn_or a b) = true <-> w a = true \/ w b = true) by (intros a b; destruct Hw; subst w; apply warn_or_true).
  assert (H0 : w warn_none = false) by (destruct Hw; subst w; reflexivity).
  induction l as [|x l IH]; cbn [fold_right].
  - rewrite H0. split; [discriminate|intros (c & [] & _)].
  - rewrite Hor, IH. split.
    + intros [H|(c & H1 & H2)]; [exists x; split; [now left|exact H]|exists c; split; [now right|exact H2]].
    + intros (c & [->|H1] & H2); [now left|right; exists c; auto].
Qed.
Lemma fold_warn_pairs w labels (l : list (node * node)) : (w = w_undefined_refs \/ w = w_unknown_cmds) ->
  w (fold_right (fun (p : node * node) acc => match p with (x, y) => warn_or (warn_or (node_warnings labels x) (node_warnings labels y)) acc end) warn_none l) = true <->
  exists c, In c (flat_map (fun p => [fst p; snd p]) l) /\ w (node_warnings labels c) = true.
Proof.
  intros Hw. assert (Hor : forall a b, w (warn_or a b) = true <-> w a = true \/ w b = true) by (intros a b; destruct Hw; subst w; apply warn_or_true).
  assert (H0 : w warn_none = false) by (destruct Hw; subst w; reflexivity).
  induction l as [|[x y] l IH]; cbn [fold_right flat_map fst snd app].
  - rewrite H0. split; [discriminate|intros (c & [] & _)].
  - rewrite !Hor, IH. split.
    + intros [[H|H]|(c & H1 & H2)]; [exists x|exists y|exists c]; cbn; auto.
    + intros (c & [->|[->|H1]] & H2); [tauto|tauto|]. right. exists c. auto.
Qed.

Lemma node_warnings_step w labels n : (w = w_undefined_refs \/ w = w_unknown_cmds) ->
  w (node_warnings labels n) = true <-> has_w w labels n.
Proof.
  intros Hw. assert (Hor : forall a b, w (warn_or a b) = true <-> w a = true \/ w b = true) by (intros a b; destruct Hw; subst w; apply warn_or_true).
  assert (H0 : w warn_none = false) by (destruct Hw; subst w; reflexivity).
  unfold has_w.
  destruct n; cbn [node_warnings own_warning children]; rewrite ?H0, ?Hor, ?fold_warn, ?fold_warn_pairs by exact Hw;
    try (split; [intros H; left; exact H|intros [H|(c0 & [] & _)]; exact H]);
    try (split; [now auto|intros [H|H]; [discriminate|exact H]]).
  all: try (split; [discriminate|intros [H|(c0 & [] & _)]; discriminate]).
  all: try (split; [intros H; right; repeat (destruct H as [H|H]);
      match type of H with ?f (node_warnings ?l ?x) = true => exists x; cbn; tauto end
    |intros [H|(c0 & H1 & H2)]; [discriminate|]; cbn in H1; repeat (destruct H1 as [H1|H1]; [subst; tauto|]); contradiction]).
  rewrite flat_map_app. split.
  - intros [H|[(c0 & H1 & H2)|(c0 & H1 & H2)]]; right; [exists n|exists c0|exists c0]; (split; [|assumption]); cbn; auto using in_or_app.
  - intros [H|(c0 & [<-|H1] & H2)]; [discriminate|now left|]. apply in_app_or in H1. right. destruct H1; [left|right]; exists c0; auto.
Qed.

Lemma node_warnings_below w labels n : (w = w_undefined_refs \/ w = w_unknown_cmds) ->
  w (node_warnings labels n) = true <-> exists m, below m n /\ w (own_warning labels m) = true.
Proof.
  intros Hw. split.
  - induction n as [n IH] using node_ind'. intros H. apply node_warnings_step in H; [|exact Hw].
    destruct H as [H|(c & H1 & H2)]; [exists n; split; [constructor|exact H]|].
    destruct (IH c H1 H2) as (m & H3 & H4). exists m. split; [now apply below_child with c|exact H4].
  - intros (m & Hb & Hm). induction Hb as [|c n H1 H2 IH]; apply node_warnings_step; try exact Hw; unfold has_w; [now left|].
    right. exists c. auto.
Qed.

Lemma below_vec ast m : own_warning (fun _ => None) m <> warn_none ->
  below m (node_vec_to_node ast false) <-> exists n, In n ast /\ below m n.
Proof.
  intros Hm.
  assert (HR : forall l a, below m (Row l a) <-> exists n, In n l /\ below m n).
  { intros l a. split.
    - inversion 1 as [|c n H1 H2]; subst; [exfalso; now apply Hm|]. eauto.
    - intros (n & H1 & H2). now apply below_child with n. }
  destruct ast as [|a [|b l]]; cbn [node_vec_to_node].
  - apply HR.
  - assert (Ha : below m a <-> exists n, In n [a] /\ below m n).
    { split; [intros H; exists a; split; [now left|exact H]|intros (n & [<-|[]] & H); exact H]. }
    exact Ha.
  - apply HR.
Qed.

Lemma document_warnings w c labels ast latex d : (w = w_undefined_refs \/ w = w_unknown_cmds) ->
  w (cr_warnings (emit_document c labels ast latex d)) = true <->
  exists n m, In n ast /\ below m n /\ w (own_warning labels m) = true.
Proof.
  intros Hw. unfold emit_document. destruct (ec_annotation c); cbn [cr_warnings].
  - rewrite node_warnings_below by exact Hw. split.
    + intros (m & H1 & H2). apply below_vec in H1; [destruct H1 as (n & H1 & H3); eauto|].
      intros E. destruct m; try discriminate; destruct Hw; subst w; discriminate.
    + intros (n & m & H1 & H2 & H3). exists m. split; [|exact H3]. apply below_vec; [|eauto].
      intros E. destruct m; try discriminate; destruct Hw; subst w; discriminate.
  - unfold nodes_warnings. rewrite fold_warn by exact Hw. split.
    + intros (n & H1 & H2). apply node_warnings_below in H2 as (m & H2 & H3); [|exact Hw]. eauto.
    + intros (n & m & H1 & H2 & H3). exists n. split; [exact H1|]. apply node_warnings_below; eauto.
Qed.
