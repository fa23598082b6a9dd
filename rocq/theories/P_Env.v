(** Properties C12-C16 and C37: environments, equation numbers and labels. *)
From Verif Require Import Str M_Spec M_Ast M_Token M_Env S_Env L_Env.

(** Over any sequence of numbered environments the automatic numbers are [c+1], [c+2], ... in
    order without gap or repetition, and the counter grows by exactly their number; it never
    passes the largest representable value. *)
Theorem C12_consecutive : forall umax l c labels infos c' labels',
  run_envs umax c labels l = Some (infos, c', labels') ->
  length infos = length l /\
  exists n, automatic_envs l infos = numbers_from c n /\ c' = c + N.of_nat n /\ (n <> O -> c' <= umax).
Proof.
  intros umax l c ls infos c' ls' H. apply run_envs_automatic in H as ((n & A & B) & U & _ & L).
  split; [exact L|]. exists n. repeat split; auto. intros Hn. lia.
Qed.

(** Each row gets its own [\tag] if it has one, nothing if it is suppressed or the environment is
    starred, and the next number otherwise.  Missing: rows with both [\tag] and [\notag], see
    [C13_refuted]. *)
Theorem C12_each_row_partial : forall umax e c labels rows infos n c' labels',
  run_env umax e c labels rows = Some (infos, n, c', labels') -> is_multline e = false ->
  Forall unmixed (all_rows rows) ->
  (infos, c') = intended_rows (starred e) c (all_rows rows).
Proof.
  intros umax e c ls rows infos n c' ls' H Hm Hu. apply run_env_exact in H as (H & _ & _); [|exact Hm].
  now rewrite <- H, exact_unmixed.
Qed.

Example C12_nonvacuous :
  let tag := RowTag (mkTag (lit "A") true) in
  let r := run_envs 100 4 [] [(EAlign, ([], [[RowNotag]; [tag; RowLabel (lit "x")]; []])); (EGatherStar, ([], [[tag]]));
                              (EMultLine, ([], [[]; [RowLabel (lit "m")]]))] in
  match r with
  | Some (infos, c, labels) =>
      c = 7 /\ labels = [(lit "m", lit "7"); (lit "x", lit "A")] /\
      map (map (option_map (fun i => tag_text (li_tag i)))) infos =
        [[Some (lit "5"); None; Some (lit "A"); Some (lit "6")]; [None; Some (lit "A")]; [None; None; Some (lit "7")]]
  | None => False
  end.
Proof. vm_compute. auto. Qed.

(** [\notag] next to [\tag] in one row takes away the number of the following row. *)
Theorem C13_refuted : exists umax c rows infos n c' labels',
  run_env umax EAlign c [] rows = Some (infos, n, c', labels') /\
  nth_error (all_rows rows) 1 = Some [] /\ nth_error infos 1 = Some None /\ c < umax.
Proof.
  exists 100, 0, ([RowNotag; RowTag (mkTag (lit "A") true)], [[]]). do 4 eexists.
  split; [vm_compute; reflexivity|]. repeat split.
Qed.

(** Without such a row, changing whether [\notag] occurs in one row leaves the kind of every other
    row alone: whether a row is numbered depends on its own commands only. *)
Theorem C13_own_row_only_partial : forall umax e c labels rows infos n c' labels' k row info,
  run_env umax e c labels rows = Some (infos, n, c', labels') -> is_multline e = false ->
  Forall unmixed (all_rows rows) ->
  nth_error (all_rows rows) k = Some row -> nth_error infos k = Some info ->
  (info = None <-> row_tag row = None /\ (starred e = true \/ row_notag row = true)).
Proof.
  intros umax e c ls rows infos n c' ls' k row info H Hm Hu Hr Hi.
  pose proof (C12_each_row_partial _ _ _ _ _ _ _ _ _ H Hm Hu) as E. clear H Hu.
  revert c c' infos rows k E Hr Hi.
  assert (K : forall rs c infos c' k, (infos, c') = intended_rows (starred e) c rs -> nth_error rs k = Some row ->
    nth_error infos k = Some info -> (info = None <-> row_tag row = None /\ (starred e = true \/ row_notag row = true))).
  { induction rs as [|r rs IH]; intros c infos c' k E Hr Hi; [now destruct k|].
    cbn [intended_rows] in E. destruct (intended_row (starred e) c r) as [i c1] eqn:Er.
    destruct (intended_rows (starred e) c1 rs) as [is1 c2] eqn:Es. injection E as -> ->. destruct k; cbn [nth_error] in *.
    - injection Hr as ->. injection Hi as <-. unfold intended_row in Er. destruct (row_tag row).
      + injection Er as <- <-. split; [discriminate|intros [? _]; discriminate].
      + destruct (starred e || row_notag row) eqn:Eo; injection Er as <- <-.
        * apply orb_true_iff in Eo. tauto.
        * apply orb_false_iff in Eo as [-> ->]. split; [discriminate|]. intros [_ [?|?]]; discriminate.
    - eapply IH; eauto. }
  intros c c' infos rows k E Hr Hi. eapply K; eauto.
Qed.

Example C13_nonvacuous : exists infos c' labels',
  run_env 100 EAlign 0 [] ([RowNotag], [[]; [RowTag (mkTag (lit "A") false)]]) = Some (infos, None, c', labels') /\
  map (option_map (fun i => tag_text (li_tag i))) infos = [None; Some (lit "1"); Some (lit "A")] /\
  Forall unmixed [[RowNotag]; []; [RowTag (mkTag (lit "A") false)]].
Proof.
  do 3 eexists. split; [vm_compute; reflexivity|]. split; [vm_compute; reflexivity|].
  repeat (apply Forall_cons; [unfold unmixed; cbn; tauto|]). apply Forall_nil.
Qed.

(** [multline]: only the last row may carry a number, it carries the [\tag] typed anywhere in the
    environment, or nothing after a [\notag] anywhere, or exactly the next number; the number of
    rows is counted exactly. *)
Theorem C14_multline : forall umax c labels rows infos n c' labels',
  run_env umax EMultLine c labels rows = Some (infos, n, c', labels') ->
  exists i, infos = repeat None (length (snd rows)) ++ [i] /\ n = Some (N.of_nat (length (all_rows rows))) /\
    match row_tag (concat (all_rows rows)), row_notag (concat (all_rows rows)) with
    | Some t, _ => option_map li_tag i = Some t /\ c' = c
    | None, true => i = None /\ c' = c
    | None, false => option_map li_tag i = Some (mkTag (dec (c + 1)) true) /\ c' = c + 1
    end.
Proof.
  intros umax c ls rows infos n c' ls' H. apply run_env_multline in H as (i & -> & _ & -> & H). exists i.
  split; [reflexivity|]. split; [reflexivity|]. unfold multline_info in H.
  destruct (row_tag (concat (all_rows rows))); [|destruct (row_notag (concat (all_rows rows)))].
  - now injection H as <- <-.
  - now injection H as <- <-.
  - destruct (c + 1 <=? umax); [|discriminate]. now injection H as <- <-.
Qed.

(** Starred environments never take a number; only rows with [\tag] are tagged. *)
Theorem C14_starred : forall umax e c labels rows infos n c' labels',
  run_env umax e c labels rows = Some (infos, n, c', labels') -> starred e = true ->
  c' = c /\ map (option_map li_tag) infos = map row_tag (all_rows rows).
Proof.
  intros umax e c ls rows infos n c' ls' H Hs. apply run_env_exact in H as (H & _ & _); [|now destruct e].
  rewrite Hs in H. revert H. generalize false. revert c infos c'. induction (all_rows rows) as [|r rs IH]; intros c infos c' pend H.
  - cbn in H. now injection H as <- <-.
  - rewrite exact_rows_cons, orb_true_r in H. cbn [map]. destruct (row_tag r) as [t|] eqn:Et.
    + destruct (exact_rows true (pend || row_notag r) c rs) as [is0 c0] eqn:Ex. injection H as <- <-.
      apply IH in Ex as [-> E]. cbn. now rewrite E.
    + destruct (exact_rows true false c rs) as [is0 c0] eqn:Ex. injection H as <- <-.
      apply IH in Ex as [-> E]. cbn. now rewrite E.
Qed.

Example C14_nonvacuous :
  run_env 9 EMultLine 3 [] ([], [[]; []]) = Some ([None; None; Some (mkLabelInfo (mkTag (lit "4") true) None)], Some 3, 4, []) /\
  run_env 9 EAlignStar 3 [] ([], [[RowTag (mkTag (lit "T") false)]]) =
    Some ([None; Some (mkLabelInfo (mkTag (lit "T") false) None)], None, 3, []).
Proof. split; vm_compute; reflexivity. Qed.

(** A row that needs an automatic number is refused exactly when the counter is at (or beyond) its
    largest value; otherwise the counter stays within range and never decreases. *)
Theorem C15_overflow : forall umax ne c last,
  next_equation_tag umax ne c last = None <->
  (umax <= c /\ ne_custom_tag ne = None /\ ne_suppress ne = false /\ ne_mode ne <> NoneByDefault /\
   (ne_mode ne = OnlyLast -> last = true)).
Proof.
  intros umax ne c last. unfold next_equation_tag.
  destruct (ne_mode ne), last, (ne_custom_tag ne), (ne_suppress ne); cbn [negb orb];
    try destruct (c + 1 <=? umax) eqn:E; split; intros H; try discriminate;
    try (repeat split; try discriminate; try lia; intros; try discriminate; reflexivity);
    destruct H as (H1 & H2 & H3 & H4 & H5); try discriminate; try contradiction; try lia; try reflexivity.
Qed.

Theorem C15_no_wrap : forall umax ne c last tag ne' c',
  next_equation_tag umax ne c last = Some (tag, ne', c') ->
  c' = c \/ (c' = c + 1 /\ c' <= umax /\ tag = Some (mkTag (dec c') true)).
Proof.
  intros umax ne c last tag ne' c'. unfold next_equation_tag.
  destruct (match ne_mode ne with OnlyLast => negb last | _ => false end); [intros [= <- <- <-]; auto|].
  destruct (ne_custom_tag ne); [intros [= <- <- <-]; auto|].
  destruct (ne_suppress ne || _); [intros [= <- <- <-]; auto|].
  destruct (c + 1 <=? umax) eqn:E; [|discriminate]. intros [= <- <- <-]. right. repeat split. lia.
Qed.

Example C15_nonvacuous :
  let ne := mkNumbered AllByDefault false None None None in
  next_equation_tag 18446744073709551615 ne 18446744073709551615 false = None /\
  next_equation_tag 18446744073709551615 ne 18446744073709551614 false =
    Some (Some (mkTag (lit "18446744073709551615") true), ne, 18446744073709551615).
Proof. split; vm_compute; reflexivity. Qed.

(** The label table after any sequence of environments maps a label to the newest tag of a row
    carrying it, and is otherwise the old table. *)
Theorem C16_labels_recorded : forall umax l c labels infos c' labels' name,
  run_envs umax c labels l = Some (infos, c', labels') ->
  assoc_str name labels' =
    match newest_tag name (concat infos) with Some t => Some t | None => assoc_str name labels end.
Proof.
  intros umax l c ls infos c' ls' name H. apply run_envs_automatic in H as (_ & _ & -> & _).
  apply record_labels_newest.
Qed.

(** Outside [multline] a row that gets a tag carries exactly the label typed in it; two labels in a
    row are refused. *)
Theorem C16_row_labels : forall umax e c labels rows infos n c' labels' k row info,
  run_env umax e c labels rows = Some (infos, n, c', labels') -> is_multline e = false ->
  nth_error (all_rows rows) k = Some row -> nth_error infos k = Some (Some info) ->
  li_link_target info = row_label row.
Proof.
  intros umax e c ls rows infos n c' ls' k row info H Hm. apply run_env_exact in H as (H & _ & _); [|exact Hm].
  revert H. generalize false. revert c infos c' k. induction (all_rows rows) as [|r rs IH]; intros c infos c' k pend H Hr Hi;
    [now destruct k|].
  rewrite exact_rows_cons in H.
  destruct (row_tag r) as [t|]; [|destruct (pend || row_notag r || starred e)];
    match type of H with (let (_, _) := ?x in _) = _ => destruct x as [is0 c0] eqn:Ex end; injection H as <- <-;
    destruct k; cbn [nth_error] in *; try (eapply IH; eauto; fail); injection Hr as ->; try discriminate; now injection Hi as <-.
Qed.

Example C16_labels_nonvacuous :
  match run_envs 9 0 [(lit "a", lit "old")] [(EAlign, ([RowLabel (lit "a")], [[RowLabel (lit "b"); RowNotag]])); (EEquation, ([RowLabel (lit "a")], []))] with
  | Some (_, _, m) => assoc_str (lit "a") m = Some (lit "2") /\ assoc_str (lit "b") m = None
  | None => False
  end.
Proof. vm_compute. auto. Qed.

(** In [multline] a label typed in a row other than the last is dropped although the environment is
    numbered. *)
Theorem C16_multline_label_refuted : exists umax c rows infos n c' labels',
  run_env umax EMultLine c [] rows = Some (infos, n, c', labels') /\
  c' = c + 1 /\ In (RowLabel (lit "x")) (concat (all_rows rows)) /\ labels' = [].
Proof.
  exists 100, 0, ([RowLabel (lit "x")], [[]]). do 4 eexists.
  split; [vm_compute; reflexivity|]. repeat split. now left.
Qed.

(** Environment names and environments correspond one to one. *)
Theorem C37_names : forall s e, env_from_str s = Some e <-> s = env_as_str e.
Proof.
  intros s e. split; [intros H; symmetry; now apply env_from_name|]. intros ->. apply env_round_trip.
Qed.

Theorem C37_end_matches : forall a b, env_eqb a b = true <-> env_as_str a = env_as_str b.
Proof.
  intros a b. rewrite env_eqb_eq. split; [now intros ->|]. intros H.
  assert (E : Some a = Some b) by (rewrite <- (env_round_trip a), <- (env_round_trip b); now rewrite H). congruence.
Qed.

Example C37_nonvacuous : env_from_str (lit "align*") = Some EAlignStar /\ env_from_str (lit "Align") = None /\
  env_as_str EVmatrix = lit "Vmatrix" /\ env_eqb EVMatrix EVmatrix = false.
Proof. repeat split. Qed.

(** Building an environment's node never lacks a column specification if one was parsed for the
    [array] family, and otherwise never needs one. *)
Theorem C37_construct_defined : forall e content spec info rows border,
  (match e with EArray | EDArray | ESubarray => spec <> None | _ => True end) ->
  construct_node e content spec info rows border <> None.
Proof. intros e content spec info rows border H. destruct e; try discriminate; destruct spec; try discriminate; contradiction. Qed.

Print Assumptions C12_consecutive.
Print Assumptions C12_each_row_partial.
Print Assumptions C13_refuted.
Print Assumptions C13_own_row_only_partial.
Print Assumptions C14_multline.
Print Assumptions C14_starred.
Print Assumptions C15_overflow.
Print Assumptions C15_no_wrap.
Print Assumptions C16_labels_recorded.
Print Assumptions C16_row_labels.
Print Assumptions C16_multline_label_refuted.
Print Assumptions C37_names.
Print Assumptions C37_end_matches.
Print Assumptions C37_construct_defined.
