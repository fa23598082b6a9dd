(** Proofs about the public interface. *)
From Coq Require Import Permutation.
From Verif Require Import Str M_Length M_Spec M_Ast M_Emit M_Output M_Token M_Env M_LatexError M_Lexer M_CustomCmds M_Queue
  M_Parser M_Api S_Lexer L_Lexer S_Api L_Keep L_Spec.

Section Calls.
Context (usize_max : N) (fuel : nat).
Notation run := (api_run usize_max fuel).
Notation parse := (parse usize_max fuel).
Notation state_after := (state_after usize_max fuel).

Lemma api_run_app c a b : run c (a ++ b) =
  (replies usize_max fuel c a ++ replies usize_max fuel (after usize_max fuel c a) b,
   after usize_max fuel (after usize_max fuel c a) b).
Proof.
  unfold replies, after. revert c. induction a as [|x a IH]; intros c; cbn [app api_run fst snd].
  - now destruct (run c b).
  - destruct (api_step usize_max fuel c x) as [r c1]. rewrite IH. now destruct (run c1 a).
Qed.

(** Everything but the global state stays. *)
Lemma step_config c x : cv_emitter (snd (api_step usize_max fuel c x)) = cv_emitter c /\
  cv_parser (snd (api_step usize_max fuel c x)) = cv_parser c.
Proof.
  destruct x; cbn; auto. unfold convert_with_global_state. now destruct (convert _ _ _ _ _ _ _).
Qed.
Lemma run_config calls : forall c, cv_emitter (snd (run c calls)) = cv_emitter c /\
  cv_parser (snd (run c calls)) = cv_parser c.
Proof.
  induction calls as [|x calls IH]; intros c; cbn; [auto|].
  destruct (step_config c x) as [H1 H2]. destruct (api_step usize_max fuel c x) as [r c1]. cbn in *.
  destruct (IH c1) as [H3 H4]. destruct (run c1 calls) as [rs c2]. cbn in *. split; congruence.
Qed.

Lemma parse_each_length pc l : forall gs, length (fst (parse_each usize_max fuel pc gs l)) = length l.
Proof.
  induction l as [|[s d] l IH]; intros gs; cbn; [reflexivity|]. destruct (parse pc gs s d) as [r g1].
  specialize (IH g1). destruct (parse_each _ _ pc g1 l). cbn in *. lia.
Qed.
Lemma parse_each_state pc l : forall gs, snd (parse_each usize_max fuel pc gs l) = state_after pc gs l.
Proof.
  induction l as [|[s d] l IH]; intros gs; cbn; [reflexivity|]. destruct (parse pc gs s d) as [r g1].
  specialize (IH g1). destruct (parse_each _ _ pc g1 l). cbn in *. exact IH.
Qed.
Lemma parse_each_nth pc l : forall gs i s d, nth_error l i = Some (s, d) ->
  nth_error (fst (parse_each usize_max fuel pc gs l)) i = Some (fst (parse pc (state_after pc gs (firstn i l)) s d), s, d).
Proof.
  induction l as [|[s0 d0] l IH]; intros gs i s d H; [now destruct i|]. cbn. destruct (parse pc gs s0 d0) as [r g1] eqn:E.
  destruct i as [|i]; cbn in H.
  - injection H as -> ->. destruct (parse_each _ _ pc g1 l). cbn. now rewrite E.
  - specialize (IH g1 i s d H). destruct (parse_each _ _ pc g1 l). cbn in *. now rewrite E.
Qed.

Lemma convert_all_length c l : length (convert_all usize_max fuel c l) = length l.
Proof.
  unfold convert_all. pose proof (parse_each_length (cv_parser c) l gs_default) as H.
  destruct (parse_each _ _ _ _ l). cbn in *. now rewrite map_length.
Qed.
Lemma convert_all_nth c l i s d : nth_error l i = Some (s, d) ->
  nth_error (convert_all usize_max fuel c l) i =
    Some (emit_result (cv_emitter c) (gs_labels (state_after (cv_parser c) gs_default l))
            (fst (parse (cv_parser c) (state_after (cv_parser c) gs_default (firstn i l)) s d), s, d)).
Proof.
  intros H. unfold convert_all. pose proof (parse_each_state (cv_parser c) l gs_default) as HS.
  pose proof (parse_each_nth (cv_parser c) l gs_default i s d H) as HN.
  destruct (parse_each _ _ _ _ l) as [a g]. cbn in *. subst g. now rewrite nth_error_map, HN.
Qed.

Lemma convert_state ec pc gs s d : snd (convert usize_max fuel ec pc gs s d) = snd (parse pc gs s d).
Proof. unfold convert. now destruct (parse pc gs s d) as [[a|e|c] g]. Qed.
Lemma convert_outcome ec pc gs s d : same_outcome (fst (convert usize_max fuel ec pc gs s d)) (fst (parse pc gs s d)).
Proof. unfold convert. destruct (parse pc gs s d) as [[a|e|c] g]; cbn; auto. Qed.

Lemma one_by_one_state l : forall c, after usize_max fuel c (one_by_one l) = cv_set_state c (state_after (cv_parser c) (cv_state c) l).
Proof.
  unfold after. induction l as [|[s d] l IH]; intros c; cbn; [now destruct c|].
  unfold convert_with_global_state. destruct (convert usize_max fuel (cv_emitter c) (cv_parser c) (cv_state c) s d) as [r g] eqn:E.
  specialize (IH (cv_set_state c g)). fold (one_by_one l). destruct (run _ _) as [rs c2]. cbn in *. rewrite IH.
  pose proof (convert_state (cv_emitter c) (cv_parser c) (cv_state c) s d) as H. rewrite E in H. cbn in H. now rewrite <- H.
Qed.
Lemma one_by_one_nth l : forall c i s d, nth_error l i = Some (s, d) ->
  nth_error (replies usize_max fuel c (one_by_one l)) i =
    Some (ReplyOne (fst (convert usize_max fuel (cv_emitter c) (cv_parser c) (state_after (cv_parser c) (cv_state c) (firstn i l)) s d))).
Proof.
  unfold replies. induction l as [|[s0 d0] l IH]; intros c i s d H; [now destruct i|].
  cbn. unfold convert_with_global_state.
  destruct (convert usize_max fuel (cv_emitter c) (cv_parser c) (cv_state c) s0 d0) as [r g] eqn:E. fold (one_by_one l).
  destruct i as [|i]; cbn in H.
  - injection H as -> ->. destruct (run _ _) as [rs c2]. cbn. now rewrite E.
  - specialize (IH (cv_set_state c g) i s d H). destruct (run _ _) as [rs c2]. cbn in *. rewrite IH.
    pose proof (convert_state (cv_emitter c) (cv_parser c) (cv_state c) s0 d0) as HS. rewrite E in HS. cbn in HS. now rewrite <- HS.
Qed.

(** ** Labels are never forgotten *)
Definition labels_grow (a b : queue) : Prop :=
  forall n, assoc_str n (gs_labels (q_gs a)) <> None -> assoc_str n (gs_labels (q_gs b)) <> None.

Lemma run_labels cfg f A (p : prog A) s : labels_grow (ps_queue s) (ps_queue (snd (M_Parser.run cfg usize_max f p s))).
Proof.
  apply (run_rel cfg usize_max labels_grow).
  - intros a b c H1 H2 n H. auto.
  - intros a b [_ H] n Hn. now rewrite <- H.
  - intros n args b cl rep g q. unfold q_define. intros m Hm.
    destruct (g || pc_global_group cfg).
    + destruct (_ && _); [exact Hm|]. destruct (cmds_insert_or_replace_copy _ _ _ _ _ _); [|exact Hm]. cbn [snd].
      destruct rep; [|exact Hm]. now destruct (cmds_get _ _ _).
    + destruct rep; cbn [snd]; [now destruct (cmds_get _ _ _)|]. destruct (cmds_insert _ _ _ _ _); exact Hm.
  - intros q ne is_last info ne' count labels H n Hn. cbn. unfold finish_row in H.
    destruct (next_equation_tag _ _ _ _) as [[[tag ne1] c1]|]; [|discriminate].
    destruct tag as [t|]; injection H as _ _ _ <-; [|exact Hn].
    destruct (ne_label ne1) as [lb|]; [|exact Hn]. unfold label_insert. cbn [assoc_str]. now destruct (str_eqb n lb).
Qed.
Lemma parse_labels pc gs s d n : assoc_str n (gs_labels gs) <> None -> assoc_str n (gs_labels (snd (parse pc gs s d))) <> None.
Proof.
  intros H. unfold M_Api.parse, parse_snippet. destruct (queue_new_stores pc (lexer_new s) gs) as [_ HS].
  unfold parser_new. destruct (queue_new pc (lexer_new s) gs) as [[u|e|c] q]; cbn in *; subst; auto.
  unfold parse_all. set (st := mkPs _ _). pose proof (run_labels pc fuel _ (body (CSeq (SeqEnd EtEoi) ClOpen true)) st n) as R.
  destruct (M_Parser.run _ _ _ _ st). cbn in *. apply R. exact H.
Qed.
Lemma state_after_labels pc l : forall gs n, assoc_str n (gs_labels gs) <> None -> assoc_str n (gs_labels (state_after pc gs l)) <> None.
Proof. induction l as [|[s d] l IH]; intros gs n H; [exact H|]. cbn. apply IH. now apply parse_labels. Qed.
Lemma state_after_app pc a b : forall gs, state_after pc gs (a ++ b) = state_after pc (state_after pc gs a) b.
Proof. intros gs. apply fold_left_app. Qed.
End Calls.

(** ** Macros of the configuration *)
Section Macros.
Context (unreliable conventional : bool).
Notation read := (fun l m => read_macro l unreliable conventional m).

Lemma tokenize_length def : exists ts e, tokenize (S (length def)) (lexer_new def) = Some (ts, e).
Proof.
  destruct (tokenize_ok def (S (length def)) (lexer_new def) (lex_at_new def)) as (ts & e & H & _); [cbn; lia|]. eauto.
Qed.

(** One step of reading, by the output of the lexer. *)
Definition macro_output (o : lexer_output) (m : macro_body) : macro_body :=
  match o with
  | LexTok (t, _) => macro_token t m
  | LexCmd n sp => macro_command unreliable conventional n sp m
  end.
Lemma read_macro_tokenize f : forall l m ts e, tokenize f l = Some (ts, e) ->
  read_macro f unreliable conventional l m =
    match e with LexEoi _ => Ok (fold_left (fun m o => macro_output o m) ts m) | LexError x => Err x end.
Proof.
  induction f as [|f IH]; intros l m ts e H; [discriminate|]. cbn [tokenize read_macro] in *.
  destruct (next_token l) as [[[[t sp]|n sp]|x] l'].
  - destruct t; try (destruct (tokenize f l') as [[ts' e']|] eqn:E; [|discriminate]; injection H as <- <-;
      rewrite (IH l' _ ts' e' E); reflexivity). now injection H as <- <-.
  - destruct (tokenize f l') as [[ts' e']|] eqn:E; [|discriminate]. injection H as <- <-. now rewrite (IH l' _ ts' e' E).
  - now injection H as <- <-.
Qed.

Definition unknown_of (o : lexer_output) : list (str * span) :=
  match o with
  | LexCmd n sp => match resolve_builtin unreliable conventional n with None => [(n, sp)] | Some _ => [] end
  | _ => []
  end.
Lemma macro_output_eq o m : macro_output o m =
  mkMacro (mb_tokens m ++ [recorded_of o]) (Nat.max (mb_args m) (params_of [o]))
          (first_class (mb_class m) (class_of unreliable conventional o)) (mb_unresolved m ++ unknown_of o).
Proof.
  destruct m as [mt ma mc mu]. destruct o as [[t sp]|n sp]; cbn [macro_output].
  - destruct t; unfold macro_token; cbn [mb_tokens mb_args mb_class mb_unresolved recorded_of class_of unknown_of params_of map list_max fold_right];
      rewrite ?app_nil_r, ?Nat.max_0_r; try reflexivity.
    replace (first_class mc None) with mc by now destruct mc.
    f_equal. destruct (ma <=? n)%nat eqn:E; [apply Nat.leb_le in E|apply Nat.leb_gt in E]; lia.
  - unfold macro_command. cbn [params_of map list_max fold_right class_of unknown_of recorded_of mb_tokens mb_args mb_class mb_unresolved]. rewrite Nat.max_0_r.
    destruct (resolve_builtin unreliable conventional n); cbn; rewrite ?app_nil_r; [reflexivity|].
    now destruct mc.
Qed.
Lemma params_of_app a b : params_of (a ++ b) = Nat.max (params_of a) (params_of b).
Proof. unfold params_of. now rewrite map_app, list_max_app. Qed.
Lemma macro_fold ts : forall m, fold_left (fun m o => macro_output o m) ts m =
  mkMacro (mb_tokens m ++ map recorded_of ts) (Nat.max (mb_args m) (params_of ts))
          (first_class (mb_class m) (first_some (map (class_of unreliable conventional) ts)))
          (mb_unresolved m ++ flat_map unknown_of ts).
Proof.
  induction ts as [|o ts IH]; intros m; cbn [fold_left].
  - cbn. rewrite !app_nil_r, Nat.max_0_r. destruct m as [mt ma [c|] mu]; reflexivity.
  - rewrite IH, macro_output_eq. cbn [mb_tokens mb_args mb_class mb_unresolved map flat_map first_some].
    change (o :: ts) with ([o] ++ ts). rewrite params_of_app, <- !app_assoc, Nat.max_assoc. cbn [app]. f_equal.
    destruct (mb_class m); [reflexivity|]. cbn. now destruct (class_of unreliable conventional o).
Qed.

Lemma read_definition def :
  read_macro (S (length def)) unreliable conventional (lexer_new def) macro_empty =
    match snd (definition_tokens def) with
    | LexEoi _ =>
        match macro_means unreliable conventional def with
        | (args, cl, b) => Ok (mkMacro b args cl (flat_map unknown_of (fst (definition_tokens def))))
        end
    | LexError e => Err e
    end.
Proof.
  unfold macro_means, definition_tokens. destruct (tokenize_length def) as (ts & e & H). rewrite H. cbn [fst snd].
  rewrite (read_macro_tokenize _ _ _ _ _ H). destruct e; [|reflexivity]. now rewrite macro_fold.
Qed.

Lemma good_name_iff s : is_valid_macro_name s = true <-> good_name s.
Proof.
  unfold is_valid_macro_name, good_name. destruct s as [|a [|b r]].
  - split; [discriminate|]. intros [[c H]|[H _]]; [discriminate|congruence].
  - split; [eauto|auto].
  - rewrite forallb_forall, <- Forall_forall. split; intros H.
    + right. split; [discriminate|exact H].
    + destruct H as [[c H]|[_ H]]; [discriminate|exact H].
Qed.

(** The table of macros that have been read, with the first of equal names. *)
Definition add_macro (c : custom_cmds) (m : str * str) : custom_cmds :=
  match macro_means unreliable conventional (snd m) with
  | (args, cl, b) => match cmds_insert c (fst m) args b cl with Some c' => c' | None => c end
  end.
Definition unknowns (idx : nat) (m : str * str) : list (nat * str * span) :=
  map (fun p => (idx, fst p, snd p)) (flat_map unknown_of (fst (definition_tokens (snd m)))).
Fixpoint all_unknowns (idx : nat) (l : list (str * str)) : list (nat * str * span) :=
  match l with [] => [] | m :: r => unknowns idx m ++ all_unknowns (S idx) r end.

Inductive bad_macro (m : str * str) : latex_error -> Prop :=
| bad_name : ~ good_name (fst m) -> bad_macro m (mkErr (mkSpan 0 0) (E_InvalidMacroName (fst m)))
| bad_text e : good_name (fst m) -> snd (definition_tokens (snd m)) = LexError e -> bad_macro m e.

Lemma bad_not_readable m e : bad_macro m e -> ~ readable m.
Proof. intros [H|e' _ H] [H1 [sp H2]]; [contradiction|congruence]. Qed.
Lemma readable_or_bad m : readable m \/ exists e, bad_macro m e.
Proof.
  unfold readable, definition_lexes. destruct (is_valid_macro_name (fst m)) eqn:E.
  - apply good_name_iff in E. destruct (snd (definition_tokens (snd m))) as [sp|e] eqn:L; [left; eauto|].
    right. exists e. now apply bad_text.
  - right. eexists. apply bad_name. rewrite <- good_name_iff. congruence.
Qed.

Lemma read_macros_ok macros : forall idx c u, Forall readable macros ->
  read_macros unreliable conventional idx macros c u = NewOk (fold_left add_macro macros c, u ++ all_unknowns idx macros).
Proof.
  induction macros as [|[n def] macros IH]; intros idx c u H; cbn [read_macros fold_left all_unknowns].
  - now rewrite app_nil_r.
  - inversion H as [|? ? [H1 [sp H2]] H3]; subst. cbn [fst snd] in *. apply good_name_iff in H1. rewrite H1, read_definition, H2.
    destruct (macro_means unreliable conventional def) as [[args cl] b] eqn:M.
    cbn [mb_args mb_tokens mb_class mb_unresolved]. rewrite IH by assumption.
    rewrite <- app_assoc. f_equal. f_equal. f_equal. unfold add_macro. cbn [fst snd]. now rewrite M.
Qed.
Lemma read_macros_bad macros : forall i m e, nth_error macros i = Some m -> Forall readable (firstn i macros) -> bad_macro m e ->
  forall idx c u, read_macros unreliable conventional idx macros c u = NewErr (e, (idx + i)%nat, snd m).
Proof.
  induction macros as [|[n def] macros IH]; intros i m e Hi Hf Hb idx c u; [now destruct i|].
  destruct i as [|i]; cbn in Hi.
  - injection Hi as <-. cbn [read_macros]. destruct Hb as [H|e H1 H2]; cbn [fst snd] in *.
    + destruct (is_valid_macro_name n) eqn:E; [apply good_name_iff in E; contradiction|]. now rewrite Nat.add_0_r.
    + apply good_name_iff in H1. now rewrite H1, read_definition, H2, Nat.add_0_r.
  - cbn [firstn] in Hf. inversion Hf as [|? ? [H1 [sp H2]] H3]; subst. cbn [fst snd read_macros] in *.
    apply good_name_iff in H1. rewrite H1, read_definition, H2.
    destruct (macro_means unreliable conventional def) as [[args cl] b].
    rewrite (IH i m e Hi H3 Hb). f_equal. f_equal. f_equal. lia.
Qed.
Lemma first_bad macros : Forall readable macros \/
  exists i m e, nth_error macros i = Some m /\ Forall readable (firstn i macros) /\ bad_macro m e.
Proof.
  induction macros as [|m macros IH]; [left; constructor|].
  destruct (readable_or_bad m) as [H|[e H]]; [|right; exists O, m, e; repeat split; auto; constructor].
  destruct IH as [IH|(i & m' & e & H1 & H2 & H3)]; [left; now constructor|].
  right. exists (S i), m', e. repeat split; auto. cbn. now constructor.
Qed.

(** The names of the table. *)
Lemma assoc_none_iff {A} n (l : list (str * A)) : assoc_str n l = None <-> ~ In n (map fst l).
Proof.
  induction l as [|[k v] l IH]; cbn; [tauto|]. destruct (str_eqb n k) eqn:E.
  - apply str_eqb_eq in E. split; [discriminate|]. intros H. contradiction H. auto.
  - apply str_eqb_neq in E. rewrite IH. intuition congruence.
Qed.
Lemma cmds_has_iff c n : cmds_has c n = true <-> In n (map fst (cc_map c)).
Proof.
  unfold cmds_has. pose proof (assoc_none_iff n (cc_map c)) as H. destruct (assoc_str n (cc_map c)).
  - split; auto. intros _. destruct (in_dec str_dec n (map fst (cc_map c))) as [|N]; [assumption|]. apply H in N. discriminate.
  - split; [discriminate|]. intros I. exfalso. now apply H.
Qed.
Lemma add_macro_has c m n : cmds_has (add_macro c m) n = cmds_has c n || str_eqb n (fst m).
Proof.
  unfold add_macro. destruct (macro_means unreliable conventional (snd m)) as [[args cl] b]. unfold cmds_insert.
  destruct (cmds_has c (fst m)) eqn:E.
  - destruct (str_eqb n (fst m)) eqn:F; [|now rewrite orb_false_r]. apply str_eqb_eq in F. subst. now rewrite E.
  - unfold cmds_insert_or_replace, cmds_register, cmds_has. cbn. now destruct (str_eqb n (fst m)), (assoc_str n (cc_map c)).
Qed.
Lemma fold_has macros : forall c n, cmds_has (fold_left add_macro macros c) n = cmds_has c n || existsb (str_eqb n) (map fst macros).
Proof.
  induction macros as [|m macros IH]; intros c n; cbn [fold_left map existsb]; [now rewrite orb_false_r|]. rewrite IH, add_macro_has. now rewrite orb_assoc.
Qed.
Lemma table_has macros n : cmds_has (fold_left add_macro macros cmds_empty) n = true <-> In n (map fst macros).
Proof.
  rewrite fold_has. cbn. rewrite existsb_exists. split.
  - intros (x & H1 & H2). apply str_eqb_eq in H2. now subst.
  - intros H. exists n. split; [exact H|apply str_eqb_refl].
Qed.

(** Commands without any meaning. *)
Lemma unknown_in macros : forall k i n sp, In (i, n, sp) (all_unknowns k macros) <->
  exists j m, i = (k + j)%nat /\ nth_error macros j = Some m /\ In (n, sp) (commands_of (snd m)) /\
    resolve_builtin unreliable conventional n = None.
Proof.
  induction macros as [|m macros IH]; intros k i n sp; cbn [all_unknowns].
  - cbn. split; [tauto|]. intros (j & m & _ & H & _). now destruct j.
  - rewrite in_app_iff, IH. unfold unknowns, commands_of. rewrite in_map_iff. split.
    + intros [([n' sp'] & [= -> -> ->] & H)|(j & m' & -> & H1 & H2)].
      * exists O, m. rewrite Nat.add_0_r. repeat split; auto; apply in_flat_map in H as (o & H1 & H2); destruct o as [|n2 sp2]; cbn in H2; try contradiction;
          destruct (resolve_builtin unreliable conventional n2) eqn:E; try contradiction; destruct H2 as [[= -> ->]|[]]; auto.
        apply in_flat_map. eexists. split; [exact H1|]. now left.
      * exists (S j), m'. split; [lia|]. split; [exact H1|]. exact H2.
    + intros (j & m' & -> & H1 & H2 & H3). destruct j as [|j]; cbn in H1.
      * injection H1 as <-. left. exists (n, sp). rewrite Nat.add_0_r. split; [reflexivity|].
        apply in_flat_map in H2 as (o & H4 & H5). apply in_flat_map. exists o. split; [exact H4|].
        destruct o as [|n2 sp2]; [contradiction|]. destruct H5 as [[= -> ->]|[]]. cbn. rewrite H3. now left.
      * right. exists j, m'. split; [lia|]. auto.
Qed.
Lemma all_unknowns_sorted macros : forall k l1 i n sp l2, all_unknowns k macros = l1 ++ (i, n, sp) :: l2 ->
  forall i' n' sp', In (i', n', sp') (all_unknowns k macros) -> (i' < i)%nat -> In (i', n', sp') l1.
Proof.
  induction macros as [|m macros IH]; intros k l1 i n sp l2 H i' n' sp' Hin Hlt; cbn [all_unknowns] in *; [contradiction|].
  assert (B : forall x, In x (all_unknowns (S k) macros) -> (k < fst (fst x))%nat).
  { intros [[a b] c] Hx. apply unknown_in in Hx as (j & _ & -> & _). cbn. lia. }
  assert (U : forall x, In x (unknowns k m) -> fst (fst x) = k).
  { intros x Hx. unfold unknowns in Hx. apply in_map_iff in Hx as (p & <- & _). reflexivity. }
  revert l1 H. revert U Hin. generalize (unknowns k m). intros u U Hin l1 H.
  apply in_app_iff in Hin.
  destruct Hin as [Hin|Hin].
  - (* in the first macro: the found one is later *)
    pose proof (U _ Hin) as E. cbn in E. subst i'.
    revert l1 H Hin. induction u as [|x u IHu]; intros l1 H Hin; [contradiction|].
    destruct l1 as [|y l1]; cbn in H; injection H as -> H.
    + specialize (U (i, n, sp) (or_introl eq_refl)). cbn in U. lia.
    + destruct Hin as [->|Hin]; [now left|]. right. apply IHu; auto. intros x Hx. apply U. now right.
  - revert l1 H. induction u as [|x u IHu]; intros l1 H.
    + apply (IH (S k) l1 i n sp l2 H); auto.
    + destruct l1 as [|y l1]; cbn in H; injection H as -> H.
      * specialize (U (i, n, sp) (or_introl eq_refl)). cbn in U. specialize (B _ Hin). cbn in B. lia.
      * right. apply IHu; auto. intros z Hz. apply U. now right.
Qed.

(** Meanings. *)
Lemma slice_append {A} (l b : list A) s e x : slice_get l s e = Some x -> slice_get (l ++ b) s e = Some x.
Proof.
  unfold slice_get. destruct ((s <=? e) && (e <=? length l))%nat eqn:E; [|discriminate]. intros [= <-].
  apply andb_prop in E as [E1 E2]. apply Nat.leb_le in E1, E2.
  rewrite (proj2 (Nat.leb_le s e)) by lia. rewrite app_length, (proj2 (Nat.leb_le e _)) by lia. cbn [andb]. f_equal.
  rewrite skipn_app. rewrite firstn_app. rewrite skipn_length.
  replace (e - s - (length l - s))%nat with O by lia. cbn. now rewrite app_nil_r.
Qed.
Lemma slice_new {A} (l b : list A) : slice_get (l ++ b) (length l) (length (l ++ b)) = Some b.
Proof.
  unfold slice_get. rewrite app_length, (proj2 (Nat.leb_le _ _)) by lia. rewrite (proj2 (Nat.leb_le _ _)) by lia. cbn [andb].
  rewrite skipn_app, Nat.sub_diag, skipn_all2 by lia. cbn. f_equal. apply firstn_all2. lia.
Qed.
Lemma insert_meaning c name args b cl n :
  (meaning c n <> None \/ cmds_has c n = false) ->
  meaning (cmds_insert_or_replace c name args b cl) n = if str_eqb n name then Some (args, cl, b) else meaning c n.
Proof.
  unfold meaning, cmds_insert_or_replace, cmds_register, cmds_body, cmds_has. cbn [cc_map cc_tokens assoc_str]. intros H.
  destruct (str_eqb n name) eqn:E.
  - cbn [cd_args cd_class cd_start cd_end]. now rewrite slice_new.
  - destruct (assoc_str n (cc_map c)) as [d|]; [|reflexivity].
    destruct (slice_get (cc_tokens c) (cd_start d) (cd_end d)) as [x|] eqn:F; [now rewrite (slice_append _ _ _ _ _ F)|].
    destruct H as [H|H]; [now contradiction H|discriminate].
Qed.
Definition sound_table (c : custom_cmds) : Prop := forall n, cmds_has c n = true -> meaning c n <> None.
Lemma insert_sound c name args b cl : sound_table c -> sound_table (cmds_insert_or_replace c name args b cl).
Proof.
  intros H n Hn. rewrite insert_meaning.
  - destruct (str_eqb n name) eqn:E; [discriminate|]. apply H. unfold cmds_has in *. cbn in Hn. now rewrite E in Hn.
  - destruct (cmds_has c n) eqn:E; [left; now apply H|now right].
Qed.
Lemma add_macro_meaning c m n : sound_table c ->
  sound_table (add_macro c m) /\
  meaning (add_macro c m) n =
    if negb (cmds_has c n) && str_eqb n (fst m) then Some (macro_means unreliable conventional (snd m)) else meaning c n.
Proof.
  intros H. unfold add_macro. destruct (macro_means unreliable conventional (snd m)) as [[args cl] b]. unfold cmds_insert.
  destruct (cmds_has c (fst m)) eqn:E.
  - split; [exact H|]. destruct (str_eqb n (fst m)) eqn:F; [|now rewrite andb_false_r]. apply str_eqb_eq in F. subst. now rewrite E.
  - split; [now apply insert_sound|]. rewrite insert_meaning.
    + destruct (str_eqb n (fst m)) eqn:F; [|now rewrite andb_false_r]. apply str_eqb_eq in F. subst. now rewrite E.
    + destruct (cmds_has c n) eqn:F; [left; now apply H|now right].
Qed.
Lemma fold_meaning macros : forall c n, sound_table c ->
  sound_table (fold_left add_macro macros c) /\
  meaning (fold_left add_macro macros c) n =
    if cmds_has c n then meaning c n else option_map (macro_means unreliable conventional) (assoc_str n macros).
Proof.
  induction macros as [|m macros IH]; intros c n H; cbn [fold_left].
  - split; [exact H|]. destruct (cmds_has c n) eqn:E; [reflexivity|]. cbn. unfold meaning. unfold cmds_has in E.
    now destruct (assoc_str n (cc_map c)).
  - destruct (add_macro_meaning c m n H) as [H1 H2]. destruct (IH (add_macro c m) n H1) as [H3 H4]. split; [exact H3|].
    rewrite H4, H2, add_macro_has. destruct m as [k v]. cbn [fst snd assoc_str].
    destruct (cmds_has c n), (str_eqb n k); reflexivity.
Qed.
Lemma table_meaning macros n :
  meaning (fold_left add_macro macros cmds_empty) n = option_map (macro_means unreliable conventional) (assoc_str n macros).
Proof. destruct (fold_meaning macros cmds_empty n) as [_ H]; [now intros k Hk|]. exact H. Qed.

(** The result of creating a converter. *)
Lemma find_split {A} (f : A -> bool) l : match find f l with
  | Some x => exists l1 l2, l = l1 ++ x :: l2 /\ f x = true /\ forall y, In y l1 -> f y = false
  | None => forall y, In y l -> f y = false
  end.
Proof.
  induction l as [|a l IH]; cbn; [contradiction|]. destruct (f a) eqn:E.
  - exists [], l. repeat split; auto. contradiction.
  - destruct (find f l) as [x|].
    + destruct IH as (l1 & l2 & -> & H1 & H2). exists (a :: l1), l2. repeat split; auto. intros y [<-|Hy]; auto.
    + intros y [<-|Hy]; auto.
Qed.

Inductive new_outcome (macros : list (str * str)) : new_result custom_cmds -> Prop :=
| no_ok : Forall (macro_fine unreliable conventional macros) macros ->
    new_outcome macros (NewOk (fold_left add_macro macros cmds_empty))
| no_bad i m e : nth_error macros i = Some m -> Forall readable (firstn i macros) -> bad_macro m e ->
    new_outcome macros (NewErr (e, i, snd m))
| no_unknown i m n sp : Forall readable macros -> nth_error macros i = Some m ->
    Forall (macro_fine unreliable conventional macros) (firstn i macros) ->
    In (n, sp) (commands_of (snd m)) -> ~ known_command unreliable conventional macros n ->
    new_outcome macros (NewErr (mkErr sp (E_UnknownCommand n), i, snd m)).

Lemma new_outcome_holds macros : new_outcome macros (parse_custom_commands macros conventional unreliable).
Proof.
  unfold parse_custom_commands. destruct (first_bad macros) as [H|(i & m & e & H1 & H2 & H3)].
  2: { rewrite (read_macros_bad macros i m e H1 H2 H3). cbn. now apply no_bad. }
  rewrite read_macros_ok by assumption. cbn [app].
  set (t := fold_left add_macro macros cmds_empty).
  pose proof (find_split (fun u => negb (cmds_has t (snd (fst u)))) (all_unknowns 0 macros)) as F.
  assert (K : forall i n sp, In (i, n, sp) (all_unknowns 0 macros) -> cmds_has t n = false -> ~ known_command unreliable conventional macros n).
  { intros i n sp Hu Ht [Kb|Kb].
    - apply unknown_in in Hu as (j & m & _ & _ & _ & Hr). contradiction.
    - apply table_has in Kb. fold t in Kb. congruence. }
  destruct (find _ _) as [[[i n] sp]|].
  - destruct F as (l1 & l2 & E & Fn & F1). cbn [fst snd] in Fn. apply negb_true_iff in Fn.
    assert (Hin : In (i, n, sp) (all_unknowns 0 macros)) by (rewrite E; apply in_app_iff; right; now left).
    pose proof (K _ _ _ Hin Fn) as Hk. pose proof Hin as Hu. apply unknown_in in Hu as (j & m & -> & Hj & Hc & Hr).
    cbn [plus] in *. assert (nth j (map snd macros) [] = snd m) as ->.
    { apply nth_error_nth. now rewrite nth_error_map, Hj. }
    apply (no_unknown macros j m n sp); auto.
    apply Forall_forall. intros m' Hm'. apply In_nth_error in Hm' as [j' Hj'].
    assert (Hlt : (j' < length (firstn j macros))%nat) by (apply nth_error_Some; congruence).
    rewrite firstn_length in Hlt.
    assert (Hj2 : nth_error macros j' = Some m').
    { rewrite <- (firstn_skipn j macros). rewrite nth_error_app1 by (rewrite firstn_length; lia). exact Hj'. }
    split; [rewrite Forall_forall in H; apply H; now apply nth_error_In in Hj2|].
    intros n' sp' Hc'. destruct (resolve_builtin unreliable conventional n') eqn:Er; [left; congruence|]. right.
    assert (In (j', n', sp') l1).
    { eapply (all_unknowns_sorted macros 0 l1 j n sp l2 E); [|lia]. apply unknown_in. exists j', m'. auto. }
    apply F1 in H0. cbn in H0. apply negb_false_iff in H0. now apply table_has in H0.
  - apply no_ok. apply Forall_forall. intros m Hm. split; [rewrite Forall_forall in H; now apply H|].
    intros n sp Hc. destruct (resolve_builtin unreliable conventional n) eqn:Er; [left; congruence|]. right.
    apply In_nth_error in Hm as [j Hj].
    assert (Hi : In (j, n, sp) (all_unknowns 0 macros)) by (apply unknown_in; exists j, m; auto).
    apply F in Hi. cbn in Hi. apply negb_false_iff in Hi. now apply table_has in Hi.
Qed.
End Macros.
