(** The tags in the trees of several formulas. *)
From Verif Require Import Str M_SuperChar M_Transform M_Length M_Spec M_Ast M_Token M_Symbols M_Commands M_Env M_Emit M_Output
  M_LatexError M_Lexer M_CustomCmds M_Queue M_Spacing M_Leaf M_TextParser M_Parser
  S_Node S_Emit S_Env S_Queue S_Scripts S_Formula S_Valid S_Tidy S_Tagged S_Shown L_TaggedEnv L_Env P_Env.
Local Open Scope nat_scope.

Lemma snippet_numbers cfg umax gs st l ns gs' : formula_tidy (name_meaning cfg gs) l = true -> all_on_top l = true -> snippet_meaning cfg umax gs st l = Some (ns, gs') ->
  exists infos, run_envs umax (gs_count gs) (gs_labels gs) (environments (name_meaning cfg gs) l) = Some (infos, gs_count gs', gs_labels gs') /\
    flat_map shown ns = flat_map one_tag (concat infos) /\ gs_cmds gs' = gs_cmds gs.
Proof.
  intros T P H. unfold snippet_meaning in H. destruct ((_ || _) && _); [|discriminate H]. destruct (den _ _ _ _ _) as [[ns0 d]|] eqn:E; [|discriminate H]. injection H as <- <-.
  apply andb_prop in T as [_ T]. destruct (top_fol (name_meaning cfg gs) umax l (snippet_ctx st) _ _ _ _ (snippet_nu gs) _ _ eq_refl T P eq_refl E) as (infos & H1 & _ & H2).
  exists infos. split; [exact H1|]. now split.
Qed.
Lemma run_envs_app umax a : forall c ls b, run_envs umax c ls (a ++ b) =
  match run_envs umax c ls a with
  | Some (i1, c1, ls1) => match run_envs umax c1 ls1 b with Some (i2, c2, ls2) => Some (i1 ++ i2, c2, ls2) | None => None end
  | None => None
  end.
Proof.
  induction a as [|[e rows] a IH]; intros c ls b; cbn [app run_envs]. { destruct (run_envs umax c ls b) as [[[] ?]|]; reflexivity. }
  destruct (run_env umax e c ls rows) as [[[[i n] c1] ls1]|]; [|reflexivity]. rewrite IH. destruct (run_envs umax c1 ls1 a) as [[[i1 c2] ls2]|]; [|reflexivity].
  destruct (run_envs umax c2 ls2 b) as [[[i2 c3] ls3]|]; reflexivity.
Qed.
Lemma session_numbers cfg umax : forall l gs nss gs', forallb (fun s => formula_tidy (name_meaning cfg gs) (fst s) && all_on_top (fst s)) l = true -> session_meaning cfg umax gs l = Some (nss, gs') ->
  exists infos, run_envs umax (gs_count gs) (gs_labels gs) (session_environments (name_meaning cfg gs) l) = Some (infos, gs_count gs', gs_labels gs') /\
    flat_map shown (concat nss) = flat_map one_tag (concat infos).
Proof.
  induction l as [|[f st] l IH]; intros gs nss gs' T H; cbn [session_meaning] in H.
  { injection H as <- <-. now exists []. }
  cbn [forallb fst] in T. apply andb_prop in T as [T T2]. apply andb_prop in T as [T1 P1]. destruct (snippet_meaning cfg umax gs st f) as [[ns gs1]|] eqn:E; [|discriminate H].
  destruct (session_meaning cfg umax gs1 l) as [[rs gs2]|] eqn:E2; [|discriminate H]. injection H as <- <-.
  destruct (snippet_numbers _ _ _ _ _ _ _ T1 P1 E) as (i1 & A1 & A2 & A3).
  assert (N : name_meaning cfg gs1 = name_meaning cfg gs) by (unfold name_meaning; now rewrite A3).
  destruct (IH gs1 rs gs2) as (i2 & B1 & B2); [now rewrite N|exact E2|]. rewrite N in B1.
  exists (i1 ++ i2). unfold session_environments. cbn [flat_map fst]. fold (session_environments (name_meaning cfg gs) l). rewrite run_envs_app, A1, B1. split; [reflexivity|].
  cbn [concat]. now rewrite concat_app, !flat_map_app, A2, B2.
Qed.
Lemma newest_shown name infos : newest_tag name (map Some (flat_map one_tag infos)) = newest_tag name infos.
Proof.
  induction infos as [|[i|] infos IH]; [reflexivity| |]; cbn [flat_map one_tag app map newest_tag]; rewrite IH; [reflexivity|]. now destruct (newest_tag name infos).
Qed.
Lemma intended_numbers umax l : forall c ls infos c' ls', run_envs umax c ls l = Some (infos, c', ls') -> Forall (fun p => is_multline (fst p) = false /\ Forall unmixed (all_rows (snd p))) l ->
  (concat infos, c') = intended_envs c l.
Proof.
  induction l as [|[e rows] l IH]; intros c ls infos c' ls' H F; cbn [run_envs] in H. { now injection H as <- <- <-. }
  inversion F as [|? ? [F1 F2] F3]; subst. cbn [fst snd] in F1, F2. destruct (run_env umax e c ls rows) as [[[[i n] c1] ls1]|] eqn:E; [|discriminate H]. destruct (run_envs umax c1 ls1 l) as [[[i2 c2] ls2]|] eqn:E2; [|discriminate H].
  injection H as <- <- <-. cbn [intended_envs]. rewrite <- (C12_each_row_partial _ _ _ _ _ _ _ _ _ E F1 F2), <- (IH _ _ _ _ _ E2 F3). reflexivity.
Qed.
Lemma automatic_untagged rows : forall infos, Forall (fun r => row_tag r = None) rows -> length infos = length rows -> automatic rows infos = tag_texts (flat_map one_tag infos).
Proof.
  induction rows as [|r rows IH]; intros [|i infos] F L; try discriminate L; [reflexivity|]. injection L as L. inversion F as [|? ? F1 F2]; subst. cbn [automatic flat_map].
  destruct i as [i|]; cbn [one_tag app]; [rewrite F1|]; rewrite (IH _ F2 L); reflexivity.
Qed.
Lemma row_tag_app a b : row_tag a = None -> row_tag b = None -> row_tag (a ++ b) = None.
Proof. intros A B. induction a as [|[|t|x] a IH]; cbn [app row_tag] in *; auto. destruct (row_tag a); discriminate A. Qed.
Lemma row_tag_concat l : Forall (fun r => row_tag r = None) l -> row_tag (concat l) = None.
Proof. induction 1; [reflexivity|]. cbn [concat]. now apply row_tag_app. Qed.
Lemma run_env_length umax e c ls rows infos n c' ls' : run_env umax e c ls rows = Some (infos, n, c', ls') -> length infos = length (all_rows rows).
Proof.
  unfold run_env, all_rows. destruct (numbered_env_state e) as [ne|]; [|discriminate]. destruct rows as [r rest]. cbn [fst snd length]. revert ne c ls r infos n c' ls'.
  induction rest as [|r2 rest IH]; intros ne c ls r infos n c' ls' H; cbn [run_rows] in H; destruct (run_cmds ne r) as [ne1|]; try discriminate H.
  - destruct (finish_row _ _ _ _ _) as [[[[]]]|]; [|discriminate H]. now injection H as <- _ _ _.
  - destruct (bump_rows ne1) as [ne2|]; [|discriminate H]. destruct (finish_row _ _ _ _ _) as [[[[i ne3] c3] ls3]|]; [|discriminate H]. destruct (run_rows _ _ _ _ _ _) as [[[[is' n1] c4] ls4]|] eqn:E; [|discriminate H].
    injection H as <- _ _ _. cbn [length]. now rewrite (IH _ _ _ _ _ _ _ _ E).
Qed.
Lemma automatic_env_untagged umax e c ls rows infos n c' ls' : run_env umax e c ls rows = Some (infos, n, c', ls') -> Forall (fun r => row_tag r = None) (all_rows rows) ->
  automatic (lines e rows) (offered e infos) = tag_texts (flat_map one_tag infos).
Proof.
  intros H F. unfold lines, offered. destruct (is_multline e) eqn:E; [|exact (automatic_untagged _ _ F (run_env_length _ _ _ _ _ _ _ _ _ H))].
  destruct e; try discriminate E. apply C14_multline in H as (j & -> & _ & _). rewrite automatic_untagged; [|constructor; [now apply row_tag_concat|constructor]|reflexivity].
  rewrite last_last. cbn [flat_map]. rewrite flat_map_app. cbn [flat_map]. assert (Z : flat_map one_tag (repeat (@None row_label_info) (length (snd rows))) = []) by (induction (length _) as [|k IH]; [reflexivity|exact IH]). now rewrite Z.
Qed.
Lemma automatic_envs_untagged umax l : forall c ls infos c' ls', run_envs umax c ls l = Some (infos, c', ls') -> no_tags l -> automatic_envs l infos = tag_texts (flat_map one_tag (concat infos)).
Proof.
  induction l as [|[e rows] l IH]; intros c ls infos c' ls' H F; cbn [run_envs] in H. { now injection H as <- _ _. }
  inversion F as [|? ? F1 F2]; subst. destruct (run_env umax e c ls rows) as [[[[i n] c1] ls1]|] eqn:E; [|discriminate H]. destruct (run_envs umax c1 ls1 l) as [[[i2 c2] ls2]|] eqn:E2; [|discriminate H]. injection H as <- _ _.
  cbn [automatic_envs concat]. rewrite (automatic_env_untagged _ _ _ _ _ _ _ _ _ E F1), (IH _ _ _ _ _ E2 F2), flat_map_app. unfold tag_texts. now rewrite map_app.
Qed.
Lemma numbers_length c n : length (numbers_from c n) = n.
Proof. revert c. induction n as [|n IH]; intros c; [reflexivity|]. cbn [numbers_from length]. now rewrite IH. Qed.
Lemma shown_numbers umax l c ls infos c' ls' : run_envs umax c ls l = Some (infos, c', ls') -> no_tags l -> forall t, t = flat_map one_tag (concat infos) ->
  tag_texts t = numbers_from c (length (tag_texts t)) /\ c' = (c + N.of_nat (length (tag_texts t)))%N.
Proof.
  intros H F t ->. rewrite <- (automatic_envs_untagged _ _ _ _ _ _ _ H F). destruct (C12_consecutive _ _ _ _ _ _ _ H) as (_ & n & A & B & _). rewrite A, numbers_length. now split.
Qed.
