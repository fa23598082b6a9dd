(** The commands that define commands, from a sound queue. *)
From Verif Require Import Str M_SuperChar M_Transform M_Length M_Spec M_Ast M_Token M_Symbols M_Commands M_Env
  M_LatexError M_Lexer M_CustomCmds M_Queue M_Spacing M_Colors M_Leaf M_TextParser
  S_SuperChar S_Transform S_Lexer S_Queue S_Store L_SuperChar L_Transform L_Lexer L_Queue L_Args L_Store L_Sound L_Define L_Keep L_Reads L_Leaf L_Text.
Local Open Scope nat_scope.

Section Q.
Context (cfg : parser_cfg).
Notation q_view := (q_view cfg).
Notation sound := (sound_queue cfg).
Notation refs := (q_refs cfg).
Notation reads := (reads cfg).

(** ** Bodies *)

Definition body_ok P (t : qtok) : Prop := qtok_ok P t /\ not_eoi t = true.
Lemma macro_loop_sp fuel : forall n acc q, sound q -> length (fst (q_view q)) < fuel -> Forall (body_ok (refs q)) acc ->
  sp (record_macro_loop cfg fuel n acc) (fun l q' => reads q q' /\ Forall (body_ok (refs q)) l) no_err q.
Proof.
  induction fuel as [|f IH]; intros n acc q Sq L F; [lia|]. 
  assert (More : forall m, means_eoi (qt_tok (q_peek_any q)) = false ->
     match (match q_next_any_unres cfg q with
        | (Ok _, q') => record_macro_loop cfg f m (acc ++ [q_peek_any q]) q'
        | (Err e, q') => (Err e, q')
        | (Crash c, q') => (Crash c, q')
        end) with (Ok a, s') => reads q s' /\ Forall (body_ok (refs q)) a | (Err _, _) => True | (Crash _, _) => False end).
  { intros m N. pose proof (next_any_unres_sp cfg q (fun t q' => reads q q' /\ took_any cfg q (q_peek_any q) q') no_err Sq (fun _ => I) (fun q' a b => conj a b)) as K.
    unfold sp in K. destruct (q_next_any_unres cfg q) as [[t|e|c] q']; [|exact I|exact K]. destruct K as [R T].
    pose proof (took_any_shorter _ _ _ _ T N) as Sh. unfold shorter in Sh.
    pose proof (IH m (acc ++ [q_peek_any q]) q' (reads_sound _ _ _ R) ltac:(lia)) as K. rewrite (reads_refs _ _ _ R) in K. unfold sp in K.
    assert (F' : Forall (body_ok (refs q)) (acc ++ [q_peek_any q])).
    { apply Forall_app. split; [exact F|]. constructor; [|constructor]. split; [exact (peek_any_ok cfg q Sq)|]. unfold not_eoi. now rewrite N. }
    specialize (K F'). destruct (record_macro_loop cfg f m _ q') as [[a|e|c] q2]; auto. destruct K as [R2 K]. split; [exact (reads_trans _ _ _ _ R R2)|exact K]. }
  rewrite (peek_any_eoi cfg q Sq) in More. unfold sp. cbn [record_macro_loop]. destruct (qt_tok (q_peek_any q)); try (now apply More); try exact I.
  destruct n; [|now apply More]. split; [now apply reads_refl|exact F].
Qed.
Lemma macro_body_sp q : sound q ->
  sp (record_macro_body cfg) (fun l q' => reads q q' /\ Forall (body_ok (refs q)) l) no_err q.
Proof.
  intros Sq. unfold sp, record_macro_body.
  pose proof (next_sp cfg q (fun t q' => reads q q') no_err Sq (fun _ => I) (fun q' a b _ => a)) as K. unfold sp in K.
  destruct (q_next cfg q) as [[t|e|c] q']; [|exact I|exact K].
  pose proof (macro_loop_sp (S (q_size q')) 0 [] q' (reads_sound _ _ _ K) ltac:(pose proof (view_size cfg q'); lia) (Forall_nil _)) as L. unfold sp in L.
  rewrite (reads_refs _ _ _ K) in L. destruct (record_macro_loop cfg _ _ _ q') as [[a|e|c] q2]; auto. destruct L as [R2 L]. split; [exact (reads_trans _ _ _ _ K R2)|exact L].
Qed.
Lemma definition_body_sp q : sound q ->
  sp (read_definition_body cfg) (fun l q' => reads q q' /\ Forall (body_ok (refs q)) l) no_err q.
Proof.
  intros Sq. unfold read_definition_body. apply sp_bind, sp_get. destruct (is_group_begin _).
  - apply (sp_then _ _ _ _ _ _ (macro_body_sp q Sq)). intros l q1 [R1 F]. apply sp_bind. apply next_sp; [apply R1|auto|].
    intros q2 R2 _ _. apply sp_ret. split; [exact (reads_trans _ _ _ _ R1 R2)|exact F].
  - apply sp_bind. apply next_sp; [exact Sq|auto|]. intros q' R T _. destruct (is_eoi _) eqn:E; [now apply sp_fail|]. apply sp_ret. split; [exact R|].
    constructor; [|constructor]. split; [apply qtok_unwrap_ok, (peek_ok cfg q Sq)|]. unfold not_eoi. now rewrite (unwrap_eoi cfg q Sq), E.
Qed.

(** What is recorded of them. *)
Lemma recorded_form_ok P n t : body_ok P t -> (forall i, qt_tok t <> T_CustomCmdArgInput i) ->
  rec_ok P (recorded_form t) /\ match recorded_form t with RTok (T_CustomCmdArg i) => i < n | _ => True end.
Proof.
  intros [[T N] E] H. unfold recorded_form, not_eoi in *. apply negb_true_iff in E.
  destruct (qt_tok t) eqn:Et; try (now (split; [exact (text_valid _ _ T)|exact I]));
  (destruct (qt_name t) as [nm|]; [split; [apply N|exact I]|]); try (discriminate T); (split; [|exact I]); exact (conj T E).
Qed.
Lemma map_recorded_ok P n l : Forall (body_ok P) l -> forall first,
  match map_recorded n first l with Ok (xs, _) => Forall (rec_ok P) xs /\ params_below n xs | Err _ => True | Crash _ => False end.
Proof.
  induction 1 as [|t l H F IH]; intros first; cbn [map_recorded]; [split; constructor|].
  assert (C : forall x f', rec_ok P x -> match x with RTok (T_CustomCmdArg i) => i < n | _ => True end ->
    match (match map_recorded n f' l with Ok (xs, c) => Ok (x :: xs, c) | e => e end) with Ok (xs, _) => Forall (rec_ok P) xs /\ params_below n xs | Err _ => True | Crash _ => False end).
  { intros x f' X1 X2. specialize (IH f'). destruct (map_recorded n f' l) as [[xs c]|e|c]; auto. destruct IH as [I1 I2]. split; now constructor. }
  pose proof (recorded_form_ok P n t H) as R.
  destruct (qt_tok t) eqn:Et; try exact I; try (destruct R as [R1 R2]; [discriminate|]; now apply C).
  destruct (n <=? _) eqn:L; [exact I|]. apply Nat.leb_gt in L. now apply C.
Qed.

(** ** Names and numbers *)

Lemma definition_name_sp q : sound q -> sp (read_definition_name cfg) (fun n q' => reads q q' /\ scalars n) no_err q.
Proof.
  intros Sq. unfold sp, read_definition_name.
  pose proof (next_unres_sp cfg q (fun t q' => reads q q' /\ qtok_ok (refs q) t) no_err Sq (fun _ => I)
    (fun q' a b => conj a (qtok_unwrap_ok _ _ (peek_ok cfg q Sq)))) as K. unfold sp in K.
  destruct (q_next_unres cfg q) as [[t|e|c] q']; [|exact I|exact K]. destruct K as (R & T & N).
  destruct (qt_tok t) eqn:Et; try (destruct (qt_name t); [split; [exact R|apply N]|exact I]).
  split; [exact R|]. exact (text_valid _ _ T).
Qed.
Lemma num_args_sp q : sound q -> sp (read_num_args cfg) (fun n q' => reads q q' /\ n <= 9) no_err q.
Proof.
  intros Sq. unfold read_num_args. apply sp_bind, sp_get. destruct (is_sq_open _); [|apply sp_ret; split; [now apply reads_refl|lia]].
  apply sp_bind. apply next_sp; [exact Sq|auto|]. intros q1 R1 _ _. apply sp_bind. apply next_sp; [apply R1|auto|]. intros q2 R2 _ _.
  destruct (qt_tok _); try (now apply sp_fail). apply sp_bind. apply next_sp; [apply R2|auto|]. intros q3 R3 _ _.
  destruct (qt_tok _); try (now apply sp_fail). apply sp_ret. split; [exact (reads_trans _ _ _ _ (reads_trans _ _ _ _ R1 R2) R3)|].
  destruct (is_ascii_digit c) eqn:D; [|lia]. unfold is_ascii_digit in D. apply andb_prop in D as [D1 D2]. apply N.leb_le in D1, D2. lia.
Qed.
Lemma skip_spaces_sp fuel : forall q, sound q -> length (fst (q_view q)) < fuel -> sp (skip_spaces cfg fuel) (fun _ q' => reads q q') no_err q.
Proof.
  induction fuel as [|f IH]; intros q Sq L; [lia|]. cbn [skip_spaces]. apply sp_bind, sp_get. destruct (is_ws _) eqn:W; [|apply sp_ret; now apply reads_refl].
  apply sp_bind. apply next_any_sp; [exact Sq|auto|]. intros q' R T _.
  assert (N : means_eoi (qt_tok (q_peek_any q)) = false) by (destruct (qt_tok (q_peek_any q)); try discriminate; reflexivity).
  pose proof (took_any_shorter _ _ _ _ T N) as Sh. unfold shorter in Sh.
  eapply sp_mono; [apply (IH q')|..]; auto; [apply R|lia|]. cbn beta. intros r q2 R2. exact (reads_trans _ _ _ _ R R2).
Qed.
Lemma param_loop_sp fuel : forall n q, sound q -> n <= 9 -> length (fst (q_view q)) < fuel -> sp (param_loop cfg fuel n) (fun m q' => reads q q' /\ m <= 9) no_err q.
Proof.
  induction fuel as [|f IH]; intros n q Sq Hn L; [lia|]. cbn [param_loop]. apply sp_bind, sp_get. pose proof (peek_any_tok_ok cfg q Sq) as Tk.
  destruct (qt_tok (q_peek_any q)) eqn:Et; try (now apply sp_fail).
  - apply sp_ret. split; [now apply reads_refl|exact Hn].
  - match goal with |- context [Nat.eqb ?x n] => destruct (Nat.eqb x n) eqn:E end; [|now apply sp_fail]. apply Nat.eqb_eq in E. subst.
    apply sp_bind. apply next_any_sp; [exact Sq|auto|]. intros q' R T _.
    assert (N : means_eoi (qt_tok (q_peek_any q)) = false) by (now rewrite Et).
    pose proof (took_any_shorter _ _ _ _ T N) as Sh. unfold shorter in Sh.
    cbn [tok_ok tok_okb] in Tk. apply andb_prop in Tk as [_ Tk]. apply Nat.ltb_lt in Tk.
    eapply sp_mono; [apply (IH _ q')|..]; auto; [apply R|lia|]. cbn beta. intros r q2 [R2 H]. split; [exact (reads_trans _ _ _ _ R R2)|exact H].
Qed.

(** ** Definitions *)

(** What a command that defines something can do: read, and then possibly make one definition. *)
Definition makes (d : defn) (q q' : queue) : Prop :=
  defn_ok cfg q d /\ q_define cfg (df_name d) (df_args d) (df_body d) (df_class d) (df_replace d) (df_global d) q = (Ok true, q').
Definition defines (q q' : queue) : Prop := reads q q' \/ exists d q1, reads q q1 /\ makes d q1 q'.
Lemma reads_defines q q1 q' : reads q q1 -> defines q1 q' -> defines q q'.
Proof.
  intros R [R2|(d & q2 & R2 & M)]; [left; exact (reads_trans _ _ _ _ R R2)|right]. exists d, q2. split; [exact (reads_trans _ _ _ _ R R2)|exact M].
Qed.
Lemma reads_same q0 q q' : same_stores q0 q -> reads q q' -> same_stores q0 q'.
Proof. intros [A B] (_ & [C D] & _). split; congruence. Qed.
Lemma sp_with {A} (m : St queue A) (Q : A -> queue -> Prop) q0 q : keeps same_stores m -> same_stores q0 q -> sp m Q no_err q ->
  sp m Q (same_stores q0) q.
Proof. apply sp_keep. Qed.

Lemma q_define_sp q0 q1 d (k : bool -> St queue unit) : reads q0 q1 -> defn_ok cfg q1 d -> (forall q', sp (k true) (fun _ q2 => q2 = q') (same_stores q0) q') ->
  sp (k false) (fun _ q2 => reads q0 q2) (same_stores q0) q1 ->
  sp (let* ok := q_define cfg (df_name d) (df_args d) (df_body d) (df_class d) (df_replace d) (df_global d) in k ok) (fun _ q' => defines q0 q') (same_stores q0) q1.
Proof.
  intros R D Kt Kf. pose proof D as (D1 & D2 & D3).
  destruct (define_sound cfg q1 (df_name d) (df_args d) (df_body d) (df_class d) (df_replace d) (df_global d) (reads_sound _ _ _ R) D1 D2 D3) as (b & q' & E & _).
  unfold sp at 1, sbind. rewrite E. destruct b.
  - specialize (Kt q'). unfold sp in Kt. destruct (k true q') as [[a|e|c] q2]; auto. subst q2. right. exists d, q1. split; [exact R|]. split; [exact D|exact E].
  - assert (q' = q1) as ->.
    { revert E. unfold q_define. match goal with |- match ?x with _ => _ end = _ -> _ => destruct x as [[[l g]|]|e|c] end; congruence. }
    unfold sp in Kf. destruct (k false q1) as [[a|e|c] q2]; auto. now left.
Qed.
Lemma next_keep q0 q (Q : qtok -> queue -> Prop) : same_stores q0 q -> sound q ->
  (forall q', reads q q' -> took cfg q (q_peek q) q' -> reject_unknown cfg (qt_unwrap (q_peek q)) = None -> Q (qt_unwrap (q_peek q)) q') ->
  sp (q_next cfg) Q (same_stores q0) q.
Proof. intros S Sq H. apply sp_keep; [apply next_same|exact S|]. now apply next_sp. Qed.

Lemma define_command_sp m q0 q : reads q0 q -> sp (define_command cfg m) (fun _ q' => defines q0 q') (same_stores q0) q.
Proof.
  intros R0. pose proof (reads_sound _ _ _ R0) as Sq. assert (S0 := reads_same q0 q0 q (same_refl q0) R0). unfold define_command. apply sp_bind, sp_get.
  set (braced := is_group_begin (qt_tok (q_peek q))).
  apply sp_then with (R := fun _ q' => reads q0 q').
  { destruct braced; [|now apply sp_ret]. apply sp_bind. apply next_keep; auto. intros q' R _ _. apply sp_ret. exact (reads_trans _ _ _ _ R0 R). }
  intros _ q1 R1. assert (S1 := reads_same q0 q0 q1 (same_refl q0) R1).
  apply sp_then with (R := fun t q' => reads q0 q' /\ qtok_ok (refs q0) t).
  { apply sp_keep; [apply next_unres_same|exact S1|]. apply next_unres_sp; [apply R1|auto|]. intros q' R T. split; [exact (reads_trans _ _ _ _ R1 R)|].
    rewrite <- (reads_refs _ _ _ R1). apply qtok_unwrap_ok, (peek_ok cfg q1), R1. }
  intros name q2 [R2 Tn]. assert (S2 := reads_same q0 q0 q2 (same_refl q0) R2).
  apply sp_bind, sp_res; [|intros; exact S2|].
  2: { intros c. unfold definition_target. destruct (qt_tok name), m; try discriminate; destruct (qt_name name); discriminate. }
  intros target _.
  apply sp_then with (R := fun _ q' => reads q0 q').
  { destruct braced; [|now apply sp_ret]. apply sp_bind. apply next_keep; [exact S2|apply R2|]. intros q' R _ _.
    assert (R' := reads_trans _ _ _ _ R2 R). destruct (qt_tok _); try (apply sp_fail; exact (reads_same q0 q0 q' (same_refl q0) R')). now apply sp_ret. }
  intros _ q3 R3. assert (S3 := reads_same q0 q0 q3 (same_refl q0) R3).
  apply sp_then with (R := fun n q' => reads q0 q' /\ n <= 9).
  { apply sp_keep; [apply read_num_args_same|exact S3|]. eapply sp_mono; [apply num_args_sp; apply R3|..]; auto. cbn beta.
    intros n q' [R H]. split; [exact (reads_trans _ _ _ _ R3 R)|exact H]. }
  intros n q4 [R4 Hn]. assert (S4 := reads_same q0 q0 q4 (same_refl q0) R4).
  apply sp_then with (R := fun l q' => reads q0 q' /\ Forall (body_ok (refs q0)) l).
  { apply sp_keep; [apply read_definition_body_same|exact S4|]. eapply sp_mono; [apply definition_body_sp; apply R4|..]; auto. cbn beta.
    intros l q' [R H]. split; [exact (reads_trans _ _ _ _ R4 R)|]. now rewrite (reads_refs _ _ _ R4) in H. }
  intros l q5 [R5 Hl]. assert (S5 := reads_same q0 q0 q5 (same_refl q0) R5).
  pose proof (map_recorded_ok _ n l Hl None) as Hm. unfold map_recorded_tokens.
  apply sp_bind, sp_res; [|intros; exact S5|intros c E; now rewrite E in Hm].
  intros [body first] E. rewrite E in Hm. destruct Hm as [H1 H2]. destruct target as [[nm replace]|]; [|apply sp_ret; now left].
  apply (q_define_sp q0 q5 (mkDefn nm n body first replace false) (fun ok => if ok then sret tt else sfail (qt_span name) E_Internal)); [exact R5| | |].
  - split; [exact Hn|]. split; [exact H2|]. cbn [df_body]. now rewrite (reads_refs _ _ _ R5).
  - intros q'. now apply sp_ret.
  - now apply sp_fail.
Qed.
Lemma def_command_sp g q0 q : reads q0 q -> sp (def_command cfg g) (fun _ q' => defines q0 q') (same_stores q0) q.
Proof.
  intros R0. pose proof (reads_sound _ _ _ R0) as Sq. assert (S0 := reads_same q0 q0 q (same_refl q0) R0). unfold def_command.
  apply sp_then with (R := fun _ q' => reads q0 q').
  { apply sp_keep; [apply read_definition_name_same|exact S0|]. eapply sp_mono; [apply definition_name_sp; exact Sq|..]; auto. cbn beta.
    intros n q' [R _]. exact (reads_trans _ _ _ _ R0 R). }
  intros name q1 R1. assert (S1 := reads_same q0 q0 q1 (same_refl q0) R1).
  apply sp_then with (R := fun _ q' => reads q0 q').
  { apply (sp_keep (fun q => skip_spaces cfg (S (q_size q)) q)); [intros x; apply skip_spaces_same|exact S1|].
    pose proof (skip_spaces_sp (S (q_size q1)) q1 (reads_sound _ _ _ R1) ltac:(pose proof (view_size cfg q1); lia)) as K.
    eapply sp_mono; [exact K|..]; auto. cbn beta. intros _ q' R. exact (reads_trans _ _ _ _ R1 R). }
  intros _ q2 R2. assert (S2 := reads_same q0 q0 q2 (same_refl q0) R2).
  apply sp_then with (R := fun n q' => reads q0 q' /\ n <= 9).
  { apply (sp_keep (fun q => param_loop cfg (S (q_size q)) 0 q)); [intros x; apply param_loop_same|exact S2|].
    pose proof (param_loop_sp (S (q_size q2)) 0 q2 (reads_sound _ _ _ R2) ltac:(lia) ltac:(pose proof (view_size cfg q2); lia)) as K.
    eapply sp_mono; [exact K|..]; auto. cbn beta. intros n q' [R H]. split; [exact (reads_trans _ _ _ _ R2 R)|exact H]. }
  intros n q3 [R3 Hn]. assert (S3 := reads_same q0 q0 q3 (same_refl q0) R3).
  apply sp_then with (R := fun l q' => reads q0 q' /\ Forall (body_ok (refs q0)) l).
  { apply sp_keep; [apply record_macro_body_same|exact S3|]. eapply sp_mono; [apply macro_body_sp; apply R3|..]; auto. cbn beta.
    intros l q' [R H]. split; [exact (reads_trans _ _ _ _ R3 R)|]. now rewrite (reads_refs _ _ _ R3) in H. }
  intros l q4 [R4 Hl]. assert (S4 := reads_same q0 q0 q4 (same_refl q0) R4).
  apply sp_bind. apply next_keep; [exact S4|apply R4|]. intros q5 R _ _. assert (R5 := reads_trans _ _ _ _ R4 R).
  assert (S5 := reads_same q0 q0 q5 (same_refl q0) R5).
  pose proof (map_recorded_ok _ n l Hl None) as Hm. unfold map_recorded_tokens.
  apply sp_bind, sp_res; [|intros; exact S5|intros c E; now rewrite E in Hm].
  intros [body first] E. rewrite E in Hm. destruct Hm as [H1 H2].
  apply (q_define_sp q0 q5 (mkDefn name n body first true g) (fun _ => sret tt)); [exact R5| | |].
  - split; [exact Hn|]. split; [exact H2|]. cbn [df_body]. now rewrite (reads_refs _ _ _ R5).
  - intros q'. now apply sp_ret.
  - now apply sp_ret.
Qed.
Lemma let_command_sp g q0 q : reads q0 q -> sp (let_command cfg g) (fun _ q' => defines q0 q') (same_stores q0) q.
Proof.
  intros R0. pose proof (reads_sound _ _ _ R0) as Sq. assert (S0 := reads_same q0 q0 q (same_refl q0) R0). unfold let_command.
  apply sp_then with (R := fun _ q' => reads q0 q').
  { apply sp_keep; [apply read_definition_name_same|exact S0|]. eapply sp_mono; [apply definition_name_sp; exact Sq|..]; auto. cbn beta.
    intros n q' [R _]. exact (reads_trans _ _ _ _ R0 R). }
  intros name q1 R1. assert (S1 := reads_same q0 q0 q1 (same_refl q0) R1). apply sp_bind, sp_get.
  apply sp_then with (R := fun _ q' => reads q0 q').
  { destruct (is_equals _); [|now apply sp_ret]. apply sp_bind. apply next_keep; [exact S1|apply R1|]. intros q' R _ _. apply sp_ret. exact (reads_trans _ _ _ _ R1 R). }
  intros _ q2 R2. assert (S2 := reads_same q0 q0 q2 (same_refl q0) R2).
  apply sp_bind. apply next_keep; [exact S2|apply R2|]. intros q3 R _ _. assert (R3 := reads_trans _ _ _ _ R2 R).
  assert (S3 := reads_same q0 q0 q3 (same_refl q0) R3).
  pose proof (peek_unwrap_ok cfg q2 (reads_sound _ _ _ R2)) as Tk. pose proof (unwrap_eoi cfg q2 (reads_sound _ _ _ R2)) as Te.
  rewrite <- (reads_refs _ _ _ R) in Tk.
  assert (Def : forall tok, qt_tok (qt_unwrap (q_peek q2)) = tok -> is_eoi tok = false ->
    sp (q_define cfg name 0 [RTok tok] (token_class tok) true g ;* sret tt) (fun _ q' => defines q0 q') (same_stores q0) q3).
  { intros tok <- E. rewrite E in Te. apply (q_define_sp q0 q3 (mkDefn name 0 [RTok (qt_tok (qt_unwrap (q_peek q2)))] (token_class (qt_tok (qt_unwrap (q_peek q2)))) true g) (fun _ => sret tt)); [exact R3| | |].
    - split; [cbn [df_args]; lia|]. cbn [df_args df_body]. split; (constructor; [|constructor]).
      + destruct (qt_tok (qt_unwrap (q_peek q2))); try exact I. discriminate Tk.
      + unfold rec_ok. destruct (qt_tok (qt_unwrap (q_peek q2))); try exact I; exact (conj Tk Te).
    - intros q'. now apply sp_ret.
    - now apply sp_ret. }
  destruct (qt_tok (qt_unwrap (q_peek q2))) eqn:Et; try (apply sp_fail; exact S3); apply Def; reflexivity.
Qed.
Lemma global_loop_sp fuel : forall q0 q, reads q0 q -> length (fst (q_view q)) < fuel ->
  sp (global_loop cfg fuel) (fun _ q' => defines q0 q') (same_stores q0) q.
Proof.
  induction fuel as [|f IH]; intros q0 q R0 L; [lia|]. pose proof (reads_sound _ _ _ R0) as Sq. assert (S0 := reads_same q0 q0 q (same_refl q0) R0). cbn [global_loop].
  apply sp_bind. apply next_keep; [exact S0|exact Sq|]. intros q1 R T _. assert (R1 := reads_trans _ _ _ _ R0 R).
  assert (S1 := reads_same q0 q0 q1 (same_refl q0) R1).
  destruct (qt_tok (qt_unwrap (q_peek q))) eqn:Et; try (apply sp_fail; exact S1).
  - now apply let_command_sp.
  - now apply def_command_sp.
  - apply IH; [exact R1|]. assert (N : means_eoi (qt_tok (q_peek q)) = false). { rewrite <- means_eoi_unwrap. cbn [qt_unwrap qt_with qt_tok] in Et. now rewrite Et. }
    pose proof (took_shorter _ _ _ _ T N) as Sh. unfold shorter in Sh. lia.
Qed.
Lemma global_prefix_sp q : sound q -> sp (global_prefix cfg) (fun _ q' => defines q q') (same_stores q) q.
Proof. intros Sq. unfold global_prefix, sp. apply global_loop_sp; [now apply reads_refl|]. pose proof (view_size cfg q). lia. Qed.
End Q.
