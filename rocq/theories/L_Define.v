(** Definitions keep the queue sound. *)
From Verif Require Import Str M_SuperChar M_Ast M_Spec M_Token M_Symbols M_Commands M_Env M_LatexError M_Lexer M_CustomCmds M_Queue
  S_SuperChar S_Lexer S_Queue S_Store L_Lexer L_Queue L_Args L_Store L_Sound L_Absorb.
Local Open Scope nat_scope.

Lemma Forall2_map_same {A B C} (f : A -> B) (g : A -> C) (R : B -> C -> Prop) l : Forall (fun x => R (f x) (g x)) l -> Forall2 R (map f l) (map g l).
Proof. induction 1; cbn [map]; constructor; assumption. Qed.
Lemma Forall2_app_inv_len {A B} (R : A -> B -> Prop) l1 l2 l : Forall2 R (l1 ++ l2) l ->
  exists l1' l2', l = l1' ++ l2' /\ Forall2 R l1 l1' /\ Forall2 R l2 l2'.
Proof. intros H. apply Forall2_app_inv_l in H as (a & b & H1 & H2 & ->). eauto. Qed.

Lemma Forall2_len {A B} (R : A -> B -> Prop) l l' : Forall2 R l l' -> length l = length l'.
Proof. induction 1; cbn [length]; congruence. Qed.

(** ** Stores *)

Lemma copied_params local document n body body' : Forall2 (copied local document) body body' -> params_below n body -> params_below n body'.
Proof.
  unfold params_below. induction 1 as [|r r' l l' H F IH]; [constructor|]. intros K. inversion K as [|? ? K1 K2]; subst. constructor; [|now apply IH].
  destruct H; [exact K1|exact I].
Qed.
Lemma copied_ok config old local document r r' : extends old document ->
  copied local document r r' -> rec_ok (ref_ok config old local) r ->
  rec_ok (fun src n a b => src <> SrcLocal /\ ref_ok config document [] src n a b) r'.
Proof.
  intros X C. destruct C as [r N|n cl a b a' b' body body' S1 S2 F].
  - destruct r as [t|nm]; [|exact (fun x => x)]. destruct t; try exact (fun x => x).
    intros [K1 K2]. split; [|exact K2]. cbn [tok_ok] in *. destruct src; cbn [ref_ok] in *.
    + split; [discriminate|exact K1].
    + split; [discriminate|]. destruct X as [more ->]. now apply body_at_prefix.
    + destruct (N _ _ _ _ eq_refl).
  - intros [K1 K2]. split; [|reflexivity]. cbn [tok_ok] in *. split; [discriminate|]. cbn [ref_ok] in *. destruct K1 as (Hn & body0 & Hs & Hp).
    rewrite S1 in Hs. injection Hs as <-. split; [exact Hn|]. exists body'. split; [exact S2|]. exact (copied_params _ _ _ _ _ F Hp).
Qed.

Lemma local_backward config document c : local_ok config document c -> backward c.
Proof.
  intros [H _] i r N. specialize (H i r N). destruct r as [t|nm]; [|split; [exact I|cbn; lia]].
  destruct t; try (split; [exact I|cbn; lia]). destruct src; try (split; [exact I|cbn; lia]). cbn [rec_ok tok_ok ref_ok] in H.
  destruct H as [[(_ & body & S & _) L] _]. split; [exists body; exact S|]. cbn [ref_end]. now apply L.
Qed.
Lemma refs_have_body config document local r : rec_ok (ref_ok config document (cc_tokens local)) r -> has_body local r.
Proof.
  destruct r as [t|nm]; [|exact (fun _ => I)]. destruct t; try exact (fun _ => I). destruct src; try exact (fun _ => I).
  intros [(_ & body & S & _) _]. now exists body.
Qed.
Lemma local_rec_ok config document c r : local_ok config document c -> In r (cc_tokens c) -> rec_ok (ref_ok config document (cc_tokens c)) r.
Proof.
  intros [H _] I. apply In_nth_error in I as [i N]. specialize (H i r N). revert H. apply rec_ok_mono. tauto.
Qed.

Lemma document_ok_copy config document local name n body cl :
  document_ok config document -> local_ok config (cc_tokens document) local ->
  n <= 9 -> params_below n body -> Forall (rec_ok (ref_ok config (cc_tokens document) (cc_tokens local))) body ->
  exists d, cmds_insert_or_replace_copy document local name n body cl = Some d /\ document_ok config d /\
    extends (cc_tokens document) (cc_tokens d) /\
    exists body', cc_map d = (name, mkCmdDef n cl (length (cc_tokens document)) (length (cc_tokens document) + length body)) :: cc_map document /\
      slice_get (cc_tokens d) (length (cc_tokens document)) (length (cc_tokens document) + length body) = Some body' /\
      Forall2 (copied (cc_tokens local) (cc_tokens d)) body body'.
Proof.
  intros [D1 D2] L Hn Hp Hb. assert (BW := local_backward _ _ _ L).
  assert (HB : Forall (has_body local) body). { eapply Forall_impl; [|exact Hb]. intros r. apply refs_have_body. }
  destruct (absorb_spec local BW document body HB) as (new & E & src & F & (more & Xs) & Hin). subst src.
  unfold cmds_insert_or_replace_copy. rewrite E. eexists. split; [reflexivity|]. unfold cmds_register. cbn [cc_tokens cc_map].
  apply Forall2_app_inv_len in F as (body' & more' & -> & F1 & F2).
  assert (Xd : extends (cc_tokens document) (cc_tokens document ++ body' ++ more')) by (exists (body' ++ more'); reflexivity).
  assert (Len : length body' = length body) by (symmetry; exact (Forall2_len _ _ _ F1)).
  assert (Sl : slice_get (cc_tokens document ++ body' ++ more') (length (cc_tokens document)) (length (cc_tokens document) + length body) = Some body').
  { rewrite app_assoc. apply slice_prefix. unfold slice_get. rewrite app_length, Len.
    assert (X : (length (cc_tokens document) <=? length (cc_tokens document) + length body) && (length (cc_tokens document) + length body <=? length (cc_tokens document) + length body) = true).
    { apply andb_true_intro. split; apply Nat.leb_le; lia. }
    rewrite X. f_equal. rewrite skipn_app, skipn_all, Nat.sub_diag. cbn [app skipn]. rewrite firstn_all2; [reflexivity|lia]. }
  split; [split|split; [exact Xd|]].
  - cbn [cc_tokens]. apply Forall_app. split.
    + eapply Forall_impl; [|exact D1]. intros r. apply rec_ok_mono. intros s' n' a b [K1 K2]. split; [exact K1|].
      revert K2. apply ref_ok_mono; [apply extends_refl|exact Xd|apply extends_refl].
    + assert (FF : Forall2 (copied (cc_tokens local) (cc_tokens document ++ body' ++ more')) (body ++ more) (body' ++ more')) by (now apply Forall2_app).
      assert (Hs : Forall (rec_ok (ref_ok config (cc_tokens document) (cc_tokens local))) (body ++ more)).
      { apply Forall_forall. intros r I. destruct (Hin r I) as [I'|I']; [rewrite Forall_forall in Hb; now apply Hb|].
        exact (local_rec_ok _ _ _ _ L I'). }
      clear - FF Hs Xd. revert Xd FF Hs. generalize (cc_tokens document ++ body' ++ more') as document'. generalize (body ++ more) (body' ++ more').
      intros l l' document' Xd. induction 1 as [|r r' l l' H F IH]; intros K; [constructor|]. inversion K as [|? ? K1 K2]; subst. constructor; [|now apply IH].
      exact (copied_ok _ _ _ _ _ _ Xd H K1).
  - unfold map_ok. cbn [cc_map cc_tokens]. constructor; cbn [fst snd cd_args cd_start cd_end].
    + split; [exact Hn|]. exists body'. split; [exact Sl|]. exact (copied_params _ _ _ _ _ F1 Hp).
    + eapply Forall_impl; [|exact D2]. intros e. apply body_at_prefix.
  - exists body'. split; [reflexivity|]. split; [exact Sl|exact F1].
Qed.

Lemma local_ok_mono config document document' c : extends document document' -> local_ok config document c -> local_ok config document' c.
Proof.
  intros X [H1 H2]. split; [|exact H2]. intros i r N. specialize (H1 i r N). revert H1. apply rec_ok_mono. intros src n a b [K1 K2]. split; [|exact K2].
  revert K1. apply ref_ok_mono; [apply extends_refl|exact X|apply extends_refl].
Qed.
Lemma local_ok_remove config document c name : local_ok config document c -> local_ok config document (cmds_remove c name).
Proof.
  intros [H1 H2]. split; [exact H1|]. unfold map_ok, cmds_remove. cbn [cc_map cc_tokens]. apply Forall_forall. intros e I. apply filter_In in I as [I _].
  unfold map_ok in H2. rewrite Forall_forall in H2. now apply H2.
Qed.
Lemma local_ok_insert config document c name n body cl : local_ok config document c -> n <= 9 -> params_below n body ->
  Forall (rec_ok (ref_ok config document (cc_tokens c))) body -> local_ok config document (cmds_insert_or_replace c name n body cl).
Proof.
  intros [H1 H2] Hn Hp Hb. unfold cmds_insert_or_replace, cmds_register. split; cbn [cc_tokens cc_map].
  - intros i r N. destruct (Nat.lt_ge_cases i (length (cc_tokens c))) as [Hl|Hl].
    + rewrite nth_error_app1 in N by exact Hl. specialize (H1 i r N). revert H1. apply rec_ok_mono. intros src m a b [K1 K2]. split; [|exact K2].
      revert K1. apply ref_ok_mono; [apply extends_refl|apply extends_refl|apply extends_app].
    + rewrite nth_error_app2 in N by exact Hl. apply nth_error_In in N. rewrite Forall_forall in Hb. specialize (Hb r N). revert Hb. apply rec_ok_mono.
      intros src m a b K. split; [revert K; apply ref_ok_mono; [apply extends_refl|apply extends_refl|apply extends_app]|].
      intros ->. cbn [ref_ok] in K. destruct K as (_ & bd & S & _). apply slice_bound in S. lia.
  - unfold map_ok. cbn [cc_tokens cc_map]. constructor; cbn [fst snd cd_args cd_start cd_end].
    + now apply body_at_new.
    + eapply Forall_impl; [|exact H2]. intros e. apply body_at_prefix.
Qed.

(** ** The queue *)
Section Q.
Context (cfg : parser_cfg).
Notation q_view := (q_view cfg).

Lemma qtok_ok_mono (P P' : cmd_source -> nat -> nat -> nat -> Prop) t : (forall src n a b, P src n a b -> P' src n a b) -> qtok_ok P t -> qtok_ok P' t.
Proof. intros H [K1 K2]. split; [exact (tok_ok_mono P P' H _ K1)|exact K2]. Qed.

Lemma tables_no_ws :
  forallb (fun p => negb (means_ws (snd p))) UNRELIABLE = true /\ forallb (fun p => negb (means_ws (snd p))) SUBSTITUTED = true /\
  forallb (fun p => negb (means_ws (snd p))) COMMANDS = true.
Proof. repeat split; vm_compute; reflexivity. Qed.
Lemma assoc_no_ws m name t : forallb (fun p => negb (means_ws (snd p))) m = true -> assoc_str name m = Some t -> means_ws t = false.
Proof.
  induction m as [|[n x] m IH]; cbn [assoc_str forallb fst snd]; [discriminate|]. intros H. apply andb_prop in H as [H1 H2].
  destruct (str_eqb name n); [intros [= <-]; now apply negb_true_iff|auto].
Qed.
Lemma meaning_no_ws q name : means_ws (q_meaning cfg q name) = false.
Proof.
  unfold q_meaning, q_resolve, resolve_command, cmds_get.
  destruct (assoc_str name (cc_map (q_local q))); [reflexivity|].
  destruct (assoc_str name (cc_map (gs_cmds (q_gs q)))); [reflexivity|].
  destruct (assoc_str name (cc_map (pc_custom cfg))); [reflexivity|].
  destruct (resolve_builtin _ _ name) as [t|] eqn:E; [|reflexivity]. revert E.
  destruct tables_no_ws as (B1 & B2 & B3). unfold resolve_builtin.
  destruct (pc_allow_unreliable cfg), (pc_conventional cfg);
  repeat match goal with |- context [assoc_str name ?m] => destruct (assoc_str name m) eqn:?; [intros X; injection X as X; subst; eauto using assoc_no_ws|] end;
  destruct (existsb (str_eqb name) FUNCTIONS); try discriminate; intros X; injection X as X; now subst.
Qed.
Lemma meaning_qtok q name sp : stores_ok cfg q -> forallb is_scalar name = true -> qtok_ok (q_refs cfg q) (mkQt (q_meaning cfg q name) sp (Some name)).
Proof. intros S N. split; [now apply meaning_ok|]. cbn [qt_name qt_tok]. split; [exact N|apply meaning_no_ws]. Qed.

Lemma lexed_ok q : stores_ok cfg q -> forallb is_scalar (lx_rest (q_lexer q)) = true -> Forall (qtok_ok (q_refs cfg q)) (fst (lexed cfg q)).
Proof.
  remember (length (lx_rest (q_lexer q))) as n eqn:En. revert q En.
  induction n as [n IH] using lt_wf_ind. intros q En S H. rewrite lexed_step. pose proof (next_token_cases (q_lexer q)) as C.
  pose proof (next_token_sound (q_lexer q) H) as [N1 N2].
  destruct (next_token (q_lexer q)) as [[o|e] l'] eqn:En'; [|constructor]. destruct (is_eoi_out o) eqn:Eo; [constructor|].
  cbn [fst snd] in *. constructor.
  - destruct o as [[t sp]|name sp]; cbn [resolve_lexed out_okb] in *.
    + split; [now apply tok_okb_ok|exact I].
    + now apply meaning_qtok.
  - apply (IH (length (lx_rest l')) ltac:(subst n; exact C) (q_set_lexer q l') eq_refl S N1).
Qed.

(** What a definition does to the tokens that are still to be read. *)
Definition redefined (q' : queue) (t t' : qtok) : Prop :=
  t' = t \/ exists name, (qt_name t = Some name \/ qt_tok t = T_UnresolvedCommand name) /\ t' = qt_with t (q_meaning cfg q' name).

Lemma find_nnw_map f l : Forall (fun t => blank_tok (f t) = blank_tok t) l -> find_nnw (map f l) = find_nnw l.
Proof.
  induction 1 as [|t l H F IH]; [reflexivity|]. cbn [map find_nnw]. unfold blank_tok in H. rewrite H, IH. reflexivity.
Qed.
Lemma filter_map_same (f : qtok -> qtok) l : Forall (fun t => not_eoi (f t) = not_eoi t) l -> filter not_eoi (map f l) = map f (filter not_eoi l).
Proof.
  induction 1 as [|t l H F IH]; [reflexivity|]. cbn [map filter]. rewrite H. destruct (not_eoi t); cbn [map]; now rewrite IH.
Qed.

Lemma define_view q local gs (f : qtok -> qtok) : sound_queue cfg q ->
  let q0 := q_set_stores q local gs in let q' := q_set_toks q0 (map f (q_toks q)) in
  (forall t, f t = t \/ exists name, (qt_name t = Some name \/ qt_tok t = T_UnresolvedCommand name) /\ f t = qt_with t (q_meaning cfg q0 name)) ->
  good_queue q' /\ Forall2 (redefined q') (fst (q_view q)) (fst (q_view q')) /\ snd (q_view q') = snd (q_view q).
Proof.
  intros ((He & Hn & a & n & Ht & Fa & Hnn) & _ & Fv). cbn zeta. intros Hf. set (q0 := q_set_stores q local gs) in *.
  set (q' := q_set_toks q0 (map f (q_toks q))).
  assert (Fq : Forall (fun t => blank_tok (f t) = blank_tok t /\ not_eoi (f t) = not_eoi t) (q_toks q)).
  { apply Forall_forall. intros t I. destruct (Hf t) as [->|(name & N & ->)]; [auto|].
    assert (Bm : means_ws (q_meaning cfg q0 name) = false) by apply meaning_no_ws.
    assert (Em : means_eoi (q_meaning cfg q0 name) = false) by apply q_meaning_no_eoi.
    assert (Bf : is_ws (q_meaning cfg q0 name) = false) by (destruct (q_meaning cfg q0 name); [discriminate || reflexivity ..]).
    assert (Ne : not_eoi t = true).
    { rewrite Ht in I. apply in_app_or in I as [I|I]; [rewrite Forall_forall in Fa; now apply Fa|]. apply repeat_spec in I. subst t.
      destruct N as [N|N]; discriminate. }
    assert (It : In t (fst (q_view q))). { cbn [q_view fst]. apply in_or_app. left. apply filter_In. auto. }
    rewrite Forall_forall in Fv. destruct (Fv t It) as [_ K].
    assert (Bt : blank_tok t = false).
    { unfold blank_tok. destruct N as [N|N]; [rewrite N in K; destruct K as [_ K]; now destruct (qt_tok t)|now rewrite N]. }
    split.
    - unfold blank_tok in *. cbn [qt_with qt_tok]. now rewrite Bf.
    - rewrite Ne. unfold not_eoi. cbn [qt_with qt_tok]. now rewrite Em. }
  assert (Ff : filter not_eoi (q_toks q') = map f (filter not_eoi (q_toks q))).
  { apply filter_map_same. eapply Forall_impl; [|exact Fq]. now intros t [_ K]. }
  split; [|split].
  - split; [exact He|]. split.
    + cbn [q' q_set_toks q_toks q_nnw q0 q_set_stores]. rewrite find_nnw_map; [exact Hn|]. eapply Forall_impl; [|exact Fq]. now intros t [K _].
    + exists (map f a), n. cbn [q' q_set_toks q_toks q_lexer q0 q_set_stores]. split; [|split; [|exact Hnn]].
      * rewrite Ht, map_app. f_equal. assert (Fe : forall x, f (eoi_at x) = eoi_at x).
        { intros x. destruct (Hf (eoi_at x)) as [E|(name & [N|N] & _)]; [exact E|discriminate|discriminate]. }
        clear - Fe. induction n; cbn [repeat map]; [reflexivity|]. now rewrite Fe, IHn.
      * apply Forall_forall. intros x I. apply in_map_iff in I as (t & <- & I). rewrite Forall_forall in Fq, Fa.
        rewrite (proj2 (Fq t ltac:(rewrite Ht; apply in_or_app; now left))). now apply Fa.
  - unfold S_Queue.q_view. cbn [fst]. rewrite Ff. apply Forall2_app.
    + rewrite <- (map_id (filter not_eoi (q_toks q))) at 1. apply Forall2_map_same. apply Forall_forall. intros t _.
      destruct (Hf t) as [E|(name & N & E)]; [left; exact E|right; exists name; split; [exact N|]; exact E].
    + unfold lexed. cbn [q' q_set_toks q_lexer q0 q_set_stores]. destruct (tokenize _ _) as [[ts e]|]; [|constructor]. cbn [fst].
      apply Forall2_map_same. apply Forall_forall. intros o _. destruct o as [[t sp]|name sp]; cbn [resolve_lexed]; [now left|right].
      exists name. split; [now left|]. reflexivity.
  - unfold S_Queue.q_view. cbn [snd]. unfold lexed. cbn [q' q_set_toks q_lexer q0 q_set_stores]. now destruct (tokenize _ _) as [[ts e]|].
Qed.

Lemma assoc_remove {A} name (m : list (str * A)) : assoc_str name (filter (fun e => negb (str_eqb name (fst e))) m) = None.
Proof.
  induction m as [|[k v] m IH]; [reflexivity|]. cbn [filter fst]. destruct (str_eqb name k) eqn:E; cbn [negb]; [exact IH|].
  cbn [assoc_str]. now rewrite E.
Qed.
Lemma assoc_here {A} name (v : A) m : assoc_str name ((name, v) :: m) = Some v.
Proof. cbn [assoc_str]. now rewrite str_eqb_refl. Qed.

(** The stores and tokens after a definition. *)
Definition stores_extend (q q' : queue) : Prop :=
  extends (cc_tokens (gs_cmds (q_gs q))) (cc_tokens (gs_cmds (q_gs q'))) /\ extends (cc_tokens (q_local q)) (cc_tokens (q_local q')).
Lemma refs_mono q q' : stores_extend q q' -> forall src n a b, q_refs cfg q src n a b -> q_refs cfg q' src n a b.
Proof. intros [X1 X2] src n a b. apply ref_ok_mono; [apply extends_refl|exact X1|exact X2]. Qed.
Lemma stores_extend_trans q1 q2 q3 : stores_extend q1 q2 -> stores_extend q2 q3 -> stores_extend q1 q3.
Proof. intros [A1 A2] [B1 B2]. split; eapply extends_trans; eauto. Qed.
Lemma stored_extend q q' : stored_as q q' -> stores_extend q q'.
Proof. intros [H1 H2]. unfold stores_extend. rewrite H1, H2. split; apply extends_refl. Qed.

Lemma redefined_ok q q' l l' : stores_extend q q' -> stores_ok cfg q' -> Forall2 (redefined q') l l' -> Forall (qtok_ok (q_refs cfg q)) l ->
  Forall (qtok_ok (q_refs cfg q')) l'.
Proof.
  intros X S. induction 1 as [|t t' l l' H F IH]; intros K; [constructor|]. inversion K as [|? ? K1 K2]; subst. constructor; [|now apply IH].
  destruct H as [->|(name & N & ->)]; [revert K1; apply qtok_ok_mono, (refs_mono _ _ X)|].
  assert (Nm : forallb is_scalar name = true).
  { destruct K1 as [T Q]. destruct N as [N|N]; [rewrite N in Q; apply Q|]. rewrite N in T. cbn [tok_ok tok_okb] in T.
    apply andb_prop in T as [T _]. unfold chars_ok in T. apply andb_prop in T as [T _]. apply andb_prop in T as [_ T]. exact T. }
  destruct (meaning_qtok q' name (qt_span t) S Nm) as [M1 M2]. split; [exact M1|]. cbn [qt_with qt_name qt_tok] in *.
  destruct (qt_name t) as [n0|] eqn:E; [|exact I]. split; [|apply M2].
  destruct K1 as [_ Q]. rewrite E in Q. apply Q.
Qed.

Lemma define_sound q name args body cl replace g : sound_queue cfg q -> args <= 9 -> params_below args body ->
  Forall (rec_ok (q_refs cfg q)) body ->
  exists b q', q_define cfg name args body cl replace g q = (Ok b, q') /\ sound_queue cfg q' /\ stores_extend q q' /\
    Forall2 (redefined q') (fst (q_view q)) (fst (q_view q')) /\ snd (q_view q') = snd (q_view q).
Proof.
  intros Sq Hn Hp Hb. pose proof Sq as (G & (SC & SD & SL) & Fv).
  assert (Same : exists b q', (Ok false, q) = (Ok b, q') /\ sound_queue cfg q' /\ stores_extend q q' /\
    Forall2 (redefined q') (fst (q_view q)) (fst (q_view q')) /\ snd (q_view q') = snd (q_view q)).
  { exists false, q. split; [reflexivity|]. split; [exact Sq|]. split; [split; apply extends_refl|]. split; [|reflexivity].
    generalize (fst (q_view q)). intros l. induction l; constructor; [now left|assumption]. }
  assert (Done : forall local gs (f : qtok -> qtok), stores_ok cfg (q_set_stores q local gs) -> stores_extend q (q_set_stores q local gs) ->
    let q0 := q_set_stores q local gs in let q' := q_set_toks q0 (map f (q_toks q)) in
    (forall t, f t = t \/ exists name, (qt_name t = Some name \/ qt_tok t = T_UnresolvedCommand name) /\ f t = qt_with t (q_meaning cfg q0 name)) ->
    exists b q'', (Ok true, q') = (Ok b, q'') /\ sound_queue cfg q'' /\ stores_extend q q'' /\
    Forall2 (redefined q'') (fst (q_view q)) (fst (q_view q'')) /\ snd (q_view q'') = snd (q_view q)).
  { intros local gs f St Ex q0 q' Hf. destruct (define_view q local gs f Sq Hf) as (V1 & V2 & V3). fold q0 q' in V1, V2, V3.
    exists true, q'. split; [reflexivity|]. split; [|split; [exact Ex|split; [exact V2|exact V3]]].
    split; [exact V1|]. split; [exact St|]. exact (redefined_ok q q' _ _ Ex St V2 Fv). }
  assert (Unk : forall q0, resolve_buffered_unknown cfg q0 = q_set_toks q0 (map (fun t => match qt_tok t with
                              | T_UnresolvedCommand name =>
                                  match q_resolve cfg q0 name with Some tok => qt_with t tok | None => t end
                              | _ => t
                              end) (q_toks q0))) by reflexivity.
  assert (Hunk : forall q0 t, (fun t => match qt_tok t with
                              | T_UnresolvedCommand name =>
                                  match q_resolve cfg q0 name with Some tok => qt_with t tok | None => t end
                              | _ => t
                              end) t = t \/ exists name, (qt_name t = Some name \/ qt_tok t = T_UnresolvedCommand name) /\
     (fun t => match qt_tok t with
                              | T_UnresolvedCommand name =>
                                  match q_resolve cfg q0 name with Some tok => qt_with t tok | None => t end
                              | _ => t
                              end) t = qt_with t (q_meaning cfg q0 name)).
  { intros q0 t. destruct (qt_tok t) eqn:E; try (now left). destruct (q_resolve cfg q0 name0) as [tok|] eqn:R; [|now left].
    right. exists name0. split; [now right|]. unfold q_meaning. now rewrite R. }
  assert (Hred : forall q0 nm tok t, q_resolve cfg q0 nm = Some tok -> (fun t => if opt_str_eqb (qt_name t) nm then qt_with t tok else t) t = t \/
     exists name, (qt_name t = Some name \/ qt_tok t = T_UnresolvedCommand name) /\ (fun t => if opt_str_eqb (qt_name t) nm then qt_with t tok else t) t = qt_with t (q_meaning cfg q0 name)).
  { intros q0 nm tok t R. cbn beta. destruct (opt_str_eqb (qt_name t) nm) eqn:E; [|now left]. right. exists nm. unfold opt_str_eqb in E.
    destruct (qt_name t) as [n0|]; [|discriminate]. apply str_eqb_eq in E. subst n0. split; [now left|]. unfold q_meaning. now rewrite R. }
  unfold q_define. destruct (g || pc_global_group cfg).
  - destruct (negb replace && cmds_has (gs_cmds (q_gs q)) name); [exact Same|].
    destruct (document_ok_copy _ _ _ name args body cl SD SL Hn Hp Hb) as (d & E & Dd & Xd & body' & Em & _ & _). rewrite E.
    set (local := cmds_remove (q_local q) name). set (gs := gs_set_cmds (q_gs q) d).
    assert (St : stores_ok cfg (q_set_stores q local gs)).
    { split; [exact SC|]. split; [exact Dd|]. apply local_ok_remove. cbn [q_set_stores q_gs gs_cmds gs gs_set_cmds]. exact (local_ok_mono _ _ _ _ Xd SL). }
    assert (Ex : stores_extend q (q_set_stores q local gs)). { split; [exact Xd|apply extends_refl]. }
    destruct replace; cbn [gs gs_set_cmds gs_cmds].
    + unfold cmds_get. rewrite Em, assoc_here. apply (Done local gs); [exact St|exact Ex|]. intros t. apply Hred.
      unfold q_resolve, resolve_command, cmds_get. cbn [q_set_stores q_local q_gs local cmds_remove cc_map gs gs_set_cmds gs_cmds].
      now rewrite assoc_remove, Em, assoc_here.
    + rewrite Unk. apply (Done local gs); [exact St|exact Ex|]. intros t. apply Hunk.
  - assert (St : stores_ok cfg (q_set_stores q (cmds_insert_or_replace (q_local q) name args body cl) (q_gs q))).
    { split; [exact SC|]. split; [exact SD|]. now apply local_ok_insert. }
    assert (Ex : stores_extend q (q_set_stores q (cmds_insert_or_replace (q_local q) name args body cl) (q_gs q))).
    { split; [apply extends_refl|]. apply extends_app. }
    destruct replace.
    + unfold cmds_get. cbn [cmds_insert_or_replace cmds_register cc_map]. rewrite assoc_here.
      apply (Done (cmds_insert_or_replace (q_local q) name args body cl) (q_gs q)); [exact St|exact Ex|]. intros t. apply Hred.
      unfold q_resolve, resolve_command, cmds_get. cbn [q_set_stores q_local cmds_insert_or_replace cmds_register cc_map]. now rewrite assoc_here.
    + unfold cmds_insert. destruct (cmds_has (q_local q) name); [exact Same|]. rewrite Unk.
      apply (Done (cmds_insert_or_replace (q_local q) name args body cl) (q_gs q)); [exact St|exact Ex|]. intros t. apply Hunk.
Qed.
End Q.
