(** What the operations of the parser do to a sound state. *)
From Verif Require Import Str M_SuperChar M_Transform M_Length M_Spec M_Ast M_Token M_Symbols M_Commands M_Env
  M_LatexError M_Lexer M_CustomCmds M_Queue M_Spacing M_Colors M_Leaf M_TextParser M_Parser
  S_SuperChar S_Transform S_Lexer S_Queue S_Store S_Node S_Emit S_Tree S_Run
  L_SuperChar L_Transform L_Lexer L_Queue L_Args L_Store L_Sound L_Define L_Keep L_Reads L_Leaf L_Text L_Defs L_Weight L_Tree L_Wp L_Error.
Local Open Scope nat_scope.

Lemma same_commands_refl q : same_commands q q.
Proof. now split. Qed.
Lemma same_commands_trans a b c : same_commands a b -> same_commands b c -> same_commands a c.
Proof. intros [H1 H2] [H3 H4]. split; congruence. Qed.
Lemma stored_commands q q' : stored_as q q' -> same_commands q q'.
Proof. intros [H1 H2]. split; [exact H1|now rewrite H2]. Qed.
Lemma stores_commands q q' : same_stores q q' -> same_commands q q'.
Proof. intros [H1 H2]. split; [now rewrite H1|now rewrite H2]. Qed.

(** Numbers and labels that wait for the end of a row. *)
Definition numbered_fine (ne : numbered_env) : Prop :=
  match ne_custom_tag ne with Some t => scalars (tag_text t) | None => True end /\
  match ne_label ne with Some l => typed l | None => True end.
Definition env_fine (e : env_state) : Prop := match es_numbered e with Some ne => numbered_fine ne | None => True end.
Lemma dec_scalars n : scalars (dec n).
Proof.
  apply forallb_forall. intros c H. pose proof (dec_all_digits n) as D. rewrite Forall_forall in D. apply D in H. unfold is_ascii_digit in H. apply andb_prop in H as [H1 H2]. apply N.leb_le in H1, H2. unfold is_scalar. rewrite Bool.orb_true_iff. left. apply N.ltb_lt. lia.
Qed.
Lemma finish_row_fine m ne count labels last info ne' count' labels' : numbered_fine ne ->
  finish_row m ne count labels last = Some (info, ne', count', labels') -> info_scalars info /\ numbered_fine ne'.
Proof.
  intros [H1 H2]. unfold finish_row. destruct (next_equation_tag m ne count last) as [[[tag ne1] c1]|] eqn:E; [|discriminate].
  assert (K : match tag with Some t => scalars (tag_text t) | None => True end /\ numbered_fine ne1).
  { unfold next_equation_tag in E. destruct (match ne_mode ne with OnlyLast => negb last | _ => false end); [injection E as <- <- <-; repeat split; assumption|].
    destruct (ne_custom_tag ne) eqn:T; [injection E as <- <- <-; repeat split; assumption|].
    destruct (_ || _)%bool; [injection E as <- <- <-; repeat split; assumption|]. destruct (_ <=? _)%N; [|discriminate]. injection E as <- <- <-.
    split; [apply dec_scalars|]. split; [now rewrite T|exact H2]. }
  destruct K as [K1 [K2 K3]]. destruct tag as [t|]; intros X; injection X as <- <- <- <-; (split; [|split; [exact K2|exact I]]); [|exact I].
  split; [exact K1|exact K3].
Qed.
Lemma bump_fine ne ne' : numbered_fine ne -> bump_rows ne = Some ne' -> numbered_fine ne'.
Proof. intros H. unfold bump_rows. destruct (ne_num_rows ne); [|now intros [= <-]]. destruct (_ <=? _)%N; [|discriminate]. intros X. injection X as <-. exact H. Qed.

Section X.
Context (cfg : parser_cfg) (usize_max : N) (G : queue -> Prop)
  (G_same : forall q q', same_commands q q' -> G q -> G q')
  (G_make : forall d q q', sound_queue cfg q -> makes cfg d q q' -> G q -> G q').
Notation q_view := (q_view cfg).
Notation sound := (sound_queue cfg).
Notation refs := (q_refs cfg).
Notation reads := (reads cfg).
Notation exec := (exec cfg usize_max).

Definition left_of (s : pstate) : nat := pv_left (ps_view s).
Definition load_of (s : pstate) : nat := weight cfg (ps_queue s).
Definition steady (s : pstate) : Prop := sound (ps_queue s) /\ G (ps_queue s) /\ env_fine (pv_env (ps_view s)).
Definition failed (s : pstate) : Prop := stores_ok cfg (ps_queue s) /\ G (ps_queue s).
(** Nothing is added, defined or expanded. *)
Definition quiet (s s' : pstate) : Prop :=
  steady s' /\ left_of s' = left_of s /\ refs (ps_queue s') = refs (ps_queue s) /\ load_of s' <= load_of s.
Definition readies (t : token) (s : pstate) : Prop := tok_ok (refs (ps_queue s)) t.

Lemma quiet_refl s : steady s -> quiet s s.
Proof. intros H. split; [exact H|]. split; [reflexivity|]. split; [reflexivity|lia]. Qed.
Lemma quiet_trans a b c : quiet a b -> quiet b c -> quiet a c.
Proof. intros (A1 & A2 & A3 & A4) (B1 & B2 & B3 & B4). split; [exact B1|]. split; [congruence|]. split; [congruence|lia]. Qed.
Lemma steady_failed s : steady s -> failed s.
Proof. intros ((_ & S & _) & H & _). now split. Qed.
Lemma reads_steady s q' : steady s -> reads (ps_queue s) q' -> steady (mkPs q' (ps_view s)).
Proof. intros (S & H & F) R. split; [apply R|]. split; [|exact F]. cbn [ps_queue]. apply (G_same (ps_queue s)); [|exact H]. apply stored_commands, R. Qed.
Lemma reads_quiet s q' : steady s -> reads (ps_queue s) q' -> quiet s (mkPs q' (ps_view s)).
Proof.
  intros I R. split; [now apply reads_steady|]. split; [reflexivity|]. split; [exact (reads_refs _ _ _ R)|]. exact (reads_weight _ _ _ R).
Qed.
Lemma same_failed s q' : steady s -> same_stores (ps_queue s) q' -> failed (mkPs q' (ps_view s)).
Proof.
  intros ((_ & (S1 & S2 & S3) & _) & H & _) [E1 E2]. split; cbn [ps_queue].
  - split; [exact S1|]. now rewrite <- E1, <- E2.
  - apply (G_same (ps_queue s)); [|exact H]. now apply stores_commands.
Qed.

(** ** Readers *)

Lemma on_queue_sp {A} (m : St queue A) (P : A -> queue -> Prop) s : steady s -> keeps same_stores m ->
  sp m (fun a q' => reads (ps_queue s) q' /\ P a q') no_err (ps_queue s) ->
  sp (on_queue m) (fun a s' => quiet s s' /\ ps_view s' = ps_view s /\ P a (ps_queue s')) failed s.
Proof.
  intros I K H. specialize (K (ps_queue s)). unfold sp, on_queue in *. destruct (m (ps_queue s)) as [[a|e|c] q'].
  - destruct H as [R H]. split; [now apply reads_quiet|]. now split.
  - now apply same_failed.
  - exact H.
Qed.
Lemma simple_sp {A} (m : St queue A) s : steady s -> keeps same_stores m ->
  sp m (fun a q' => reads (ps_queue s) q') no_err (ps_queue s) -> sp (on_queue m) (fun a s' => quiet s s') failed s.
Proof.
  intros I K H. eapply sp_mono; [apply (on_queue_sp m (fun _ _ => True)); auto|cbn beta; tauto|auto].
  eapply sp_mono; [exact H|auto|auto].
Qed.

Lemma exec_peek_class b s : steady s -> sp (exec (OPeekClass b)) (fun _ s' => quiet s s') failed s.
Proof.
  intros Hs. cbn [M_Parser.exec]. unfold peek_class. destruct b; [|apply sp_ret; now apply quiet_refl].
  apply sp_then with (R := fun _ s' => quiet s s').
  - apply simple_sp; [exact Hs|apply q_peek_class_same|]. apply peek_class_sp; [apply Hs|auto|]. intros ic q' R. now apply same_reads.
  - intros [i c] s' Q. apply sp_bind, sp_get, sp_bind, sp_get.
    destruct (pv_vld (ps_view s')); [|now apply sp_ret]. destruct (option_map qt_tok _) as [t|]; [|now apply sp_ret]. destruct t; try now apply sp_ret.
    destruct t; try now apply sp_ret. destruct (_ && _)%bool; now apply sp_ret.
Qed.
Lemma exec_letters s : steady s ->
  sp (exec OLetters) (fun o s' => quiet s s' /\ match o with Some n => tree_ok n /\ load_of s' < load_of s | None => True end) failed s.
Proof.
  intros Hs. cbn [M_Parser.exec]. apply sp_bind, sp_get.
  eapply sp_mono; [apply (on_queue_sp _ (fun o q' => match o with Some n => letters_node n /\ reads (ps_queue s) q' /\ shorter cfg (ps_queue s) q' | None => True end)); [exact Hs|apply merge_letters_same|]| |auto].
  - eapply sp_mono; [apply letters_sp; apply Hs| |auto]. cbn beta. intros [n|] q' [R K]; split; try exact R; try exact I. destruct K. auto.
  - cbn beta. intros [n|] s' (Q & _ & K); split; try exact Q; try exact I. destruct K as (K & R & Sh). split.
    + destruct n; cbn [letters_node] in K; try contradiction; now apply tree_leaf.
    + now apply shorter_weight.
Qed.
Lemma exec_digits d s : steady s -> is_ascii_digit d = true -> sp (exec (ODigits d)) (fun x s' => quiet s s' /\ tree_ok (Number x)) failed s.
Proof.
  intros Hs Hd. cbn [M_Parser.exec]. eapply sp_mono; [apply (on_queue_sp _ (fun x _ => leaf_ok (Number x))); [exact Hs|apply read_digits_same|]| |auto].
  - apply digits_sp; [apply Hs|exact Hd].
  - cbn beta. intros x s' (Q & _ & K). split; [exact Q|now apply tree_leaf].
Qed.
Lemma exec_primes k s : steady s -> sp (exec (OPrimes k)) (fun _ s' => quiet s s') failed s.
Proof. intros Hs. apply simple_sp; [exact Hs|apply read_primes_same|]. apply primes_sp, Hs. Qed.
Lemma exec_caret s : steady s -> sp (exec OPrimeCaret) (fun _ s' => quiet s s') failed s.
Proof.
  intros Hs. cbn [M_Parser.exec]. apply sp_then with (R := fun _ s' => quiet s s'); [|intros a s' Q; now apply sp_ret].
  apply simple_sp; [exact Hs|apply next_any_same|]. apply next_any_sp; [apply Hs|auto|]. auto.
Qed.
Lemma exec_literal s : steady s -> sp (exec OLiteral) (fun x s' => quiet s s' /\ typed (fst x)) failed s.
Proof.
  intros Hs. cbn [M_Parser.exec]. eapply sp_mono; [apply (on_queue_sp _ (fun x _ => typed (fst x))); [exact Hs|apply string_literal_same|apply literal_sp, Hs]| |auto].
  cbn beta. intros x s' (Q & _ & K). now split.
Qed.
Lemma exec_argument s : steady s -> sp (exec OArgument) (fun x s' => quiet s s' /\ arg_ok (refs (ps_queue s')) x) failed s.
Proof.
  intros Hs. cbn [M_Parser.exec]. eapply sp_mono; [apply (on_queue_sp _ (fun x _ => arg_ok (refs (ps_queue s)) x)); [exact Hs|apply read_argument_same|apply argument_sp, Hs]| |auto].
  cbn beta. intros x s' (Q & _ & K). split; [exact Q|]. destruct Q as (_ & _ & -> & _). exact K.
Qed.
Lemma exec_kern k stop s : steady s -> sp (exec (OKern k stop)) (fun n s' => quiet s s' /\ tree_ok n) failed s.
Proof.
  intros Hs. cbn [M_Parser.exec]. eapply sp_mono; [apply (on_queue_sp _ (fun n _ => space_node n)); [exact Hs|apply kern_same|apply kern_sp, Hs]| |auto].
  cbn beta. intros n s' (Q & _ & K). split; [exact Q|]. destruct n; try contradiction. apply space_tree.
Qed.
Lemma exec_color sn s : steady s -> sp (exec (OColor sn)) (fun c s' => quiet s s' /\ color_bytes c) failed s.
Proof.
  intros Hs. cbn [M_Parser.exec]. eapply sp_mono; [apply (on_queue_sp _ (fun c _ => color_bytes c)); [exact Hs|apply color_same|apply color_sp, Hs]| |auto].
  cbn beta. intros n s' (Q & _ & K). now split.
Qed.
Lemma exec_text st vo m s : steady s -> sp (exec (OText st vo m)) (fun l s' => quiet s s' /\ Forall snip_ok l) failed s.
Proof.
  intros Hs. cbn [M_Parser.exec]. eapply sp_mono; [apply (on_queue_sp _ (fun l _ => Forall snip_ok l)); [exact Hs|apply text_same|apply text_sp, Hs]| |auto].
  cbn beta. intros n s' (Q & _ & K). now split.
Qed.
Definition next_facts (s : pstate) (t : tokspan) (s' : pstate) : Prop :=
  quiet s s' /\ ps_view s' = ps_view s /\ readies (fst t) s' /\ tw (fst t) + load_of s' <= load_of s /\
  fst t = unwrap_math (qt_tok (q_peek (ps_queue s))) /\ stored_as (ps_queue s) (ps_queue s').
Lemma next_tok_sp s : steady s -> sp (next_tok cfg) (next_facts s) failed s.
Proof.
  intros Hs. unfold next_tok.
  apply sp_then with (R := fun x s' => quiet s s' /\ ps_view s' = ps_view s /\ x = qt_unwrap (q_peek (ps_queue s)) /\
    reads (ps_queue s) (ps_queue s') /\ took cfg (ps_queue s) (q_peek (ps_queue s)) (ps_queue s')).
  - apply (on_queue_sp _ (fun x q' => x = qt_unwrap (q_peek (ps_queue s)) /\ reads (ps_queue s) q' /\ took cfg (ps_queue s) (q_peek (ps_queue s)) q')); [exact Hs|apply next_same|].
    apply next_sp; [apply Hs|auto|]. auto.
  - intros x s' (Q & V & -> & R & T). apply sp_ret. split; [exact Q|]. split; [exact V|]. split; [|split; [|split; [reflexivity|apply R]]].
    + unfold readies. rewrite (reads_refs _ _ _ R). apply (peek_unwrap_ok cfg (ps_queue s)), Hs.
    + exact (took_weight _ _ _ _ T).
Qed.
Lemma exec_next s : steady s -> sp (exec ONext) (next_facts s) failed s.
Proof. apply next_tok_sp. Qed.
Lemma exec_peek s : steady s ->
  sp (exec OPeek) (fun t s' => s' = s /\ readies (fst t) s /\ fst t = qt_tok (q_peek (ps_queue s)) /\ unwrap_math (fst t) = qt_tok (qt_unwrap (q_peek (ps_queue s)))) failed s.
Proof.
  intros Hs. cbn [M_Parser.exec]. unfold sp. cbn. split; [now destruct s|]. split; [|now split]. apply (peek_tok_ok cfg (ps_queue s)), Hs.
Qed.

(** ** Fields *)

Lemma set_quiet s v : steady s -> pv_left v = left_of s -> env_fine (pv_env v) -> quiet s (mkPs (ps_queue s) v).
Proof. intros (S & H & F) L E. split; [now split|]. split; [exact L|]. now split. Qed.

(** ** Definitions *)

(** [s'] is what [s] becomes when commands may have been defined. *)
Definition settles (s s' : pstate) : Prop := steady s' /\ left_of s' = left_of s /\ load_of s' <= load_of s.
Lemma quiet_settles s s' : quiet s s' -> settles s s'.
Proof. intros (H1 & H2 & _ & H3). now split. Qed.
Lemma defining_sp {A} (m : St queue A) s : steady s -> sp m (fun _ q' => defines cfg (ps_queue s) q') (same_stores (ps_queue s)) (ps_queue s) ->
  sp (on_queue m) (fun _ s' => settles s s') failed s.
Proof.
  intros Hs H. unfold sp, on_queue in *. destruct (m (ps_queue s)) as [[a|e|c] q']; [|now apply same_failed|exact H].
  destruct (defines_weight cfg _ _ H) as [S' W]. split; [|split; [reflexivity|exact W]]. split; [exact S'|]. split; [|apply Hs]. cbn [ps_queue].
  destruct H as [R|(d & q1 & R & M)].
  - apply (G_same (ps_queue s)); [apply stored_commands, R|apply Hs].
  - apply (G_make d q1); [apply R|exact M|]. apply (G_same (ps_queue s)); [apply stored_commands, R|apply Hs].
Qed.
Lemma exec_define m s : steady s -> sp (exec (ODefine m)) (fun _ s' => settles s s') failed s.
Proof. intros Hs. apply defining_sp; [exact Hs|]. apply define_command_sp, reads_refl, Hs. Qed.
Lemma exec_def g s : steady s -> sp (exec (ODef g)) (fun _ s' => settles s s') failed s.
Proof. intros Hs. apply defining_sp; [exact Hs|]. apply def_command_sp, reads_refl, Hs. Qed.
Lemma exec_let g s : steady s -> sp (exec (OLet g)) (fun _ s' => settles s s') failed s.
Proof. intros Hs. apply defining_sp; [exact Hs|]. apply let_command_sp, reads_refl, Hs. Qed.
Lemma exec_global s : steady s -> sp (exec OGlobal) (fun _ s' => settles s s') failed s.
Proof. intros Hs. apply defining_sp; [exact Hs|]. apply global_prefix_sp, Hs. Qed.

(** ** Macros *)

Definition started (s : pstate) : Prop := steady s.
Lemma exec_expand n body sn s : steady s -> builtin_ok n body ->
  sp (exec (OExpand n body sn)) (fun _ s' => steady s' /\ left_of s = S (left_of s') /\ ps_view s' = pv_set_left (left_of s') (ps_view s) /\
    expanded cfg (ps_queue s) n (map RTok body) sn (ps_queue s')) failed s.
Proof.
  intros Hs Hb. cbn [M_Parser.exec]. unfold expand.
  apply sp_then with (R := fun _ s' => ps_queue s' = ps_queue s /\ left_of s = S (left_of s') /\ ps_view s' = pv_set_left (left_of s') (ps_view s)).
  { unfold count_expansion. apply sp_bind, sp_get. destruct (pv_left (ps_view s)) eqn:E; [apply sp_fail; now apply steady_failed|].
    unfold sp, on_view. now repeat split. }
  intros [] s1 (Eq & L & V). assert (Hs1 : steady s1) by (destruct Hs as (A1 & A2 & A3); split; [now rewrite Eq|split; [now rewrite Eq|now rewrite V]]).
  apply sp_then with (R := fun a s' => ps_view s' = ps_view s1 /\ reads (ps_queue s) (ps_queue s') /\ exists args, args_read cfg n (ps_queue s) a (ps_queue s') args).
  { eapply sp_mono; [apply (on_queue_sp _ (fun a q' => reads (ps_queue s) q' /\ exists args, args_read cfg n (ps_queue s) a q' args)); [exact Hs1|apply read_cmd_args_same|]| |auto].
    - rewrite Eq. eapply sp_mono; [apply args_sp; [apply Hs|apply Hb]| |auto]. cbn beta. tauto.
    - cbn beta. tauto. }
  intros a s2 (V2 & R & args & A). unfold sp, on_queue_pure, on_queue. destruct (expand_builtin cfg _ _ n body sn args a (proj1 Hs) Hb R A) as [S2 X].
  cbn [ps_queue ps_view]. unfold left_of in *. cbn [ps_view]. rewrite V2. split; [|split; [exact L|split; [exact V|exact X]]].
  split; [exact S2|]. cbn [ps_queue ps_view]. split; [|rewrite ?V2; apply Hs1]. apply (G_same (ps_queue s)); [|apply Hs].
  destruct X as (_ & _ & _ & _ & _ & St). now apply stored_commands.
Qed.
Lemma exec_expand_ref src n a b sn s : steady s -> refs (ps_queue s) src n a b ->
  sp (exec (OExpandRef src n a b sn)) (fun _ s' => steady s' /\ left_of s = S (left_of s') /\ ps_view s' = pv_set_left (left_of s') (ps_view s) /\
    exists body, q_body cfg (ps_queue s) src a b = Some body /\ expanded cfg (ps_queue s) n body sn (ps_queue s')) failed s.
Proof.
  intros Hs Hr. cbn [M_Parser.exec]. unfold expand_ref.
  apply sp_then with (R := fun _ s' => ps_queue s' = ps_queue s /\ left_of s = S (left_of s') /\ ps_view s' = pv_set_left (left_of s') (ps_view s)).
  { unfold count_expansion. apply sp_bind, sp_get. destruct (pv_left (ps_view s)) eqn:E; [apply sp_fail; now apply steady_failed|].
    unfold sp, on_view. now repeat split. }
  intros [] s1 (Eq & L & V). assert (Hs1 : steady s1) by (destruct Hs as (A1 & A2 & A3); split; [now rewrite Eq|split; [now rewrite Eq|now rewrite V]]).
  assert (Hn : n <= 9) by apply Hr.
  apply sp_then with (R := fun a s' => ps_view s' = ps_view s1 /\ reads (ps_queue s) (ps_queue s') /\ exists args, args_read cfg n (ps_queue s) a (ps_queue s') args).
  { eapply sp_mono; [apply (on_queue_sp _ (fun a q' => reads (ps_queue s) q' /\ exists args, args_read cfg n (ps_queue s) a q' args)); [exact Hs1|apply read_cmd_args_same|]| |auto].
    - rewrite Eq. eapply sp_mono; [apply args_sp; [apply Hs|exact Hn]| |auto]. cbn beta. tauto.
    - cbn beta. tauto. }
  intros ca s2 (V2 & R & args & A). destruct (expand_stored cfg _ _ src n a b sn args ca (proj1 Hs) Hr R A) as (body & q3 & B & E & S3 & X).
  unfold sp, sbind, on_queue. rewrite E. cbn [sret]. unfold sret. unfold left_of in *. cbn [ps_view ps_queue]. rewrite V2.
  split; [|split; [exact L|split; [exact V|exists body; now split]]].
  split; [exact S3|]. cbn [ps_queue ps_view]. split; [|rewrite ?V2; apply Hs1]. apply (G_same (ps_queue s)); [|apply Hs].
  destruct X as (_ & _ & _ & _ & _ & St). now apply stored_commands.
Qed.

(** ** Tokens in front *)

Lemma push_exec l s : steady s -> Forall (fun t => not_eoi t = true) l -> sub_ok cfg (ps_queue s) l ->
  sp (on_queue_pure (queue_in_front l)) (fun _ s' => steady s' /\ left_of s' = left_of s /\ load_of s' = lw l + load_of s) failed s.
Proof.
  intros Hs N F. unfold sp, on_queue_pure, on_queue. destruct (push_sound cfg (ps_queue s) l (proj1 Hs) F N) as (S' & St & W).
  split; [|split; [reflexivity|exact W]]. split; [exact S'|]. split; [|apply Hs]. cbn [ps_queue]. apply (G_same (ps_queue s)); [now apply stored_commands|apply Hs].
Qed.
Lemma exec_dots c s : steady s -> sp (exec (ODots c)) (fun _ s' => steady s' /\ left_of s' = left_of s /\ load_of s' <= 4 + load_of s) failed s.
Proof.
  intros Hs. cbn [M_Parser.exec]. eapply sp_mono; [apply push_exec; [exact Hs| |]| |auto].
  - destruct c; vm_compute; repeat constructor.
  - destruct tables_ok as (_ & _ & _ & _ & _ & T1 & T2). unfold sub_ok. rewrite Forall_map. apply Forall_forall. intros t It. split; [|exact I]. apply tok_okb_ok.
    destruct c; [rewrite forallb_forall in T2; now apply T2|rewrite forallb_forall in T1; now apply T1].
  - cbn beta. intros _ s' (A & B & C). split; [exact A|]. split; [exact B|]. rewrite C. assert (lw (map qt_of_token (if c then PRE_CDOTS else PRE_DOTS)) <= 4) by (destruct c; vm_compute; lia). lia.
Qed.
Lemma exec_chosen t s : steady s -> readies (fst t) s -> settled (fst t) = true -> means_eoi (fst t) = false ->
  sp (exec (OChosen t)) (fun _ s' => steady s' /\ left_of s' = left_of s /\ load_of s' <= 1 + load_of s) failed s.
Proof.
  intros Hs R T N. cbn [M_Parser.exec]. eapply sp_mono; [apply push_exec; [exact Hs| |]| |auto].
  - constructor; [|constructor]. unfold not_eoi. destruct t as [t sn]. cbn [qt_of qt_tok fst snd] in *. now rewrite N.
  - constructor; [|constructor]. destruct t as [t sn]. split; [exact R|exact I].
  - cbn beta. intros _ s' (A & B & C). split; [exact A|]. split; [exact B|]. rewrite C. rewrite lw_cons. change (lw []) with 0.
    assert (qw (qt_of t) <= 1) by (destruct t; unfold qw; cbn [qt_of qt_name qt_tok fst snd] in *; now apply tw_settled). lia.
Qed.
Lemma exec_choice sn s : steady s -> sp (exec (OChoice sn)) (fun _ s' => steady s' /\ left_of s' = left_of s /\ load_of s' <= load_of s) failed s.
Proof.
  intros Hs. cbn [M_Parser.exec]. unfold math_choice. apply sp_bind, sp_get.
  apply sp_then with (R := fun a s' => quiet s s' /\ ps_view s' = ps_view s /\ exists args, args_read cfg 4 (ps_queue s) a (ps_queue s') args).
  { apply (on_queue_sp _ (fun a q' => exists args, args_read cfg 4 (ps_queue s) a q' args)); [exact Hs|apply read_cmd_args_same|]. apply args_sp; [apply Hs|lia]. }
  intros ca s1 (Q & V & args & A1 & A2 & A3 & A4). set (i := style_index (pv_style (ps_view s))).
  assert (Hi : i < length args) by (rewrite A1; unfold i; destruct (pv_style (ps_view s)); cbn; lia).
  assert (Ga : args_get ca i = nth i args []) by (apply holds_get; [exact A4|lia|lia]).
  destruct (takes_args_ok cfg _ _ _ _ A2 (proj2 (proj2 (proj1 Hs)))) as [Fa _]. destruct (takes_args_no_eoi _ _ _ A2 (view_no_eoi cfg (ps_queue s))) as [Na _].
  rewrite Forall_forall in Fa, Na. pose proof (nth_In args [] Hi) as In_.
  unfold queue_arg. rewrite Ga. eapply sp_mono; [apply push_exec; [apply Q| |]| |auto].
  - apply front_no_eoi. now apply Na.
  - unfold sub_ok. destruct Q as (_ & _ & -> & _). apply front_ok. now apply Fa.
  - cbn beta. intros _ s' (B1 & B2 & B3). split; [exact B1|]. split; [rewrite B2; apply Q|]. rewrite B3. apply (takes_args_weight _ _ _ sn A2 i Hi).
Qed.

(** ** Rows *)

Lemma set_count_steady s gs : steady s -> gs_cmds gs = gs_cmds (q_gs (ps_queue s)) ->
  quiet s (mkPs (q_set_stores (ps_queue s) (q_local (ps_queue s)) gs) (ps_view s)).
Proof.
  intros ((Gd & So & F) & H & E) Eg. set (q := ps_queue s) in *. set (q' := q_set_stores q (q_local q) gs).
  assert (V : q_view q' = q_view q).
  { unfold S_Queue.q_view, lexed. change (q_toks q') with (q_toks q). change (q_lexer q') with (q_lexer q). assert (X : forall l, map (resolve_lexed cfg q') l = map (resolve_lexed cfg q) l).
    { intros l. apply map_ext. intros a. destruct a as [ts|name sn]; [reflexivity|]. cbn [resolve_lexed]. unfold q_meaning, q_resolve, q'. cbn [q_set_stores q_local q_gs]. now rewrite Eg. }
    destruct (tokenize _ _) as [[ts e]|]; [|reflexivity]. cbn [fst snd]. now rewrite X. }
  assert (R : refs q' = refs q) by (unfold q_refs, q'; cbn [q_set_stores q_local q_gs]; now rewrite Eg).
  split; [|split; [reflexivity|split; [exact R|unfold load_of, weight; cbn [ps_queue]; fold q'; rewrite V; unfold q; lia]]].
  split; [|split; [|exact E]]; cbn [ps_queue].
  - split; [exact Gd|]. split; [|fold q'; rewrite V, R; exact F]. destruct So as (S1 & S2 & S3). split; [exact S1|]. unfold gs_ok, q' in *. cbn [q_set_stores q_local q_gs]. now rewrite Eg.
  - apply (G_same q); [|exact H]. split; [reflexivity|exact Eg].
Qed.
Lemma record_row_sp ne last sn s : steady s -> numbered_fine ne ->
  sp (record_row usize_max ne last sn) (fun r s' => quiet s s' /\ ps_view s' = ps_view s /\ info_scalars (fst r) /\ numbered_fine (snd r)) failed s.
Proof.
  intros Hs Hn. unfold record_row. apply sp_bind, sp_get. destruct (finish_row _ _ _ _ _) as [[[[info ne'] count] labels]|] eqn:E.
  - apply sp_bind. unfold sp at 1, on_queue_pure, on_queue. cbn [ps_queue]. apply sp_ret. destruct (finish_row_fine _ _ _ _ _ _ _ _ _ Hn E) as [F1 F2].
    split; [now apply set_count_steady|]. now split.
  - apply sp_fail. now apply steady_failed.
Qed.
Lemma exec_row sn s : steady s -> sp (exec (ORow sn)) (fun n s' => quiet s s' /\ tree_ok n) failed s.
Proof.
  intros Hs. cbn [M_Parser.exec]. unfold new_row. apply sp_bind, sp_get.
  destruct (es_meaningful_newlines _); [|apply sp_ret; split; [now apply quiet_refl|apply empty_row_tree]].
  apply sp_then with (R := fun _ s' => quiet s s' /\ ps_view s' = ps_view s).
  { destruct (es_allow_hlines _); [|apply sp_ret; split; [now apply quiet_refl|reflexivity]]. apply sp_bind. unfold sp at 1, on_queue, sget.
    assert (Es : mkPs (ps_queue s) (ps_view s) = s) by now destruct s. rewrite Es.
    destruct (qt_tok (q_peek (ps_queue s))); try (apply sp_ret; split; [now apply quiet_refl|reflexivity]).
    apply sp_bind. eapply sp_mono; [now apply next_tok_sp| |auto]. cbn beta. intros t s' (Q & V & _). apply sp_ret. now split. }
  intros border s1 [Q V]. destruct (es_numbered (pv_env (ps_view s))) as [ne|] eqn:En; [|apply sp_ret; split; [exact Q|now apply tree_leaf]].
  assert (Hn : numbered_fine ne) by (destruct Hs as (_ & _ & F); unfold env_fine in F; now rewrite En in F).
  destruct (bump_rows ne) as [ne1|] eqn:B; [|apply sp_fail; apply steady_failed, Q].
  apply (sp_then _ _ _ _ _ _ (record_row_sp ne1 false sn s1 (proj1 Q) (bump_fine _ _ Hn B))). intros [info ne2] s2 (Q2 & V2 & I1 & I2). cbn [fst snd] in *.
  apply sp_bind. unfold sp at 1, on_view. apply sp_ret. split; [|now apply tree_leaf]. apply (quiet_trans _ s2); [exact (quiet_trans _ _ _ Q Q2)|].
  apply set_quiet; [apply Q2|reflexivity|exact I2].
Qed.
Lemma exec_env_end sn ne s : steady s -> match ne with Some n => numbered_fine n | None => True end ->
  sp (exec (OEnvEnd sn ne)) (fun r s' => quiet s s' /\ info_scalars (fst r)) failed s.
Proof.
  intros Hs Hn. cbn [M_Parser.exec]. unfold env_end. destruct ne as [ne|]; [|apply sp_ret; split; [now apply quiet_refl|exact I]].
  apply (sp_then _ _ _ _ _ _ (record_row_sp ne true sn s Hs Hn)). intros [info ne2] s2 (Q2 & V2 & I1 & I2). apply sp_ret. now split.
Qed.
End X.
