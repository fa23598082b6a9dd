(** How much is still to be read: every token has a weight, which is at least as large as that of the tokens
    it can stand for without being a macro. *)
From Verif Require Import Str M_SuperChar M_Transform M_Length M_Spec M_Ast M_Token M_Symbols M_Commands M_Env
  M_LatexError M_Lexer M_CustomCmds M_Queue M_Spacing M_Colors M_Leaf M_TextParser
  S_SuperChar S_Transform S_Lexer S_Queue S_Store L_SuperChar L_Transform L_Lexer L_Queue L_Args L_Store L_Sound L_Define L_Keep L_Reads L_Leaf L_Text L_Defs.
Local Open Scope nat_scope.

Fixpoint tw (t : token) : nat :=
  match t with
  | T_Eoi => 0
  | T_Dots | T_UnresolvedCommand _ => 5
  | T_MathChoiceInternal _ _ _ _ _ => 2
  | T_MathOrTextMode u _ => tw u
  | _ => 1
  end.
Definition qw (t : qtok) : nat := match qt_name t with Some _ => 5 | None => tw (qt_tok t) end.
Definition lw (l : list qtok) : nat := list_sum (map qw l).

Lemma tw_5 t : tw t <= 5.
Proof. induction t; cbn [tw]; lia. Qed.
Lemma tw_pos t : means_eoi t = false -> 1 <= tw t.
Proof. induction t; cbn [tw means_eoi]; try lia; auto; discriminate. Qed.
Lemma tw_settled t : settled t = true -> tw t <= 1.
Proof. induction t; cbn [tw settled]; try lia; try discriminate; auto. Qed.
Lemma tw_unwrap t : tw (unwrap_math t) = tw t.
Proof. destruct t; reflexivity. Qed.
Lemma tw_qw t : tw (qt_tok t) <= qw t.
Proof. unfold qw. destruct (qt_name t); [apply tw_5|lia]. Qed.
Lemma qw_unwrap t : qw (qt_unwrap t) = qw t.
Proof. unfold qw. cbn [qt_unwrap qt_with qt_name qt_tok]. now rewrite tw_unwrap. Qed.
Lemma qw_pos t : not_eoi t = true -> 1 <= qw t.
Proof. intros H. pose proof (tw_qw t). apply negb_true_iff, tw_pos in H. lia. Qed.
Lemma lw_app a b : lw (a ++ b) = lw a + lw b.
Proof. unfold lw. induction a as [|x a IH]; [reflexivity|]. cbn [app map list_sum fold_right] in *. unfold list_sum in *. rewrite IH. lia. Qed.
Lemma lw_cons x l : lw (x :: l) = qw x + lw l.
Proof. reflexivity. Qed.
Lemma lw_length l : Forall (fun t => not_eoi t = true) l -> length l <= lw l.
Proof. induction 1 as [|x l H F IH]; [reflexivity|]. rewrite lw_cons. apply qw_pos in H. cbn [length]. lia. Qed.

Section Q.
Context (cfg : parser_cfg).
Notation q_view := (q_view cfg).
Notation sound := (sound_queue cfg).
Notation refs := (q_refs cfg).
Notation reads := (reads cfg).

Definition weight (q : queue) : nat := lw (fst (q_view q)).
Lemma reads_weight q q' : reads q q' -> weight q' <= weight q.
Proof. intros (_ & _ & _ & p & P). unfold weight. rewrite P, lw_app. lia. Qed.
Lemma shorter_weight q q' : reads q q' -> shorter cfg q q' -> weight q' < weight q.
Proof.
  intros (_ & _ & _ & p & P) S. unfold shorter in S. unfold weight. pose proof (view_no_eoi cfg q) as N. rewrite P in *. rewrite lw_app. rewrite app_length in S.
  apply Forall_app in N as [N _]. apply lw_length in N. lia.
Qed.
Lemma took_weight q x q' : took cfg q x q' -> tw (qt_tok (qt_unwrap x)) + weight q' <= weight q.
Proof.
  intros [bl E _ _ _|sn -> _ E]; unfold weight; rewrite E.
  - rewrite lw_app, lw_cons. cbn [qt_unwrap qt_with qt_tok]. rewrite tw_unwrap. pose proof (tw_qw x). lia.
  - change (tw _ + _) with 0. lia.
Qed.

(** ** Definitions *)

Lemma redefined_weight q' l l' : Forall2 (redefined cfg q') l l' -> lw l' <= lw l.
Proof.
  induction 1 as [|t t' l l' H F IH]; [reflexivity|]. rewrite !lw_cons. enough (qw t' <= qw t) by lia.
  destruct H as [->|(name & H & ->)]; [reflexivity|]. unfold qw. cbn [qt_with qt_name qt_tok]. destruct (qt_name t); [reflexivity|].
  destruct H as [H|H]; [discriminate|]. rewrite H. apply tw_5.
Qed.
Lemma makes_weight d q q' : sound q -> makes cfg d q q' -> sound q' /\ weight q' <= weight q.
Proof.
  intros Sq ((D1 & D2 & D3) & E). destruct (define_sound cfg q (df_name d) _ _ (df_class d) (df_replace d) (df_global d) Sq D1 D2 D3) as (b & q2 & E2 & S2 & _ & F & _).
  rewrite E in E2. injection E2 as _ <-. split; [exact S2|]. exact (redefined_weight _ _ _ F).
Qed.
Lemma defines_weight q q' : defines cfg q q' -> sound q' /\ weight q' <= weight q.
Proof.
  intros [R|(d & q1 & R & M)]; [split; [apply R|now apply reads_weight]|]. apply reads_weight in R as W. apply makes_weight in M as [S' M]; [|apply R]. split; [exact S'|lia].
Qed.

(** ** Arguments *)

Definition sub_ok (q : queue) (l : list qtok) : Prop := Forall (qtok_ok (refs q)) l.
Lemma takes_arg_ok q l arg rest : takes_arg l arg rest -> sub_ok q l -> sub_ok q arg /\ sub_ok q rest.
Proof.
  unfold sub_ok. destruct 1; intros F; apply Forall_app in F as [_ F]; inversion F as [|? ? F1 F2]; subst.
  - split; [|exact F2]. constructor; [now apply qtok_unwrap_ok|constructor].
  - apply Forall_app in F2 as [F2 F3]. inversion F3; subst. auto.
Qed.
Lemma takes_args_ok q l args rest : takes_args l args rest -> sub_ok q l -> Forall (sub_ok q) args /\ sub_ok q rest.
Proof.
  induction 1 as [l|l arg l1 args l2 H T IH]; intros F; [split; [constructor|exact F]|].
  destruct (takes_arg_ok q _ _ _ H F) as [F1 F2]. destruct (IH F2) as [F3 F4]. split; [now constructor|exact F4].
Qed.
Lemma takes_arg_weight l arg rest sp : takes_arg l arg rest -> lw (arg_front arg sp) + lw rest <= lw l.
Proof.
  destruct 1 as [bl x rest F B N1 N2|bl open inner close rest F B O Bal C]; rewrite lw_app, lw_cons.
  - cbn [arg_front]. rewrite lw_cons, qw_unwrap. change (lw []) with 0. lia.
  - rewrite lw_app, lw_cons. assert (1 <= qw open). { pose proof (tw_qw open) as H. rewrite <- tw_unwrap in H. cbn [qt_unwrap qt_with qt_tok] in O. rewrite O in H. exact H. }
    assert (1 <= qw close). { pose proof (tw_qw close) as H'. rewrite C in H'. exact H'. }
    destruct inner as [|x inner]; cbn [arg_front]; [change (lw [_; _]) with 2; lia|lia].
Qed.
Lemma takes_arg_rest l arg rest : takes_arg l arg rest -> lw rest <= lw l.
Proof. intros H. pose proof (takes_arg_weight _ _ _ span_default H). lia. Qed.
Lemma takes_args_rest l args rest : takes_args l args rest -> lw rest <= lw l.
Proof. induction 1 as [l|l arg l1 args l2 H T IH]; [reflexivity|]. apply takes_arg_rest in H. lia. Qed.
Lemma takes_args_weight l args rest sp : takes_args l args rest -> forall i, i < length args -> lw (arg_front (nth i args []) sp) + lw rest <= lw l.
Proof.
  induction 1 as [l|l arg l1 args l2 H T IH]; intros i Hi; [cbn [length] in Hi; lia|]. cbn [length] in Hi. destruct i as [|i]; cbn [nth].
  - apply (takes_arg_weight _ _ _ sp) in H. apply takes_args_rest in T. lia.
  - specialize (IH i ltac:(lia)). apply takes_arg_rest in H. lia.
Qed.

Lemma front_ok q arg sp : sub_ok q arg -> sub_ok q (arg_front arg sp).
Proof. destruct arg; [|exact (fun H => H)]. intros _. repeat constructor. Qed.
Lemma front_no_eoi arg sp : Forall (fun t => not_eoi t = true) arg -> Forall (fun t => not_eoi t = true) (arg_front arg sp).
Proof. destruct arg; [|exact (fun H => H)]. intros _. repeat constructor. Qed.
(** Tokens put in front. *)
Lemma push_sound q l : sound q -> sub_ok q l -> Forall (fun t => not_eoi t = true) l ->
  sound (queue_in_front l q) /\ stored_as q (queue_in_front l q) /\ weight (queue_in_front l q) = lw l + weight q.
Proof.
  intros (G & So & F) H N. destruct (push_spec cfg l q G N) as (P1 & P2 & P3). split; [|split; [exact P3|unfold weight; rewrite P2; apply lw_app]].
  split; [exact P1|]. split; [exact (stored_stores _ _ _ P3 So)|]. rewrite P2, (stored_refs _ _ _ P3). cbn [fst]. apply Forall_app. split; assumption.
Qed.

Definition args_read (n : nat) (q : queue) (a : cmd_args) (q' : queue) (args : list (list qtok)) : Prop :=
  length args = n /\ takes_args (fst (q_view q)) args (fst (q_view q')) /\ snd (q_view q') = snd (q_view q) /\ holds a args.
Lemma args_sp n q : sound q -> n <= 9 ->
  sp (read_cmd_args cfg n) (fun a q' => reads q q' /\ exists args, args_read n q a q' args) no_err q.
Proof.
  intros Sq Hn. pose proof Sq as (G & So & F). pose proof (read_cmd_args_spec cfg n q G Hn) as K. unfold args_result in K. cbn zeta in K. unfold sp.
  destruct (read_cmd_args cfg n q) as [[a|e|c] q']; [|exact I|exact K]. destruct K as (args & rest & K1 & K2 & K3 & K4 & G' & St).
  assert (E : fst (q_view q') = rest) by (now rewrite K3). subst rest. assert (E : snd (q_view q') = snd (q_view q)) by (now rewrite K3).
  split; [|exists args; repeat split; auto; apply K4]. clear K3.
  assert (P : exists p, fst (q_view q) = p ++ fst (q_view q')).
  { clear -K2. revert K2. generalize (fst (q_view q)) (fst (q_view q')). induction 1 as [l|l arg l1 args l2 H T [p ->]]; [now exists []|].
    apply takes_arg_sub in H as [p' ->]. exists (p' ++ p). now rewrite app_assoc. }
  destruct P as [p P]. exact (reads_view cfg q q' p G' St P E Sq).
Qed.

(** ** Expansion *)

Lemma slice_in {A} (l : list A) a b x r : slice_get l a b = Some x -> In r x -> In r l.
Proof.
  unfold slice_get. destruct (_ && _)%bool; [|discriminate]. intros [= <-] H. rewrite <- (firstn_skipn a l). apply in_or_app. right.
  rewrite <- (firstn_skipn (b - a) (skipn a l)). apply in_or_app. now left.
Qed.
Lemma stored_body q src n a b : sound q -> refs q src n a b ->
  n <= 9 /\ exists body, q_body cfg q src a b = Some body /\ params_below n body /\ Forall (rec_ok (refs q)) body.
Proof.
  intros (_ & ((C & _) & (D & _) & (L & _)) & _) (Hn & body & Hb & P). split; [exact Hn|]. exists body.
  assert (E : q_body cfg q src a b = Some body) by (destruct src; exact Hb). split; [exact E|]. split; [exact P|].
  apply Forall_forall. intros r Ir. destruct src; apply (slice_in _ _ _ _ _ Hb) in Ir.
  - rewrite Forall_forall in C. revert Ir. intros Ir. apply C in Ir. revert Ir. apply rec_ok_mono. intros ? ? ? ? [].
  - rewrite Forall_forall in D. apply D in Ir. revert Ir. apply rec_ok_mono. intros src n' a' b' [Ns H]. destruct src; [exact H|exact H|now destruct Ns].
  - apply In_nth_error in Ir as [i Ir]. apply L in Ir. revert Ir. apply rec_ok_mono. intros src n' a' b' [H _]. exact H.
Qed.
Lemma rec_ok_no_eoi P l : Forall (rec_ok P) l -> Forall not_means_eoi l.
Proof. apply Forall_impl. intros [t|n] H; [|exact I]. destruct t; try reflexivity; apply H. Qed.
Lemma expansion_ok q args sp body : sound q -> Forall (sub_ok q) args -> Forall (rec_ok (refs q)) body -> sub_ok q (expansion (q_meaning cfg q) args sp body).
Proof.
  intros (_ & So & _) Fa Fb. unfold expansion. assert (H : sub_ok q (flat_map (substituted (q_meaning cfg q) args sp) body)).
  { unfold sub_ok. apply Forall_flat_map. revert Fb. apply Forall_impl. intros [t|name] H; cbn [substituted].
    - assert (K : tok_ok (refs q) t -> Forall (qtok_ok (refs q)) [mkQt t span_default None]) by (intros K; constructor; [split; [exact K|exact I]|constructor]).
      destruct t; try (apply K; apply H).
      assert (X : sub_ok q (nth n args [])). { destruct (Nat.lt_ge_cases n (length args)) as [Hl|Hl]; [|rewrite nth_overflow by exact Hl; constructor]. rewrite Forall_forall in Fa. apply Fa. now apply nth_In. }
      pose proof (front_ok q _ sp X) as Y. destruct (nth n args []); exact Y.
    - cbn [rec_ok] in H. pose proof (meaning_ok cfg q name So H) as M.
      assert (K : forall s, Forall (qtok_ok (refs q)) [mkQt (q_meaning cfg q name) s None]) by (intros s; constructor; [split; [exact M|exact I]|constructor]).
      destruct (q_meaning cfg q name); apply K. }
  destruct body; [|exact H]. constructor; [|constructor]. split; [reflexivity|exact I].
Qed.
Lemma sub_refs q q' l : reads q q' -> sub_ok q l -> sub_ok q' l.
Proof. intros R. unfold sub_ok. now rewrite (reads_refs _ _ _ R). Qed.

(** The body of a stored macro with its arguments takes the place of what has been read. *)
Notation expanded := (expanded cfg).
Lemma q_meaning_stored q q' name : stored_as q q' -> q_meaning cfg q' name = q_meaning cfg q name.
Proof. intros [A B]. unfold q_meaning, q_resolve. now rewrite A, B. Qed.
Lemma stored_meaning q q' : stored_as q q' -> forall args sp body, expansion (q_meaning cfg q') args sp body = expansion (q_meaning cfg q) args sp body.
Proof.
  intros St args sp body. unfold expansion. destruct body as [|r body]; [reflexivity|]. apply flat_map_ext. intros [t|name]; [reflexivity|]. cbn [substituted].
  now rewrite (q_meaning_stored _ _ _ St).
Qed.
Lemma expand_stored q q1 src n a b sp args ca : sound q -> refs q src n a b -> reads q q1 -> args_read n q ca q1 args ->
  exists body q', q_body cfg q src a b = Some body /\ queue_stored_body cfg src a b ca sp q1 = (true, q') /\ sound q' /\ expanded q n body sp q'.
Proof.
  intros Sq Hr R (A1 & A2 & A3 & A4). pose proof (reads_sound _ _ _ R) as S1. rewrite <- (reads_refs _ _ _ R) in Hr.
  destruct (stored_body q1 src n a b S1 Hr) as (Hn & body & B1 & B2 & B3). pose proof Sq as (_ & _ & F).
  destruct (takes_args_ok q _ _ _ A2 F) as [Fa _]. destruct (takes_args_no_eoi _ _ _ A2 (view_no_eoi cfg q)) as [Na _].
  assert (St : stored_as q q1) by apply R.
  destruct (expand_ref_spec cfg q1 src a b ca args sp body (proj1 S1) A4 ltac:(lia) Na B1 ltac:(now rewrite A1) (rec_ok_no_eoi _ _ B3)) as (q2 & E & G2 & St2 & V2).
  exists body, q2. split. { destruct St as [X Y]. revert B1. unfold q_body. now rewrite X, Y. }
  split; [exact E|]. split.
  - split; [exact G2|]. split; [apply (stored_stores _ _ _ St2), S1|]. rewrite V2, (stored_refs _ _ _ St2). cbn [fst]. apply Forall_app. split; [|apply S1].
    apply expansion_ok; auto. revert Fa. apply Forall_impl. intros l. now apply sub_refs.
  - exists args, (fst (q_view q1)). split; [exact A1|]. split; [exact A2|]. split; [now rewrite V2, A3, (stored_meaning _ _ St)|].
    destruct St, St2. split; congruence.
Qed.
Definition builtin_ok (n : nat) (body : list token) : Prop :=
  n <= 9 /\ Forall (fun t => match t with T_CustomCmdArg i => i < n | _ => tok_okb t = true /\ means_eoi t = false end) body.
Lemma builtin_tok n body : tok_okb (T_CustomCmd n body) = true -> builtin_ok n body.
Proof.
  cbn [tok_okb]. intros H. apply andb_prop in H as [_ H]. apply andb_prop in H as [H1 H2]. apply Nat.leb_le in H1. split; [exact H1|].
  clear H1. induction body as [|u r IH]; [constructor|]. apply andb_prop in H2 as [H1 H2]. constructor; [|now apply IH].
  destruct u; try (apply andb_prop in H1 as [H1 H3]; apply negb_true_iff in H3; now split). now apply Nat.ltb_lt.
Qed.
Lemma expand_builtin q q1 n toks sp args ca : sound q -> builtin_ok n toks -> reads q q1 -> args_read n q ca q1 args ->
  sound (queue_body toks ca sp q1) /\ expanded q n (map RTok toks) sp (queue_body toks ca sp q1).
Proof.
  intros Sq [Hn Hb] R (A1 & A2 & A3 & A4). pose proof (reads_sound _ _ _ R) as S1. pose proof Sq as (_ & _ & F).
  destruct (takes_args_ok q _ _ _ A2 F) as [Fa _]. destruct (takes_args_no_eoi _ _ _ A2 (view_no_eoi cfg q)) as [Na _].
  assert (St : stored_as q q1) by apply R.
  assert (Hr : Forall (rec_ok (refs q1)) (map RTok toks)).
  { rewrite Forall_map. revert Hb. apply Forall_impl. intros t H. destruct t; try exact I; (destruct H as [H1 H2]; split; [now apply tok_okb_ok|exact H2]). }
  assert (Hp : params_below (length args) (map RTok toks)).
  { unfold params_below. rewrite Forall_map, A1. revert Hb. apply Forall_impl. intros t H. destruct t; try exact I. exact H. }
  destruct (expand_builtin_spec cfg q1 ca args sp toks (proj1 S1) A4 ltac:(lia) Na Hp (rec_ok_no_eoi _ _ Hr)) as (G2 & St2 & V2).
  split.
  - split; [exact G2|]. split; [apply (stored_stores _ _ _ St2), S1|]. rewrite V2, (stored_refs _ _ _ St2). cbn [fst]. apply Forall_app. split; [|apply S1].
    apply expansion_ok; auto. revert Fa. apply Forall_impl. intros l. now apply sub_refs.
  - exists args, (fst (q_view q1)). split; [exact A1|]. split; [exact A2|]. split; [now rewrite V2, A3, (stored_meaning _ _ St)|].
    destruct St, St2. split; congruence.
Qed.
End Q.
