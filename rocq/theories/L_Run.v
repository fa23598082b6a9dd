(** The bodies of the recursive calls of the parser: they keep the state sound, build sound trees, and
    call each other only with less left to do. *)
From Verif Require Import Str M_SuperChar M_Transform M_Length M_Spec M_Ast M_Token M_Symbols M_Commands M_Env
  M_LatexError M_Lexer M_CustomCmds M_Queue M_Spacing M_Colors M_Leaf M_TextParser M_Parser
  S_SuperChar S_Transform S_Lexer S_Queue S_Store S_Node S_Emit S_Tree S_Run
  L_SuperChar L_Transform L_Lexer L_Queue L_Args L_Store L_Sound L_Define L_Keep L_Reads L_Leaf L_Text L_Defs L_Weight L_Tree L_Wp L_Error L_Exec.
Local Open Scope nat_scope.

Lemma into_one_ok P a t : arg_ok P a -> into_one a = Ok t -> ts_ok P t.
Proof. destruct a as [u|[|u [|w l]] sn]; cbn [arg_ok into_one]; intros H E; try discriminate; injection E as <-; [exact H|now inversion H]. Qed.
Lemma into_one_or_none_ok P a t : arg_ok P a -> into_one_or_none a = Ok (inl t) -> ts_ok P t.
Proof. destruct a as [u|[|u [|w l]] sn]; cbn [arg_ok into_one_or_none]; intros H E; try discriminate; injection E as <-; [exact H|now inversion H]. Qed.
Lemma into_one_crash a c : into_one a <> Crash c.
Proof. destruct a as [u|[|u [|w l]] sn]; discriminate. Qed.
Lemma into_one_or_none_crash a c : into_one_or_none a <> Crash c.
Proof. destruct a as [u|[|u [|w l]] sn]; discriminate. Qed.
Lemma extract_crash t m c : extract_delimiter t m <> Crash c.
Proof. unfold extract_delimiter. destruct (match fst t with T_Ord _ => _ | _ => _ end); discriminate. Qed.
Lemma genfrac_style_crash t c : genfrac_style t <> Crash c.
Proof. destruct t as [[t sn]|sn]; [|discriminate]. destruct t; try discriminate. cbn [genfrac_style]. repeat (destruct (_ =? _)%N; [discriminate|]). discriminate. Qed.
Lemma raise_crash s sn c : raise_length s sn <> Crash c.
Proof. unfold raise_length. destruct (parse_length_specification s) as [[[l u] []]|]; discriminate. Qed.
Lemma no_limits_crash b c : ensure_no_limits b <> Crash c.
Proof. unfold ensure_no_limits. destruct (bl_limits b) as [[k sn]|]; discriminate. Qed.
Lemma no_limits_bounds b b' : ensure_no_limits b = Ok b' -> b' = bl_bounds b.
Proof. unfold ensure_no_limits. destruct (bl_limits b) as [[k sn]|]; intros H; [discriminate|]. now injection H as <-. Qed.
Lemma env_new_fine e : env_fine (env_new_state e).
Proof. destruct e; exact I || (split; exact I). Qed.
Lemma numbered_tag_fine t ne : scalars (tag_text t) -> numbered_fine ne -> numbered_fine (numbered_tag t ne).
Proof. intros H [_ H2]. split; [exact H|exact H2]. Qed.
Lemma numbered_notag_fine ne : numbered_fine ne -> numbered_fine (numbered_notag ne).
Proof. intros [H1 H2]. split; [exact I || exact H1|exact H2]. Qed.
Lemma numbered_label_fine l ne ne' : typed l -> numbered_fine ne -> numbered_label l ne = Some ne' -> numbered_fine ne'.
Proof. intros H [H1 H2]. unfold numbered_label. destruct (ne_label ne); [discriminate|]. intros E. injection E as <-. split; [exact H1|exact H]. Qed.

Section R.
Context (cfg : parser_cfg) (usize_max : N) (G : queue -> Prop)
  (G_same : forall q q', same_commands q q' -> G q -> G q')
  (G_make : forall d q q', sound_queue cfg q -> makes cfg d q q' -> G q -> G q').
Notation refs := (q_refs cfg).
Notation exec := (exec cfg usize_max).
Notation steady := (steady cfg G).
Notation failed := (failed cfg G).
Notation quiet := (quiet cfg G).
Notation settles := (settles cfg G).
Notation readies := (readies cfg).
Notation load_of := (load_of cfg).

(** ** Conditions *)

Definition op_pre A (o : op A) (s : pstate) : Prop :=
  steady s /\
  match o with
  | OExpand n b _ => builtin_ok n b
  | OExpandRef src n a b _ => refs (ps_queue s) src n a b
  | _ => True
  end.
Definition script_tok (t : token) : Prop := match t with T_Circumflex | T_Underscore | T_Prime _ => True | _ => False end.
Definition call_pre A (c : call A) (s : pstate) : Prop :=
  steady s /\
  match c with
  | CSeq _ _ _ => True
  | CLoop _ _ nodes infix => trees nodes /\ infix_ok infix
  | CTok t _ _ => readies (fst t) s
  | CBounds _ acc => bounds_ok (bl_bounds acc)
  end.
(** Fewer expansions are left than [L0], or as many and there is less than [K] to read. *)
Definition room (L0 K n : nat) (s : pstate) : Prop := left_of s < L0 \/ left_of s = L0 /\ n + load_of s < K.
Definition here (L0 K : nat) (s : pstate) : Prop := steady s /\ room L0 K 0 s.
Definition tok (L0 K : nat) (t : tokspan) (s : pstate) : Prop := steady s /\ room L0 K (tw (fst t)) s /\ readies (fst t) s.
Definition call_post A (c : call A) (s : pstate) : A -> pstate -> Prop :=
  match c in call A return A -> pstate -> Prop with
  | CSeq _ _ _ => fun l s' => here (left_of s) (S (load_of s)) s' /\ trees l
  | CLoop _ _ _ _ => fun r s' => here (left_of s) (S (load_of s)) s' /\ trees (fst r) /\ infix_ok (snd r)
  | CTok t _ _ => fun r s' => here (left_of s) (tw (fst t) + load_of s) s' /\ tree_ok (snd r)
  | CBounds first acc => fun b s' =>
      here (left_of s) (S (load_of s)) s' /\ bounds_ok (bl_bounds b) /\
      (bounds_trivial (bl_bounds acc) = false \/ match first with Some t => script_tok (fst t) | None => False end ->
       bounds_trivial (bl_bounds b) = false)
  end.
Definition mu A (c : call A) (s : pstate) : nat * nat :=
  (left_of s,
   match c with
   | CSeq _ _ _ => 4 * load_of s + 2
   | CLoop _ _ _ _ => 4 * load_of s + 1
   | CTok t _ _ => 4 * (tw (fst t) + load_of s)
   | CBounds (Some _) _ => 4 * load_of s + 1
   | CBounds None _ => 4 * load_of s
   end).
Notation wp := (wp cfg usize_max op_pre call_post (fun _ s => failed s) (fun _ => False)).
Notation below := (below call_pre mu).

Lemma here_quiet L0 K s s' : quiet s s' -> here L0 K s -> here L0 K s'.
Proof. intros (Q1 & Q2 & Q3 & Q4) [H R]. split; [exact Q1|]. unfold room in *. rewrite Q2. lia. Qed.
Lemma here_settles L0 K s s' : settles s s' -> here L0 K s -> here L0 K s'.
Proof. intros (Q1 & Q2 & Q4) [H R]. split; [exact Q1|]. unfold room in *. rewrite Q2. lia. Qed.
Lemma tok_quiet L0 K t s s' : quiet s s' -> tok L0 K t s -> tok L0 K t s'.
Proof. intros (Q1 & Q2 & Q3 & Q4) (H & R & T). split; [exact Q1|]. unfold room, L_Exec.readies in *. rewrite Q2, Q3. split; [lia|exact T]. Qed.
Lemma here_le L0 K K' s : K <= K' -> here L0 K s -> here L0 K' s.
Proof. intros L [H R]. split; [exact H|]. unfold room in *. lia. Qed.
Lemma here_tok L0 K t s : here L0 K s -> readies (fst t) s -> tw (fst t) = 0 -> tok L0 K t s.
Proof. intros [H R] T E. split; [exact H|]. split; [now rewrite E|exact T]. Qed.
Lemma tok_here L0 K t s : tok L0 K t s -> here L0 K s.
Proof. intros (H & R & T). split; [exact H|]. unfold room in *. lia. Qed.
Lemma tok_less L0 K t s : tok L0 (S K) t s -> 1 <= tw (fst t) -> here L0 K s.
Proof. intros (H & R & T) L. split; [exact H|]. unfold room in *. lia. Qed.
Lemma here_failed L0 K s : here L0 K s -> failed s.
Proof. intros [H _]. now apply steady_failed. Qed.
Lemma tok_failed L0 K t s : tok L0 K t s -> failed s.
Proof. intros (H & _). now apply steady_failed. Qed.
Lemma here_chain L0 K K' s s' : here L0 K s -> here (left_of s) K' s' -> (left_of s = L0 -> load_of s < K -> K' <= K) -> here L0 K s'.
Proof. intros [H R] [H' R'] L. split; [exact H'|]. unfold room in *. cbn [Nat.add] in *. destruct R as [R|[R1 R2]]; [left; lia|]. specialize (L R1 R2). lia. Qed.

(** ** Operations *)

Lemma wp_do Gd A B (o : op A) (k : A -> prog B) Q s : op_pre A o s -> sp (exec o) (fun a s' => wp Gd (k a) Q s') failed s -> wp Gd (Do o k) Q s.
Proof. intros H K. split; [exact H|]. unfold sp in K. destruct (exec o s) as [[a|e|c] s']; exact K. Qed.
Definition plain {A} (o : op A) : Prop := match o with OExpand _ _ _ | OExpandRef _ _ _ _ _ => False | _ => True end.
Lemma plain_pre A (o : op A) s : plain o -> steady s -> op_pre A o s.
Proof. intros P H. split; [exact H|]. now destruct o. Qed.

(** A position is kept by quiet operations. *)
Definition stable (J : pstate -> Prop) : Prop := (forall s, J s -> steady s) /\ (forall s s', quiet s s' -> J s -> J s').
Lemma stable_here L0 K : stable (here L0 K).
Proof. split; [now intros s [H _]|]. intros s s'. apply here_quiet. Qed.
Lemma stable_tok L0 K t : stable (tok L0 K t).
Proof. split; [now intros s [H _]|]. intros s s'. apply tok_quiet. Qed.

Lemma stable_steady : stable steady.
Proof. split; [auto|]. now intros s s' (Q & _). Qed.

Section Gd.
Context (Gd : forall A, call A -> pstate -> Prop).
Notation W := (wp Gd).

Lemma do_quiet J A B (o : op A) (k : A -> prog B) Q s (P : A -> pstate -> Prop) : stable J -> J s -> plain o ->
  sp (exec o) (fun a s' => quiet s s' /\ P a s') failed s -> (forall a s', J s' -> P a s' -> W (k a) Q s') -> W (Do o k) Q s.
Proof.
  intros [S1 S2] H Pl K F. apply wp_do; [apply plain_pre; auto|]. eapply sp_mono; [exact K| |auto]. cbn beta. intros a s' [R X]. apply F; [now apply (S2 s)|exact X].
Qed.
Lemma do_simple J A B (o : op A) (k : A -> prog B) Q s : stable J -> J s -> plain o ->
  sp (exec o) (fun a s' => quiet s s') failed s -> (forall a s', J s' -> W (k a) Q s') -> W (Do o k) Q s.
Proof.
  intros S0 H Pl K F. apply (do_quiet J _ _ _ _ _ _ (fun _ _ => True) S0 H Pl); [|auto]. eapply sp_mono; [exact K|auto|auto].
Qed.
Lemma do_class J B b (k : _ -> prog B) Q s : stable J -> J s -> (forall c s', J s' -> W (k c) Q s') -> W (Do (OPeekClass b) k) Q s.
Proof. intros S0 H F. apply (do_simple J); auto; [exact I|]. now apply exec_peek_class, S0. Qed.
Lemma do_view J B (k : _ -> prog B) Q s : stable J -> J s -> (forall v, env_fine (pv_env v) -> W (k v) Q s) -> W (Do OView k) Q s.
Proof. intros S0 H F. apply wp_do; [apply plain_pre; [exact I|now apply S0]|]. unfold sp. cbn. apply F. apply S0 in H. apply H. Qed.
Lemma do_transform J B t (k : _ -> prog B) Q s : stable J -> J s -> (forall u s', J s' -> W (k u) Q s') -> W (Do (OSetTransform t) k) Q s.
Proof. intros S0 H F. apply (do_simple J); auto; [exact I|]. unfold sp. cbn. apply S0 in H. now apply set_quiet; [..|apply H]. Qed.
Lemma do_hack J B t (k : _ -> prog B) Q s : stable J -> J s -> (forall u s', J s' -> W (k u) Q s') -> W (Do (OSetHack t) k) Q s.
Proof. intros S0 H F. apply (do_simple J); auto; [exact I|]. unfold sp. cbn. apply S0 in H. now apply set_quiet; [..|apply H]. Qed.
Lemma do_style J B t (k : _ -> prog B) Q s : stable J -> J s -> (forall u s', J s' -> W (k u) Q s') -> W (Do (OSetStyle t) k) Q s.
Proof. intros S0 H F. apply (do_simple J); auto; [exact I|]. unfold sp. cbn. apply S0 in H. now apply set_quiet; [..|apply H]. Qed.
Lemma do_vld J B t (k : _ -> prog B) Q s : stable J -> J s -> (forall u s', J s' -> W (k u) Q s') -> W (Do (OSetVld t) k) Q s.
Proof. intros S0 H F. apply (do_simple J); auto; [exact I|]. unfold sp. cbn. apply S0 in H. now apply set_quiet; [..|apply H]. Qed.
Lemma do_env J B e (k : _ -> prog B) Q s : stable J -> J s -> env_fine e -> (forall u s', J s' -> W (k u) Q s') -> W (Do (OSetEnv e) k) Q s.
Proof. intros S0 H E F. apply (do_simple J); auto; [exact I|]. unfold sp. cbn. apply S0 in H. now apply set_quiet. Qed.
Lemma do_digits J B d (k : _ -> prog B) Q s : stable J -> J s -> is_ascii_digit d = true -> (forall x s', J s' -> tree_ok (Number x) -> W (k x) Q s') -> W (Do (ODigits d) k) Q s.
Proof. intros S0 H E F. eapply (do_quiet J); [exact S0|exact H|exact I| |exact F]. cbn beta. apply exec_digits; auto. now apply S0. Qed.
Lemma do_primes J B d (k : _ -> prog B) Q s : stable J -> J s -> (forall x s', J s' -> W (k x) Q s') -> W (Do (OPrimes d) k) Q s.
Proof. intros S0 H F. apply (do_simple J); auto; [exact I|]. apply exec_primes; auto. now apply S0. Qed.
Lemma do_caret J B (k : _ -> prog B) Q s : stable J -> J s -> (forall x s', J s' -> W (k x) Q s') -> W (Do OPrimeCaret k) Q s.
Proof. intros S0 H F. apply (do_simple J); auto; [exact I|]. apply exec_caret; auto. now apply S0. Qed.
Lemma do_literal J B (k : _ -> prog B) Q s : stable J -> J s -> (forall x s', J s' -> typed (fst x) -> W (k x) Q s') -> W (Do OLiteral k) Q s.
Proof. intros S0 H F. eapply (do_quiet J); [exact S0|exact H|exact I| |exact F]. cbn beta. apply exec_literal; auto. now apply S0. Qed.
Lemma do_argument J B (k : _ -> prog B) Q s : stable J -> J s -> (forall x s', J s' -> (exists P, arg_ok P x) -> W (k x) Q s') -> W (Do OArgument k) Q s.
Proof.
  intros S0 H F. eapply (do_quiet J); [exact S0|exact H|exact I| |intros x s' A B0; apply F; [exact A|]; exists (refs (ps_queue s')); exact B0]. apply exec_argument; auto. now apply S0.
Qed.
Lemma do_kern J B u n (k : _ -> prog B) Q s : stable J -> J s -> (forall x s', J s' -> tree_ok x -> W (k x) Q s') -> W (Do (OKern u n) k) Q s.
Proof. intros S0 H F. eapply (do_quiet J); [exact S0|exact H|exact I| |exact F]. cbn beta. apply exec_kern; auto. now apply S0. Qed.
Lemma do_color J B n (k : _ -> prog B) Q s : stable J -> J s -> (forall x s', J s' -> color_bytes x -> W (k x) Q s') -> W (Do (OColor n) k) Q s.
Proof. intros S0 H F. eapply (do_quiet J); [exact S0|exact H|exact I| |intros a s'; exact (F a s')]. cbn beta. apply exec_color; auto. now apply S0. Qed.
Lemma do_text J B st vo m (k : _ -> prog B) Q s : stable J -> J s -> (forall x s', J s' -> Forall snip_ok x -> W (k x) Q s') -> W (Do (OText st vo m) k) Q s.
Proof. intros S0 H F. eapply (do_quiet J); [exact S0|exact H|exact I| |intros a s'; exact (F a s')]. cbn beta. apply exec_text; auto. now apply S0. Qed.
Lemma do_row J B n (k : _ -> prog B) Q s : stable J -> J s -> (forall x s', J s' -> tree_ok x -> W (k x) Q s') -> W (Do (ORow n) k) Q s.
Proof. intros S0 H F. eapply (do_quiet J); [exact S0|exact H|exact I| |exact F]. cbn beta. apply exec_row; auto. now apply S0. Qed.
Lemma do_env_end J B n ne (k : _ -> prog B) Q s : stable J -> J s -> match ne with Some n => numbered_fine n | None => True end ->
  (forall x s', J s' -> info_scalars (fst x) -> W (k x) Q s') -> W (Do (OEnvEnd n ne) k) Q s.
Proof. intros S0 H E F. eapply (do_quiet J); [exact S0|exact H|exact I| |intros a s'; exact (F a s')]. cbn beta. apply exec_env_end; auto. now apply S0. Qed.
Lemma do_next L0 K B (k : _ -> prog B) Q s : here L0 K s -> (forall t s', tok L0 K t s' -> W (k t) Q s') -> W (Do ONext k) Q s.
Proof.
  intros [H R] F. apply wp_do; [apply plain_pre; [exact I|assumption]|]. eapply sp_mono; [apply (exec_next cfg usize_max G G_same s); assumption| |auto]. cbn beta. intros t s' (X1 & X2 & X3 & X4 & _). apply F.
  destruct X1 as (Y1 & Y2 & Y3 & Y4). split; [exact Y1|]. split; [|exact X3]. unfold room in *. rewrite Y2. lia.
Qed.
Lemma do_peek J B (k : _ -> prog B) Q s : stable J -> J s -> (forall t, readies (fst t) s -> W (k t) Q s) -> W (Do OPeek k) Q s.
Proof.
  intros S0 H F. apply S0 in H as Hs. apply wp_do; [apply plain_pre; [exact I|assumption]|]. eapply sp_mono; [apply (exec_peek cfg usize_max G s); assumption| |auto]. cbn beta. intros t s' (-> & T & _). now apply F.
Qed.
Lemma fail_here L0 K B e (Q : B -> pstate -> Prop) s : here L0 K s -> W (Fail e) Q s.
Proof. apply here_failed. Qed.
Lemma fail_tok L0 K t B e (Q : B -> pstate -> Prop) s : tok L0 K t s -> W (Fail e) Q s.
Proof. apply tok_failed. Qed.
Lemma p_res B C (r : res B) (f : B -> prog C) Q s : failed s -> (forall c, r <> Crash c) -> (forall b, r = Ok b -> W (f b) Q s) -> W (pbind (pres r) f) Q s.
Proof. intros H N F. destruct r as [b|e|c]; [now apply F|exact H|now destruct (N c)]. Qed.
Lemma wp_weak B (p : prog B) (Q1 Q2 : B -> pstate -> Prop) s : W p Q1 s -> (forall b s', Q1 b s' -> Q2 b s') -> W p Q2 s.
Proof. intros H F. revert H. apply wp_mono; auto. Qed.
Lemma bind_ret A B (a : A) (f : A -> prog B) Q s : W (f a) Q s -> W (pbind (Ret a) f) Q s.
Proof. exact (fun H => H). Qed.
End Gd.

(** ** Calls *)

Section Pos.
Context (L0 K B0 : nat).
Notation W := (wp (below (L0, B0))).
Notation here := (here L0 K).
Notation tok := (tok L0 K).

Lemma call_tok B t a c (k : _ -> prog B) Q s : 4 * K <= B0 + 3 -> tok t s -> (forall r s', here s' -> tree_ok (snd r) -> W (k r) Q s') -> W (Call (CTok t a c) k) Q s.
Proof.
  intros L T F. split.
  - destruct T as (H & R & T). split; [now split|]. unfold lex_lt, mu, room in *. cbn [fst snd]. lia.
  - intros r s' [H' Tr]. apply F; [|exact Tr]. destruct T as (H & R & T). destruct H' as [H1 R']. split; [exact H1|]. unfold room in *. lia.
Qed.
Lemma call_seq B e p kp (k : _ -> prog B) Q s : 4 * K <= B0 + 1 -> here s -> (forall l s', here s' -> trees l -> W (k l) Q s') -> W (Call (CSeq e p kp) k) Q s.
Proof.
  intros L [H R]. intros F. split.
  - split; [now split|]. unfold lex_lt, mu, room in *. cbn [fst snd]. lia.
  - intros r s' [H' Tr]. apply F; [|exact Tr]. destruct H' as [H1 R']. split; [exact H1|]. unfold room in *. lia.
Qed.
Lemma call_loop B e p nodes infix (k : _ -> prog B) Q s : 4 * K <= B0 + 2 -> here s -> trees nodes -> infix_ok infix ->
  (forall r s', here s' -> trees (fst r) -> infix_ok (snd r) -> W (k r) Q s') -> W (Call (CLoop e p nodes infix) k) Q s.
Proof.
  intros L [H R] T1 T2 F. split.
  - split; [now split|]. unfold lex_lt, mu, room in *. cbn [fst snd]. lia.
  - intros r s' (H' & Tr1 & Tr2). apply F; [|exact Tr1|exact Tr2]. destruct H' as [H1 R']. split; [exact H1|]. unfold room in *. lia.
Qed.
Lemma call_bounds B acc (k : _ -> prog B) Q s : 4 * K <= B0 + 3 -> here s -> bounds_ok (bl_bounds acc) ->
  (forall r s', here s' -> bounds_ok (bl_bounds r) -> (bounds_trivial (bl_bounds acc) = false -> bounds_trivial (bl_bounds r) = false) -> W (k r) Q s') -> W (Call (CBounds None acc) k) Q s.
Proof.
  intros L [H R] T F. split.
  - split; [now split|]. unfold lex_lt, mu, room in *. cbn [fst snd]. lia.
  - intros r s' (H' & Tr1 & Tr2). apply F; [|exact Tr1|auto]. destruct H' as [H1 R']. split; [exact H1|]. unfold room in *. lia.
Qed.
Lemma call_bounds_first B t (k : _ -> prog B) Q s : 4 * K <= B0 + 2 -> here s -> script_tok (fst t) ->
  (forall r s', here s' -> bounds_ok (bl_bounds r) -> bounds_trivial (bl_bounds r) = false -> W (k r) Q s') -> W (Call (CBounds (Some t) bl_none) k) Q s.
Proof.
  intros L [H R] T F. split.
  - split; [split; [exact H|split; exact I]|]. unfold lex_lt, mu, room in *. cbn [fst snd]. lia.
  - intros r s' (H' & Tr1 & Tr2). apply F; [|exact Tr1|now apply Tr2; right]. destruct H' as [H1 R']. split; [exact H1|]. unfold room in *. lia.
Qed.

Lemma p_next B a (f : _ -> prog B) Q s : 4 * K <= B0 + 3 -> here s -> (forall n s', here s' -> tree_ok n -> W (f n) Q s') -> W (pbind (parse_next a) f) Q s.
Proof. intros L H F. cbn [pbind parse_next]. eapply do_next; [exact H|]. intros t s1 T. apply call_tok; [exact L|exact T|]. intros r s2 H2 R. now apply F. Qed.
Lemma p_seq B a sn e p kp (f : _ -> prog B) Q s : 4 * K <= B0 + 1 -> here s -> (forall l s', here s' -> trees l -> W (f l) Q s') -> W (pbind (seq_if_in_sequence a sn e p kp) f) Q s.
Proof. intros L H F. unfold seq_if_in_sequence. destruct (in_sequence a); cbn [pbind fail]; [|now apply (here_failed L0 K)]. now apply call_seq. Qed.
Lemma p_spacing B a p ex (f : _ -> prog B) Q s : here s -> (forall x s', here s' -> W (f x) Q s') -> W (pbind (parse_mathop_spacing a p ex) f) Q s.
Proof.
  intros H F. cbn [pbind parse_mathop_spacing]. apply (do_class _ here); [apply stable_here|exact H|]. intros c s1 H1.
  apply (do_view _ here); [apply stable_here|exact H1|]. intros v _. now apply F.
Qed.
Lemma none_ok : bounds_ok (bl_bounds bl_none). Proof. split; exact I. Qed.
Lemma p_bounds B (f : _ -> prog B) Q s : 4 * K <= B0 + 3 -> here s -> (forall b s', here s' -> bounds_ok (bl_bounds b) -> W (f b) Q s') -> W (pbind (get_bounds None) f) Q s.
Proof. intros L H F. cbn [pbind get_bounds]. apply call_bounds; [exact L|exact H|apply none_ok|]. intros r s' H' Br _. now apply F. Qed.
Lemma p_bounds_arg B (f : _ -> prog B) Q s : 4 * K <= B0 + 1 -> here s -> (forall x s', here s' -> bounds_ok (bl_bounds (fst x)) -> trees (snd x) -> W (f x) Q s') -> W (pbind get_bounds_arg f) Q s.
Proof.
  intros L H F. unfold get_bounds_arg. cbn [pbind]. apply (do_peek _ here); [apply stable_here|exact H|]. intros t _.
  assert (D : W (pbind (parse_next PaArg) (fun n => f (bl_none, [n]))) Q s).
  { apply p_next; [lia|exact H|]. intros n s1 H1 T. apply F; [exact H1|apply none_ok|now apply one_tree]. }
  destruct (unwrap_math (fst t)); try exact D; cbn [pbind].
  - (* a group *)
    eapply do_next; [exact H|]. intros t1 s1 T1. apply tok_here in T1.
    change (W (pbind (get_bounds None) (fun b => Call (CSeq (SeqEnd EtGroupClose) ClOpen false) (fun l => f (b, l)))) Q s1).
    apply p_bounds; [lia|exact T1|]. intros b s2 H2 Bb. apply call_seq; [exact L|exact H2|]. intros l s3 H3 Tl. now apply F.
  - eapply do_next; [exact H|]. intros t1 s1 T1. apply tok_here in T1. apply F; [exact T1| |constructor]. split; [exact I|first [exact I|apply prime_tree]].
  - eapply do_next; [exact H|]. intros t1 s1 T1. apply tok_here in T1. apply F; [exact T1| |constructor]. split; [exact I|first [exact I|apply prime_tree]].
Qed.
Lemma p_genfrac B (f : _ -> prog B) Q s : here s -> (forall d s', here s' -> delim_ok d -> W (f d) Q s') -> W (pbind genfrac_delimiter f) Q s.
Proof.
  intros H F. cbn [pbind genfrac_delimiter]. apply (do_argument _ here); [apply stable_here|exact H|]. intros x s1 H1 [P A].
  apply wp_bind. apply p_res; [now apply (here_failed L0 K)|apply into_one_or_none_crash|]. intros [t|sn] E.
  - apply p_res; [now apply (here_failed L0 K)|apply extract_crash|]. intros d D. apply F; [exact H1|].
    apply (into_one_or_none_ok P) in E; [|exact A]. exact (extract_delim _ _ _ _ E D).
  - apply F; [exact H1|exact I].
Qed.
Lemma p_fence B m (f : _ -> prog B) Q s : here s -> (forall d s', here s' -> delim_ok d -> W (f d) Q s') -> W (pbind (fence_delimiter m) f) Q s.
Proof.
  intros H F. cbn [pbind fence_delimiter]. eapply do_next; [exact H|]. intros t s1 T. destruct (is_full_stop (fst t)); [apply F; [now apply tok_here in T|exact I]|].
  apply wp_bind. apply p_res; [now apply (tok_failed L0 K t)|apply extract_crash|]. intros d D. apply F; [now apply tok_here in T|]. destruct T as (_ & _ & T). exact (extract_delim _ _ _ _ T D).
Qed.
Lemma p_script B (f : _ -> prog B) Q s : 4 * K <= B0 + 3 -> here s -> (forall n s', here s' -> tree_ok n -> W (f n) Q s') -> W (pbind script_node f) Q s.
Proof.
  intros L H F. cbn [pbind script_node]. eapply do_next; [exact H|]. intros t s1 T.
  assert (D : W (pbind (Do OView (fun v => Do (OSetStyle (style_scriptify (pv_style v))) (fun _ => Call (CTok t PaArg ClDefault) (fun r => Do (OSetStyle (pv_style v)) (fun _ => Ret (snd r)))))) f) Q s1).
  { cbn [pbind]. apply (do_view _ (tok t)); [apply stable_tok|exact T|]. intros v _. apply (do_style _ (tok t)); [apply stable_tok|exact T|]. intros _ s2 T2.
    apply call_tok; [exact L|exact T2|]. intros r s3 H3 R. apply (do_style _ here); [apply stable_here|exact H3|]. intros _ s4 H4. now apply F. }
  destruct (fst t); try exact D; now apply (tok_failed L0 K t).
Qed.
Lemma p_prime B kd (f : _ -> prog B) Q s : 4 * K <= B0 + 3 -> here s -> (forall n s', here s' -> tree_ok n -> W (f n) Q s') -> W (pbind (prime_script kd) f) Q s.
Proof.
  intros L H F. cbn [pbind prime_script]. apply (do_primes _ here); [apply stable_here|exact H|]. intros [primes caret] s1 H1. destruct caret; cbn [pbind].
  - apply (do_caret _ here); [apply stable_here|exact H1|]. intros _ s2 H2. apply wp_bind. apply p_script; [exact L|exact H2|]. intros n s3 H3 T. apply F; [exact H3|].
    apply one_or_row_tree. apply Forall_app. split; [apply primes_trees|now apply one_tree].
  - apply F; [exact H1|]. apply one_or_row_tree, primes_trees.
Qed.
End Pos.

(** ** Tokens *)

Definition due (L0 K : nat) (t : tokspan) (s : pstate) : Prop := steady s /\ room L0 K (tw (fst t) - 1) s /\ readies (fst t) s.
Lemma stable_due L0 K t : stable (due L0 K t).
Proof.
  split; [now intros s [H _]|]. intros s s' (Q1 & Q2 & Q3 & Q4) (H & R & T). split; [exact Q1|]. unfold room, L_Exec.readies in *. rewrite Q2, Q3. split; [lia|exact T].
Qed.
Lemma due_here L0 K t s : due L0 K t s -> here L0 K s.
Proof. intros (H & R & _). split; [exact H|]. unfold room in *. lia. Qed.
Lemma due_op L0 K n o (k : _ -> prog (class * node)) Q t s : due L0 K t s -> plain (A:=unit) o ->
  sp (exec o) (fun _ s' => steady s' /\ left_of s' = left_of s /\ load_of s' <= n + load_of s) failed s -> n <= tw (fst t) - 1 ->
  (forall s', here L0 K s' -> wp (below (L0, 4 * K)) (k tt) Q s') -> wp (below (L0, 4 * K)) (Do o k) Q s.
Proof.
  intros (H & R & T) P X L F. apply wp_do; [now apply plain_pre|]. eapply sp_mono; [exact X| |auto]. cbn beta. intros [] s' (A & B & C). apply F.
  split; [exact A|]. unfold room in *. rewrite B. lia.
Qed.
Lemma text_valid_one P t c : tok_ok P t -> tok_text t = [c] -> is_scalar c = true.
Proof. intros H E. apply text_valid in H. rewrite E in H. now apply one_valid in H. Qed.
Lemma padded_tree n a b c d e : tree_ok n -> tree_ok (Padded n a b c d e).
Proof. intros H. apply tree_node; [exact I|now apply one_tree]. Qed.
Lemma phantom_tree n : tree_ok n -> tree_ok (Phantom n).
Proof. intros H. apply tree_node; [exact I|now apply one_tree]. Qed.
Lemma enclose_tree n k : tree_ok n -> tree_ok (Enclose n k).
Proof. intros H. apply tree_node; [exact I|now apply one_tree]. Qed.
Lemma sqrt_tree n : tree_ok n -> tree_ok (Sqrt n).
Proof. intros H. apply tree_node; [exact I|now apply one_tree]. Qed.
Lemma root_tree a b : tree_ok a -> tree_ok b -> tree_ok (Root a b).
Proof. intros H1 H2. apply tree_node; [exact I|]. repeat (constructor; try assumption). Qed.
Lemma over_tree a b : tree_ok a -> tree_ok b -> tree_ok (Over a b).
Proof. intros H1 H2. apply tree_node; [exact I|]. repeat (constructor; try assumption). Qed.
Lemma under_tree a b : tree_ok a -> tree_ok b -> tree_ok (Under a b).
Proof. intros H1 H2. apply tree_node; [exact I|]. repeat (constructor; try assumption). Qed.
Lemma over_accent_tree c a n : sc_valid c = true -> attrs_ok a = true -> tree_ok n -> tree_ok (OverAccent c a n).
Proof. intros V A H. apply tree_node; [now split|now apply one_tree]. Qed.
Lemma under_accent_tree c a n : sc_valid c = true -> attrs_ok a = true -> tree_ok n -> tree_ok (UnderAccent c a n).
Proof. intros V A H. apply tree_node; [now split|now apply one_tree]. Qed.
Lemma under_over_tree a b c : tree_ok a -> tree_ok b -> tree_ok c -> tree_ok (UnderOver a b c).
Proof. intros H1 H2 H3. apply tree_node; [exact I|]. repeat (constructor; try assumption). Qed.
Lemma pseudo_tree a l r s : scalars s -> attrs_ok a = true -> tree_ok (PseudoOp a l r s).
Proof. intros H A. now apply tree_leaf. Qed.
Lemma op_limits_ok l m t : attrs_ok (snd (op_limits l m t)) = true.
Proof. destruct l as [[]|], m, t; reflexivity. Qed.
Lemma large_op_limits_ok l t : attrs_ok (snd (large_op_limits l t)) = true.
Proof. destruct l as [[]|], t; reflexivity. Qed.
Lemma pseudo_limits_ok l b t : attrs_ok (snd (pseudo_limits l b t)) = true.
Proof. destruct l as [[]|], b, t; reflexivity. Qed.
Lemma relation_attrs_ok c : attrs_ok (relation_attrs c) = true.
Proof. now destruct c. Qed.
Lemma middle_attrs_ok o : attrs_ok (middle_stretch_attrs o) = true.
Proof. unfold middle_stretch_attrs. now destruct (so_stretchy o). Qed.
Lemma arrow_attrs_ok c : attrs_ok (match c with RcA => A_EMPTY | _ => A_STRETCHY_TRUE end) = true.
Proof. now destruct c. Qed.
Lemma big_spacing_ok st p n pt d : attrs_ok (fst (big_spacing st p n pt d)) = true.
Proof. unfold big_spacing, big_attrs. destruct pt as [[]|], (so_spacing d), (so_stretchy d); reflexivity. Qed.
Lemma unknown_tree s : scalars s -> tree_ok (UnknownCommand s).
Proof. intros H. now apply tree_leaf. Qed.
Lemma eqref_tree s : typed s -> tree_ok (EqRef s).
Proof. intros H. now apply tree_leaf. Qed.
Lemma default_row_tree l : trees l -> tree_ok (Row l row_attrs_default).
Proof. intros H. now apply row_tree. Qed.
Lemma cons_trees n l : tree_ok n -> trees l -> trees (n :: l).
Proof. now constructor. Qed.
Lemma nil_trees : trees []. Proof. constructor. Qed.
Lemma app_trees l l' : trees l -> trees l' -> trees (l ++ l').
Proof. intros H1 H2. apply Forall_app. now split. Qed.
Lemma style_row_tree l st b : trees l -> tree_ok (Row l (mkRowAttrs None st b)).
Proof. intros H. now apply row_tree. Qed.
Lemma str_tree s : scalars s -> tree_ok (IdentifierStr s).
Proof. intros H. now apply tree_leaf. Qed.
Lemma nbsp_tree : tree_ok (Text None None [0xA0%N]).
Proof. now apply tree_leaf. Qed.
Lemma column_tree : tree_ok ColumnSeparator.
Proof. now apply tree_leaf. Qed.
Lemma sideset_tree o l l' b b' : tree_ok o -> trees l -> trees l' -> bounds_ok b -> bounds_ok b' ->
  tree_ok (match l' with
           | [] => Multiscripts (match l with [] => o | _ => Row (l ++ [o]) row_attrs_default end) [bounds_pair b] [bounds_pair b']
           | _ => Row (Multiscripts (match l with [] => o | _ => Row (l ++ [o]) row_attrs_default end) [bounds_pair b] [bounds_pair b'] :: l') row_attrs_default
           end).
Proof.
  intros Ho Hl Hl' Hb Hb'. assert (T : tree_ok (Multiscripts (match l with [] => o | _ => Row (l ++ [o]) row_attrs_default end) [bounds_pair b] [bounds_pair b'])).
  { apply multi_tree; [|constructor; [now apply pair_trees|constructor; [now apply pair_trees|constructor]]].
    destruct l; [exact Ho|]. apply default_row_tree, app_trees; [exact Hl|now apply one_tree]. }
  destruct l'; [exact T|]. apply default_row_tree. now constructor.
Qed.
#[local] Hint Resolve op_node_tree op_tree ident_tree letter_tree ord_tree paren_tree wrap_tree subsup_tree class_tree padded_tree phantom_tree
  enclose_tree sqrt_tree root_tree over_tree under_tree over_accent_tree under_accent_tree under_over_tree pseudo_tree unknown_tree eqref_tree
  default_row_tree cons_trees nil_trees app_trees style_row_tree str_tree nbsp_tree column_tree space_tree empty_row_tree vec_tree texts_tree
  texts_scalars frac_tree fenced_tree sc_valid_char : tree.
#[local] Hint Resolve relation_attrs_ok middle_attrs_ok arrow_attrs_ok : tree.
#[local] Hint Extern 1 (attrs_ok _ = true) => reflexivity : tree.
#[local] Hint Extern 1 (delim_ok _) => apply paren_delims : tree.

Section TokBody.
Context (L0 K : nat).
Notation W := (wp (below (L0, 4 * K))).
Lemma again_wp a prev (Q : class * node -> pstate -> Prop) s : here L0 K s -> (forall r s', here L0 K s' -> tree_ok (snd r) -> Q r s') ->
  W (Do ONext (fun t => Call (CTok t a prev) (fun r => Ret r))) Q s.
Proof. intros H F. eapply do_next; [exact H|]. intros t s1 T. apply (call_tok L0 K); [lia|exact T|]. intros r s2 H2 R. now apply F. Qed.

Ltac pos := first [apply stable_here|apply stable_tok|apply stable_due].
Ltac at_j tac :=
  match goal with
  | H : here _ _ ?s |- L_Wp.wp _ _ _ _ _ _ _ _ _ ?s => tac (here L0 K)
  | H : tok _ _ ?t ?s |- L_Wp.wp _ _ _ _ _ _ _ _ _ ?s => tac (tok L0 K t)
  end.
Ltac hr := first [eassumption|eapply tok_here; eassumption].
Ltac step :=
  cbv beta zeta;
  match goal with
  | |- L_Wp.wp _ _ _ _ _ _ _ (let (_, _) := op_limits ?l ?m ?t in _) _ _ => pose proof (op_limits_ok l m t); destruct (op_limits l m t); cbn [snd] in *
  | |- L_Wp.wp _ _ _ _ _ _ _ (let (_, _) := large_op_limits ?l ?t in _) _ _ => pose proof (large_op_limits_ok l t); destruct (large_op_limits l t); cbn [snd] in *
  | |- L_Wp.wp _ _ _ _ _ _ _ (let (_, _) := pseudo_limits ?l ?b ?t in _) _ _ => pose proof (pseudo_limits_ok l b t); destruct (pseudo_limits l b t); cbn [snd] in *
  | |- L_Wp.wp _ _ _ _ _ _ _ (let (_, _) := big_spacing ?a ?b ?c ?d ?e in _) _ _ => pose proof (big_spacing_ok a b c d e); destruct (big_spacing a b c d e); cbn [fst] in *
  | |- L_Wp.wp _ _ _ _ _ _ _ (let (_, _) := ?x in _) _ _ => destruct x
  | |- L_Wp.wp _ _ _ _ _ _ _ (if ?b then _ else _) _ _ => destruct b
  | |- L_Wp.wp _ _ _ _ _ _ _ (Ret _) _ _ => split; [hr|cbn [snd]]
  | |- L_Wp.wp _ _ _ _ _ _ _ (Fail _) _ _ => first [eapply fail_here; eassumption|eapply fail_tok; eassumption]
  | |- L_Wp.wp _ _ _ _ _ _ _ (fail _ _) _ _ => first [eapply fail_here; eassumption|eapply fail_tok; eassumption]
  | |- L_Wp.wp _ _ _ _ _ _ _ (Do ONext _) _ _ => eapply do_next; [hr|intros ? ? ?]
  | |- L_Wp.wp _ _ _ _ _ _ _ (Do OPeek _) _ _ => at_j ltac:(fun j => apply (do_peek _ j); [pos|assumption|intros ? ?])
  | |- L_Wp.wp _ _ _ _ _ _ _ (Do (OPeekClass _) _) _ _ => at_j ltac:(fun j => apply (do_class _ j); [pos|assumption|intros ? ? ?])
  | |- L_Wp.wp _ _ _ _ _ _ _ (Do OView _) _ _ => at_j ltac:(fun j => apply (do_view _ j); [pos|assumption|intros ? ?])
  | |- L_Wp.wp _ _ _ _ _ _ _ (Do (OSetTransform _) _) _ _ => at_j ltac:(fun j => apply (do_transform _ j); [pos|assumption|intros _ ? ?])
  | |- L_Wp.wp _ _ _ _ _ _ _ (Do (OSetHack _) _) _ _ => at_j ltac:(fun j => apply (do_hack _ j); [pos|assumption|intros _ ? ?])
  | |- L_Wp.wp _ _ _ _ _ _ _ (Do (OSetStyle _) _) _ _ => at_j ltac:(fun j => apply (do_style _ j); [pos|assumption|intros _ ? ?])
  | |- L_Wp.wp _ _ _ _ _ _ _ (Do OLiteral _) _ _ => at_j ltac:(fun j => apply (do_literal _ j); [pos|assumption|intros [? ?] ? ? ?])
  | |- L_Wp.wp _ _ _ _ _ _ _ (Do OArgument _) _ _ => at_j ltac:(fun j => apply (do_argument _ j); [pos|assumption|intros ? ? ? [? ?]])
  | |- L_Wp.wp _ _ _ _ _ _ _ (Do (OKern _ _) _) _ _ => at_j ltac:(fun j => apply (do_kern _ j); [pos|assumption|intros ? ? ? ?])
  | |- L_Wp.wp _ _ _ _ _ _ _ (Do (OColor _) _) _ _ => at_j ltac:(fun j => apply (do_color _ j); [pos|assumption|intros ? ? ? ?])
  | |- L_Wp.wp _ _ _ _ _ _ _ (Do (OText _ _ _) _) _ _ => at_j ltac:(fun j => apply (do_text _ j); [pos|assumption|intros ? ? ? ?])
  | |- L_Wp.wp _ _ _ _ _ _ _ (Do (ORow _) _) _ _ => at_j ltac:(fun j => apply (do_row _ j); [pos|assumption|intros ? ? ? ?])
  | |- L_Wp.wp _ _ _ _ _ _ _ (Call (CTok _ _ _) _) _ _ => apply (call_tok L0 K); [lia|assumption|intros [? ?] ? ? ?]
  | |- L_Wp.wp _ _ _ _ _ _ _ (Call (CSeq _ _ _) _) _ _ => apply (call_seq L0 K); [lia|hr|intros ? ? ? ?]
  | |- L_Wp.wp _ _ _ _ _ _ _ (pbind (parse_next _) _) _ _ => apply (p_next L0 K); [lia|hr|intros ? ? ? ?]
  | |- L_Wp.wp _ _ _ _ _ _ _ (pbind (seq_if_in_sequence _ _ _ _ _) _) _ _ => apply (p_seq L0 K); [lia|hr|intros ? ? ? ?]
  | |- L_Wp.wp _ _ _ _ _ _ _ (pbind (parse_mathop_spacing _ _ _) _) _ _ => apply (p_spacing L0 K); [hr|intros [? ?] ? ?]
  | |- L_Wp.wp _ _ _ _ _ _ _ (pbind (get_bounds None) _) _ _ => apply (p_bounds L0 K); [lia|hr|intros ? ? ? ?]
  | |- L_Wp.wp _ _ _ _ _ _ _ (pbind get_bounds_arg _) _ _ => apply (p_bounds_arg L0 K); [lia|hr|intros [? ?] ? ? ? ?]
  | |- L_Wp.wp _ _ _ _ _ _ _ (pbind genfrac_delimiter _) _ _ => apply (p_genfrac L0 K); [hr|intros ? ? ? ?]
  | |- L_Wp.wp _ _ _ _ _ _ _ (pbind (fence_delimiter _) _) _ _ => apply (p_fence L0 K); [hr|intros ? ? ? ?]
  | |- L_Wp.wp _ _ _ _ _ _ _ (pbind (pres _) _) _ _ =>
      apply p_res; [first [eapply here_failed; eassumption|eapply tok_failed; eassumption]
                   |first [apply into_one_crash|apply into_one_or_none_crash|apply extract_crash|apply genfrac_style_crash|apply raise_crash|apply no_limits_crash]
                   |intros ? ?]
  end.
Ltac tree := cbn [fst snd]; auto 20 with tree.
Ltac no_limits := match goal with H : ensure_no_limits _ = Ok _ |- _ => apply no_limits_bounds in H; subst end.

Lemma tok_wp t a prev s : due L0 K t s -> W (tok_body t a prev) (fun r s' => here L0 K s' /\ tree_ok (snd r)) s.
Proof.
  intros D. unfold tok_body. cbv zeta. apply (do_class _ (due L0 K t)); [pos|exact D|]. clear s D. intros next0 s D.
  apply (do_view _ (due L0 K t)); [pos|exact D|]. intros v Ev.
  set (next := if pv_hack v then _ else _). clearbody next.
  pose proof (due_here _ _ _ _ D) as H. pose proof (proj2 (proj2 D)) as T. unfold L_Exec.readies in T.
  pose proof (chars_valid _ _ T) as Vc. pose proof (text_valid _ _ T) as Vt. pose proof (letters_valid _ _ T) as Vl.
  destruct t as [t sn]. cbn [fst snd] in *.
  destruct t; cbn [tok_superchars tok_text] in Vc, Vt; try apply one_valid in Vc; try apply one_valid in Vt; cbv beta zeta.
  all: try (eapply fail_here; exact H).
  all: try (solve [repeat step; tree]).
  all: try (solve [repeat step; unfold class_node; no_limits; tree]).
  - (* T_Begin *)
    apply (wp_then _ _ _ _ _ _ _ _ _ _ _ (fun spec s' => here L0 K s' /\ match e with EArray | EDArray | ESubarray => spec <> None | _ => True end)).
    { assert (X : here L0 K s /\ True) by (now split). destruct e; try exact X; step; (destruct (parse_column_specification _); [split; [assumption|discriminate]|step]). }
    cbv beta. intros spec s1 [H1 Hs].
    apply (wp_then _ _ _ _ _ _ _ _ _ _ _ (fun _ s' => here L0 K s')).
    { destruct (env_allows_hlines e); [|exact H1]. step. destruct (fst t); try exact H1. step. now apply tok_here in H2. }
    cbv beta. intros border s2 H2. step. apply (do_env _ (here L0 K)); [pos|assumption|apply env_new_fine|]. intros _ ? ?.
    step. step. step. apply (do_env _ (here L0 K)); [pos|assumption|exact Ev|]. intros _ ? ?. step. destruct (fst t); try (eapply fail_tok; eassumption). step; [|step].
    apply (do_env_end _ (here L0 K)); [pos|eapply tok_here; eassumption| |].
    { match goal with E : env_fine (pv_env ?x) |- match es_numbered (pv_env ?x) with _ => _ end => exact E end. }
    intros [info rows] ? ? Hi. cbn [fst] in Hi.
    destruct (construct_node _ _ _ _ _ _) as [n|] eqn:C.
    + step. now apply (construct_tree _ _ _ _ _ _ _ ltac:(eassumption) Hi C).
    + exfalso. destruct e; try discriminate; (destruct spec; [discriminate|now apply Hs]).
  - (* T_Middle *) repeat step. apply op_node_tree; [|apply middle_attrs_ok]. destruct H0 as (_ & _ & H0). exact (extract_delim _ _ _ _ H0 H1).
  - (* T_Genfrac *) step. step. step. apply wp_bind.
    match goal with |- L_Wp.wp _ _ _ _ _ _ _ (match ?x with _ => _ end) ?Q ?s => assert (X : forall lt, Q lt s); [|destruct x as [|c r]; [apply X|]] end.
    { intros lt. repeat step. tree. }
    destruct (parse_length_specification (c :: r)) as [[[? ?] ?]|]; [apply X|step].
  - (* T_Underscore *) cbn [pbind get_bounds]. apply (call_bounds_first L0 K); [lia|exact H|exact I|]. intros b s1 H1 Bb Nb. step. no_limits. rewrite Nb. step. tree.
  - (* T_Circumflex *) cbn [pbind get_bounds]. apply (call_bounds_first L0 K); [lia|exact H|exact I|]. intros b s1 H1 Bb Nb. step. no_limits. rewrite Nb. step. tree.
  - (* T_Prescript *) repeat step. apply multi_tree; [assumption|]. constructor; [now split|constructor].
  - (* T_Sideset *) step. step. no_limits. step. step. no_limits. step. step. apply wp_bind.
    match goal with E : into_one _ = Ok ?b, A : arg_ok _ _ |- _ => apply (into_one_ok _ _ _ A) in E; unfold ts_ok in E; apply chars_valid in E; destruct b as [base bsn] end.
    cbn [fst snd] in *. destruct base; try step. cbn [tok_superchars] in *. match goal with E : forallb sc_valid [_] = true |- _ => apply one_valid in E end.
    destruct (op_cat o); try step; cbn [L_Wp.wp]; repeat step; cbn [snd].
    all: apply wrap_tree; [assumption|]. all: now apply sideset_tree; [apply op_node_tree; [assumption|now destruct (is_jop o)]|..].
  - (* T_OverUnderBrace *) destruct is_over; repeat step; tree.
  - (* T_Sqrt *) step. destruct (fst t); repeat step; tree.
  - (* T_CustomSpace *) step. destruct (parse_length_specification _) as [[[? ?] ?]|]; repeat step; tree.
  - (* T_Big *) step. step. match goal with T : tok _ _ _ _, E : extract_delimiter _ _ = Ok _ |- _ => pose proof (extract_delim _ _ _ _ (proj2 (proj2 T)) E) as Vd end.
    match goal with x : option paren_type |- _ => destruct x as [[]|] end; cbn [pbind]; repeat step; tree.
  - (* T_Accent *) repeat step. destruct is_over; tree.
  - (* T_Op *) apply wp_bind. match goal with |- L_Wp.wp _ _ _ _ _ _ _ _ ?Q _ => assert (X : forall b s', here L0 K s' -> bounds_ok (bl_bounds b) -> Q b s') end.
    { intros b s1 H1 Hb. repeat step. tree. }
    assert (X2 : W (get_bounds None) (fun b s' => here L0 K s' /\ bounds_ok (bl_bounds b)) s).
    { cbn [get_bounds]. apply (call_bounds L0 K); [lia|exact H|apply none_ok|]. intros r s1 H1 Br _. now split. }
    assert (X3 : W (Ret bl_none) (fun b s' => here L0 K s' /\ bounds_ok (bl_bounds b)) s) by (split; [exact H|apply none_ok]).
    destruct (op_cat o); (eapply wp_weak; [first [exact X2|exact X3]|]); intros b s1 [Y1 Y2]; now apply X.
  - (* T_Prime *) cbn [pbind get_bounds]. apply (call_bounds_first L0 K); [lia|exact H|exact I|]. intros b s1 H1 Bb Nb. step. no_limits. rewrite Nb. step. tree.
  - (* T_Dots *) apply (due_op L0 K 4 _ _ _ _ _ D); [exact I|apply exec_dots; [exact G_same|apply D]|cbn [fst tw]; lia|]. intros s1 H1. apply again_wp; [exact H1|]. intros r s2 H2 R. now split.
  - (* T_XArrow *) step. step. step. apply (wp_then _ _ _ _ _ _ _ _ _ _ _ (fun r s' => here L0 K s' /\ match fst r with Some u => tree_ok u | None => True end /\ tree_ok (snd r))).
    + match goal with T : tok _ _ ?t ?s |- _ => assert (X : W (Call (CTok t PaArg ClDefault) (fun p => let (_, n) := p in Ret (@None node, n))) (fun r s' => here L0 K s' /\ match fst r with Some u => tree_ok u | None => True end /\ tree_ok (snd r)) s) end.
      { step. split; [assumption|now split]. }
      destruct (fst t); try exact X. step. step. split; [assumption|]. split; [now apply vec_tree|assumption].
    + intros [[u|] n] s2 (? & Tu & Tn); cbn [fst snd] in *; repeat step; unfold LABEL_PAD, LABEL_SPACE, ARROW_SPACE; tree.
  - (* T_Letter *) step. apply letter_tree. exact (letter_plain _ _ _ T).
  - (* T_UprightLetter *) step. apply letter_tree. exact (upright_plain _ _ T).
  - (* T_Digit *) pose proof (digit_plain _ _ T) as Pd. assert (Nd : tree_ok (Number [c])).
    { apply tree_leaf; [|reflexivity]. split; [discriminate|]. cbn [forallb digit_or_dot]. cbn [letters_ok] in Vl. unfold digit_or_dot. now rewrite Vl. }
    destruct (pv_transform v) as [[|tf]|].
    + destruct a; try (step; exact Nd). apply (do_digits _ (here L0 K)); [pos|exact H|exact Vl|]. intros x s1 H1 T1. step. exact T1.
    + step. apply ident_tree. now apply transform_plain.
    + destruct a; try (step; exact Nd). apply (do_digits _ (here L0 K)); [pos|exact H|exact Vl|]. intros x s1 H1 T1. step. exact T1.
  - (* T_Overlay *) step. step. destruct (overlay_node o n) eqn:E; [|step]. step. now apply (overlay_tree o n).
  - (* T_Cramped *) step. destruct (fst t); try (repeat step; tree; fail). step. destruct (fst t0); cbn [pbind fail]; repeat step; try (tree; fail).
    destruct (fst t1); cbn [pbind fail]; repeat step; tree.
  - (* T_Color *) repeat step. apply row_tree; [assumption|]. match goal with c : N * N * N |- _ => destruct c as [[? ?] ?] end. assumption.
  - (* T_Phantom *) repeat step. destruct k; tree.
  - (* T_CustomCmd *) apply builtin_tok in T. apply wp_do; [split; [apply D|exact T]|]. eapply sp_mono; [apply (exec_expand cfg usize_max G G_same); [apply D|exact T]| |auto].
    cbv beta. intros _ s1 (H1 & L1 & _). apply again_wp; [|intros r s2 H2 R; now split]. destruct H as [_ R]. split; [exact H1|]. unfold room in *. lia.
  - (* T_CustomCmdRef *) apply wp_do; [split; [apply D|exact T]|]. eapply sp_mono; [apply (exec_expand_ref cfg usize_max G G_same); [apply D|exact T]| |auto].
    cbv beta. intros _ s1 (H1 & L1 & _). apply again_wp; [|intros r s2 H2 R; now split]. destruct H as [_ R]. split; [exact H1|]. unfold room in *. lia.
  - (* T_InternalStringLiteral *) destruct (pv_transform v) as [[|tf]|]; [step; tree| |step; tree].
    destruct (sc_string_some (map (fun c => transform_char tf c false) s0)) as (x & -> & Sx); [|step; tree].
    rewrite forallb_forall. intros y Iy. apply in_map_iff in Iy as (c & <- & Ic). apply transform_char_valid. rewrite forallb_forall in Vt. now apply Vt.
  - (* T_MathChoice *) apply (due_op L0 K 0 _ _ _ _ _ D); [exact I|apply exec_choice; [exact G_same|apply D]|lia|]. intros s1 H1. apply again_wp; [exact H1|]. intros r s2 H2 R. now split.
  - (* T_MathChoiceInternal *)
    set (u := match pv_style v with StDisplay => t1 | _ => _ end).
    assert (Hu : tok_okb u = true /\ means_eoi u = false /\ settled u = true).
    { cbn [tok_ok tok_okb] in T. apply andb_prop in T as [_ T]. apply andb_prop in T as [T T4]. apply andb_prop in T as [T T3]. apply andb_prop in T as [T1 T2].
      apply andb_prop in T1 as [T1 S1]. apply andb_prop in T1 as [T1 E1]. apply andb_prop in T2 as [T2 S2]. apply andb_prop in T2 as [T2 E2].
      apply andb_prop in T3 as [T3 S3]. apply andb_prop in T3 as [T3 E3]. apply andb_prop in T4 as [T4 S4]. apply andb_prop in T4 as [T4 E4].
      apply negb_true_iff in E1, E2, E3, E4. unfold u. destruct (pv_style v); auto. }
    destruct Hu as (U1 & U2 & U3).
    apply (due_op L0 K 1 _ _ _ _ _ D); [exact I|apply exec_chosen; [exact G_same|apply D|now apply tok_okb_ok|exact U3|exact U2]|cbn [fst tw]; lia|].
    intros s1 H1. apply again_wp; [exact H1|]. intros r s2 H2 R. now split.
Qed.

End TokBody.
Lemma tok_body_wp t a prev s : steady s -> readies (fst t) s ->
  wp (below (mu _ (CTok t a prev) s)) (tok_body t a prev) (call_post _ (CTok t a prev) s) s.
Proof.
  intros H T. destruct (tw (fst t)) eqn:E.
  - unfold tok_body. cbv zeta. apply (do_class _ steady); [apply stable_steady|exact H|]. intros c s1 H1.
    apply (do_view _ steady); [apply stable_steady|exact H1|]. intros v _. destruct (fst t); try discriminate; now apply steady_failed.
  - apply (tok_wp (left_of s) (tw (fst t) + load_of s) t a prev s). split; [exact H|]. split; [|exact T]. right. split; [reflexivity|]. lia.
Qed.

(** ** Sequences *)

Lemma seq_body_wp e prev keep s : steady s -> wp (below (mu _ (CSeq e prev keep) s)) (seq_body e prev keep) (call_post _ (CSeq e prev keep) s) s.
Proof.
  intros H. set (L0 := left_of s). set (K := S (load_of s)). assert (Hh : here L0 K s) by (split; [exact H|]; right; split; [reflexivity|unfold K; lia]).
  unfold seq_body. apply (do_view _ (here L0 K)); [apply stable_here|exact Hh|]. intros v _.
  apply (call_loop L0 K); [unfold K; lia|exact Hh|constructor|exact I|]. intros [nodes infix] s1 H1 T1 T2. cbv zeta.
  assert (F : forall s2, here L0 K s2 -> wp (below (mu _ (CSeq e prev keep) s)) (Do (OSetTransform (pv_transform v)) (fun _ => Do (OSetStyle (pv_style v)) (fun _ => Ret (infix_node infix nodes))))
    (call_post _ (CSeq e prev keep) s) s2).
  { intros s2 H2. apply (do_transform _ (here L0 K)); [apply stable_here|exact H2|]. intros _ s3 H3. apply (do_style _ (here L0 K)); [apply stable_here|exact H3|]. intros _ s4 H4.
    split; [exact H4|]. now apply infix_tree. }
  destruct keep; [now apply F|]. eapply do_next; [exact H1|]. intros t s2 T. apply F. now apply tok_here in T.
Qed.
Lemma do_define L0 K Gd B (o : op unit) (k : _ -> prog B) Q s : here L0 K s -> plain o -> sp (exec o) (fun _ s' => settles s s') failed s ->
  (forall s', here L0 K s' -> wp Gd (k tt) Q s') -> wp Gd (Do o k) Q s.
Proof.
  intros H P X F. apply wp_do; [apply plain_pre; [exact P|apply H]|]. eapply sp_mono; [exact X| |auto]. cbv beta. intros [] s' Y. apply F. now apply (here_settles _ _ s).
Qed.
Lemma loop_body_wp e prev nodes infix s : steady s -> trees nodes -> infix_ok infix ->
  wp (below (mu _ (CLoop e prev nodes infix) s)) (loop_body e prev nodes infix) (call_post _ (CLoop e prev nodes infix) s) s.
Proof.
  intros H Tn Ti. set (L0 := left_of s). set (K := load_of s). set (B0 := 4 * K + 1).
  change (wp (below (L0, B0)) (loop_body e prev nodes infix) (fun r s' => here L0 (S K) s' /\ trees (fst r) /\ infix_ok (snd r)) s).
  assert (Hh : here L0 (S K) s) by (split; [exact H|]; right; split; [reflexivity|unfold K; lia]).
  set (Q := fun r s' => here L0 (S K) s' /\ trees (fst r) /\ infix_ok (snd r)).
  assert (Loop : forall prev' nodes' infix' s', here L0 K s' -> trees nodes' -> infix_ok infix' -> wp (below (L0, B0)) (Call (CLoop e prev' nodes' infix') (fun r => Ret r)) Q s').
  { intros prev' nodes' infix' s' H' T1 T2. apply (call_loop L0 K); [unfold B0; lia|exact H'|exact T1|exact T2|]. intros r s2 H2 R1 R2. split; [|now split]. revert H2. apply here_le. lia. }
  assert (After : forall c target s', here L0 K s' -> tree_ok target -> wp (below (L0, B0))
    (sub bl := get_bounds None in sub b := pres (ensure_no_limits bl) in rec r := CLoop e c (nodes ++ [attach_bounds target b]) infix in Ret r) Q s').
  { intros c target s' H' T. apply (p_bounds L0 K); [unfold B0; lia|exact H'|]. intros b s2 H2 Hb. apply p_res; [now apply (here_failed L0 K)|apply no_limits_crash|].
    intros b' E. apply no_limits_bounds in E. subst b'. apply Loop; [exact H2| |exact Ti]. apply Forall_app. split; [exact Tn|]. apply one_tree. now apply attach_tree. }
  unfold loop_body. apply (do_peek _ (here L0 (S K))); [apply stable_here|exact Hh|]. intros t0 _. destruct (seq_end_matches e (fst t0)); [split; [exact Hh|now split]|]. cbv zeta.
  apply wp_do; [now apply plain_pre|]. eapply sp_mono; [apply (exec_letters cfg usize_max G G_same s H)| |auto]. cbv beta. intros [n|] s1 [Q1 X].
  { destruct X as [X1 X2]. apply After; [|exact X1]. destruct Q1 as (Y1 & Y2 & Y3 & Y4). split; [exact Y1|]. right. split; [exact Y2|exact X2]. }
  pose proof (here_quiet _ _ _ _ Q1 Hh) as H1. eapply do_next; [exact H1|]. intros t s2 T. cbv zeta.
  assert (Proc : wp (below (L0, B0)) (Call (CTok t PaSequence prev) (fun p => let (c, n) := p in
     sub bl := get_bounds None in sub b := pres (ensure_no_limits bl) in rec r := CLoop e c (nodes ++ [attach_bounds n b]) infix in Ret r)) Q s2).
  { split.
    - destruct T as (T1 & T2 & T3). split; [now split|]. unfold lex_lt, mu, room, B0 in *. cbn [fst snd]. lia.
    - intros [c n] s3 [H3 Tr]. apply After; [|exact Tr]. destruct T as (T1 & T2 & T3), H3 as [H3 R3]. split; [exact H3|]. unfold room in *. lia. }
  assert (Less : 1 <= tw (fst t) -> here L0 K s2) by (now apply tok_less).
  assert (Ag : forall s', here L0 K s' -> wp (below (L0, B0)) (Call (CLoop e prev nodes infix) (fun r => Ret r)) Q s') by (intros s' H'; now apply Loop).
  clear After. destruct (fst t) eqn:Et; try exact Proc; try (specialize (Less (le_n 1))).
  - destruct e; [now apply (tok_failed _ _ _ _ T)|exact Proc].
  - apply (do_view _ (here L0 K)); [apply stable_here|exact Less|]. intros v Ev. destruct (es_numbered (pv_env v)) as [ne|] eqn:En; [|now apply Ag].
    apply (do_env _ (here L0 K)); [apply stable_here|exact Less| |intros _ s3 H3; now apply Ag]. unfold env_fine in *. rewrite En in Ev. now apply numbered_notag_fine.
  - apply (do_literal _ (here L0 K)); [apply stable_here|exact Less|]. intros [name nsp] s3 H3 Hn. cbn [fst] in Hn.
    apply (do_view _ (here L0 K)); [apply stable_here|exact H3|]. intros v Ev. destruct (es_numbered (pv_env v)) as [ne|] eqn:En; [|now apply (here_failed _ _ _ H3)].
    apply (do_env _ (here L0 K)); [apply stable_here|exact H3| |intros _ s4 H4; now apply Ag]. unfold env_fine in *. rewrite En in Ev. apply numbered_tag_fine; [now apply typed_scalars|exact Ev].
  - apply (do_literal _ (here L0 K)); [apply stable_here|exact Less|]. intros [name nsp] s3 H3 Hn. cbn [fst] in Hn.
    apply (do_view _ (here L0 K)); [apply stable_here|exact H3|]. intros v Ev. destruct (es_numbered (pv_env v)) as [ne|] eqn:En; [|now apply (here_failed _ _ _ H3)].
    destruct (numbered_label name ne) as [ne'|] eqn:El; [|now apply (here_failed _ _ _ H3)].
    apply (do_env _ (here L0 K)); [apply stable_here|exact H3| |intros _ s4 H4; now apply Ag]. unfold env_fine in *. rewrite En in Ev. now apply (numbered_label_fine name ne).
  - destruct infix as [i|]; [now apply (here_failed _ _ _ Less)|]. apply (do_view _ (here L0 K)); [apply stable_here|exact Less|]. intros v _.
    apply (do_style _ (here L0 K)); [apply stable_here|exact Less|]. intros _ s3 H3. apply Loop; [exact H3|constructor|exact Tn].
  - apply (do_transform _ (here L0 K)); [apply stable_here|exact Less|]. intros _ s3 H3. now apply Ag.
  - apply (do_define L0 K); [exact Less|exact I|apply exec_define; auto; apply Less|exact Ag].
  - apply (do_define L0 K); [exact Less|exact I|apply exec_let; auto; apply Less|exact Ag].
  - apply (do_define L0 K); [exact Less|exact I|apply exec_def; auto; apply Less|exact Ag].
  - apply (do_define L0 K); [exact Less|exact I|apply exec_global; auto; apply Less|exact Ag].
  - apply (do_vld _ (here L0 K)); [apply stable_here|exact Less|]. intros _ s3 H3. now apply Ag.
  - now apply Ag.
Qed.

(** ** Scripts *)

Lemma bounds_rest L0 K B0 acc t (Q : bounds_limits -> pstate -> Prop) s : 4 * K <= B0 + 3 -> here L0 K s -> bounds_ok (bl_bounds acc) -> 
  (forall r s', here L0 K s' -> bounds_ok (bl_bounds r) ->
     (bounds_trivial (bl_bounds acc) = false \/ script_tok (unwrap_math (fst t)) -> bounds_trivial (bl_bounds r) = false) -> Q r s') ->
  match unwrap_math (fst t) with T_Circumflex | T_Prime _ | T_Underscore | T_Limits _ => True | _ => False end ->
  wp (below (L0, B0)) (match unwrap_math (fst t) with
     | T_Circumflex => sub n := script_node in match b_sup (bl_bounds acc) with Some _ => fail (snd t) E_DuplicateSubOrSup
           | None => rec r := CBounds None (mkBl (mkBounds (b_sub (bl_bounds acc)) (Some n)) (bl_limits acc)) in Ret r end
     | T_Prime k => sub n := prime_script k in match b_sup (bl_bounds acc) with Some _ => fail (snd t) E_DuplicateSubOrSup
           | None => rec r := CBounds None (mkBl (mkBounds (b_sub (bl_bounds acc)) (Some n)) (bl_limits acc)) in Ret r end
     | T_Underscore => sub n := script_node in match b_sub (bl_bounds acc) with Some _ => fail (snd t) E_DuplicateSubOrSup
           | None => rec r := CBounds None (mkBl (mkBounds (Some n) (b_sup (bl_bounds acc))) (bl_limits acc)) in Ret r end
     | T_Limits k => rec r := CBounds None (mkBl (bl_bounds acc) (Some (k, snd t))) in Ret r
     | _ => Ret acc
     end) Q s.
Proof.
  intros L H [B1 B2] F S0. destruct (unwrap_math (fst t)); try (destruct S0; fail); clear S0.
  - (* T_Underscore *) apply (p_script L0 K); [exact L|exact H|]. intros n s1 H1 Tn. destruct (b_sub (bl_bounds acc)); [now apply (here_failed _ _ _ H1)|].
    apply (call_bounds L0 K); [exact L|exact H1|split; [exact Tn|exact B2]|]. intros r s2 H2 Br N. apply F; auto.
  - (* T_Circumflex *) apply (p_script L0 K); [exact L|exact H|]. intros n s1 H1 Tn. destruct (b_sup (bl_bounds acc)); [now apply (here_failed _ _ _ H1)|].
    apply (call_bounds L0 K); [exact L|exact H1|split; [exact B1|exact Tn]|]. intros r s2 H2 Br N. apply F; auto. intros _. apply N. cbn. now destruct (b_sub (bl_bounds acc)).
  - (* T_Limits *) apply (call_bounds L0 K); [exact L|exact H|split; [exact B1|exact B2]|]. intros r s2 H2 Br N. apply F; auto. intros [X|[]]. now apply N.
  - (* T_Prime *) apply (p_prime L0 K); [exact L|exact H|]. intros n s1 H1 Tn. destruct (b_sup (bl_bounds acc)); [now apply (here_failed _ _ _ H1)|].
    apply (call_bounds L0 K); [exact L|exact H1|split; [exact B1|exact Tn]|]. intros r s2 H2 Br N. apply F; auto. intros _. apply N. cbn. now destruct (b_sub (bl_bounds acc)).
Qed.
Lemma script_unwrap t : script_tok t -> script_tok (unwrap_math t).
Proof. now destruct t. Qed.
Lemma bounds_body_wp first acc s : steady s -> bounds_ok (bl_bounds acc) ->
  wp (below (mu _ (CBounds first acc) s)) (bounds_body first acc) (call_post _ (CBounds first acc) s) s.
Proof.
  intros H B. destruct first as [t|].
  - set (L0 := left_of s). set (K := S (load_of s)). assert (Hh : here L0 K s) by (split; [exact H|]; right; split; [reflexivity|unfold K; lia]).
    assert (F : forall r s', here L0 K s' -> bounds_ok (bl_bounds r) ->
     (bounds_trivial (bl_bounds acc) = false \/ script_tok (unwrap_math (fst t)) -> bounds_trivial (bl_bounds r) = false) -> call_post _ (CBounds (Some t) acc) s r s').
    { intros r s' H' Br N. split; [exact H'|]. split; [exact Br|]. intros [X|X]; apply N; [now left|right; now apply script_unwrap]. }
    pose proof (bounds_rest L0 K (4 * load_of s + 1) acc t _ s ltac:(unfold K; lia) Hh B F) as R. unfold bounds_body. cbn [pbind]. cbv zeta.
    destruct (unwrap_math (fst t)) eqn:Et; try (exact (R I)); clear R.
    all: split; [exact Hh|]; split; [exact B|]; intros [X|X]; [exact X|apply script_unwrap in X; rewrite Et in X; destruct X].
  - set (L0 := left_of s). set (K := load_of s). assert (Hh : here L0 (S K) s) by (split; [exact H|]; right; split; [reflexivity|unfold K; lia]).
    unfold bounds_body. cbn [pbind]. cbv zeta.
    apply wp_do; [apply plain_pre; [exact I|assumption]|]. eapply sp_mono; [apply (exec_peek cfg usize_max G s); assumption| |auto].
    cbv beta. intros t s' (-> & _ & Ep & _).
    assert (Stay : call_post _ (CBounds None acc) s acc s) by (split; [exact Hh|]; split; [exact B|]; now intros [X|[]]).
    assert (Nx : forall C (p : prog C) Q, 1 <= tw (unwrap_math (fst t)) -> (forall s1, here L0 K s1 -> wp (below (L0, 4 * K)) p Q s1) -> wp (below (L0, 4 * K)) (Do ONext (fun _ => p)) Q s).
    { intros C p Q W F. apply wp_do; [apply plain_pre; [exact I|assumption]|]. eapply sp_mono; [apply (exec_next cfg usize_max G G_same s); assumption| |auto].
      cbv beta. intros t1 s1 (X1 & X2 & X3 & X4 & X5 & _). apply F. destruct X1 as (Y1 & Y2 & Y3 & Y4). split; [exact Y1|]. right. split; [exact Y2|].
      rewrite X5, <- Ep in X4. fold K in X4. cbn [Nat.add]. lia. }
    assert (F : forall r s', here L0 K s' -> bounds_ok (bl_bounds r) ->
     (bounds_trivial (bl_bounds acc) = false \/ script_tok (unwrap_math (fst t)) -> bounds_trivial (bl_bounds r) = false) -> call_post _ (CBounds None acc) s r s').
    { intros r s' H' Br N. split; [revert H'; apply here_le; fold K; lia|]. split; [exact Br|]. intros [X|[]]; apply N; now left. }
    pose proof (fun s1 H1 => bounds_rest L0 K (4 * K) acc t _ s1 ltac:(lia) H1 B F) as R.
    destruct (unwrap_math (fst t)) eqn:Et; try exact Stay; (apply Nx; [exact (le_n 1)|]; intros s1 H1; exact (R s1 H1 I)).
Qed.

(** ** All bodies *)

Theorem bodies_wp A (c : call A) s : call_pre A c s -> wp (below (mu A c s)) (body c) (call_post A c s) s.
Proof.
  destruct c; cbn [body]; intros [H P].
  - now apply seq_body_wp.
  - destruct P. now apply loop_body_wp.
  - now apply tok_body_wp.
  - now apply bounds_body_wp.
Qed.
Theorem bodies_any A (c : call A) s : call_pre A c s -> wp call_pre (body c) (call_post A c s) s.
Proof. intros H. apply bodies_wp in H. revert H. apply wp_mono; auto. now intros A' c' s' [X _]. Qed.
End R.
