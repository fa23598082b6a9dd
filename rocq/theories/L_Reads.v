(** Reading from a sound queue: no operation crashes, what is read is sound, and it is taken from the
    front of what is still to be read. *)
From Verif Require Import Str M_SuperChar M_Transform M_Length M_Spec M_Ast M_Token M_Symbols M_Commands M_Env
  M_LatexError M_Lexer M_CustomCmds M_Queue M_Spacing M_Colors M_Leaf M_TextParser
  S_SuperChar S_Lexer S_Queue S_Store L_SuperChar L_Lexer L_Queue L_Args L_Store L_Sound L_Define L_Keep.
Local Open Scope nat_scope.

(** ** Outcomes *)

(** Every outcome of [m] from [s]: a result satisfies [Q], an error leads to a state with [E], and
    there is no crash. *)
Definition sp {S A} (m : St S A) (Q : A -> S -> Prop) (E : S -> Prop) (s : S) : Prop :=
  match m s with
  | (Ok a, s') => Q a s'
  | (Err _, s') => E s'
  | (Crash _, _) => False
  end.
Notation no_err := (fun _ => True).

Lemma sp_ret {S A} (a : A) (Q : A -> S -> Prop) E s : Q a s -> sp (sret a) Q E s.
Proof. exact (fun H => H). Qed.
Lemma sp_fail {S A} sn k (Q : A -> S -> Prop) (E : S -> Prop) s : E s -> sp (sfail sn k) Q E s.
Proof. exact (fun H => H). Qed.
Lemma sp_get {S A} (f : S -> A) (Q : A -> S -> Prop) E s : Q (f s) s -> sp (sget f) Q E s.
Proof. exact (fun H => H). Qed.
Lemma sp_res {S A} (r : res A) (Q : A -> S -> Prop) (E : S -> Prop) s :
  (forall a, r = Ok a -> Q a s) -> (forall e, r = Err e -> E s) -> (forall c, r <> Crash c) -> sp (sres r) Q E s.
Proof. intros H1 H2 H3. unfold sp, sres. destruct r; [now apply H1|now apply (H2 e)|now apply (H3 c)]. Qed.
Lemma sp_opt {S A} (o : option A) (Q : A -> S -> Prop) E s : (exists a, o = Some a /\ Q a s) -> sp (sopt o) Q E s.
Proof. intros (a & -> & H). exact H. Qed.
Lemma sp_mono {S A} (m : St S A) (Q Q' : A -> S -> Prop) (E E' : S -> Prop) s :
  sp m Q E s -> (forall a s', Q a s' -> Q' a s') -> (forall s', E s' -> E' s') -> sp m Q' E' s.
Proof. unfold sp. intros H H1 H2. destruct (m s) as [[a|e|c] s']; auto. Qed.
Lemma sp_bind {S A B} (m : St S A) (k : A -> St S B) Q (E : S -> Prop) s :
  sp m (fun a s' => sp (k a) Q E s') E s -> sp (sbind m k) Q E s.
Proof. unfold sp, sbind. destruct (m s) as [[a|e|c] s']; auto. Qed.
Lemma sp_then {S A B} (m : St S A) (k : A -> St S B) (R : A -> S -> Prop) (Q : B -> S -> Prop) (E : S -> Prop) s :
  sp m R E s -> (forall a s', R a s' -> sp (k a) Q E s') -> sp (sbind m k) Q E s.
Proof. intros H K. apply sp_bind. revert H. unfold sp at 1 2. destruct (m s) as [[a|e|c] s']; auto. Qed.
(** Errors that are caught. *)
Lemma sp_try {S A} (m : St S A) (Q : option A -> S -> Prop) E s :
  sp m (fun a s' => Q (Some a) s') (fun s' => Q None s') s -> sp (stry m) Q E s.
Proof. unfold sp, stry. now destruct (m s) as [[a|e|c] s']. Qed.
(** The error state of a reader has the same stores. *)
Lemma sp_keep {A} (m : St queue A) Q q0 q : keeps same_stores m -> same_stores q0 q -> sp m Q no_err q -> sp m Q (same_stores q0) q.
Proof.
  intros K S. specialize (K q). unfold sp. destruct (m q) as [[a|e|c] q']; auto. intros _. exact (same_trans _ _ _ S K).
Qed.

Section Q.
Context (cfg : parser_cfg).
Notation q_view := (q_view cfg).
Notation sound := (sound_queue cfg).
Notation refs := (q_refs cfg).

(** ** The order of states *)

Definition reads (q q' : queue) : Prop :=
  sound q' /\ stored_as q q' /\ snd (q_view q') = snd (q_view q) /\ exists p, fst (q_view q) = p ++ fst (q_view q').
Lemma reads_sound q q' : reads q q' -> sound q'.
Proof. now intros []. Qed.
Lemma reads_stored q q' : reads q q' -> stored_as q q'.
Proof. now intros (_ & H & _). Qed.
Lemma reads_refl q : sound q -> reads q q.
Proof. intros H. split; [exact H|]. split; [now split|]. split; [reflexivity|]. now exists []. Qed.
Lemma reads_trans q1 q2 q3 : reads q1 q2 -> reads q2 q3 -> reads q1 q3.
Proof.
  intros (S1 & [A1 A2] & V1 & p1 & P1) (S2 & [B1 B2] & V2 & p2 & P2). split; [exact S2|]. split; [split; congruence|]. split; [congruence|].
  exists (p1 ++ p2). now rewrite P1, P2, app_assoc.
Qed.
Lemma reads_length q q' : reads q q' -> length (fst (q_view q')) <= length (fst (q_view q)).
Proof. intros (_ & _ & _ & p & ->). rewrite app_length. lia. Qed.
Lemma stored_refs q q' : stored_as q q' -> refs q' = refs q.
Proof. intros [H1 H2]. unfold q_refs. now rewrite H1, H2. Qed.
Lemma reads_refs q q' : reads q q' -> refs q' = refs q.
Proof. intros H. apply stored_refs, H. Qed.
Lemma stored_stores q q' : stored_as q q' -> stores_ok cfg q -> stores_ok cfg q'.
Proof. intros [H1 H2]. unfold stores_ok. now rewrite H1, H2. Qed.
Lemma reads_view q q' p : good_queue q' -> stored_as q q' -> fst (q_view q) = p ++ fst (q_view q') -> snd (q_view q') = snd (q_view q) ->
  sound q -> reads q q'.
Proof.
  intros G S P V (_ & So & F). split; [|split; [exact S|split; [exact V|now exists p]]]. split; [exact G|]. split; [exact (stored_stores _ _ S So)|].
  rewrite (stored_refs _ _ S). rewrite P in F. now apply Forall_app in F.
Qed.

(** ** Single tokens *)

Lemma eoi_ok P sn : qtok_ok P (eoi_at sn).
Proof. split; [reflexivity|exact I]. Qed.
Lemma qtok_unwrap_ok P t : qtok_ok P t -> qtok_ok P (qt_unwrap t).
Proof.
  intros [T N]. split; [now apply tok_ok_unwrap|]. cbn [qt_unwrap qt_with qt_name qt_tok]. destruct (qt_name t); [|exact I].
  destruct N as [N W]. split; [exact N|]. destruct (qt_tok t); exact W.
Qed.

(** The first token that is not a blank, which [next] reads; or the end. *)
Inductive took (q : queue) (x : qtok) (q' : queue) : Prop :=
| took_tok bl : fst (q_view q) = bl ++ x :: fst (q_view q') -> Forall (fun t => blank_tok t = true) bl -> blank_tok x = false ->
    not_eoi x = true -> took q x q'
| took_end sn : x = eoi_at sn -> Forall (fun t => blank_tok t = true) (fst (q_view q)) -> fst (q_view q') = [] -> took q x q'.
(** The first token, which [next_any] reads. *)
Inductive took_any (q : queue) (x : qtok) (q' : queue) : Prop :=
| took_any_tok : fst (q_view q) = x :: fst (q_view q') -> not_eoi x = true -> took_any q x q'
| took_any_end sn : x = eoi_at sn -> fst (q_view q) = [] -> fst (q_view q') = [] -> took_any q x q'.
Definition tok_fact (q : queue) (x : qtok) : Prop := qtok_ok (refs q) x.

Lemma peek_any_front q : good_queue q -> front (q_view q) = Ok (q_peek_any q).
Proof.
  intros G. pose proof (step_spec cfg QPeekAny q G I) as K. rewrite (surjective_pairing (q_view q)) in K. cbn [stream_step] in K.
  rewrite <- (surjective_pairing (q_view q)) in K. unfold reply_of in K. cbn [fst snd queue_step] in K.
  destruct (front (q_view q)) as [t|e|c].
  - destruct K as (q' & K & _). injection K as <- _. reflexivity.
  - destruct K as (q' & K). discriminate.
  - destruct K.
Qed.
Lemma peek_ok q : sound q -> tok_fact q (q_peek q).
Proof.
  intros (G & So & F). pose proof (good_ahead cfg q G) as A. unfold ahead in A.
  destruct (skip_blank_split (fst (q_view q))) as (bl & E & _). destruct (skip_blank (fst (q_view q))) as [|x r].
  - destruct (snd (q_view q)); cbn in A; [|discriminate]. injection A as <-. apply eoi_ok.
  - cbn in A. injection A as <-. rewrite E in F. apply Forall_app in F as [_ F]. now inversion F.
Qed.
Lemma peek_any_ok q : sound q -> tok_fact q (q_peek_any q).
Proof.
  intros (G & So & F). pose proof (peek_any_front q G) as A. destruct (q_view q) as [[|x r] e]; cbn [front fst] in *.
  - destruct e; [|discriminate]. injection A as <-. apply eoi_ok.
  - injection A as <-. now inversion F.
Qed.

Lemma next_unres_sp q (Q : qtok -> queue -> Prop) (E : queue -> Prop) : sound q -> (forall q', E q') ->
  (forall q', reads q q' -> took q (q_peek q) q' -> Q (qt_unwrap (q_peek q)) q') -> sp (q_next_unres cfg) Q E q.
Proof.
  intros Sq HE H. pose proof Sq as (G & So & F). pose proof (next_unres_spec cfg q G) as K. unfold sp.
  pose proof (good_ahead cfg q G) as A. unfold ahead in A.
  destruct (skip_blank_split (fst (q_view q))) as (bl & Eb & Fb & Nb).
  pose proof (read_first_cases (skip_blank (fst (q_view q)), snd (q_view q))) as C. cbn [fst snd] in C.
  destruct (read_first _) as [[t|e|c] s].
  - destruct K as (q' & -> & G' & V & St).
    destruct C as [(r & C1 & ->)|(C1 & sn & C2 & -> & ->)].
    + assert (skip_blank (fst (q_view q)) = t :: r) as Es by (now apply (f_equal fst) in C1).
      rewrite Es in A, Eb, Nb. cbn [front] in A. injection A as A. rewrite <- A in H. apply H.
      * apply (reads_view q q' (bl ++ [t])); auto; rewrite V; cbn [fst snd]; [now rewrite <- app_assoc|reflexivity].
      * apply (took_tok _ _ _ bl); [now rewrite V| |exact Nb|]; [exact Fb|].
        pose proof (view_no_eoi cfg q) as N. rewrite Eb in N. apply Forall_app in N as [_ N]. now inversion N.
    + rewrite C1, C2 in A. cbn [front] in A. injection A as A. rewrite <- A in H. rewrite C1, app_nil_r in Eb. apply H.
      * apply (reads_view q q' bl); auto; rewrite V; cbn [fst snd]; [now rewrite C1, app_nil_r|reflexivity].
      * apply (took_end _ _ _ sn eq_refl); [now rewrite Eb|]. now rewrite V, C1.
  - destruct K as (q' & ->). apply HE.
  - destruct K.
Qed.
Lemma next_any_unres_sp q (Q : qtok -> queue -> Prop) (E : queue -> Prop) : sound q -> (forall q', E q') ->
  (forall q', reads q q' -> took_any q (q_peek_any q) q' -> Q (q_peek_any q) q') -> sp (q_next_any_unres cfg) Q E q.
Proof.
  intros Sq HE H. pose proof Sq as (G & So & F). pose proof (next_any_unres_spec cfg q G) as K. unfold sp.
  pose proof (peek_any_front q G) as A. pose proof (read_first_cases (q_view q)) as C.
  destruct (read_first _) as [[t|e|c] s].
  - destruct K as (q' & -> & G' & V & St).
    destruct C as [(r & C1 & ->)|(C1 & sn & C2 & -> & ->)].
    + rewrite C1 in A. cbn [front] in A. injection A as A. rewrite <- A in H. apply H.
      * apply (reads_view q q' [t]); auto; rewrite V; cbn [fst snd]; [now rewrite C1|reflexivity].
      * apply took_any_tok; [rewrite C1, V; reflexivity|].
        pose proof (view_no_eoi cfg q) as N. rewrite C1 in N. now inversion N.
    + rewrite (surjective_pairing (q_view q)), C1, C2 in A. cbn [front] in A. injection A as A. rewrite <- A in H. apply H.
      * apply (reads_view q q' []); auto; rewrite V; [now rewrite C1|reflexivity].
      * apply (took_any_end _ _ _ sn eq_refl); [exact C1|]. now rewrite V.
  - destruct K as (q' & ->). apply HE.
  - destruct K.
Qed.
Lemma next_sp q (Q : qtok -> queue -> Prop) (E : queue -> Prop) : sound q -> (forall q', E q') ->
  (forall q', reads q q' -> took q (q_peek q) q' -> reject_unknown cfg (qt_unwrap (q_peek q)) = None -> Q (qt_unwrap (q_peek q)) q') ->
  sp (q_next cfg) Q E q.
Proof.
  intros Sq HE H. unfold sp, q_next. rewrite rejecting_eq.
  pose proof (next_unres_sp q (fun t q' => t = qt_unwrap (q_peek q) /\ reads q q' /\ took q (q_peek q) q') no_err Sq (fun _ => I) (fun q' a b => conj eq_refl (conj a b))) as K.
  unfold sp in K. destruct (q_next_unres cfg q) as [[t|e|c] q']; cbn [fst snd]; [|apply HE|exact K].
  destruct K as (-> & K1 & K2). destruct (reject_unknown cfg _) eqn:R; [apply HE|]. now apply H.
Qed.
Lemma next_any_sp q (Q : qtok -> queue -> Prop) (E : queue -> Prop) : sound q -> (forall q', E q') ->
  (forall q', reads q q' -> took_any q (q_peek_any q) q' -> reject_unknown cfg (q_peek_any q) = None -> Q (q_peek_any q) q') ->
  sp (q_next_any cfg) Q E q.
Proof.
  intros Sq HE H. unfold sp, q_next_any. rewrite rejecting_eq.
  pose proof (next_any_unres_sp q (fun t q' => t = q_peek_any q /\ reads q q' /\ took_any q (q_peek_any q) q') no_err Sq (fun _ => I) (fun q' a b => conj eq_refl (conj a b))) as K.
  unfold sp in K. destruct (q_next_any_unres cfg q) as [[t|e|c] q']; cbn [fst snd]; [|apply HE|exact K].
  destruct K as (-> & K1 & K2). destruct (reject_unknown cfg _) eqn:R; [apply HE|]. now apply H.
Qed.

(** Looking further ahead. *)
Lemma same_sound q q' : good_queue q' -> q_view q' = q_view q -> stored_as q q' -> sound q -> sound q'.
Proof.
  intros G V S (_ & So & F). split; [exact G|]. split; [exact (stored_stores _ _ S So)|]. now rewrite V, (stored_refs _ _ S).
Qed.
Definition same (q q' : queue) : Prop := sound q' /\ stored_as q q' /\ q_view q' = q_view q.
Lemma same_reads q q' : same q q' -> reads q q'.
Proof. intros (S & St & V). split; [exact S|]. split; [exact St|]. rewrite V. split; [reflexivity|]. now exists []. Qed.
Lemma peek_second_sp q (Q : qtok -> queue -> Prop) (E : queue -> Prop) : sound q -> (forall q', E q') ->
  (forall t q', same q q' -> Ok t = match skip_blank (fst (q_view q)) with _ :: r => ahead (r, snd (q_view q)) | [] => ahead (q_view q) end -> Q t q') ->
  sp (q_peek_second cfg) Q E q.
Proof.
  intros Sq HE H. pose proof Sq as (G & So & F). pose proof (step_spec cfg QPeekSecond q G I) as K.
  rewrite (surjective_pairing (q_view q)) in K. cbn [stream_step queue_step fst snd] in K. rewrite <- (surjective_pairing (q_view q)) in K.
  unfold sp. unfold reply_of, q_reply in K. cbn [fst snd] in K.
  destruct (match skip_blank (fst (q_view q)) with _ :: r => ahead (r, snd (q_view q)) | [] => ahead (q_view q) end) as [t|e|c] eqn:X.
  - destruct K as (q' & K1 & K2 & K3 & K4). destruct (q_peek_second cfg q) as [[t'|e'|c'] q2]; cbn [fst snd] in K1; try discriminate.
    injection K1 as -> ->. apply H; [|reflexivity]. split; [exact (same_sound _ _ K2 K3 K4 Sq)|]. split; [exact K4|exact K3].
  - destruct K as (q' & K1). destruct (q_peek_second cfg q) as [[t'|e'|c'] q2]; cbn [fst snd] in K1; try discriminate. apply HE.
  - destruct K.
Qed.
Lemma peek_class_sp q (Q : nat * class -> queue -> Prop) (E : queue -> Prop) : sound q -> (forall q', E q') ->
  (forall ic q', same q q' -> Q ic q') -> sp (q_peek_class cfg) Q E q.
Proof.
  intros Sq HE H. pose proof Sq as (G & So & F). pose proof (step_spec cfg QPeekClass q G I) as K.
  rewrite (surjective_pairing (q_view q)) in K. cbn [stream_step queue_step fst snd] in K. rewrite <- (surjective_pairing (q_view q)) in K.
  destruct (split_while blank_tok (fst (q_view q))) as [bl l1]. destruct (split_while has_no_class l1) as [un l2].
  unfold sp. unfold q_reply in K. destruct (front (l2, snd (q_view q))) as [t|e|c].
  - destruct K as (q' & K1 & K2 & K3 & K4). destruct (q_peek_class cfg q) as [[t'|e'|c'] q2]; cbn [fst snd] in K1; try discriminate.
    injection K1 as _ _ ->. apply H. split; [exact (same_sound _ _ K2 K3 K4 Sq)|]. split; [exact K4|exact K3].
  - destruct K as (q' & K1). destruct (q_peek_class cfg q) as [[t'|e'|c'] q2]; cbn [fst snd] in K1; try discriminate. apply HE.
  - destruct K.
Qed.
End Q.
