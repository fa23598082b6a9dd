(** Runs of programs that succeed, from states whose remaining tokens are known. *)
From Verif Require Import Str M_SuperChar M_Transform M_Length M_Spec M_Ast M_Token M_Symbols M_Commands M_Env
  M_LatexError M_Lexer M_CustomCmds M_Queue M_Spacing M_Colors M_Leaf M_TextParser M_Parser
  S_Lexer S_Queue S_Scripts S_Formula S_Reading L_Queue L_Args L_Reads L_Wp L_Ends.
Local Open Scope nat_scope.

(** Kinds of errors that are expected. *)
Class fate := expected : err_kind -> Prop.
Definition no_error : fate := fun _ => False.

Section Wins.
Context {Ft : fate} (cfg : parser_cfg) (usize_max : N).
Notation exec := (exec cfg usize_max).
Notation ends := (ends cfg usize_max).

(** The program succeeds with a result and a state that satisfy [Q], or there is an error that is expected. *)
Definition settled {A} (Q : A -> pstate -> Prop) (r : res A) (s' : pstate) : Prop :=
  match r with Ok a => Q a s' | Err e => expected (err_kind_of e) | Crash _ => False end.
Definition wins {A} (p : prog A) (s : pstate) (Q : A -> pstate -> Prop) : Prop := exists r s', ends p s r s' /\ settled Q r s'.

Lemma wins_ret {A} (a : A) s (Q : A -> pstate -> Prop) : Q a s -> wins (Ret a) s Q.
Proof. intros H. exists (Ok a), s. split; [now apply ends_ret|exact H]. Qed.
Lemma wins_do {A B} (o : op B) (k : B -> prog A) s (Q : A -> pstate -> Prop) b s1 : exec o s = (Ok b, s1) -> wins (k b) s1 Q -> wins (Do o k) s Q.
Proof. intros E (a & s' & H & K). exists a, s'. split; [|exact K]. apply ends_do. now rewrite E. Qed.
Lemma wins_bind {A B} (p : prog B) (k : B -> prog A) s (Q : A -> pstate -> Prop) : wins p s (fun b s1 => wins (k b) s1 Q) -> wins (pbind p k) s Q.
Proof.
  intros ([b|e|c] & s1 & H & S1); [|exists (Err e), s1; split; [apply ends_bind; right; left; now exists e|exact S1]|destruct S1].
  destruct S1 as (a & s' & K & HQ). exists a, s'. split; [|exact HQ]. apply ends_bind. left. now exists b, s1.
Qed.
Lemma wins_call {A B} (c : call B) (k : B -> prog A) s (Q : A -> pstate -> Prop) : wins (body c) s (fun b s1 => wins (k b) s1 Q) -> wins (Call c k) s Q.
Proof.
  intros ([b|e|c0] & s1 & H & S1); [|exists (Err e), s1; split; [apply ends_call; right; left; now exists e|exact S1]|destruct S1].
  destruct S1 as (a & s' & K & HQ). exists a, s'. split; [|exact HQ]. apply ends_call. left. now exists b, s1.
Qed.
Lemma wins_mono {A} (p : prog A) s (Q Q' : A -> pstate -> Prop) : wins p s Q -> (forall a s', Q a s' -> Q' a s') -> wins p s Q'.
Proof. intros (a & s' & H & K) M. exists a, s'. split; [exact H|]. destruct a; [now apply M|exact K|exact K]. Qed.
Lemma wins_return {A} (c : call A) s (Q : A -> pstate -> Prop) : wins (body c) s Q -> wins (Call c (fun x => Ret x)) s Q.
Proof. intros H. apply wins_call. apply (wins_mono _ _ _ _ H). intros a s' K. now apply wins_ret. Qed.
Lemma wins_then {A B} (p : prog B) (k : B -> prog A) s (R : B -> pstate -> Prop) (Q : A -> pstate -> Prop) :
  wins p s R -> (forall b s1, R b s1 -> wins (k b) s1 Q) -> wins (pbind p k) s Q.
Proof. intros H K. apply wins_bind. now apply (wins_mono _ _ _ _ H). Qed.
Lemma wins_calls {A B} (c : call B) (k : B -> prog A) s (R : B -> pstate -> Prop) (Q : A -> pstate -> Prop) :
  wins (body c) s R -> (forall b s1, R b s1 -> wins (k b) s1 Q) -> wins (Call c k) s Q.
Proof. intros H K. apply wins_call. now apply (wins_mono _ _ _ _ H). Qed.
Lemma wins_pres {A B} (r : res B) (k : B -> prog A) s (Q : A -> pstate -> Prop) b : r = Ok b -> wins (k b) s Q -> wins (pbind (pres r) k) s Q.
Proof. intros -> H. exact H. Qed.

(** ** The queue *)

Context (local cmds : custom_cmds).
Notation q_view := (q_view cfg).
(** The tokens [ts] are left to be read. *)
Definition qat (d : numbering) (ts : list token) (q : queue) : Prop :=
  good_queue q /\ map qt_tok (fst (q_view q)) = ts /\ (exists sp, snd (q_view q) = LexEoi sp) /\
  q_local q = local /\ q_gs q = mkGs (nu_count d) (nu_labels d) cmds /\ (pc_ignore_unknown cfg = true \/ Forall (fun t => known t = true) ts).
(** Tokens that can be read. *)
Definition readable (t : token) : Prop := is_ws t = false.
Definition known_raw (t : token) : Prop := forall n, t <> T_UnresolvedCommand n.

Lemma ahead_eoi l sp : exists t, ahead (l, LexEoi sp) = Ok t.
Proof. unfold ahead. cbn [fst snd]. destruct (skip_blank l); cbn; eauto. Qed.
Lemma qat_keep d ts q q' : qat d ts q -> good_queue q' -> q_view q' = q_view q -> stored_as q q' -> qat d ts q'.
Proof. intros (G & V & E & L & Gs & K) G' V' [S1 S2]. split; [exact G'|]. rewrite V'. repeat split; congruence || assumption. Qed.
Lemma known_tail t ts : pc_ignore_unknown cfg = true \/ Forall (fun t => known t = true) (t :: ts) -> pc_ignore_unknown cfg = true \/ Forall (fun t => known t = true) ts.
Proof. intros [K|K]; [now left|right; now apply Forall_cons_iff in K as [_ K]]. Qed.
Lemma reject_ok x t ts : pc_ignore_unknown cfg = true \/ Forall (fun t => known t = true) (t :: ts) -> qt_tok x = unwrap_math t -> reject_unknown cfg x = None.
Proof.
  intros K E. unfold reject_unknown. rewrite E. destruct (unwrap_math t) eqn:U; try reflexivity. destruct K as [->|K]; [reflexivity|].
  apply Forall_cons_iff in K as [K _]. unfold known in K. now rewrite U in K.
Qed.
Lemma reject_known t : known_raw (qt_tok t) -> reject_unknown cfg t = None.
Proof. intros H. unfold reject_unknown. destruct (qt_tok t) eqn:E; try reflexivity. now destruct (H name). Qed.

(** Blanks in front. *)
Lemma bare_blank w : exists n, w = repeat T_Whitespace n ++ bare w /\ is_ws (hd T_Eoi (bare w)) = false.
Proof.
  induction w as [|t w (n & E & H)]; [now exists 0|]. destruct t; try (now exists 0). exists (S n). cbn [bare repeat app]. now rewrite <- E.
Qed.
Lemma bare_first w : is_ws (hd T_Eoi (bare w)) = false.
Proof. now destruct (bare_blank w) as (n & _ & H). Qed.
Lemma bare_same t r : is_ws t = false -> bare (t :: r) = t :: r.
Proof. now destruct t. Qed.
Lemma bare_head w t r : bare w = t :: r -> is_ws t = false.
Proof. intros E. pose proof (bare_first w) as H. now rewrite E in H. Qed.
Lemma bare_bare w : bare (bare w) = bare w.
Proof. pose proof (bare_first w) as H. destruct (bare w) as [|t r]; [reflexivity|]. now apply bare_same. Qed.
Lemma skip_bare l : map qt_tok (skip_blank l) = bare (map qt_tok l).
Proof.
  unfold skip_blank. induction l as [|x l IH]; [reflexivity|]. cbn [split_while map bare]. unfold blank_tok at 1. destruct (is_ws (qt_tok x)) eqn:E.
  - destruct (split_while blank_tok l) as [a b]. cbn [snd] in *. destruct (qt_tok x); try discriminate E. exact IH.
  - cbn [snd map]. destruct (qt_tok x); try reflexivity. discriminate E.
Qed.
Lemma bare_known w t r : pc_ignore_unknown cfg = true \/ Forall (fun t => known t = true) w -> bare w = t :: r -> pc_ignore_unknown cfg = true \/ Forall (fun t => known t = true) (t :: r).
Proof. intros [K|K] E; [now left|right]. destruct (bare_blank w) as (n & Ew & _). rewrite Ew, E in K. apply Forall_app in K. apply K. Qed.

Lemma qnext d w t ts q : qat d w q -> bare w = t :: ts ->
  exists x q', q_next cfg q = (Ok x, q') /\ qt_tok x = unwrap_math t /\ qat d ts q'.
Proof.
  intros (G & V & (sp & E) & L & Gs & Kn) B. pose proof (next_spec cfg q G) as N. rewrite E in N.
  pose proof (skip_bare (fst (q_view q))) as Sk. rewrite V, B in Sk. destruct (skip_blank (fst (q_view q))) as [|x r] eqn:Ev; [discriminate|]. cbn [map] in Sk. injection Sk as V1 V2.
  cbn [read_first] in N. destruct (ahead_eoi r sp) as (y & Y). rewrite Y in N. destruct N as (q' & N & G' & V' & S1 & S2).
  pose proof (bare_known _ _ _ Kn B) as Kb. rewrite (reject_ok _ t ts Kb) in N by (cbn [qt_unwrap qt_with qt_tok]; now rewrite V1). exists (qt_unwrap x), q'. split; [exact N|]. split; [cbn [qt_unwrap qt_with qt_tok]; now rewrite V1|].
  split; [exact G'|]. rewrite V'. cbn [fst snd]. repeat split; [exact V2|eauto|congruence|congruence|exact (known_tail _ _ Kb)].
Qed.
Lemma qnext_any d t ts q : qat d (t :: ts) q -> known_raw t ->
  exists x q', q_next_any cfg q = (Ok x, q') /\ qt_tok x = t /\ qat d ts q'.
Proof.
  intros (G & V & (sp & E) & L & Gs & Kn) K. pose proof (next_any_spec cfg q G) as N. rewrite (surjective_pairing (q_view q)), E in N.
  destruct (fst (q_view q)) as [|x r] eqn:Ev; [discriminate|]. cbn [map] in V. injection V as V1 V2.
  cbn [read_first] in N. destruct (ahead_eoi r sp) as (y & Y). rewrite Y in N. destruct N as (q' & N & G' & V' & S1 & S2).
  rewrite reject_known in N by (now rewrite V1). exists x, q'. split; [exact N|]. split; [exact V1|].
  split; [exact G'|]. rewrite V'. cbn [fst snd]. repeat split; [exact V2|eauto|congruence|congruence|exact (known_tail _ _ Kn)].
Qed.
Lemma qpeek d ts q : qat d ts q -> qt_tok (q_peek q) = hd T_Eoi (bare ts).
Proof.
  intros (G & V & (sp & E) & _). pose proof (good_ahead cfg q G) as A. unfold ahead in A. rewrite E in A. pose proof (skip_bare (fst (q_view q))) as Sk. rewrite V in Sk. rewrite <- Sk.
  destruct (skip_blank (fst (q_view q))) as [|x r]; cbn in A; now injection A as <-.
Qed.
Lemma qpeek_any d ts q : qat d ts q -> qt_tok (q_peek_any q) = hd T_Eoi ts.
Proof.
  intros (G & V & (sp & E) & _). pose proof (peek_any_front cfg q G) as A. rewrite (surjective_pairing (q_view q)), E in A.
  destruct (fst (q_view q)) as [|x r] eqn:Ev; cbn [map] in V; subst ts; cbn in A; injection A as <-; reflexivity.
Qed.
Lemma qpeek_second d w t ts q : qat d w q -> bare w = t :: ts ->
  exists x q', q_peek_second cfg q = (Ok x, q') /\ qt_tok x = hd T_Eoi (bare ts) /\ qat d w q'.
Proof.
  intros A B. pose proof A as (G & V & (sp & E) & L & Gs). pose proof (step_spec cfg QPeekSecond q G I) as K.
  rewrite (surjective_pairing (q_view q)), E in K. cbn [stream_step fst] in K.
  pose proof (skip_bare (fst (q_view q))) as Sk. rewrite V, B in Sk. destruct (skip_blank (fst (q_view q))) as [|x r] eqn:Ev; [discriminate|]. cbn [map] in Sk. injection Sk as V1 V2.
  unfold reply_of in K. cbn [fst snd] in K.
  assert (exists y, ahead (r, LexEoi sp) = Ok y /\ qt_tok y = hd T_Eoi (bare ts)) as (y & Y1 & Y2).
  { unfold ahead. cbn [fst snd]. pose proof (skip_bare r) as Sr. rewrite V2 in Sr. rewrite <- Sr. destruct (skip_blank r) as [|y r']; [eexists; split; reflexivity|]. exists y. split; reflexivity. }
  rewrite Y1 in K. destruct K as (q' & K & G' & V' & S). cbn [queue_step] in K. unfold q_reply in K.
  destruct (q_peek_second cfg q) as [[z|e|c] q2]; cbn [fst snd] in K; try discriminate K. injection K as -> ->. exists y, q'.
  split; [reflexivity|]. split; [exact Y2|]. apply (qat_keep d _ q); [exact A|exact G'| |exact S]. rewrite V'. now rewrite (surjective_pairing (q_view q)), E.
Qed.
Lemma class_ahead_app a b c : class_ahead (a ++ b) c = class_ahead a (class_ahead b c).
Proof. unfold class_ahead. induction a as [|t a IH]; [reflexivity|]. cbn [app find_map]. destruct (token_class t); [reflexivity|exact IH]. Qed.
Lemma qclass d ts q : qat d ts q -> exists i q', q_peek_class cfg q = (Ok (i, class_ahead ts ClEnd), q') /\ qat d ts q'.
Proof.
  intros A. pose proof A as (G & V & (sp & E) & L & Gs). pose proof (step_spec cfg QPeekClass q G I) as K.
  rewrite (surjective_pairing (q_view q)), E in K. cbn [stream_step fst] in K.
  destruct (split_while blank_tok (fst (q_view q))) as [bl l1] eqn:E1. destruct (split_while has_no_class l1) as [un l2] eqn:E2.
  assert (Forall (fun t => token_class (qt_tok t) = None) bl /\ fst (q_view q) = bl ++ l1) as [B1 B2].
  { revert E1. generalize (fst (q_view q)). clear. intros l. revert bl l1. induction l as [|x l IH]; intros bl l1 E1; cbn [split_while] in E1; [injection E1 as <- <-; now split|].
    destruct (blank_tok x) eqn:Bx; [|injection E1 as <- <-; now split]. destruct (split_while blank_tok l) as [a b] eqn:El. injection E1 as <- <-.
    destruct (IH a b eq_refl) as [I1 I2]. split; [|cbn [app]; now rewrite I2]. constructor; [|exact I1]. unfold blank_tok in Bx. destruct (qt_tok x); try discriminate Bx. reflexivity. }
  assert (Forall (fun t => token_class (qt_tok t) = None) un /\ l1 = un ++ l2 /\ match l2 with x :: _ => token_class (qt_tok x) <> None | [] => True end) as (U1 & U2 & U3).
  { revert E2. clear. revert un l2. induction l1 as [|x l IH]; intros un l2 E1; cbn [split_while] in E1; [injection E1 as <- <-; repeat split; constructor|].
    destruct (has_no_class x) eqn:Bx; [|injection E1 as <- <-; repeat split; [constructor|]; unfold has_no_class in Bx; destruct (token_class (qt_tok x)); [discriminate|discriminate Bx]].
    destruct (split_while has_no_class l) as [a b] eqn:El. injection E1 as <- <-.
    destruct (IH a b eq_refl) as (I1 & I2 & I3). split; [|split; [cbn [app]; now rewrite I2|exact I3]]. constructor; [|exact I1]. unfold has_no_class in Bx. destruct (token_class (qt_tok x)); [discriminate Bx|reflexivity]. }
  assert (Sk : forall a b, Forall (fun t => token_class (qt_tok t) = None) a -> class_ahead (map qt_tok (a ++ b)) ClEnd = class_ahead (map qt_tok b) ClEnd).
  { intros a b. unfold class_ahead. induction 1 as [|x a H F IH]; [reflexivity|]. cbn [app map find_map]. rewrite H. exact IH. }
  assert (exists x, front (l2, LexEoi sp) = Ok x /\ match token_class (qt_tok x) with Some c => c | None => ClEnd end = class_ahead ts ClEnd) as (x & X1 & X2).
  { rewrite <- V, B2, U2, !Sk by assumption. destruct l2 as [|x l2]; [eexists; split; reflexivity|]. exists x. split; [reflexivity|]. unfold class_ahead. cbn [map find_map].
    destruct (token_class (qt_tok x)); [reflexivity|now destruct U3]. }
  rewrite X1, X2 in K. destruct K as (q' & K & G' & V' & S). cbn [queue_step] in K. unfold q_reply in K.
  destruct (q_peek_class cfg q) as [[[i c]|e|c] q2]; cbn [fst snd] in K; try discriminate K. injection K as -> -> ->. eexists _, q'.
  split; [reflexivity|]. apply (qat_keep d _ q); [exact A|exact G'| |exact S]. rewrite V'. now rewrite (surjective_pairing (q_view q)), E.
Qed.

(** ** The state of the parser *)

Definition view_of (x : ctx) (d : numbering) (left : nat) : pview :=
  mkPv (cx_tf x) (cx_hack x) (mkEnvState (cx_cols x) (cx_rows x) (cx_hlines x) (nu_row d)) (cx_style x) None left.
(** In the context [x] and with the numbering [d] the tokens [ts] are left, and at least [n] uses of macros. *)
Definition at_ (n : nat) (x : ctx) (d : numbering) (ts : list token) (s : pstate) : Prop :=
  qat d ts (ps_queue s) /\ exists left, n <= left /\ ps_view s = view_of x d left.

Lemma on_queue_at {A} (m : St queue A) n x d ts ts' s (P : A -> Prop) : at_ n x d ts s ->
  (forall q, qat d ts q -> exists a q', m q = (Ok a, q') /\ P a /\ qat d ts' q') ->
  exists a s', on_queue m s = (Ok a, s') /\ P a /\ at_ n x d ts' s'.
Proof.
  intros [Aq (left & Lf & V)] H. destruct (H _ Aq) as (a & q' & E & Pa & A'). exists a, (mkPs q' (ps_view s)). split; [unfold on_queue; now rewrite E|].
  split; [exact Pa|]. split; [exact A'|]. now exists left.
Qed.
Lemma next_at {A} (k : tokspan -> prog A) n x d w t ts s Q : at_ n x d w s -> bare w = t :: ts ->
  (forall s1 sp, at_ n x d ts s1 -> wins (k (unwrap_math t, sp)) s1 Q) -> wins (Do ONext k) s Q.
Proof.
  intros At R H. destruct (on_queue_at (q_next cfg) n x d _ ts s (fun y => qt_tok y = unwrap_math t) At) as (y & s1 & E & Ey & A1).
  { intros q Aq. destruct (qnext d w t ts q Aq R) as (y & q' & N & T & A'). now exists y, q'. }
  eapply wins_do; [|apply (H s1 (qt_span y) A1)]. cbn [M_Parser.exec]. unfold next_tok, sbind. rewrite E. unfold sret, qt_tokspan. now rewrite Ey.
Qed.
Lemma peek_at {A} (k : tokspan -> prog A) n x d ts s Q : at_ n x d ts s ->
  (forall sp, wins (k (hd T_Eoi (bare ts), sp)) s Q) -> wins (Do OPeek k) s Q.
Proof.
  intros [Aq V] H. eapply wins_do; [|apply (H (qt_span (q_peek (ps_queue s))))]. cbn [M_Parser.exec]. unfold sbind, on_queue, sget, sret, qt_tokspan.
  rewrite (qpeek _ _ _ Aq). now destruct s.
Qed.
Lemma class_at {A} (k : class -> prog A) n x d ts s Q : at_ n x d ts s ->
  (forall s1, at_ n x d ts s1 -> wins (k (class_ahead ts ClEnd)) s1 Q) -> wins (Do (OPeekClass true) k) s Q.
Proof.
  intros At H. destruct (on_queue_at (q_peek_class cfg) n x d ts ts s (fun y => snd y = class_ahead ts ClEnd) At) as ([i c] & s1 & E & Ey & A1).
  { intros q Aq. destruct (qclass d ts q Aq) as (i & q' & N & A'). eexists _, q'. split; [exact N|]. now split. }
  cbn [snd] in Ey. subst c. eapply wins_do; [|apply (H s1 A1)]. cbn [M_Parser.exec]. unfold peek_class, sbind. rewrite E.
  destruct A1 as [_ (left & Lf & V1)]. unfold view, sget. rewrite V1. reflexivity.
Qed.
Lemma no_class_at {A} (k : class -> prog A) s Q : wins (k ClDefault) s Q -> wins (Do (OPeekClass false) k) s Q.
Proof. intros H. eapply wins_do; [reflexivity|exact H]. Qed.
Lemma view_at {A} (k : pview -> prog A) n x d ts s Q : at_ n x d ts s -> (forall left, wins (k (view_of x d left)) s Q) -> wins (Do OView k) s Q.
Proof. intros [_ (left & Lf & V)] H. eapply wins_do; [|apply (H left)]. cbn [M_Parser.exec]. unfold view, sget. now rewrite V. Qed.

Lemma style_at {A} (k : unit -> prog A) n st x d ts s Q : at_ n x d ts s -> (forall s1, at_ n (with_style st x) d ts s1 -> wins (k tt) s1 Q) -> wins (Do (OSetStyle st) k) s Q.
Proof. intros [Aq (left & Lf & V)] H. eapply wins_do; [reflexivity|]. apply H. split; [exact Aq|]. exists left. split; [exact Lf|]. cbn [ps_view]. now rewrite V. Qed.
Lemma transform_at {A} (k : unit -> prog A) n t x d ts s Q : at_ n x d ts s -> (forall s1, at_ n (with_tf t x) d ts s1 -> wins (k tt) s1 Q) -> wins (Do (OSetTransform t) k) s Q.
Proof. intros [Aq (left & Lf & V)] H. eapply wins_do; [reflexivity|]. apply H. split; [exact Aq|]. exists left. split; [exact Lf|]. cbn [ps_view]. now rewrite V. Qed.
Definition set_hack (h : bool) (x : ctx) : ctx := mkCx (cx_style x) (cx_tf x) h (cx_cols x) (cx_rows x) (cx_hlines x) (cx_bracket x).
Lemma hack_at {A} (k : unit -> prog A) n h x d ts s Q : at_ n x d ts s -> (forall s1, at_ n (set_hack h x) d ts s1 -> wins (k tt) s1 Q) -> wins (Do (OSetHack h) k) s Q.
Proof. intros [Aq (left & Lf & V)] H. eapply wins_do; [reflexivity|]. apply H. split; [exact Aq|]. exists left. split; [exact Lf|]. cbn [ps_view]. now rewrite V. Qed.
Definition set_flags (e : env_state) (x : ctx) : ctx :=
  mkCx (cx_style x) (cx_tf x) (cx_hack x) (es_allow_columns e) (es_meaningful_newlines e) (es_allow_hlines e) (cx_bracket x).
Definition set_row (r : option numbered_env) (d : numbering) : numbering := mkNu (nu_count d) (nu_labels d) r.
Lemma env_at {A} (k : unit -> prog A) n e x d ts s Q : at_ n x d ts s -> (forall s1, at_ n (set_flags e x) (set_row (es_numbered e) d) ts s1 -> wins (k tt) s1 Q) -> wins (Do (OSetEnv e) k) s Q.
Proof.
  intros [Aq (left & Lf & V)] H. eapply wins_do; [reflexivity|]. apply H. split; [exact Aq|]. exists left. split; [exact Lf|]. cbn [ps_view]. rewrite V. unfold view_of, pv_set_env, set_flags, set_row. cbn.
  now destruct e.
Qed.
(** Tokens put in front. *)
Lemma push_at {A} (o : op unit) (k : unit -> prog A) n x d l ts s Q : exec o = on_queue_pure (queue_in_front l) -> at_ n x d ts s ->
  Forall (fun t => not_eoi t = true) l -> Forall (fun t => known t = true) (map qt_tok l) ->
  (forall s1, at_ n x d (map qt_tok l ++ ts) s1 -> wins (k tt) s1 Q) -> wins (Do o k) s Q.
Proof.
  intros E [(G & V & En & L & Gs & Kn) Vw] Ne Kl H. destruct (push_spec cfg l (ps_queue s) G Ne) as (G' & V' & S1 & S2).
  eapply wins_do; [rewrite E; reflexivity|]. apply H. split; [|exact Vw]. cbn [ps_queue]. split; [exact G'|]. rewrite V'. cbn [fst snd].
  split; [rewrite map_app; now f_equal|]. split; [exact En|]. split; [congruence|]. split; [congruence|]. destruct Kn as [Kn|Kn]; [now left|right]. now apply Forall_app.
Qed.
(** The context does not tell whether the formula is in brackets. *)
Lemma at_bracket n b x d ts s : at_ n (in_bracket b x) d ts s <-> at_ n x d ts s.
Proof. reflexivity. Qed.
End Wins.
