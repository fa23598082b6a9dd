(** Reasoning about programs of the parser: what has to hold before each operation and each call, and
    what then holds of every run. *)
From Coq Require Import Wellfounded Lexicographic_Product Relation_Operators.
From Verif Require Import Str M_SuperChar M_Transform M_Length M_Spec M_Ast M_Token M_Symbols M_Commands M_Env
  M_LatexError M_Lexer M_CustomCmds M_Queue M_Spacing M_Leaf M_TextParser M_Parser S_Run.
Local Open Scope nat_scope.

Section Wp.
Context (cfg : parser_cfg) (usize_max : N).
Notation exec := (exec cfg usize_max).
Notation run := (run cfg usize_max).
Notation trun := (trun cfg usize_max).

(** ** Equations *)

Lemma run_ret f A (a : A) s : run f (Ret a) s = (Ok a, s). Proof. now destruct f. Qed.
Lemma run_fail f A e s : run f (@Fail A e) s = (Err e, s). Proof. now destruct f. Qed.
Lemma run_stop f A c s : run f (@Stop A c) s = (Crash c, s). Proof. now destruct f. Qed.
Lemma run_do f A B (o : op B) (k : B -> prog A) s :
  run f (Do o k) s = match exec o s with (Ok a, s') => run f (k a) s' | (Err e, s') => (Err e, s') | (Crash c, s') => (Crash c, s') end.
Proof. now destruct f. Qed.
Lemma run_call f A B (c : call B) (k : B -> prog A) s :
  run (S f) (Call c k) s = match run f (body c) s with (Ok a, s') => run (S f) (k a) s' | (Err e, s') => (Err e, s') | (Crash c, s') => (Crash c, s') end.
Proof. reflexivity. Qed.
Lemma trun_ret f A (a : A) s : trun f (Ret a) s = ([], (Ok a, s)). Proof. now destruct f. Qed.
Lemma trun_fail f A e s : trun f (@Fail A e) s = ([], (Err e, s)). Proof. now destruct f. Qed.
Lemma trun_stop f A c s : trun f (@Stop A c) s = ([], (Crash c, s)). Proof. now destruct f. Qed.
Lemma trun_do f A B (o : op B) (k : B -> prog A) s :
  trun f (Do o k) s = match exec o s with
    | (Ok a, s') => let (l, r) := trun f (k a) s' in (Performed o s (Ok a) s' :: l, r)
    | (Err e, s') => ([Performed o s (Err e) s'], (Err e, s'))
    | (Crash c, s') => ([Performed o s (Crash c) s'], (Crash c, s')) end.
Proof. now destruct f. Qed.
Lemma trun_call f A B (c : call B) (k : B -> prog A) s :
  trun (S f) (Call c k) s = match trun f (body c) s with
    | (l1, (Ok a, s')) => let (l2, r) := trun (S f) (k a) s' in (l1 ++ l2, r)
    | (l1, (Err e, s')) => (l1, (Err e, s'))
    | (l1, (Crash c, s')) => (l1, (Crash c, s')) end.
Proof. reflexivity. Qed.

(** The list of operations does not change the result. *)
Lemma trun_run f : forall A (p : prog A) s, snd (trun f p s) = run f p s.
Proof.
  induction f as [|f IH]; intros A p; induction p as [b|e|c|B o k IHk|B c k IHk]; intros s;
    rewrite ?trun_ret, ?trun_fail, ?trun_stop, ?run_ret, ?run_fail, ?run_stop; try reflexivity.
  - rewrite trun_do, run_do. destruct (exec o s) as [[a|e|c] s']; try reflexivity. rewrite <- IHk. now destruct (trun 0 (k a) s').
  - rewrite trun_do, run_do. destruct (exec o s) as [[a|e|c] s']; try reflexivity. rewrite <- IHk. now destruct (trun (S f) (k a) s').
  - rewrite trun_call, run_call, <- IH. destruct (trun f (body c) s) as [l [[a|e|cr] s']]; try reflexivity. cbn [snd]. rewrite <- IHk.
    now destruct (trun (S f) (k a) s').
Qed.

(** ** Conditions *)

Section Cond.
Context (PreO : forall A, op A -> pstate -> Prop) (PostC : forall A, call A -> pstate -> A -> pstate -> Prop)
  (E : latex_error -> pstate -> Prop) (C : crash -> Prop).

Fixpoint wp (Guard : forall A, call A -> pstate -> Prop) {B} (p : prog B) (Q : B -> pstate -> Prop) (s : pstate) : Prop :=
  match p with
  | Ret b => Q b s
  | Fail e => E e s
  | Stop c => C c
  | Do o k => PreO _ o s /\ match exec o s with (Ok a, s') => wp Guard (k a) Q s' | (Err e, s') => E e s' | (Crash c, _) => C c end
  | Call c k => Guard _ c s /\ forall a s', PostC _ c s a s' -> wp Guard (k a) Q s'
  end.

Lemma wp_mono (G1 G2 : forall A, call A -> pstate -> Prop) B (p : prog B) (Q1 Q2 : B -> pstate -> Prop) :
  (forall A (c : call A) s, G1 A c s -> G2 A c s) -> (forall b s, Q1 b s -> Q2 b s) -> forall s, wp G1 p Q1 s -> wp G2 p Q2 s.
Proof.
  intros HG HQ. induction p as [b|e|c|A o k IH|A c k IH]; intros s; cbn [wp]; auto.
  - intros [P K]. split; [exact P|]. destruct (exec o s) as [[a|e|c] s']; auto.
  - intros [P K]. split; [now apply HG|]. intros a s' H. apply IH. now apply K.
Qed.
Lemma wp_bind G A B (p : prog A) (f : A -> prog B) Q : forall s, wp G p (fun a s' => wp G (f a) Q s') s -> wp G (pbind p f) Q s.
Proof.
  induction p as [b|e|c|X o k IH|X c k IH]; intros s; cbn [wp pbind]; auto.
  - intros [P K]. split; [exact P|]. destruct (exec o s) as [[a|e|c] s']; auto.
  - intros [P K]. split; [exact P|]. intros a s' H. apply IH. now apply K.
Qed.
Lemma wp_then G A B (p : prog A) (f : A -> prog B) R Q s :
  wp G p R s -> (forall a s', R a s' -> wp G (f a) Q s') -> wp G (pbind p f) Q s.
Proof. intros H K. apply wp_bind. revert H. apply wp_mono; auto. Qed.

Definition good_event (e : performed) : Prop := match e with Performed o s _ _ => PreO _ o s end.
Definition good_result {B} (Q : B -> pstate -> Prop) (C : crash -> Prop) (r : res B * pstate) : Prop :=
  match r with (Ok b, s) => Q b s | (Err e, s) => E e s | (Crash c, _) => C c end.

(** *** For any fuel *)

Section Partial.
Context (PreC : forall A, call A -> pstate -> Prop)
  (HB : forall A (c : call A) s, PreC A c s -> wp PreC (body c) (PostC A c s) s).

Lemma trun_good f : forall A (p : prog A) Q s, wp PreC p Q s ->
  Forall good_event (fst (trun f p s)) /\ good_result Q (fun c => C c \/ c = OutOfFuel) (snd (trun f p s)).
Proof.
  induction f as [|f IH]; intros A p Q; induction p as [b|e|c|B o k IHk|B c k IHk]; intros s; cbn [wp];
    rewrite ?trun_ret, ?trun_fail, ?trun_stop; cbn [fst snd good_result]; try (intros H; split; [constructor|auto]; fail).
  - intros [P K]. rewrite trun_do. destruct (exec o s) as [[a|e|c] s'].
    + specialize (IHk a s' K). destruct (trun 0 (k a) s') as [l r]. destruct IHk as [I1 I2]. split; [now constructor|exact I2].
    + split; [now repeat constructor|exact K].
    + split; [now repeat constructor|left; exact K].
  - intros [P K]. cbn. split; [constructor|now right].
  - intros [P K]. rewrite trun_do. destruct (exec o s) as [[a|e|c] s'].
    + specialize (IHk a s' K). destruct (trun (S f) (k a) s') as [l r]. destruct IHk as [I1 I2]. split; [now constructor|exact I2].
    + split; [now repeat constructor|exact K].
    + split; [now repeat constructor|left; exact K].
  - intros [P K]. rewrite trun_call. destruct (IH _ (body c) _ s (HB _ c s P)) as [I1 I2].
    destruct (trun f (body c) s) as [l1 [[a|e|cr] s']]; cbn [fst snd good_result] in *.
    + specialize (IHk a s' (K a s' I2)). destruct (trun (S f) (k a) s') as [l2 r]. destruct IHk as [J1 J2]. cbn [fst snd] in *.
      split; [now apply Forall_app|exact J2].
    + split; [exact I1|exact I2].
    + split; [exact I1|exact I2].
Qed.
Lemma run_good f A (p : prog A) Q s : wp PreC p Q s -> good_result Q (fun c => C c \/ c = OutOfFuel) (run f p s).
Proof. intros H. rewrite <- trun_run. apply (trun_good f A p Q s H). Qed.
End Partial.

(** *** Termination *)

Section Total.
Context (PreC : forall A, call A -> pstate -> Prop) (mu : forall A, call A -> pstate -> nat * nat).
Definition lex_lt (a b : nat * nat) : Prop := fst a < fst b \/ fst a = fst b /\ snd a < snd b.
Definition below (m : nat * nat) : forall A, call A -> pstate -> Prop := fun A c s => PreC A c s /\ lex_lt (mu A c s) m.
Context (HB : forall A (c : call A) s, PreC A c s -> wp (below (mu A c s)) (body c) (PostC A c s) s).

Lemma lex_lt_wf : well_founded lex_lt.
Proof.
  assert (H : forall a b, Acc lex_lt (a, b)).
  { intros a. induction a as [a IHa] using lt_wf_ind. intros b. induction b as [b IHb] using lt_wf_ind.
    constructor. intros [a' b'] [L|[L1 L2]]; cbn [fst snd] in *; [now apply IHa|]. subst a'. now apply IHb. }
  intros [a b]. apply H.
Qed.

Definition halts {B} (p : prog B) (Q : B -> pstate -> Prop) (s : pstate) : Prop :=
  exists F r, (forall f, F <= f -> run f p s = r) /\ good_result Q C r.

Lemma wp_halts m : (forall A (c : call A) s, PreC A c s -> lex_lt (mu A c s) m -> halts (body c) (PostC A c s) s) ->
  forall B (p : prog B) Q s, wp (below m) p Q s -> halts p Q s.
Proof.
  intros IH B p Q. induction p as [b|e|c|A o k IHk|A c k IHk]; intros s; cbn [wp].
  - intros H. exists 0. eexists. split; [intros f _; apply run_ret|exact H].
  - intros H. exists 0. eexists. split; [intros f _; apply run_fail|exact H].
  - intros H. exists 0. eexists. split; [intros f _; apply run_stop|exact H].
  - intros [P K]. destruct (exec o s) as [[a|e|c] s'] eqn:X.
    + destruct (IHk a s' K) as (F & r & H1 & H2). exists F, r. split; [|exact H2]. intros f L. rewrite run_do, X. now apply H1.
    + exists 0. eexists. split; [intros f _; rewrite run_do, X; reflexivity|exact K].
    + exists 0. eexists. split; [intros f _; rewrite run_do, X; reflexivity|exact K].
  - intros [[P L] K]. destruct (IH A c s P L) as (F & r & H1 & H2). destruct r as [[a|e|cr] s']; cbn [good_result] in H2.
    + destruct (IHk a s' (K a s' H2)) as (F' & r & H3 & H4). exists (S (Nat.max F F')), r. split; [|exact H4].
      intros [|f] Hf; [lia|]. rewrite run_call, H1 by lia. apply H3. lia.
    + exists (S F). eexists. split; [intros [|f] Hf; [lia|]; rewrite run_call, H1 by lia; reflexivity|exact H2].
    + exists (S F). eexists. split; [intros [|f] Hf; [lia|]; rewrite run_call, H1 by lia; reflexivity|exact H2].
Qed.
Lemma call_halts : forall m A (c : call A) s, mu A c s = m -> PreC A c s -> halts (body c) (PostC A c s) s.
Proof.
  intros m. induction (lex_lt_wf m) as [m _ IH]. intros A c s Em P. apply (wp_halts m).
  - intros A' c' s' P' L. exact (IH _ L A' c' s' eq_refl P').
  - rewrite <- Em. now apply HB.
Qed.
Lemma halts_all B (p : prog B) Q s : wp PreC p Q s -> halts p Q s.
Proof.
  revert s. induction p as [b|e|c|A o k IHk|A c k IHk]; intros s; cbn [wp].
  - intros H. exists 0. eexists. split; [intros f _; apply run_ret|exact H].
  - intros H. exists 0. eexists. split; [intros f _; apply run_fail|exact H].
  - intros H. exists 0. eexists. split; [intros f _; apply run_stop|exact H].
  - intros [P K]. destruct (exec o s) as [[a|e|c] s'] eqn:X.
    + destruct (IHk a s' K) as (F & r & H1 & H2). exists F, r. split; [|exact H2]. intros f L. rewrite run_do, X. now apply H1.
    + exists 0. eexists. split; [intros f _; rewrite run_do, X; reflexivity|exact K].
    + exists 0. eexists. split; [intros f _; rewrite run_do, X; reflexivity|exact K].
  - intros [P K]. destruct (call_halts _ A c s eq_refl P) as (F & r & H1 & H2). destruct r as [[a|e|cr] s']; cbn [good_result] in H2.
    + destruct (IHk a s' (K a s' H2)) as (F' & r & H3 & H4). exists (S (Nat.max F F')), r. split; [|exact H4].
      intros [|f] Hf; [lia|]. rewrite run_call, H1 by lia. apply H3. lia.
    + exists (S F). eexists. split; [intros [|f] Hf; [lia|]; rewrite run_call, H1 by lia; reflexivity|exact H2].
    + exists (S F). eexists. split; [intros [|f] Hf; [lia|]; rewrite run_call, H1 by lia; reflexivity|exact H2].
Qed.
End Total.
End Cond.
End Wp.
