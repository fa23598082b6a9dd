(** Runs of programs as results without fuel. *)
From Verif Require Import Str M_SuperChar M_Transform M_Length M_Spec M_Ast M_Token M_Symbols M_Commands M_Env
  M_LatexError M_Lexer M_CustomCmds M_Queue M_Spacing M_Leaf M_TextParser M_Parser S_Run S_Lexer S_Queue S_Scripts L_Wp.
Local Open Scope nat_scope.

Section Ends.
Context (cfg : parser_cfg) (usize_max : N).
Notation exec := (exec cfg usize_max).
Notation run := (run cfg usize_max).
Notation ends := (ends cfg usize_max).

Lemma run_zero A B (c : call B) (k : B -> prog A) s : run 0 (Call c k) s = (Crash OutOfFuel, s).
Proof. reflexivity. Qed.
(** More fuel changes nothing. *)
Lemma run_more f : forall A (p : prog A) s r s', run f p s = (r, s') -> r <> Crash OutOfFuel -> forall g, f <= g -> run g p s = (r, s').
Proof.
  induction f as [|f IH]; intros A p; induction p as [b|e|c|B o k IHk|B c k IHk]; intros s r s' H N g L;
    rewrite ?run_ret, ?run_fail, ?run_stop in *; try exact H.
  - rewrite run_do in *. destruct (exec o s) as [[a|e|c] s1]; [now apply (IHk a s1)|exact H|exact H].
  - rewrite run_zero in H. injection H as <- <-. now destruct N.
  - rewrite run_do in *. destruct (exec o s) as [[a|e|c] s1]; [now apply (IHk a s1)|exact H|exact H].
  - destruct g as [|g]; [lia|]. rewrite run_call in *. destruct (run f (body c) s) as [x s1] eqn:E.
    assert (x <> Crash OutOfFuel) as Nx by (intros ->; injection H as <- <-; now destruct N).
    rewrite (IH _ _ _ _ _ E Nx g ltac:(lia)). destruct x; [now apply (IHk a s1)|exact H|exact H].
Qed.
Lemma run_bind f A B (p : prog A) (k : A -> prog B) : forall s,
  run f (pbind p k) s = match run f p s with (Ok a, s1) => run f (k a) s1 | (Err e, s1) => (Err e, s1) | (Crash c, s1) => (Crash c, s1) end.
Proof.
  induction p as [b|e|c|X o kx IHk|X c kx IHk]; intros s; cbn [pbind]; rewrite ?run_ret, ?run_fail, ?run_stop; try reflexivity.
  - rewrite !run_do. destruct (exec o s) as [[a|e|c] s1]; [apply IHk|reflexivity|reflexivity].
  - destruct f as [|f]; [reflexivity|]. rewrite !run_call. destruct (run f (body c) s) as [[a|e|cr] s1]; [apply IHk|reflexivity|reflexivity].
Qed.

Lemma ends_det A (p : prog A) s r1 s1 r2 s2 : ends p s r1 s1 -> ends p s r2 s2 -> r1 = r2 /\ s1 = s2.
Proof.
  intros (f & E1 & N1) (g & E2 & N2). pose proof (run_more f _ _ _ _ _ E1 N1 (max f g) ltac:(lia)) as H1.
  pose proof (run_more g _ _ _ _ _ E2 N2 (max f g) ltac:(lia)) as H2. rewrite H1 in H2. now injection H2.
Qed.
Lemma ends_ret A (a : A) s r s' : ends (Ret a) s r s' <-> r = Ok a /\ s' = s.
Proof.
  split.
  - intros (f & E & N). rewrite run_ret in E. now injection E as <- <-.
  - intros [-> ->]. exists 0. now rewrite run_ret.
Qed.
Lemma ends_fail A e s r s' : ends (@Fail A e) s r s' <-> r = Err e /\ s' = s.
Proof.
  split.
  - intros (f & E & N). rewrite run_fail in E. now injection E as <- <-.
  - intros [-> ->]. exists 0. now rewrite run_fail.
Qed.
Definition passes {A B} (m : res A -> pstate -> Prop) (k : A -> pstate -> Prop) (r : res B) (s' : pstate) : Prop :=
  (exists a s1, m (Ok a) s1 /\ k a s1) \/ (exists e, r = Err e /\ m (Err e) s') \/ (exists c, r = Crash c /\ m (Crash c) s').
Lemma ends_do A B (o : op B) (k : B -> prog A) s r s' :
  ends (Do o k) s r s' <-> match exec o s with
    | (Ok a, s1) => ends (k a) s1 r s'
    | (Err e, s1) => r = Err e /\ s' = s1
    | (Crash c, s1) => r = Crash c /\ s' = s1 /\ c <> OutOfFuel
    end.
Proof.
  unfold S_Scripts.ends at 1. setoid_rewrite run_do. destruct (exec o s) as [[a|e|c] s1].
  - reflexivity.
  - split; [intros (f & E & N); now injection E as <- <-|]. intros [-> ->]. now exists 0.
  - split; [intros (f & E & N); injection E as <- <-; repeat split; congruence|]. intros (-> & -> & N). exists 0. split; [reflexivity|congruence].
Qed.
Lemma ends_bind A B (p : prog A) (k : A -> prog B) s r s' :
  ends (pbind p k) s r s' <-> passes (fun x s1 => ends p s x s1) (fun a s1 => ends (k a) s1 r s') r s'.
Proof.
  split.
  - intros (f & E & N). rewrite run_bind in E. destruct (run f p s) as [[a|e|c] s1] eqn:Ep.
    + left. exists a, s1. split; [now exists f|now exists f].
    + right. left. injection E as <- <-. exists e. split; [reflexivity|now exists f].
    + right. right. injection E as <- <-. exists c. split; [reflexivity|]. exists f. split; [exact Ep|congruence].
  - intros [(a & s1 & (f & E1 & N1) & (g & E2 & N2))|[(e & -> & (f & E & N))|(c & -> & (f & E & N))]].
    + exists (max f g). rewrite run_bind, (run_more f _ _ _ _ _ E1 N1 (max f g) ltac:(lia)). split; [|exact N2]. apply (run_more g); [exact E2|exact N2|lia].
    + exists f. rewrite run_bind, E. now split.
    + exists f. rewrite run_bind, E. split; [reflexivity|congruence].
Qed.
Lemma ends_call A B (c : call A) (k : A -> prog B) s r s' :
  ends (Call c k) s r s' <-> passes (fun x s1 => ends (body c) s x s1) (fun a s1 => ends (k a) s1 r s') r s'.
Proof.
  split.
  - intros ([|f] & E & N); [injection E as <- <-; now destruct N|]. rewrite run_call in E. destruct (run f (body c) s) as [[a|e|cr] s1] eqn:Ep.
    + left. exists a, s1. split; [now exists f|now exists (S f)].
    + right. left. injection E as <- <-. exists e. split; [reflexivity|now exists f].
    + right. right. injection E as <- <-. exists cr. split; [reflexivity|]. exists f. split; [exact Ep|congruence].
  - intros [(a & s1 & (f & E1 & N1) & (g & E2 & N2))|[(e & -> & (f & E & N))|(cr & -> & (f & E & N))]].
    + exists (S (max f g)). rewrite run_call, (run_more f _ _ _ _ _ E1 N1 (max f g) ltac:(lia)). split; [|exact N2]. apply (run_more g); [exact E2|exact N2|lia].
    + exists (S f). rewrite run_call, E. now split.
    + exists (S f). rewrite run_call, E. split; [reflexivity|congruence].
Qed.
(** A call whose result is returned. *)
Lemma ends_return A (c : call A) s r s' : ends (Call c (fun x => Ret x)) s r s' <-> ends (body c) s r s'.
Proof.
  rewrite ends_call. split.
  - intros [(a & s1 & H & K)|[(e & -> & H)|(cr & -> & H)]]; [|exact H|exact H]. apply ends_ret in K as [-> ->]. exact H.
  - intros H. destruct r as [a|e|c0]; [left|right; left; now exists e|right; right; now exists c0]. exists a, s'. split; [exact H|]. now apply ends_ret.
Qed.
End Ends.
