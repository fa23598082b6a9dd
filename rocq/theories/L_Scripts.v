(** Marks after atoms, and runs of primes. *)
From Verif Require Import Str M_SuperChar M_Transform M_Length M_Spec M_Ast M_Token M_Symbols M_Commands M_Env
  M_LatexError M_Lexer M_CustomCmds M_Queue M_Spacing M_Leaf M_TextParser M_Parser
  S_SuperChar S_Run S_Lexer S_Queue S_Store S_Scripts L_SuperChar L_Queue L_Args L_Store L_Sound L_Define L_Keep L_Reads L_Leaf L_Wp L_Ends.
Local Open Scope nat_scope.

Section Marks.
Context (cfg : parser_cfg) (usize_max : N).
Notation exec := (exec cfg usize_max).
Notation run := (run cfg usize_max).
Notation ends := (ends cfg usize_max).
Notation reads_mark := (reads_mark cfg usize_max).
Notation reads_marks := (reads_marks cfg usize_max).

Definition bl_add (acc : bounds_limits) (m : mark) : option bounds_limits :=
  let b := bl_bounds acc in
  match m with
  | MSub n => match b_sub b with Some _ => None | None => Some (mkBl (mkBounds (Some n) (b_sup b)) (bl_limits acc)) end
  | MSup n => match b_sup b with Some _ => None | None => Some (mkBl (mkBounds (b_sub b) (Some n)) (bl_limits acc)) end
  | MLimits k sp => Some (mkBl b (Some (k, sp)))
  end.
Inductive chain : bounds_limits -> pstate -> res bounds_limits -> pstate -> Prop :=
| chain_end acc s : no_mark_ahead s -> chain acc s (Ok acc) s
| chain_step acc s sp m s1 acc' r s' : reads_mark s sp (Ok m) s1 -> bl_add acc m = Some acc' -> chain acc' s1 r s' -> chain acc s r s'
| chain_twice acc s sp m s' : reads_mark s sp (Ok m) s' -> bl_add acc m = None -> chain acc s (Err (mkErr sp E_DuplicateSubOrSup)) s'
| chain_err acc s sp e s' : reads_mark s sp (Err e) s' -> chain acc s (Err e) s'
| chain_crash acc s sp c s' : reads_mark s sp (Crash c) s' -> chain acc s (Crash c) s'.

Lemma peek_exec s : exec OPeek s = (Ok (qt_tokspan (q_peek (ps_queue s))), s).
Proof. now destruct s. Qed.

Lemma again_chain f acc m acc' s sp s1 r s' :
  (forall g acc s r s', g < f -> run g (bounds_body None acc) s = (r, s') -> r <> Crash OutOfFuel -> chain acc s r s') ->
  reads_mark s sp (Ok m) s1 -> bl_add acc m = Some acc' ->
  run f (Call (CBounds None acc') (fun r => Ret r)) s1 = (r, s') -> r <> Crash OutOfFuel -> chain acc s r s'.
Proof.
  intros IH R A E N. destruct f as [|f]; [injection E as <- <-; now destruct N|]. rewrite run_call in E.
  destruct (run f (body (CBounds None acc')) s1) as [x s2] eqn:Eb.
  assert (r = x /\ s2 = s') as [-> ->] by (destruct x; rewrite ?run_ret in E; injection E; auto).
  apply (chain_step _ _ _ _ _ _ _ _ R A). apply (IH f); [lia|exact Eb|exact N].
Qed.
(** A mark that is read with [p] from the next token. *)
Lemma mark_chain f acc s p (M : node -> mark) (dup : bool) (K : node -> bounds_limits) r s' : 
  (forall g acc s r s', g < f -> run g (bounds_body None acc) s = (r, s') -> r <> Crash OutOfFuel -> chain acc s r s') ->
  let t := q_peek (ps_queue s) in
  mark_reader (unwrap_math (qt_tok t)) (qt_span t) = Some (pbind p (fun n => Ret (M n))) ->
  (forall n, bl_add acc (M n) = if dup then None else Some (K n)) ->
  run f (Do ONext (fun _ => pbind p (fun n => if dup then fail (qt_span t) E_DuplicateSubOrSup else Call (CBounds None (K n)) (fun r => Ret r)))) s = (r, s') ->
  r <> Crash OutOfFuel -> chain acc s r s'.
Proof.
  intros IH t Mr A E N.
  change (run f (pbind (Do ONext (fun _ => p)) (fun n => if dup then fail (qt_span t) E_DuplicateSubOrSup else Call (CBounds None (K n)) (fun r => Ret r))) s = (r, s')) in E.
  rewrite run_bind in E. destruct (run f (Do ONext (fun _ => p)) s) as [x s1] eqn:Ep.
  assert (Rm : forall y, x <> Crash OutOfFuel -> y = match x with Ok n => Ok (M n) | Err e => Err e | Crash c => Crash c end -> reads_mark s (qt_span t) y s1).
  { intros y Nx ->. exists (unwrap_math (qt_tok t)), (pbind p (fun n => Ret (M n))). split; [now split|]. split; [exact Mr|].
    change (ends (pbind (Do ONext (fun _ => p)) (fun n => Ret (M n))) s match x with Ok n => Ok (M n) | Err e => Err e | Crash c => Crash c end s1).
    exists f. rewrite run_bind, Ep. destruct x; rewrite ?run_ret; split; congruence. }
  destruct x as [n|e|c].
  - specialize (Rm (Ok (M n)) ltac:(discriminate) eq_refl). specialize (A n). destruct dup.
    + unfold fail in E. rewrite run_fail in E. injection E as <- <-. now apply (chain_twice acc s (qt_span t) (M n)).
    + now apply (again_chain f acc (M n) (K n) s (qt_span t) s1).
  - injection E as <- <-. apply (chain_err acc s (qt_span t)). now apply Rm.
  - injection E as <- <-. apply (chain_crash acc s (qt_span t)). apply Rm; [intros X; injection X as ->; now apply N|reflexivity].
Qed.
Lemma bounds_chain f : forall acc s r s', run f (bounds_body None acc) s = (r, s') -> r <> Crash OutOfFuel -> chain acc s r s'.
Proof.
  induction f as [f IH] using (well_founded_induction lt_wf). intros acc s r s' E N.
  unfold bounds_body in E. cbn [pbind] in E. rewrite run_do, peek_exec in E.
  assert (Stop : mark_reader (unwrap_math (qt_tok (q_peek (ps_queue s)))) (qt_span (q_peek (ps_queue s))) = None -> run f (Ret acc) s = (r, s') -> chain acc s r s').
  { intros Mn X. rewrite run_ret in X. injection X as <- <-. apply chain_end. intros t sp [<- <-]. exact Mn. }
  assert (IH' : forall g acc s r s', g < f -> run g (bounds_body None acc) s = (r, s') -> r <> Crash OutOfFuel -> chain acc s r s') by (intros g a x y z L; now apply IH).
  clear IH. unfold qt_tokspan in E. cbn [fst snd] in E.
  destruct (unwrap_math (qt_tok (q_peek (ps_queue s)))) eqn:Et; try exact (Stop eq_refl E).
  - refine (mark_chain f acc s script_node MSub (match b_sub (bl_bounds acc) with Some _ => true | None => false end) (fun n => mkBl (mkBounds (Some n) (b_sup (bl_bounds acc))) (bl_limits acc)) r s' IH' _ _ _ N).
    + now rewrite Et.
    + intros n. cbn [bl_add]. now destruct (b_sub (bl_bounds acc)).
    + rewrite <- E. destruct (b_sub (bl_bounds acc)); reflexivity.
  - refine (mark_chain f acc s script_node MSup (match b_sup (bl_bounds acc) with Some _ => true | None => false end) (fun n => mkBl (mkBounds (b_sub (bl_bounds acc)) (Some n)) (bl_limits acc)) r s' IH' _ _ _ N).
    + now rewrite Et.
    + intros n. cbn [bl_add]. now destruct (b_sup (bl_bounds acc)).
    + rewrite <- E. destruct (b_sup (bl_bounds acc)); reflexivity.
  - rewrite run_do in E.
    assert (Rm : forall m, exec ONext s = m -> reads_mark s (qt_span (q_peek (ps_queue s))) (match fst m with Ok _ => Ok (MLimits k (qt_span (q_peek (ps_queue s)))) | Err e => Err e | Crash c => Crash c end) (snd m) \/ fst m = Crash OutOfFuel).
    { intros [x s1] Ex. cbn [fst snd]. destruct x as [a|e|c]; [left|left|destruct c; [right; reflexivity|left]].
      all: exists (T_Limits k), (Ret (MLimits k (qt_span (q_peek (ps_queue s))))); split; [split; [exact Et|reflexivity]|]; split; [reflexivity|];
        apply ends_do; rewrite Ex; try (now apply ends_ret); repeat split; discriminate. }
    specialize (Rm _ eq_refl). destruct (exec ONext s) as [[a|e|c] s1]; cbn [fst snd] in Rm.
    + destruct Rm as [Rm|Rm]; [|discriminate]. exact (again_chain f acc _ _ s _ s1 r s' IH' Rm eq_refl E N).
    + destruct Rm as [Rm|Rm]; [|discriminate]. injection E as <- <-. exact (chain_err _ _ _ _ _ Rm).
    + injection E as <- <-. destruct Rm as [Rm|Rm]; [exact (chain_crash _ _ _ _ _ Rm)|congruence].
  - (* prime *) refine (mark_chain f acc s (prime_script k) MSup (match b_sup (bl_bounds acc) with Some _ => true | None => false end) (fun n => mkBl (mkBounds (b_sub (bl_bounds acc)) (Some n)) (bl_limits acc)) r s' IH' _ _ _ N).
    + now rewrite Et.
    + intros n. cbn [bl_add]. now destruct (b_sup (bl_bounds acc)).
    + rewrite <- E. destruct (b_sup (bl_bounds acc)); reflexivity.
Qed.

Lemma chain_ends acc s r s' : chain acc s r s' -> ends (bounds_body None acc) s r s'.
Proof.
  (* one mark, and what is done with it *)
  assert (One : forall s sp x s1 acc r s', reads_mark s sp x s1 ->
    (match x with
     | Ok m => match bl_add acc m with Some acc' => ends (bounds_body None acc') s1 r s' | None => r = Err (mkErr sp E_DuplicateSubOrSup) /\ s' = s1 end
     | Err e => r = Err e /\ s' = s1
     | Crash c => r = Crash c /\ s' = s1
     end) -> ends (bounds_body None acc) s r s').
  { intros s0 sp x s1 a r0 s2 (t & p & [Et Esp] & Mr & Ep) K. unfold bounds_body. cbn [pbind]. apply ends_do. rewrite peek_exec. cbn [qt_tokspan fst snd]. 
    rewrite Et, Esp.
    assert (Rest : forall (M : node -> mark) p' (k : node -> prog bounds_limits), p = pbind p' (fun n => Ret (M n)) ->
      (forall n, match bl_add a (M n) with Some acc' => k n = Call (CBounds None acc') (fun r => Ret r) | None => k n = fail sp E_DuplicateSubOrSup end) ->
      ends (Do ONext (fun _ => pbind p' k)) s0 r0 s2).
    { intros M p' k -> Hk. change (ends (pbind (Do ONext (fun _ => p')) k) s0 r0 s2). apply ends_bind.
      change (ends (pbind (Do ONext (fun _ => p')) (fun n => Ret (M n))) s0 x s1) in Ep. apply ends_bind in Ep.
      destruct Ep as [(n & s3 & E1 & E2)|[(e & -> & E1)|(c & -> & E1)]].
      - apply ends_ret in E2 as [-> ->]. left. exists n, s3. split; [exact E1|]. specialize (Hk n). destruct (bl_add a (M n)); rewrite Hk.
        + now apply ends_return.
        + now apply ends_fail.
      - destruct K as [-> ->]. right. left. now exists e.
      - destruct K as [-> ->]. right. right. now exists c. }
    unfold mark_reader in Mr. destruct t; try discriminate Mr; injection Mr as <-.
    - refine (Rest MSub script_node _ eq_refl _). intros n. cbn [bl_add]. now destruct (b_sub (bl_bounds a)).
    - refine (Rest MSup script_node _ eq_refl _). intros n. cbn [bl_add]. now destruct (b_sup (bl_bounds a)).
    - apply ends_do. apply ends_do in Ep. destruct (exec ONext s0) as [[y|e|c] s3].
      + apply ends_ret in Ep as [-> ->]. cbn [bl_add] in K. now apply ends_return.
      + destruct Ep as [-> ->]. exact K.
      + destruct Ep as (-> & -> & N). destruct K as [-> ->]. repeat split. exact N.
    - refine (Rest MSup (prime_script k) _ eq_refl _). intros n. cbn [bl_add]. now destruct (b_sup (bl_bounds a)). }
  induction 1 as [acc s H|acc s sp m s1 acc' r s' R A C IH|acc s sp m s' R A|acc s sp e s' R|acc s sp c s' R].
  - unfold bounds_body. cbn [pbind]. apply ends_do. rewrite peek_exec. cbn [qt_tokspan fst snd].
    specialize (H _ _ (conj eq_refl eq_refl)). destruct (unwrap_math (qt_tok (q_peek (ps_queue s)))); try discriminate H; now apply ends_ret.
  - apply (One _ _ _ _ _ _ _ R). now rewrite A.
  - apply (One _ _ _ _ _ _ _ R). now rewrite A.
  - now apply (One _ _ _ _ _ _ _ R).
  - now apply (One _ _ _ _ _ _ _ R).
Qed.
Lemma bounds_ends acc s r s' : ends (bounds_body None acc) s r s' <-> chain acc s r s'.
Proof. split; [|apply chain_ends]. intros (f & E & N). exact (bounds_chain f _ _ _ _ E N). Qed.
Lemma get_bounds_ends s r s' : ends (get_bounds None) s r s' <-> chain bl_none s r s'.
Proof. unfold get_bounds. rewrite ends_return. apply bounds_ends. Qed.

(** ** Lists of marks *)

Fixpoint bl_adds (acc : bounds_limits) (l : list mark) : option bounds_limits :=
  match l with
  | [] => Some acc
  | m :: r => match bl_add acc m with Some a => bl_adds a r | None => None end
  end.
Lemma chain_list acc s r s' : chain acc s r s' -> exists l s1 a, reads_marks s l s1 /\ bl_adds acc l = Some a /\
  ((no_mark_ahead s1 /\ s' = s1 /\ r = Ok a) \/
   (exists sp m, reads_mark s1 sp (Ok m) s' /\ bl_add a m = None /\ r = Err (mkErr sp E_DuplicateSubOrSup)) \/
   (exists sp e, reads_mark s1 sp (Err e) s' /\ r = Err e) \/ (exists sp c, reads_mark s1 sp (Crash c) s' /\ r = Crash c)).
Proof.
  induction 1 as [acc s H|acc s sp m s1 acc' r s' R A C IH|acc s sp m s' R A|acc s sp e s' R|acc s sp c s' R].
  - exists [], s, acc. split; [constructor|]. split; [reflexivity|]. now left.
  - destruct IH as (l & s2 & a & L & B & H). exists (m :: l), s2, a. split; [econstructor; eassumption|]. split; [cbn [bl_adds]; now rewrite A|exact H].
  - exists [], s, acc. split; [constructor|]. split; [reflexivity|]. right. left. now exists sp, m.
  - exists [], s, acc. split; [constructor|]. split; [reflexivity|]. right. right. left. now exists sp, e.
  - exists [], s, acc. split; [constructor|]. split; [reflexivity|]. right. right. right. now exists sp, c.
Qed.
Lemma list_chain s l s1 : reads_marks s l s1 -> forall acc a r s', bl_adds acc l = Some a -> chain a s1 r s' -> chain acc s r s'.
Proof.
  induction 1 as [s|s sp m s1 l s2 R L IH]; intros acc a r s' A C.
  - injection A as ->. exact C.
  - cbn [bl_adds] in A. destruct (bl_add acc m) as [acc'|] eqn:Am; [|discriminate]. apply (chain_step _ _ _ _ _ _ _ _ R Am). now apply (IH _ a).
Qed.

Definition opt_list {A} (o : option A) : list A := match o with Some x => [x] | None => [] end.
Lemma adds_spec l : forall acc, match bl_adds acc l with
  | Some a => (length (opt_list (b_sub (bl_bounds acc)) ++ subs_of l) <= 1 /\ length (opt_list (b_sup (bl_bounds acc)) ++ sups_of l) <= 1) /\
      b_sub (bl_bounds a) = hd_error (opt_list (b_sub (bl_bounds acc)) ++ subs_of l) /\
      b_sup (bl_bounds a) = hd_error (opt_list (b_sup (bl_bounds acc)) ++ sups_of l) /\
      bl_limits a = fold_left (fun a m => match m with MLimits k sp => Some (k, sp) | _ => a end) l (bl_limits acc)
  | None => 1 < length (opt_list (b_sub (bl_bounds acc)) ++ subs_of l) \/ 1 < length (opt_list (b_sup (bl_bounds acc)) ++ sups_of l)
  end.
Proof.
  induction l as [|m l IH]; intros acc.
  - cbn. destruct (b_sub (bl_bounds acc)), (b_sup (bl_bounds acc)); cbn; repeat split; lia.
  - cbn [bl_adds]. destruct (bl_add acc m) as [a|] eqn:A.
    + specialize (IH a). destruct acc as [[su sp0] li]. destruct m as [n|n|k sp]; cbn [bl_add bl_bounds b_sub b_sup bl_limits] in A.
      1: destruct su; [discriminate|]. 2: destruct sp0; [discriminate|].
      all: injection A as <-; cbn [bl_bounds b_sub b_sup bl_limits opt_list app subs_of sups_of flat_map fold_left] in *; exact IH.
    + destruct acc as [[su sp0] li]. destruct m as [n|n|k sp]; cbn [bl_add bl_bounds b_sub b_sup bl_limits] in A; [destruct su; [|discriminate]|destruct sp0; [|discriminate]|discriminate];
        cbn [bl_bounds b_sub b_sup opt_list app subs_of sups_of flat_map]; [left|right]; cbn [length]; lia.
Qed.
Lemma adds_single l : single l <-> exists a, bl_adds bl_none l = Some a.
Proof.
  pose proof (adds_spec l bl_none) as H. cbn [bl_none bl_bounds bounds_none b_sub b_sup opt_list app] in H. unfold single. fold (bl_none) in H.
  destruct (bl_adds bl_none l) as [a|]; split.
  - intros _. now exists a.
  - intros _. apply H.
  - intros [H1 H2]. lia.
  - intros (a & X). discriminate.
Qed.
Lemma adds_summary l a : bl_adds bl_none l = Some a -> a = summary l.
Proof.
  intros E. pose proof (adds_spec l bl_none) as H. rewrite E in H. destruct H as (_ & H1 & H2 & H3). destruct a as [[x y] z].
  cbn [bl_none bl_bounds bounds_none b_sub b_sup opt_list app bl_limits] in *. subst. reflexivity.
Qed.
Lemma adds_app l : forall m acc a, bl_adds acc l = Some a -> bl_adds acc (l ++ [m]) = bl_add a m.
Proof.
  induction l as [|x l IH]; intros m acc a E; cbn [bl_adds app] in *.
  - injection E as ->. now destruct (bl_add a m).
  - destruct (bl_add acc x); [|discriminate]. now apply IH.
Qed.
End Marks.

(** ** Primes *)

Lemma add_prime_strokes k l : run_strokes (add_prime k l) = run_strokes l ++ strokes k.
Proof.
  induction l as [|[d n] l IH]; [cbn; now rewrite app_nil_r|]. destruct l as [|p l].
  - cbn [add_prime]. destruct (dir_eqb d (prime_dir k)) eqn:E; cbn [run_strokes flat_map fst snd app].
    + assert (d = prime_dir k) as -> by (destruct d, (prime_dir k); easy). unfold strokes. rewrite repeat_app, !app_nil_r. reflexivity.
    + unfold strokes. now rewrite <- app_assoc, !app_nil_r.
  - change (add_prime k ((d, n) :: p :: l)) with ((d, n) :: add_prime k (p :: l)). cbn [run_strokes flat_map fst snd] in *. unfold run_strokes in IH. rewrite IH.
    now rewrite !app_assoc.
Qed.
Lemma add_prime_head k p l : exists n r, add_prime k (p :: l) = (fst p, n) :: r.
Proof. destruct p as [d n]. destruct l; cbn [add_prime]; [destruct (dir_eqb _ _)|]; eauto. Qed.
Lemma add_prime_alternating k l : alternating l = true -> alternating (add_prime k l) = true.
Proof.
  induction l as [|[d n] l IH]; [reflexivity|]. destruct l as [|p l].
  - intros _. cbn [add_prime]. destruct (dir_eqb d (prime_dir k)) eqn:E; [reflexivity|]. cbn [alternating fst]. now rewrite E.
  - intros H. change (add_prime k ((d, n) :: p :: l)) with ((d, n) :: add_prime k (p :: l)). 
    change (alternating ((d, n) :: p :: l)) with (negb (dir_eqb d (fst p)) && alternating (p :: l)) in H. apply andb_prop in H as [H1 H2].
    specialize (IH H2). destruct (add_prime_head k p l) as (m & r & E). rewrite E in *.
    change (negb (dir_eqb d (fst p)) && alternating ((fst p, m) :: r) = true). now rewrite H1, IH.
Qed.
Lemma prime_count_pos k : 1 <= prime_count k.
Proof. destruct k; cbn; lia. Qed.
Lemma add_prime_pos k l : Forall (fun p => 1 <= snd p) l -> Forall (fun p => 1 <= snd p) (add_prime k l).
Proof.
  pose proof (prime_count_pos k). induction 1 as [|[d n] l H1 H2 IH]; [constructor; [exact H|constructor]|]. destruct l as [|p l].
  - cbn [add_prime snd] in *. destruct (dir_eqb _ _); repeat constructor; cbn [snd]; lia.
  - change (add_prime k ((d, n) :: p :: l)) with ((d, n) :: add_prime k (p :: l)). now constructor.
Qed.
Lemma symbol_strokes d n o : nth_error (primes_of d) n = Some o -> node_strokes (prime_symbol o) = repeat d (S n) /\ exists k, prime_symbol o = prime_node k.
Proof.
  intros E. assert (n < 4) as L by (assert (n < length (primes_of d)) by (apply nth_error_Some; congruence); destruct d; cbn in *; lia).
  destruct d; destruct n as [|[|[|[|n]]]]; try lia; try discriminate E; injection E as <-; (split; [vm_compute; reflexivity|]).
  - now exists PrSingle.
  - now exists PrDouble.
  - now exists PrTriple.
  - now exists PrQuadruple.
  - now exists PrReversed.
  - now exists PrReversedDouble.
  - now exists PrReversedTriple.
Qed.
Lemma nodes_strokes p : 1 <= snd p -> flat_map node_strokes (primes_nodes p) = repeat (fst p) (snd p) /\ Forall prime_like (primes_nodes p).
Proof.
  destruct p as [d n]. cbn [fst snd]. intros L. unfold primes_nodes. cbn [fst snd]. destruct (nth_error (primes_of d) (n - 1)) as [o|] eqn:E.
  - destruct (symbol_strokes _ _ _ E) as (H & k & K). cbn [flat_map]. rewrite H, app_nil_r. split; [f_equal; lia|]. constructor; [right; now exists k|constructor].
  - set (one := prime_symbol _). assert (node_strokes one = [d] /\ exists k, one = prime_node k) as [H (k & K)]
      by (assert (nth_error (primes_of d) 0 = Some (hd SYM_PRIME (primes_of d))) as X by (now destruct d); apply symbol_strokes in X; exact X).
    assert (forall m, flat_map node_strokes (concat (repeat [PRIME_SPACE; one] m)) = repeat d m /\ Forall prime_like (concat (repeat [PRIME_SPACE; one] m))) as Y.
    { induction m as [|m [I1 I2]]; [split; [reflexivity|constructor]|]. cbn [repeat concat app flat_map]. rewrite I1, H. split; [reflexivity|].
      constructor; [now left|]. constructor; [right; now exists k|exact I2]. }
    destruct (Y (n - 1)) as [Y1 Y2]. cbn [flat_map]. rewrite H, Y1. split; [|constructor; [right; now exists k|exact Y2]].
    destruct n; [lia|]. cbn [repeat app]. now rewrite Nat.sub_succ, Nat.sub_0_r.
Qed.
Lemma groups_strokes l : Forall (fun p => 1 <= snd p) l ->
  flat_map node_strokes (flat_map primes_nodes l) = run_strokes l /\ Forall prime_like (flat_map primes_nodes l).
Proof.
  induction 1 as [|p l H1 H2 [I1 I2]]; [split; [reflexivity|constructor]|]. destruct (nodes_strokes p H1) as [J1 J2].
  cbn [flat_map run_strokes]. rewrite flat_map_app, J1, I1. split; [reflexivity|now apply Forall_app].
Qed.

Section Primes.
Context (cfg : parser_cfg).
Notation q_view := (q_view cfg).
Notation sound := (sound_queue cfg).
Notation reads := (reads cfg).

Definition primes_read (before : list prime_direction) (q : queue) (x : list (prime_direction * nat) * bool) (q' : queue) : Prop :=
  reads q q' /\ alternating (fst x) = true /\ Forall (fun p => 1 <= snd p) (fst x) /\
  exists ts ks, prime_toks ts ks /\ fst (q_view q) = ts ++ fst (q_view q') /\ run_strokes (fst x) = before ++ flat_map strokes ks /\
    prime_tok (q_peek_any q') = None /\ snd x = is_caret (q_peek_any q').
Lemma primes_loop_sp fuel : forall acc q, sound q -> length (fst (q_view q)) < fuel -> alternating acc = true -> Forall (fun p => 1 <= snd p) acc ->
  sp (primes_loop cfg fuel acc) (primes_read (run_strokes acc) q) no_err q.
Proof.
  induction fuel as [|f IH]; intros acc q Sq L A P; [lia|]. cbn [primes_loop]. apply sp_bind, sp_get.
  assert (Done : forall b, prime_tok (q_peek_any q) = None -> b = is_caret (q_peek_any q) -> sp (sret (acc, b)) (primes_read (run_strokes acc) q) no_err q).
  { intros b Pn ->. apply sp_ret. split; [now apply reads_refl|]. split; [exact A|]. split; [exact P|]. exists [], []. split; [reflexivity|]. split; [reflexivity|].
    cbn [flat_map fst snd]. rewrite app_nil_r. now repeat split. }
  unfold prime_tok, is_caret in Done. destruct (unwrap_math (qt_tok (q_peek_any q))) eqn:Et; try (now apply Done).
  apply sp_bind. apply next_any_sp; [exact Sq|auto|]. intros q1 R T _.
  assert (means_eoi (qt_tok (q_peek_any q)) = false) as Ne by (rewrite <- means_eoi_unwrap, Et; reflexivity).
  pose proof (took_any_shorter _ _ _ _ T Ne) as Sh. unfold shorter in Sh.
  eapply sp_mono; [apply (IH (add_prime k acc) q1)|..]; auto.
  - apply R.
  - lia.
  - now apply add_prime_alternating.
  - now apply add_prime_pos.
  - cbn beta. intros x q2 (R2 & X1 & X2 & ts & ks & Y1 & Y2 & Y3 & Y4 & Y5). split; [exact (reads_trans _ _ _ _ R R2)|]. split; [exact X1|]. split; [exact X2|].
    exists (q_peek_any q :: ts), (k :: ks). split; [|split; [|split; [|split; assumption]]].
    + unfold prime_toks. cbn [map]. unfold prime_tok at 1. rewrite Et. now f_equal.
    + destruct T as [V N|sn E _ _]; [rewrite V, Y2; reflexivity|]. rewrite E in Ne. discriminate.
    + rewrite Y3, add_prime_strokes. cbn [flat_map]. now rewrite app_assoc.
Qed.
Lemma primes_sp k q : sound q -> sp (read_primes cfg k) (primes_read (strokes k) q) no_err q.
Proof.
  intros Sq. unfold read_primes, sp. eapply (sp_mono (primes_loop cfg (S (q_size q)) [(prime_dir k, prime_count k)])); [apply primes_loop_sp; [exact Sq| |reflexivity|]|..].
  - pose proof (view_size cfg q). lia.
  - constructor; [apply prime_count_pos|constructor].
  - cbn [run_strokes flat_map fst snd]. rewrite app_nil_r. now intros x q'.
  - auto.
Qed.
End Primes.
