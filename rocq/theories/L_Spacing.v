(** Proofs about spacing. *)
From Verif Require Import Str M_SuperChar M_Length M_Spec M_Ast M_Token M_Env M_Spacing M_Parser S_Spacing.

Definition all_atoms : list atom := [AOrd; AOp; ABin; ARel; AOpen; AClose; APunct; AInner].
Definition all_styles : list style := [StDisplay; StText; StScript; StScriptScript].
Definition all_opt : list (option atom) := None :: map Some all_atoms.
Lemma in_atoms a : In a all_atoms.
Proof. destruct a; cbn; tauto. Qed.
Lemma in_styles s : In s all_styles.
Proof. destruct s; cbn; tauto. Qed.
Lemma in_opt o : In o all_opt.
Proof. destruct o as [a|]; [right; apply in_map, in_atoms|now left]. Qed.

(** The class the code has after an atom, from what the atom is for TeX. *)
Definition left_class (st : style) (p : option atom) : class :=
  match p with
  | None => ClOpen
  | Some AClose => ClDefault
  | Some ABin => if is_script st then ClDefault else ClBinaryOp
  | Some a => class_of_atom a
  end.
Definition class_eqb (a b : class) : bool :=
  match a, b with
  | ClDefault, ClDefault | ClOperator, ClOperator | ClBinaryOp, ClBinaryOp | ClRelation, ClRelation | ClOpen, ClOpen
  | ClClose, ClClose | ClPunctuation, ClPunctuation | ClInner, ClInner | ClEnd, ClEnd => true
  | _, _ => false
  end.
Lemma class_eqb_eq a b : class_eqb a b = true -> a = b.
Proof. destruct a, b; (reflexivity || discriminate). Qed.

Definition class_ok (force : bool) (st : style) (p : option atom) (a : atom) (n : option atom) : bool :=
  class_eqb (snd (code_atom force st (left_class st p) (next_class n) a)) (left_class st (Some (tex_atom p a n))).
Definition exc (st : style) (p : option atom) (a : atom) (n : option atom) : bool :=
  match p, a with
  | Some AInner, AInner => negb (is_script st)
  | Some AInner, ABin => negb (is_script st) && nothing_after n
  | Some ABin, AOp => is_script st
  | _, _ => false
  end.
(** The space right of an atom, by what it is for TeX and what comes next. *)
Definition gap_ok (force : bool) (st : style) (p : option atom) (a b : atom) (n : option atom) : bool :=
  let a' := tex_atom p a (Some b) in
  let b' := tex_atom (Some a') b n in
  Bool.eqb (negb (exc st (Some a') b n))
  (snd (fst (code_atom force st (left_class st p) (next_class (Some b)) a))
   + fst (fst (code_atom force st (left_class st (Some a')) (next_class n) b)) =? tex_gap st a' b').

Definition all_bool := [true; false].
Lemma in_bool b : In b all_bool.
Proof. destruct b; cbn; tauto. Qed.

Lemma class_check : forall force st p a n, class_ok force st p a n = true.
Proof.
  intros force st p a n.
  assert (F : forallb (fun force => forallb (fun st => forallb (fun p => forallb (fun a => forallb (class_ok force st p a)
     all_opt) all_atoms) all_opt) all_styles) all_bool = true) by (vm_compute; reflexivity).
  rewrite forallb_forall in F. specialize (F force (in_bool force)). rewrite forallb_forall in F. specialize (F st (in_styles st)).
  rewrite forallb_forall in F. specialize (F p (in_opt p)). rewrite forallb_forall in F. specialize (F a (in_atoms a)).
  rewrite forallb_forall in F. exact (F n (in_opt n)).
Qed.
Lemma gap_check : forall force st p a b n, gap_ok force st p a b n = true.
Proof.
  intros force st p a b n.
  assert (F : forallb (fun force => forallb (fun st => forallb (fun p => forallb (fun a => forallb (fun b => forallb (gap_ok force st p a b)
     all_opt) all_atoms) all_atoms) all_opt) all_styles) all_bool = true) by (vm_compute; reflexivity).
  rewrite forallb_forall in F. specialize (F force (in_bool force)). rewrite forallb_forall in F. specialize (F st (in_styles st)).
  rewrite forallb_forall in F. specialize (F p (in_opt p)). rewrite forallb_forall in F. specialize (F a (in_atoms a)).
  rewrite forallb_forall in F. specialize (F b (in_atoms b)). rewrite forallb_forall in F. exact (F n (in_opt n)).
Qed.

Lemma gaps_cons x l : gaps (x :: l) = match l with y :: _ => snd x + fst y :: gaps l | [] => [] end.
Proof. now destruct l. Qed.
Lemma tex_gaps_cons st x l : tex_gaps st (x :: l) = match l with y :: _ => tex_gap st x y :: tex_gaps st l | [] => [] end.
Proof. now destruct l. Qed.
Lemma spacing_from force st l : forall p, (match p, l with Some p', a :: r => exc st (Some p') a (hd_error r) = false | _, _ => True end) ->
  gaps (code_atoms force st (left_class st p) l) = tex_gaps st (tex_atoms p l) <-> exceptional st p l = false.
Proof.
  induction l as [|a [|b r] IH]; intros p H.
  - split; reflexivity.
  - cbn [code_atoms tex_atoms exceptional hd_error] in *. destruct (code_atom _ _ _ _ _). split; [intros _|reflexivity].
    rewrite orb_false_r. destruct p as [p|]; [exact H|reflexivity].
  - assert (X : exceptional st p (a :: b :: r) = exceptional st (Some (tex_atom p a (Some b))) (b :: r)).
    { cbn [exceptional hd_error]. fold (exc st p a (Some b)). destruct p as [p|]; cbn [hd_error] in H; [now rewrite H|reflexivity]. }
    rewrite X. clear X. specialize (IH (Some (tex_atom p a (Some b)))).
    pose proof (class_check force st p a (Some b)) as C. apply class_eqb_eq in C.
    pose proof (gap_check force st p a b (hd_error r)) as G. unfold gap_ok in G. apply Bool.eqb_prop in G.
    remember (b :: r) as br. cbn [code_atoms tex_atoms]. subst br. cbn [hd_error] in *.
    destruct (code_atom force st (left_class st p) (next_class (Some b)) a) as [[l1 r1] c1]. cbn [fst snd] in *. subst c1.
    rewrite gaps_cons, tex_gaps_cons. cbn [code_atoms tex_atoms] in *.
    destruct (code_atom force st (left_class st (Some (tex_atom p a (Some b)))) (next_class (hd_error r)) b) as [[l2 r2] c2].
    cbn [fst snd] in *. destruct (exc st (Some (tex_atom p a (Some b))) b (hd_error r)) eqn:E.
    + cbn [negb] in G. symmetry in G. apply N.eqb_neq in G. split; [intros [= K _]; contradiction|]. intros K.
      cbn [exceptional] in K. apply orb_false_iff in K as [K _]. unfold exc in E. rewrite E in K. discriminate.
    + cbn [negb] in G. symmetry in G. apply N.eqb_eq in G. rewrite <- (IH eq_refl), G. split; [now intros [= K]|now intros ->].
Qed.
