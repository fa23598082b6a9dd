(** Property C50: interning and splitting lose nothing. *)
From Verif Require Import Str M_Pool S_Pool L_Pool.

(** However many strings were stored before and are stored after, the stored string is read back,
    and the slice never leaves the pool; its ends are ends of stored strings. *)
Theorem C50_intern_get : forall before s after,
  let p := intern_all [] before in
  let (i, p') := intern p s in
  pool_get (intern_all p' after) i = Some (utf8 s).
Proof.
  intros before s after p. unfold intern.
  assert (H : forall l q, exists t, intern_all q l = q ++ t).
  { induction l as [|x l IH]; intros q; cbn [intern_all]; [exists []; now rewrite app_nil_r|].
    destruct (IH (snd (intern q x))) as [t Ht]. rewrite Ht. exists (utf8 x ++ t). cbn. now rewrite app_assoc. }
  destruct (H after (p ++ utf8 s)) as [t ->]. rewrite <- app_assoc. apply pool_get_mid.
Qed.

Theorem C50_slices_are_strings : forall before s,
  let p := intern_all [] before in
  let (i, p') := intern p s in
  firstn (fst i) p' = utf8 (concat before) /\ p' = utf8 (concat (before ++ [s])).
Proof.
  intros before s p. unfold intern. cbn [fst].
  assert (H : forall l q, intern_all q l = q ++ utf8 (concat l)).
  { induction l as [|x l IH]; intros q; cbn [intern_all concat]; [now rewrite app_nil_r|].
    rewrite IH, utf8_app. cbn. now rewrite app_assoc. }
  subst p. rewrite H. cbn [app]. rewrite firstn_app, firstn_all, Nat.sub_diag. cbn [firstn]. rewrite app_nil_r. split; [reflexivity|].
  rewrite concat_app, utf8_app. cbn [concat]. now rewrite app_nil_r.
Qed.

(** Splitting at an ASCII separator: the byte pieces are the encodings of strings without the
    separator which joined together give the input; a non-ASCII byte never splits. *)
Theorem C50_split_join : forall s c, c < 128 ->
  split_on_ascii_bytes s c = map utf8 (split_char c s) /\
  join c (split_char c s) = s /\ (forall p, In p (split_char c s) -> ~ In c p).
Proof.
  intros s c H. split; [now apply split_bytes_char|]. split; [|apply split_no_sep].
  pose proof (split_join c s) as J. pose proof (split_char_nonnil c s) as NE.
  assert (K : forall l, l <> [] -> fold_right (fun p acc => match acc with None => Some p | Some r => Some (p ++ c :: r) end) None l = Some (join c l)).
  { induction l as [|p l IH]; [contradiction|]. intros _. destruct l as [|p2 l]; [reflexivity|].
    change (fold_right ?f None (p :: p2 :: l)) with (f p (fold_right f None (p2 :: l))). rewrite IH by discriminate. reflexivity. }
  rewrite K in J by exact NE. now injection J.
Qed.

Theorem C50_split_non_ascii : forall s c, 128 <= c -> split_on_ascii_bytes s c = [utf8 s].
Proof.
  intros s c H. apply split_bytes_none. apply Forall_forall. intros b _. now replace (c <? 128) with false by lia.
Qed.

Example C50_nonvacuous :
  let p := intern_all [] [lit "ab"; [233]] in
  fst (intern p [8364; 65]) = (4%nat, 8%nat) /\
  pool_get (intern_all (snd (intern p [8364; 65])) [lit "zz"]) (4%nat, 8%nat) = Some (utf8 [8364; 65]) /\
  split_on_ascii_bytes [49; 44; 233; 44] 44 = [[49]; [195; 169]; []].
Proof. repeat split; vm_compute; reflexivity. Qed.

Print Assumptions C50_intern_get.
Print Assumptions C50_slices_are_strings.
Print Assumptions C50_split_join.
Print Assumptions C50_split_non_ascii.
