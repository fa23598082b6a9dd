(** Proofs about the string pool and splitting. *)
From Verif Require Import Str M_Pool.

Lemma utf8_app a b : utf8 (a ++ b) = utf8 a ++ utf8 b.
Proof. unfold utf8. now rewrite flat_map_app. Qed.

Lemma pool_get_mid a b c : pool_get (a ++ b ++ c) (length a, length (a ++ b)) = Some b.
Proof.
  unfold pool_get. cbn [fst snd]. rewrite !app_length.
  replace ((length a <=? length a + length b)%nat && (length a + length b <=? length a + (length b + length c))%nat) with true by lia.
  f_equal. replace (length a + length b - length a)%nat with (length b) by lia.
  rewrite skipn_app, skipn_all, Nat.sub_diag. cbn [app skipn].
  rewrite firstn_app, firstn_all, Nat.sub_diag. cbn [firstn]. apply app_nil_r.
Qed.

Lemma utf8_char_high c : 128 <= c -> Forall (fun b => 128 <= b) (utf8_char c).
Proof.
  intros H. unfold utf8_char. replace (c <? 128) with false by lia.
  destruct (c <? 0x800); [repeat (apply Forall_cons; [lia|]); apply Forall_nil|].
  destruct (c <? 0x10000); repeat (apply Forall_cons; [lia|]); apply Forall_nil.
Qed.

Lemma utf8_char_low c : c < 128 -> utf8_char c = [c].
Proof. intros H. unfold utf8_char. now replace (c <? 128) with true by lia. Qed.

Lemma split_bytes_nonnil sep l : split_bytes sep l <> [].
Proof. destruct l as [|b l]; cbn; [discriminate|]. destruct (sep b); [discriminate|]. now destruct (split_bytes sep l). Qed.

Lemma split_bytes_pre sep pre l p ps : Forall (fun b => sep b = false) pre -> split_bytes sep l = p :: ps ->
  split_bytes sep (pre ++ l) = (pre ++ p) :: ps.
Proof.
  induction 1 as [|b pre Hb H IH]; intros E; cbn [app split_bytes]; [exact E|]. rewrite Hb, (IH E). reflexivity.
Qed.

Lemma split_char_nonnil c s : split_char c s <> [].
Proof. destruct s as [|x s]; cbn; [discriminate|]. destruct (x =? c); [discriminate|]. now destruct (split_char c s). Qed.

Lemma split_bytes_char c s : c < 128 -> split_on_ascii_bytes s c = map utf8 (split_char c s).
Proof.
  intros Hc. unfold split_on_ascii_bytes. replace (c <? 128) with true by lia. cbn [andb].
  induction s as [|x s IH]; cbn [utf8 flat_map split_char]; [reflexivity|]. fold (utf8 s).
  destruct (x =? c) eqn:E.
  - apply N.eqb_eq in E as ->. rewrite utf8_char_low by assumption. cbn [app split_bytes]. rewrite N.eqb_refl, IH. reflexivity.
  - destruct (split_char c s) as [|p ps] eqn:Es; [now apply split_char_nonnil in Es|]. cbn [map] in IH |- *.
    cbn [utf8 flat_map]. fold (utf8 p).
    apply split_bytes_pre; [|exact IH].
    destruct (N.lt_ge_cases x 128) as [Hx|Hx].
    + rewrite utf8_char_low by assumption. apply Forall_cons; [exact E|apply Forall_nil].
    + eapply Forall_impl; [|now apply utf8_char_high]. intros b Hb. cbn in Hb. lia.
Qed.

Lemma split_bytes_none sep l : Forall (fun b => sep b = false) l -> split_bytes sep l = [l].
Proof. intros H. rewrite <- (app_nil_r l) at 1. erewrite split_bytes_pre; [|exact H|reflexivity]. now rewrite app_nil_r. Qed.

Lemma split_join c s : fold_right (fun p acc => match acc with None => Some p | Some r => Some (p ++ c :: r) end) None (split_char c s) = Some s.
Proof.
  induction s as [|x s IH]; cbn [split_char]; [reflexivity|]. destruct (x =? c) eqn:E.
  - cbn [fold_right]. rewrite IH. apply N.eqb_eq in E as ->. reflexivity.
  - destruct (split_char c s) as [|p ps] eqn:Es; [now apply split_char_nonnil in Es|]. cbn [fold_right] in IH |- *.
    destruct (fold_right _ _ ps); injection IH as <-; reflexivity.
Qed.

Lemma split_no_sep c s p : In p (split_char c s) -> ~ In c p.
Proof.
  revert p; induction s as [|x s IH]; cbn [split_char]; intros p H.
  - destruct H as [<-|[]]; auto.
  - destruct (x =? c) eqn:E.
    + destruct H as [<-|H]; auto.
    + destruct (split_char c s) as [|q ps] eqn:Es; [now apply split_char_nonnil in Es|].
      destruct H as [<-|H]; [|apply IH; now right]. intros [->|H]; [now rewrite N.eqb_refl in E|]. revert H. apply IH; now left.
Qed.
