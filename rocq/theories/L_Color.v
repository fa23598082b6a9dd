(** Proofs about the colors given by a model. *)
From Verif Require Import Str M_Length M_Spec M_Leaf S_Spec S_Color L_Spec.

Lemma hex_char_value v c : hex_char v c -> v < 16 /\ hex_value c = v /\ c < 128.
Proof.
  unfold hex_char. intros H. assert (Hv : (N.to_nat v < 16)%nat).
  { destruct H as [H|H]; apply (f_equal (fun o => match o with Some _ => true | None => false end)) in H;
    destruct (Nat.ltb_spec (N.to_nat v) 16) as [L|L]; try exact L;
    match type of H with match nth_error ?l _ with _ => _ end = _ => rewrite (proj2 (nth_error_None l (N.to_nat v)) L) in H end; discriminate. }
  rewrite <- (N2Nat.id v). generalize dependent (N.to_nat v). intros n H Hn.
  do 16 (destruct n as [|n]; [destruct H as [H|H]; cbn in H; injection H as <-; repeat split|]). lia.
Qed.

Lemma trim_start_blanks b s : blanks b -> trim_start_by is_white_space (b ++ s) = trim_start_by is_white_space s.
Proof. induction 1 as [|x b H _ IH]; [reflexivity|]. cbn [app trim_start_by]. now rewrite H. Qed.

Lemma trim_start_keep x s : is_white_space x = false -> trim_start_by is_white_space (x :: s) = x :: s.
Proof. intros H. cbn. now rewrite H. Qed.

Definition solid (s : str) : Prop := Forall (fun c => is_white_space c = false) s.

Lemma trim_start_solid s : solid s -> trim_start_by is_white_space s = s.
Proof. intros [|x l H _]; [reflexivity|now apply trim_start_keep]. Qed.

Lemma trim_solid b1 s b2 : blanks b1 -> blanks b2 -> solid s -> trim (b1 ++ s ++ b2) = s.
Proof.
  intros H1 H2 Hs. unfold trim, trim_by. rewrite trim_start_blanks by exact H1.
  assert (R : blanks (rev b2)) by (now apply Forall_rev).
  destruct s as [|x s].
  - cbn [app]. rewrite <- (app_nil_r b2), trim_start_blanks by exact H2. reflexivity.
  - inversion Hs as [|? ? Hx Hr]; subst. rewrite <- app_comm_cons, trim_start_keep by exact Hx.
    rewrite app_comm_cons, rev_app_distr, trim_start_blanks by exact R.
    rewrite trim_start_solid by (now apply Forall_rev). apply rev_involutive.
Qed.

Lemma digit_solid c : is_ascii_digit c = true -> is_white_space c = false.
Proof.
  unfold is_ascii_digit, is_white_space. rewrite andb_true_iff, !N.leb_le. intros [A B].
  repeat match goal with |- context [?a <=? ?b] => destruct (N.leb_spec a b); try lia end;
  repeat match goal with |- context [?a =? ?b] => destruct (N.eqb_spec a b); try lia end; reflexivity.
Qed.

Lemma digit_comma c : is_ascii_digit c = true -> c <> 44.
Proof. unfold is_ascii_digit. rewrite andb_true_iff, !N.leb_le. lia. Qed.

Lemma blank_comma c : is_white_space c = true -> c <> 44.
Proof. intros H ->. discriminate. Qed.

Lemma decimal_forall (P : N -> Prop) ip dot fp : (forall c, is_ascii_digit c = true -> P c) -> P 46 ->
  all_digits ip -> all_digits fp -> Forall P (decimal false ip dot fp).
Proof.
  intros H H46 Hi Hf. unfold decimal. cbn [app]. apply Forall_app. split.
  - eapply Forall_impl; [|exact Hi]. exact H.
  - destruct dot; constructor; [exact H46|]. eapply Forall_impl; [|exact Hf]. exact H.
Qed.

Definition no_comma (s : str) : Prop := Forall (fun c => c <> 44) s.

Lemma number_no_comma s m k : number_text s m k -> no_comma s.
Proof.
  intros (b1 & ip & dot & fp & b2 & -> & H1 & H2 & Hi & Hf & _). unfold no_comma. rewrite !Forall_app. repeat split.
  - eapply Forall_impl; [|exact H1]. exact blank_comma.
  - apply decimal_forall; try assumption; [exact digit_comma|discriminate].
  - eapply Forall_impl; [|exact H2]. exact blank_comma.
Qed.

Lemma number_parsed s m k : number_text s m k -> m < 2 ^ 64 -> limited_float_parse (trim s) = Some (decimal_f32 false m k).
Proof.
  intros (b1 & ip & dot & fp & b2 & -> & H1 & H2 & Hi & Hf & Hd & Hn & <- & <-) Hm.
  rewrite trim_solid; try assumption.
  - rewrite float_parse_decimal by assumption. change U64_MAX with (2 ^ 64 - 1).
    destruct (N.leb_spec (digits_value (ip ++ fp)) (2 ^ 64 - 1)) as [L|L]; [reflexivity|].
    exfalso. clear -Hm L. lia.
  - apply decimal_forall; try assumption; [exact digit_solid|reflexivity].
Qed.

Lemma split_no_comma s : no_comma s -> split_on 44 s = [s].
Proof.
  induction 1 as [|x s H _ IH]; [reflexivity|]. cbn [split_on]. rewrite (proj2 (N.eqb_neq x 44) H), IH. reflexivity.
Qed.

Lemma split_comma s r : no_comma s -> split_on 44 (s ++ 44 :: r) = s :: split_on 44 r.
Proof.
  induction 1 as [|x s H _ IH]; [reflexivity|]. cbn [app split_on]. rewrite (proj2 (N.eqb_neq x 44) H), IH. reflexivity.
Qed.

Definition small (m : N) : Prop := m < 2 ^ 64.

Lemma three_numbers s1 s2 s3 m1 m2 m3 k1 k2 k3 :
  number_text s1 m1 k1 -> number_text s2 m2 k2 -> number_text s3 m3 k3 -> small m1 -> small m2 -> small m3 ->
  three_floats (s1 ++ 44 :: s2 ++ 44 :: s3) = Some (decimal_f32 false m1 k1, decimal_f32 false m2 k2, decimal_f32 false m3 k3).
Proof.
  intros H1 H2 H3 L1 L2 L3. unfold three_floats.
  rewrite split_comma, split_comma, split_no_comma by (eapply number_no_comma; eassumption).
  rewrite (number_parsed _ _ _ H1 L1), (number_parsed _ _ _ H2 L2), (number_parsed _ _ _ H3 L3). reflexivity.
Qed.

(** All numbers below a bound. *)
Definition below (n : N) (p : N -> bool) : bool := N.recursion true (fun i r => p i && r) n.
Lemma below_spec n p : below n p = true -> forall m, m < n -> p m = true.
Proof.
  unfold below. induction n as [|n IH] using N.peano_ind; intros H m Hm; [lia|].
  rewrite N.recursion_succ in H; [|reflexivity|intros ? ? -> ? ? ->; reflexivity].
  apply andb_true_iff in H as [A B]. destruct (N.eq_dec m n) as [->|Hn]; [exact A|]. apply IH; [exact B|lia].
Qed.

Lemma unit_channels k m : (k <= 4)%nat -> m <= pow10 k -> unit_as_u8 (decimal_f32 false m k) = unit_channel m k.
Proof.
  intros Hk Hm.
  assert (H : forallb (fun k => below (pow10 k + 1) (fun m => unit_as_u8 (decimal_f32 false m k) =? unit_channel m k)) (seq 0 5) = true)
    by (vm_cast_no_check (eq_refl true)).
  rewrite forallb_forall in H. specialize (H k). rewrite in_seq in H. apply N.eqb_eq.
  apply (below_spec _ _ (H ltac:(lia))). lia.
Qed.

Lemma byte_channels k m : (k <= 2)%nat -> m < 256 * pow10 k -> f32_as_u8 (decimal_f32 false m k) = byte_channel m k.
Proof.
  intros Hk Hm.
  assert (H : forallb (fun k => below (256 * pow10 k) (fun m => f32_as_u8 (decimal_f32 false m k) =? byte_channel m k)) (seq 0 3) = true)
    by (vm_cast_no_check (eq_refl true)).
  rewrite forallb_forall in H. specialize (H k). rewrite in_seq in H. apply N.eqb_eq.
  apply (below_spec _ _ (H ltac:(lia))). exact Hm.
Qed.

Lemma pow10_bound k : (k <= 4)%nat -> pow10 k <= 10000.
Proof. intros H. do 5 (destruct k as [|k]; [cbn; lia|]). lia. Qed.
