(** Proofs about combined characters. *)
From Verif Require Import Str M_SuperChar S_SuperChar L_Escape.

Lemma testbit_split k a b n : a < 2 ^ k ->
  N.testbit (a + 2 ^ k * b) n = if n <? k then N.testbit a n else N.testbit b (n - k).
Proof.
  intros Ha. destruct (N.ltb_spec n k) as [H|H].
  - rewrite <- (N.mod_pow2_bits_low (a + 2 ^ k * b) k n H).
    f_equal. rewrite N.mul_comm, N.mod_add by (apply N.pow_nonzero; lia). apply N.mod_small, Ha.
  - replace n with ((n - k) + k) at 1 by lia. rewrite <- N.div_pow2_bits. f_equal.
    rewrite N.mul_comm, N.div_add by (apply N.pow_nonzero; lia).
    rewrite N.div_small by exact Ha. lia.
Qed.

Lemma land_lt k a b : a < 2 ^ k -> N.land a b < 2 ^ k.
Proof.
  intros H. destruct (N.eq_dec (N.land a b) 0) as [->|Hn]; [apply N.neq_0_lt_0, N.pow_nonzero; lia|].
  apply N.log2_lt_pow2; [lia|].
  pose proof (N.log2_land a b). destruct (N.eq_dec a 0) as [->|Ha]; [now rewrite N.land_0_l in Hn|].
  assert (N.log2 a < k) by (apply N.log2_lt_pow2; lia). lia.
Qed.

Lemma lor_lt k a b : a < 2 ^ k -> b < 2 ^ k -> N.lor a b < 2 ^ k.
Proof.
  intros Ha Hb. destruct (N.eq_dec a 0) as [->|Hna]; [now rewrite N.lor_0_l|].
  destruct (N.eq_dec b 0) as [->|Hnb]; [now rewrite N.lor_0_r|].
  assert (N.lor a b <> 0) by (rewrite N.lor_eq_0_iff; tauto).
  apply N.log2_lt_pow2; [lia|]. rewrite N.log2_lor.
  assert (N.log2 a < k) by (apply N.log2_lt_pow2; lia).
  assert (N.log2 b < k) by (apply N.log2_lt_pow2; lia). lia.
Qed.

Lemma land_split k a b c d : a < 2 ^ k -> c < 2 ^ k ->
  N.land (a + 2 ^ k * b) (c + 2 ^ k * d) = N.land a c + 2 ^ k * N.land b d.
Proof.
  intros Ha Hc. apply N.bits_inj. intros n.
  rewrite N.land_spec, !testbit_split by (try assumption; now apply land_lt).
  destruct (n <? k); now rewrite N.land_spec.
Qed.

Lemma lor_split k a b c d : a < 2 ^ k -> c < 2 ^ k ->
  N.lor (a + 2 ^ k * b) (c + 2 ^ k * d) = N.lor a c + 2 ^ k * N.lor b d.
Proof.
  intros Ha Hc. apply N.bits_inj. intros n.
  rewrite N.lor_spec, !testbit_split by (try assumption; now apply lor_lt).
  destruct (n <? k); now rewrite N.lor_spec.
Qed.

Lemma land_ones_low c : c < 2 ^ 21 -> N.land c CHAR_MASK = c.
Proof. intros H. change CHAR_MASK with (N.ones 21). rewrite N.land_ones. now apply N.mod_small. Qed.
Lemma lor_ones_low c : c < 2 ^ 21 -> N.lor c CHAR_MASK = CHAR_MASK.
Proof.
  intros H. apply N.bits_inj. intros n. rewrite N.lor_spec. change CHAR_MASK with (N.ones 21).
  destruct (N.ltb_spec n 21) as [Hn|Hn].
  - rewrite N.ones_spec_low by exact Hn. apply orb_true_r.
  - rewrite N.ones_spec_high by exact Hn. rewrite orb_false_r.
    destruct (N.eq_dec c 0) as [->|Hc]; [apply N.bits_0|].
    apply N.bits_above_log2. apply N.lt_le_trans with 21; [apply N.log2_lt_pow2; lia|exact Hn].
Qed.

(** The high part of a packed value, relative to bit 21. *)
Definition hi (c : cchar) : N :=
  32 * ((if cc_vline c then 1 else 0) + (if cc_solidus c then 2 else 0) + 4 * cc_vs c).

Lemma pack_hi c : cc_pack c = cc_base c + 2 ^ 21 * hi c.
Proof. unfold cc_pack, hi. change (2 ^ 26) with (2 ^ 21 * 32). lia. Qed.

Lemma scalar_lt21 c : is_scalar c = true -> c < 2 ^ 21.
Proof. intros H. apply is_scalar_lt in H. change (2 ^ 21) with 2097152. lia. Qed.

(** Finite case analysis over the flags. *)
Lemma vs_cases v : v < 16 -> In v [0;1;2;3;4;5;6;7;8;9;10;11;12;13;14;15].
Proof. intros H. cbn. lia. Qed.

Ltac flags c Hv :=
  destruct c as [b v s l]; cbn [cc_base cc_vs cc_solidus cc_vline] in *;
  apply vs_cases in Hv; cbn [In] in Hv;
  repeat (destruct Hv as [<-|Hv]; [destruct s, l; vm_compute; reflexivity|]); destruct Hv.

Lemma hi_bound c : cc_vs c < 16 -> hi c < 2 ^ 11.
Proof. intros H. unfold hi. change (2 ^ 11) with 2048. destruct (cc_vline c), (cc_solidus c); lia. Qed.

Definition lo21 (m : N) : N := m mod 2 ^ 21.
Definition hi11 (m : N) : N := m / 2 ^ 21.
Lemma mask_split m : m = lo21 m + 2 ^ 21 * hi11 m.
Proof. unfold lo21, hi11. pose proof (N.div_mod m (2 ^ 21)). lia. Qed.
Lemma lo21_lt m : lo21 m < 2 ^ 21.
Proof. apply N.mod_lt. apply N.pow_nonzero. lia. Qed.

Lemma pack_land b h m : b < 2 ^ 21 ->
  N.land (b + 2 ^ 21 * h) m = N.land b (lo21 m) + 2 ^ 21 * N.land h (hi11 m).
Proof. intros H. rewrite (mask_split m) at 1. apply land_split; [exact H|apply lo21_lt]. Qed.
Lemma pack_lor b h m : b < 2 ^ 21 ->
  N.lor (b + 2 ^ 21 * h) m = N.lor b (lo21 m) + 2 ^ 21 * N.lor h (hi11 m).
Proof. intros H. rewrite (mask_split m) at 1. apply lor_split; [exact H|apply lo21_lt]. Qed.

Lemma pack_low_mask c : cc_valid c -> N.land (cc_pack c) CHAR_MASK = cc_base c.
Proof.
  intros [Hs _]. apply scalar_lt21 in Hs. rewrite pack_hi, pack_land by exact Hs.
  change (lo21 CHAR_MASK) with CHAR_MASK. change (hi11 CHAR_MASK) with 0.
  rewrite land_ones_low by exact Hs. rewrite N.land_0_r. lia.
Qed.

Lemma pack_shiftr c : cc_valid c -> N.shiftr (cc_pack c) 28 = cc_vs c.
Proof.
  intros [Hs Hv]. apply is_scalar_lt in Hs. rewrite N.shiftr_div_pow2. unfold cc_pack.
  change (2 ^ 26) with 67108864. change (2 ^ 28) with 268435456.
  symmetry. apply N.div_unique with
    (cc_base c + 67108864 * ((if cc_vline c then 1 else 0) + (if cc_solidus c then 2 else 0))).
  - destruct (cc_vline c), (cc_solidus c); lia.
  - lia.
Qed.

Lemma pack_has_vs c : cc_valid c -> sc_has_vs (cc_pack c) = negb (cc_vs c =? 0).
Proof.
  intros [Hs Hv]. unfold sc_has_vs. f_equal. apply scalar_lt21 in Hs.
  rewrite pack_hi, pack_land by exact Hs.
  change (lo21 VS_MASK) with 0. rewrite N.land_0_r, N.add_0_l.
  assert (E : N.land (hi c) (hi11 VS_MASK) = 128 * cc_vs c).
  { clear Hs. unfold hi. flags c Hv. }
  rewrite E. destruct (N.eqb_spec (cc_vs c) 0) as [->|Hne]; [reflexivity|].
  apply N.eqb_neq. change (2 ^ 21) with 2097152. lia.
Qed.

Lemma pack_vs c : cc_valid c -> sc_vs (cc_pack c) = if cc_vs c =? 0 then None else Some (cc_vs c).
Proof. intros H. unfold sc_vs. now rewrite pack_shiftr. Qed.

(** ** Eytzinger search equals table lookup for every character *)

Definition search_agrees (c : N) : bool :=
  match get_precomposed_solidus_overlay c, assoc_n c solidus_sorted with
  | Some a, Some b => a =? b
  | None, None => true
  | _, _ => false
  end.

Fixpoint up_to (n : nat) (from : N) : list N :=
  match n with O => [] | S k => from :: up_to k (N.succ from) end.
Lemma up_to_in n : forall from x, from <= x -> x < from + N.of_nat n -> In x (up_to n from).
Proof.
  induction n as [|n IH]; intros from x H1 H2; [lia|].
  cbn [up_to In]. destruct (N.eq_dec from x); [now left|right]. apply IH; lia.
Qed.

(** Outside the key range the search fails; inside it we sweep. *)
Lemma search_sweep : forallb search_agrees (up_to (N.to_nat 65536) 0) = true.
Proof. vm_compute. reflexivity. Qed.

Lemma assoc_high c : 0xFFFF < c -> assoc_n c solidus_sorted = None.
Proof.
  intros H. assert (K : Forall (fun p => fst p <= 0xFFFF) solidus_sorted).
  { repeat (constructor; [cbn; lia|]). constructor. }
  revert K. generalize solidus_sorted. induction l as [|[k v] l IH]; intros K; [reflexivity|].
  pose proof (Forall_inv K) as K1. cbn [fst] in K1. apply Forall_inv_tail in K. cbn [assoc_n].
  destruct (N.eqb_spec c k); [lia|]. auto.
Qed.

Lemma precomposed_is_lookup c : get_precomposed_solidus_overlay c = assoc_n c solidus_sorted.
Proof.
  destruct (N.ltb_spec 0xFFFF c) as [H|H].
  - rewrite assoc_high by exact H. unfold get_precomposed_solidus_overlay.
    destruct (N.ltb_spec 0xFFFF c); [reflexivity|lia].
  - pose proof search_sweep as S. rewrite forallb_forall in S.
    specialize (S c).
    assert (Hin : In c (up_to (N.to_nat 65536) 0)) by (apply up_to_in; [lia|rewrite N2Nat.id; lia]).
    specialize (S Hin). clear Hin.
    unfold search_agrees in S.
    destruct (get_precomposed_solidus_overlay c), (assoc_n c solidus_sorted); try discriminate; try reflexivity.
    apply N.eqb_eq in S. now f_equal.
Qed.

Lemma assoc_in c p : assoc_n c solidus_sorted = Some p -> In (c, p) solidus_sorted.
Proof.
  generalize solidus_sorted. induction l as [|[k v] l IH]; cbn [assoc_n]; [discriminate|].
  destruct (N.eqb_spec c k) as [->|]; intros H; [injection H as ->; now left|right; auto].
Qed.

Definition table_ok (p : N * N) : bool :=
  is_scalar (snd p) && (match assoc_n (snd p) solidus_sorted with Some q => q =? snd p | None => false end).
Lemma table_sweep : forallb table_ok solidus_sorted = true.
Proof. vm_compute. reflexivity. Qed.

Lemma assoc_target c p : assoc_n c solidus_sorted = Some p ->
  is_scalar p = true /\ assoc_n p solidus_sorted = Some p.
Proof.
  intros H. apply assoc_in in H. pose proof table_sweep as T. rewrite forallb_forall in T.
  specialize (T _ H). unfold table_ok in T. cbn [snd] in T. apply andb_true_iff in T as [T1 T2].
  split; [exact T1|]. destruct (assoc_n p solidus_sorted); [|discriminate].
  apply N.eqb_eq in T2. now f_equal.
Qed.

(** ** Operations refine the record operations *)

Lemma from_char_pack c : sc_from_char c = cc_pack {| cc_base := c; cc_vs := 0; cc_solidus := false; cc_vline := false |}.
Proof. unfold sc_from_char, cc_pack. cbn. lia. Qed.

Lemma from_char_with_vs_pack c v : is_scalar c = true -> v < 16 ->
  sc_from_char_with_vs c v = cc_pack {| cc_base := c; cc_vs := v; cc_solidus := false; cc_vline := false |}.
Proof.
  intros Hs Hv. unfold sc_from_char_with_vs. apply scalar_lt21 in Hs.
  rewrite N.shiftl_mul_pow2. rewrite pack_hi. cbn [cc_base].
  replace c with (c + 2 ^ 21 * 0) at 1 by lia.
  replace (v * 2 ^ 28) with (0 + 2 ^ 21 * (v * 128)) by (change (2 ^ 28) with (2 ^ 21 * 128); lia).
  rewrite lor_split; [|exact Hs|apply N.neq_0_lt_0, N.pow_nonzero; lia].
  rewrite N.lor_0_r, N.lor_0_l. f_equal. f_equal. unfold hi. cbn [cc_vline cc_solidus cc_vs]. lia.
Qed.

Lemma add_vline_pack c : cc_valid c -> sc_with_overlay (cc_pack c) VerticalLine = cc_pack (cc_add_vline c).
Proof.
  intros [Hs Hv]. cbn [sc_with_overlay]. apply scalar_lt21 in Hs. rewrite !pack_hi, pack_lor by exact Hs.
  change (lo21 VERTICAL_LINE_BIT) with 0. rewrite N.lor_0_r. cbn [cc_add_vline cc_base]. f_equal. f_equal.
  clear Hs. unfold hi. flags c Hv.
Qed.

Lemma add_solidus_pack c : cc_valid c -> sc_with_overlay (cc_pack c) Solidus = cc_pack (cc_add_solidus c).
Proof.
  intros Hc. cbn [sc_with_overlay]. rewrite pack_has_vs by exact Hc. rewrite negb_involutive.
  unfold sc_base_char. rewrite pack_low_mask by exact Hc. rewrite precomposed_is_lookup.
  unfold cc_add_solidus. destruct Hc as [Hs Hv]. pose proof (scalar_lt21 _ Hs) as Hb.
  destruct (if cc_vs c =? 0 then assoc_n (cc_base c) solidus_sorted else None) as [p|] eqn:E.
  - destruct (cc_vs c =? 0); [|discriminate]. apply assoc_target in E as [Hp _].
    apply scalar_lt21 in Hp. rewrite !pack_hi, pack_land by exact Hb.
    change (lo21 (u32_not CHAR_MASK)) with 0. rewrite N.land_0_r, N.add_0_l. cbn [cc_base].
    replace p with (p + 2 ^ 21 * 0) at 1 by lia.
    replace (2 ^ 21 * N.land (hi c) (hi11 (u32_not CHAR_MASK)))
      with (0 + 2 ^ 21 * N.land (hi c) (hi11 (u32_not CHAR_MASK))) by lia.
    rewrite lor_split; [|apply N.neq_0_lt_0, N.pow_nonzero; lia|exact Hp].
    rewrite N.lor_0_l, N.lor_0_r. f_equal. f_equal. clear Hs Hb Hp. unfold hi. flags c Hv.
  - rewrite !pack_hi, pack_lor by exact Hb.
    change (lo21 SOLIDUS_BIT) with 0. rewrite N.lor_0_r. cbn [cc_base]. f_equal. f_equal.
    clear Hs Hb E. unfold hi. flags c Hv.
Qed.

Lemma add_solidus_valid c : cc_valid c -> cc_valid (cc_add_solidus c).
Proof.
  intros [Hs Hv]. unfold cc_add_solidus.
  destruct (if cc_vs c =? 0 then assoc_n (cc_base c) solidus_sorted else None) as [p|] eqn:E.
  - destruct (cc_vs c =? 0); [|discriminate]. apply assoc_target in E as [Hp _]. split; assumption.
  - split; assumption.
Qed.
Lemma add_vline_valid c : cc_valid c -> cc_valid (cc_add_vline c).
Proof. intros [Hs Hv]. split; assumption. Qed.

(** ** The iterator *)

Definition after_base (c : cchar) : N := CHAR_MASK + 2 ^ 21 * hi c.

Lemma chars_after_base c : cc_vs c < 16 ->
  sc_chars_go 4 (after_base c) =
  Some ((if cc_vs c =? 0 then [] else [0xFDFF + cc_vs c]) ++
        (if cc_solidus c then [0x338] else []) ++ (if cc_vline c then [0x20D2] else [])).
Proof. intros Hv. unfold after_base, hi. flags c Hv. Qed.

Lemma chars_pack c : cc_valid c -> sc_chars (cc_pack c) = Some (cc_text c).
Proof.
  intros Hc. unfold sc_chars. change 5%nat with (S 4). remember 4%nat as k eqn:Ek.
  cbn [sc_chars_go]. unfold sc_next. rewrite pack_low_mask by exact Hc.
  destruct Hc as [Hs Hv]. pose proof (is_scalar_lt _ Hs) as Hlt.
  destruct (N.eqb_spec (cc_base c) CHAR_MASK) as [E|_].
  { unfold CHAR_MASK in E. lia. }
  cbn [negb]. subst k.
  assert (E : N.lor (cc_pack c) CHAR_MASK = after_base c).
  { rewrite pack_hi, pack_lor by (now apply scalar_lt21).
    change (lo21 CHAR_MASK) with CHAR_MASK. change (hi11 CHAR_MASK) with 0.
    rewrite lor_ones_low, N.lor_0_r by (now apply scalar_lt21). reflexivity. }
  rewrite E, chars_after_base by exact Hv. reflexivity.
Qed.

Lemma pack_inj a b : cc_valid a -> cc_valid b -> cc_pack a = cc_pack b -> a = b.
Proof.
  intros Ha Hb E.
  assert (B : cc_base a = cc_base b).
  { rewrite <- (pack_low_mask a Ha), <- (pack_low_mask b Hb). now rewrite E. }
  assert (W : cc_vs a = cc_vs b).
  { rewrite <- (pack_shiftr a Ha), <- (pack_shiftr b Hb). now rewrite E. }
  unfold cc_pack in E. destruct a as [ba va sa la], b as [bb vb sb lb].
  cbn [cc_base cc_vs cc_solidus cc_vline] in *. subst.
  change (2 ^ 26) with 67108864 in E.
  assert (sa = sb /\ la = lb) as [-> ->]; [|reflexivity].
  destruct sa, sb, la, lb; split; try reflexivity; lia.
Qed.

Lemma try_as_char_pack c : cc_valid c ->
  sc_try_as_char (cc_pack c) =
  if (cc_vs c =? 0) && negb (cc_solidus c) && negb (cc_vline c) then Some (cc_base c) else None.
Proof.
  intros Hc. unfold sc_try_as_char, sc_base_char. rewrite pack_low_mask by exact Hc.
  unfold cc_pack. change (2 ^ 26) with 67108864.
  destruct (N.eqb_spec (cc_vs c) 0) as [->|Hne].
  - destruct (cc_solidus c), (cc_vline c); cbn [andb negb];
      match goal with |- context [?a =? ?b] => destruct (N.eqb_spec a b) end; try reflexivity; lia.
  - cbn [andb]. destruct (cc_solidus c), (cc_vline c);
      match goal with |- context [?a =? ?b] => destruct (N.eqb_spec a b) end; try reflexivity; lia.
Qed.

Lemma text_len12 c : cc_valid c -> (blen (cc_text c) <= 12)%nat.
Proof.
  intros [Hs Hv]. unfold cc_text. cbn [blen]. rewrite !blen_app.
  pose proof (len_utf8_pos (cc_base c)).
  assert (H1 : (blen (if (cc_vs c =? 0)%N then [] else [(0xFDFF + cc_vs c)%N]) <= 3)%nat).
  { destruct (cc_vs c =? 0); cbn [blen]; [lia|]. unfold len_utf8.
    destruct (N.ltb_spec (0xFDFF + cc_vs c) 0x80); [lia|].
    destruct (N.ltb_spec (0xFDFF + cc_vs c) 0x800); [lia|].
    destruct (N.ltb_spec (0xFDFF + cc_vs c) 0x10000); lia. }
  assert (H2 : (blen (if cc_solidus c then [0x338%N] else []) <= 2)%nat) by (destruct (cc_solidus c); cbn; lia).
  assert (H3 : (blen (if cc_vline c then [0x20D2%N] else []) <= 3)%nat) by (destruct (cc_vline c); cbn; lia).
  apply (Nat.add_le_mono _ 4 _ 8); [apply H|]. apply (Nat.add_le_mono _ 3 _ 5); [exact H1|].
  exact (Nat.add_le_mono _ 2 _ 3 H2 H3).
Qed.

Lemma add_solidus_idem c : cc_valid c -> cc_add_solidus (cc_add_solidus c) = cc_add_solidus c.
Proof.
  intros Hc. unfold cc_add_solidus at 2 3.
  destruct (cc_vs c =? 0) eqn:Ev.
  - destruct (assoc_n (cc_base c) solidus_sorted) as [p|] eqn:E.
    + unfold cc_add_solidus. cbn [cc_vs cc_base cc_solidus cc_vline]. rewrite Ev.
      apply assoc_target in E as [_ ->]. reflexivity.
    + unfold cc_add_solidus. cbn [cc_vs cc_base cc_solidus cc_vline]. rewrite Ev, E. reflexivity.
  - unfold cc_add_solidus. cbn [cc_vs cc_base cc_solidus cc_vline]. rewrite Ev. reflexivity.
Qed.
