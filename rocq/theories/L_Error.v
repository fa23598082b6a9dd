(** Proofs about error rendering. *)
From Verif Require Import Str M_Escape S_Html M_Cli L_Escape M_Error.
Local Open Scope nat_scope.

Lemma floor_prefix_exact pre post : floor_prefix (pre ++ post) (blen pre) = pre.
Proof.
  induction pre as [|c pre IH]; cbn [app blen floor_prefix].
  - destruct post as [|c post]; [reflexivity|]. cbn [floor_prefix].
    pose proof (len_utf8_pos c). destruct (Nat.leb_spec (len_utf8 c) 0); [lia|reflexivity].
  - destruct (Nat.leb_spec (len_utf8 c) (len_utf8 c + blen pre)); [|lia].
    replace (len_utf8 c + blen pre - len_utf8 c) with (blen pre) by lia. now rewrite IH.
Qed.

(** In general: the longest prefix that fits. *)
Lemma floor_prefix_spec input : forall start,
  exists post, input = floor_prefix input start ++ post /\
    blen (floor_prefix input start) <= start /\
    (forall c post', post = c :: post' -> start < blen (floor_prefix input start) + len_utf8 c).
Proof.
  induction input as [|c input IH]; intros start.
  - exists []. cbn. repeat split; [lia|]. discriminate.
  - cbn [floor_prefix]. destruct (Nat.leb_spec (len_utf8 c) start).
    + destruct (IH (start - len_utf8 c)) as (post & E & H1 & H2).
      exists post. cbn [app blen]. repeat split; [now rewrite <- E|lia|].
      intros c' post' Hp. specialize (H2 c' post' Hp). lia.
    + exists (c :: input). cbn [app blen]. repeat split; [lia|].
      intros c' post' Hp. injection Hp as <- <-. lia.
Qed.

Lemma get_prefix_exact pre post : get_prefix (pre ++ post) (blen pre) = Some pre.
Proof.
  induction pre as [|c pre IH]; [destruct post; reflexivity|].
  cbn [app blen]. pose proof (len_utf8_pos c).
  destruct (len_utf8 c + blen pre) as [|m] eqn:Em; [lia|].
  cbn [get_prefix]. destruct (Nat.leb_spec (len_utf8 c) (S m)); [|lia].
  replace (S m - len_utf8 c) with (blen pre) by lia. now rewrite IH.
Qed.

Lemma to_html_spec start msg latex d css :
  exists t s,
    to_html start msg latex d css =
      Some (let tag := match d with Block => lit "p" | Inline => lit "span" end in
            lit "<" ++ tag ++ lit " class=" ++ [34%N] ++ css ++ [34%N] ++ lit " title=" ++ [34%N]
            ++ t ++ [34%N] ++ lit "><code>" ++ s ++ lit "</code></" ++ tag ++ lit ">") /\
    attr_safe t /\ html_decode t = to_message [] start msg latex /\
    content_safe s /\ html_decode s = latex.
Proof.
  unfold to_html.
  cbn zeta.
  match goal with |- context [escape_attr ?o ?m] =>
    destruct (escape_attr_spec o m) as (t & Et & Ht1 & Ht2) end.
  rewrite Et.
  match goal with |- context [escape_html_content ?o latex] =>
    destruct (escape_html_content_spec o latex) as (s & Es & Hs1 & Hs2) end.
  rewrite Es. exists t, s. split; [|repeat split; try assumption; apply Ht1 || apply Hs1].
  f_equal. rewrite <- !app_assoc. reflexivity.
Qed.

(** Decimal rendering is injective (used to read positions back). *)
Fixpoint undec (s : str) (acc : N) : N :=
  match s with [] => acc | c :: r => undec r (10 * acc + (c - 48))%N end.

Lemma dec_digits_undec : forall f n acc, (n < 10 ^ N.of_nat f)%N ->
  undec (dec_digits f n acc) 0 = undec acc n.
Proof.
  induction f as [|f IH]; intros n acc H.
  - cbn in H. replace n with 0%N by lia. reflexivity.
  - cbn [dec_digits]. pose proof (N.div_mod n 10) as D.
    assert (U : undec ((48 + n mod 10)%N :: acc) (n / 10) = undec acc n).
    { cbn [undec]. f_equal. lia. }
    destruct (N.eqb_spec (n / 10) 0) as [E|E].
    + rewrite <- U, E. reflexivity.
    + rewrite IH; [exact U|].
      rewrite Nat2N.inj_succ, N.pow_succ_r' in H. apply N.div_lt_upper_bound; lia.
Qed.

Lemma dec_undec n : undec (dec n) 0 = n.
Proof.
  unfold dec. rewrite dec_digits_undec; [reflexivity|].
  destruct (N.eq_dec n 0) as [->|Hn]; [reflexivity|].
  pose proof (N.log2_spec n ltac:(lia)) as [_ H].
  rewrite Nat2N.inj_succ, N2Nat.id.
  eapply N.lt_le_trans; [exact H|]. apply N.pow_le_mono_l. lia.
Qed.

Lemma dec_inj a b : dec a = dec b -> a = b.
Proof. intros H. rewrite <- (dec_undec a), <- (dec_undec b). now rewrite H. Qed.

Lemma dec_digits_digits : forall f n acc,
  Forall (fun c => is_ascii_digit c = true) acc ->
  Forall (fun c => is_ascii_digit c = true) (dec_digits f n acc).
Proof.
  induction f as [|f IH]; intros n acc H; cbn [dec_digits]; [exact H|].
  assert (H' : Forall (fun c => is_ascii_digit c = true) ((48 + n mod 10)%N :: acc)).
  { constructor; [|exact H]. pose proof (N.mod_lt n 10). unfold is_ascii_digit. lia. }
  destruct (n / 10 =? 0)%N; auto.
Qed.

Lemma dec_all_digits n : Forall (fun c => is_ascii_digit c = true) (dec n).
Proof. apply dec_digits_digits. constructor. Qed.
