(** Proofs about the escapers. *)
From Verif Require Import Str M_Escape S_Html.

(** A per-character escaper: either copies a harmless character or emits the entity. *)
Definition escaper (f : N -> str) : Prop :=
  forall c, (f c = [c] /\ c <> 38) \/ In (f c, c) entity_table.

Lemma decode_skip p r : html_decode_go (List.length p) (p ++ r) = html_decode_go O r.
Proof.
  induction p as [|c p IH].
  - destruct r; reflexivity.
  - cbn [List.length app html_decode_go]. exact IH.
Qed.

Lemma entity_cases e c : In (e, c) entity_table ->
  (e, c) = (lit "&amp;", 38) \/ (e, c) = (lit "&lt;", 60) \/ (e, c) = (lit "&gt;", 62) \/
  (e, c) = (lit "&quot;", 34) \/ (e, c) = (lit "&#39;", 39).
Proof.
  intros H. cbn [entity_table In] in H.
  destruct H as [H|[H|[H|[H|[H|[]]]]]]; rewrite <- H; tauto.
Qed.

Lemma decode_entity e c r : In (e, c) entity_table ->
  html_decode_go O (e ++ r) = c :: html_decode_go O r.
Proof.
  intros H. apply entity_cases in H.
  destruct H as [H|[H|[H|[H|H]]]]; injection H as -> ->;
    cbn; destruct r; reflexivity.
Qed.

Lemma match_entity_plain c r : c <> 38 -> match_entity entity_table (c :: r) = None.
Proof.
  intros H. cbn [entity_table match_entity lit starts_with].
  change (N_of_ascii "&") with 38.
  replace (38 =? c) with false by (symmetry; apply N.eqb_neq; congruence).
  reflexivity.
Qed.

Lemma decode_flat_map f s : escaper f -> html_decode (flat_map f s) = s.
Proof.
  intros Hf. unfold html_decode. induction s as [|c s IH]; [reflexivity|].
  cbn [flat_map]. destruct (Hf c) as [[E Hc]|Hin].
  - rewrite E. cbn [app html_decode_go]. rewrite match_entity_plain by exact Hc.
    now rewrite IH.
  - rewrite (decode_entity _ c _ Hin), IH. reflexivity.
Qed.

Lemma app_eq_app_cases (a b c d : str) x :
  a ++ b = c ++ x :: d ->
  (exists l, a = c ++ x :: l /\ d = l ++ b) \/ (exists l, c = a ++ l /\ b = l ++ x :: d).
Proof.
  revert c; induction a as [|y a IH]; intros c H; cbn [app] in H.
  - right. exists c. split; [reflexivity|exact H].
  - destruct c as [|z c]; cbn [app] in H; injection H as -> H.
    + left. exists a. split; [reflexivity | now symmetry].
    + destruct (IH c H) as [(l & -> & ->)|(l & -> & ->)].
      * left. exists l. split; reflexivity.
      * right. exists l. split; reflexivity.
Qed.

Lemma entity_amp_head e c l r : In (e, c) entity_table -> e = l ++ 38 :: r -> l = [].
Proof.
  intros H E. apply entity_cases in H.
  destruct H as [H|[H|[H|[H|H]]]]; injection H as -> _;
    (destruct l as [|y l]; [reflexivity|exfalso]);
    cbn in E; injection E as _ E;
    repeat (destruct l as [|? l]; cbn in E; try discriminate E; injection E as ? E; try discriminate).
Qed.

Lemma amp_flat_map f s : escaper f -> every_amp_is_entity (flat_map f s).
Proof.
  intros Hf. induction s as [|c s IH]; intros a b E.
  - destruct a; discriminate E.
  - cbn [flat_map] in E. destruct (app_eq_app_cases _ _ _ _ _ E) as [(l & E1 & E2)|(l & E1 & E2)].
    + destruct (Hf c) as [[F Hc]|Hin].
      * exfalso. rewrite F in E1. destruct a as [|y a].
        -- injection E1 as E1 _. congruence.
        -- injection E1 as _ E1. destruct a; discriminate E1.
      * pose proof (entity_amp_head _ _ _ _ Hin E1) as ->. cbn [app] in E1.
        exists (f c), c. split; [exact Hin|].
        rewrite E2, app_comm_cons, <- E1. apply starts_with_app.
    + apply (IH l b E2).
Qed.

Lemma not_in_flat_map (f : N -> str) (s : str) (x : N) :
  (forall c, ~ In x (f c)) -> ~ In x (flat_map f s).
Proof. intros H Hin. apply in_flat_map in Hin as (c & _ & Hc). exact (H c Hc). Qed.

(** ** escape_html_content *)

Definition esc_content (c : N) : str :=
  if c =? 38 then lit "&amp;" else if c =? 60 then lit "&lt;"
  else if c =? 62 then lit "&gt;" else [c].

Lemma position_none p s : position p s = None -> forall c, In c s -> p c = false.
Proof.
  induction s as [|d s IH]; intros H c Hc; [destruct Hc|].
  cbn [position] in H. destruct (p d) eqn:Ed; [discriminate|].
  destruct (position p s); [discriminate|].
  destruct Hc as [->|Hc]; [exact Ed|exact (IH eq_refl c Hc)].
Qed.

Lemma position_some p s i : position p s = Some i ->
  exists c r, skipn i s = c :: r /\ s = firstn i s ++ c :: r /\ p c = true /\
              (forall d, In d (firstn i s) -> p d = false) /\ (List.length r < List.length s)%nat.
Proof.
  revert i; induction s as [|d s IH]; intros i H; cbn [position] in H; [discriminate|].
  destruct (p d) eqn:Ed.
  - injection H as <-. exists d, s. cbn. repeat split; auto.
    intros x [].
  - destruct (position p s) as [j|] eqn:Ej; [|discriminate]. injection H as <-.
    destruct (IH j eq_refl) as (c & r & H1 & H2 & H3 & H4 & H5).
    exists c, r. cbn [skipn firstn app List.length]. repeat split; auto.
    + now rewrite <- H2.
    + intros x [<-|Hx]; auto.
Qed.

Lemma esc_content_plain s :
  (forall c, In c s -> is_content_special c = false) -> flat_map esc_content s = s.
Proof.
  induction s as [|c s IH]; intros H; [reflexivity|]. cbn [flat_map].
  rewrite IH by (intros; apply H; now right).
  specialize (H c (or_introl eq_refl)). unfold is_content_special in H. unfold esc_content.
  apply orb_false_iff in H as [H H3]. apply orb_false_iff in H as [H1 H2].
  now rewrite H1, H2, H3.
Qed.

Lemma escape_html_content_loop_eq fuel : forall out s, (List.length s <= fuel)%nat ->
  escape_html_content_loop fuel out s = Some (out ++ flat_map esc_content s).
Proof.
  induction fuel as [|fuel IH]; intros out s Hlen.
  - destruct s; [|cbn in Hlen; lia]. cbn. reflexivity.
  - cbn [escape_html_content_loop].
    destruct (position is_content_special s) as [i|] eqn:Ei.
    + destruct (position_some _ _ _ Ei) as (c & r & H1 & H2 & H3 & H4 & H5).
      rewrite H1. rewrite IH by lia.
      f_equal. rewrite H2 at 2. rewrite flat_map_app. cbn [flat_map].
      rewrite (esc_content_plain (firstn i s)) by exact H4.
      rewrite <- !app_assoc. do 2 f_equal. unfold esc_content.
      unfold is_content_special in H3.
      destruct (c =? 38); [reflexivity|]. destruct (c =? 60); [reflexivity|].
      destruct (c =? 62); [reflexivity|discriminate].
    + rewrite esc_content_plain; [reflexivity|]. now apply position_none.
Qed.

Lemma escape_html_content_eq out s :
  escape_html_content out s = Some (out ++ flat_map esc_content s).
Proof. apply escape_html_content_loop_eq. lia. Qed.

Lemma esc_content_escaper : escaper esc_content.
Proof.
  intros c. unfold esc_content.
  destruct (N.eqb_spec c 38) as [->|]; [right; cbn; tauto|].
  destruct (N.eqb_spec c 60) as [->|]; [right; cbn; tauto|].
  destruct (N.eqb_spec c 62) as [->|]; [right; cbn; tauto|].
  left. auto.
Qed.

Ltac not_in_lit := cbn; intros Hin; repeat (destruct Hin as [Hin|Hin]; [discriminate Hin|]); exact Hin.

Lemma esc_content_no60 c : ~ In 60 (esc_content c).
Proof.
  unfold esc_content.
  destruct (N.eqb_spec c 38) as [->|]; [not_in_lit|].
  destruct (N.eqb_spec c 60) as [->|]; [not_in_lit|].
  destruct (N.eqb_spec c 62) as [->|]; [not_in_lit|].
  cbn; intros [H|[]]; congruence.
Qed.

Lemma esc_content_no62 c : ~ In 62 (esc_content c).
Proof.
  unfold esc_content.
  destruct (N.eqb_spec c 38) as [->|]; [not_in_lit|].
  destruct (N.eqb_spec c 60) as [->|]; [not_in_lit|].
  destruct (N.eqb_spec c 62) as [->|]; [not_in_lit|].
  cbn; intros [H|[]]; congruence.
Qed.

Lemma escape_html_content_spec out s :
  exists e, escape_html_content out s = Some (out ++ e) /\ content_safe e /\ html_decode e = s.
Proof.
  exists (flat_map esc_content s). split; [apply escape_html_content_eq|]. split.
  - repeat split.
    + apply not_in_flat_map, esc_content_no60.
    + apply not_in_flat_map, esc_content_no62.
    + apply amp_flat_map, esc_content_escaper.
  - apply decode_flat_map, esc_content_escaper.
Qed.

(** ** escape_attr *)

Definition esc_attr (c : N) : str :=
  if c =? 38 then lit "&amp;" else if c =? 34 then lit "&quot;" else [c].

Lemma escape_attr_eq out s : escape_attr out s = out ++ flat_map esc_attr s.
Proof.
  revert out; induction s as [|c s IH]; intros out; cbn [escape_attr flat_map].
  - now rewrite app_nil_r.
  - rewrite IH, <- app_assoc. reflexivity.
Qed.

Lemma esc_attr_escaper : escaper esc_attr.
Proof.
  intros c. unfold esc_attr.
  destruct (N.eqb_spec c 38) as [->|]; [right; cbn; tauto|].
  destruct (N.eqb_spec c 34) as [->|]; [right; cbn; tauto|].
  left. auto.
Qed.

Lemma esc_attr_no34 c : ~ In 34 (esc_attr c).
Proof.
  unfold esc_attr.
  destruct (N.eqb_spec c 38) as [->|]; [not_in_lit|].
  destruct (N.eqb_spec c 34) as [->|]; [not_in_lit|].
  cbn; intros [H|[]]; congruence.
Qed.

Lemma escape_attr_spec out s :
  exists e, escape_attr out s = out ++ e /\ attr_safe e /\ html_decode e = s.
Proof.
  exists (flat_map esc_attr s). split; [apply escape_attr_eq|]. split; [split|].
  - apply not_in_flat_map, esc_attr_no34.
  - apply amp_flat_map, esc_attr_escaper.
  - apply decode_flat_map, esc_attr_escaper.
Qed.

(** ** escape_html *)

Definition esc_html (c : N) : str :=
  if c =? 60 then lit "&lt;" else if c =? 62 then lit "&gt;" else if c =? 38 then lit "&amp;"
  else if c =? 34 then lit "&quot;" else if c =? 39 then lit "&#39;" else [c].

Lemma escape_html_eq s : escape_html s = flat_map esc_html s.
Proof. induction s as [|c s IH]; cbn [escape_html flat_map]; [reflexivity|]. now rewrite IH. Qed.

Lemma esc_html_escaper : escaper esc_html.
Proof.
  intros c. unfold esc_html.
  destruct (N.eqb_spec c 60) as [->|]; [right; cbn; tauto|].
  destruct (N.eqb_spec c 62) as [->|]; [right; cbn; tauto|].
  destruct (N.eqb_spec c 38) as [->|]; [right; cbn; tauto|].
  destruct (N.eqb_spec c 34) as [->|]; [right; cbn; tauto|].
  destruct (N.eqb_spec c 39) as [->|]; [right; cbn; tauto|].
  left. auto.
Qed.

Lemma esc_html_clean x c : In x [60; 62; 34; 39] -> ~ In x (esc_html c).
Proof.
  intros Hx. unfold esc_html.
  assert (D : x = 60 \/ x = 62 \/ x = 34 \/ x = 39) by (cbn in Hx; intuition congruence).
  destruct (N.eqb_spec c 60) as [->|]; [destruct D as [->|[->|[->| ->]]]; not_in_lit|].
  destruct (N.eqb_spec c 62) as [->|]; [destruct D as [->|[->|[->| ->]]]; not_in_lit|].
  destruct (N.eqb_spec c 38) as [->|]; [destruct D as [->|[->|[->| ->]]]; not_in_lit|].
  destruct (N.eqb_spec c 34) as [->|]; [destruct D as [->|[->|[->| ->]]]; not_in_lit|].
  destruct (N.eqb_spec c 39) as [->|]; [destruct D as [->|[->|[->| ->]]]; not_in_lit|].
  cbn; intros [H|[]]; subst; intuition congruence.
Qed.

Lemma escape_html_spec s :
  content_safe (escape_html s) /\ attr_safe (escape_html s) /\ ~ In 39 (escape_html s) /\
  html_decode (escape_html s) = s.
Proof.
  rewrite escape_html_eq.
  assert (C : forall x, In x [60; 62; 34; 39] -> ~ In x (flat_map esc_html s)).
  { intros x Hx. apply not_in_flat_map. intros c. now apply esc_html_clean. }
  assert (A : every_amp_is_entity (flat_map esc_html s)) by apply amp_flat_map, esc_html_escaper.
  repeat split; try exact A; try (apply C; cbn; tauto).
  apply decode_flat_map, esc_html_escaper.
Qed.

(** ** Percent encoding *)

Lemma byte_forall (P : N -> bool) :
  forallb P (map N.of_nat (seq 0 256)) = true -> forall b, b < 256 -> P b = true.
Proof.
  intros H b Hb. rewrite forallb_forall in H. apply H.
  apply in_map_iff. exists (N.to_nat b). split; [lia|]. apply in_seq. lia.
Qed.

Lemma percent_decode_encoded b r : b < 256 ->
  percent_decode ([37; hex_digit (b / 16); hex_digit (b mod 16)] ++ r) = b :: percent_decode r.
Proof.
  intros Hb. cbn [app percent_decode]. rewrite N.eqb_refl.
  assert (H : match unhex (hex_digit (b / 16)), unhex (hex_digit (b mod 16)) with
              | Some a, Some c => 16 * a + c =? b | _, _ => false end = true).
  { revert b Hb. apply (byte_forall (fun b => match unhex (hex_digit (b / 16)), unhex (hex_digit (b mod 16)) with
              | Some a, Some c => 16 * a + c =? b | _, _ => false end)). vm_compute. reflexivity. }
  destruct (unhex (hex_digit (b / 16))); [|discriminate].
  destruct (unhex (hex_digit (b mod 16))); [|discriminate].
  apply N.eqb_eq in H. now rewrite H.
Qed.

Lemma percent_bytes_roundtrip bs : Forall (fun b => b < 256) bs ->
  percent_decode (percent_encode_bytes bs) = bs.
Proof.
  induction bs as [|b bs IH]; intros H; [reflexivity|].
  pose proof (Forall_inv H) as Hb. pose proof (Forall_inv_tail H) as Ht. cbn beta in Hb.
  cbn [percent_encode_bytes].
  destruct (fragment_encode_byte b) eqn:E.
  - rewrite percent_decode_encoded by exact Hb. now rewrite IH.
  - cbn [app percent_decode]. destruct (N.eqb_spec b 37) as [->|Hne].
    + vm_compute in E. discriminate.
    + now rewrite IH.
Qed.


Lemma is_scalar_lt c : is_scalar c = true -> c < 0x110000.
Proof.
  unfold is_scalar. intros H. apply orb_true_iff in H as [H|H].
  - apply N.ltb_lt in H. lia.
  - apply andb_true_iff in H as [_ H]. now apply N.ltb_lt in H.
Qed.

Lemma utf8_char_bytes c : is_scalar c = true -> Forall (fun b => b < 256) (utf8_char c).
Proof.
  intros Hs. apply is_scalar_lt in Hs. unfold utf8_char.
  destruct (N.ltb_spec c 0x80); [repeat constructor; lia|].
  destruct (N.ltb_spec c 0x800).
  { assert (c / 64 < 32) by (apply N.div_lt_upper_bound; lia).
    pose proof (N.mod_lt c 64). repeat constructor; lia. }
  destruct (N.ltb_spec c 0x10000).
  { assert (c / 4096 < 16) by (apply N.div_lt_upper_bound; lia).
    pose proof (N.mod_lt c 64). pose proof (N.mod_lt (c / 64) 64). repeat constructor; lia. }
  assert (c / 262144 < 5) by (apply N.div_lt_upper_bound; lia).
  pose proof (N.mod_lt c 64). pose proof (N.mod_lt (c / 64) 64). pose proof (N.mod_lt (c / 4096) 64).
  repeat constructor; lia.
Qed.

Lemma utf8_bytes s : scalar_str s -> Forall (fun b => b < 256) (utf8 s).
Proof.
  induction s as [|c s IH]; intros H; [constructor|].
  inversion H; subst. cbn [utf8 flat_map]. apply Forall_app. split.
  - now apply utf8_char_bytes.
  - now apply IH.
Qed.

Lemma utf8_decode_char c r : is_scalar c = true ->
  utf8_decode (utf8_char c ++ r) = option_map (cons c) (utf8_decode r).
Proof.
  intros Hs. apply is_scalar_lt in Hs. unfold utf8_char.
  destruct (N.ltb_spec c 0x80) as [H|H].
  { cbn [app utf8_decode]. destruct (N.ltb_spec c 0x80); [reflexivity|lia]. }
  pose proof (N.mod_lt c 64). pose proof (N.mod_lt (c / 64) 64). pose proof (N.mod_lt (c / 4096) 64).
  pose proof (N.div_mod c 64). pose proof (N.div_mod (c / 64) 64). pose proof (N.div_mod (c / 4096) 64).
  assert (E1 : c / 64 / 64 = c / 4096) by (rewrite N.div_div by lia; reflexivity).
  assert (E2 : c / 4096 / 64 = c / 262144) by (rewrite N.div_div by lia; reflexivity).
  rewrite E1, E2 in *.
  destruct (N.ltb_spec c 0x800).
  { assert (c / 64 < 32) by (apply N.div_lt_upper_bound; lia).
    cbn [app utf8_decode].
    destruct (N.ltb_spec (0xC0 + c / 64) 0x80); [lia|].
    destruct (N.ltb_spec (0xC0 + c / 64) 0xE0); [|lia].
    f_equal. f_equal. lia. }
  destruct (N.ltb_spec c 0x10000).
  { assert (c / 4096 < 16) by (apply N.div_lt_upper_bound; lia).
    cbn [app utf8_decode].
    destruct (N.ltb_spec (0xE0 + c / 4096) 0x80); [lia|].
    destruct (N.ltb_spec (0xE0 + c / 4096) 0xE0); [lia|].
    destruct (N.ltb_spec (0xE0 + c / 4096) 0xF0); [|lia].
    f_equal. f_equal. lia. }
  assert (c / 262144 < 5) by (apply N.div_lt_upper_bound; lia).
  cbn [app utf8_decode].
  destruct (N.ltb_spec (0xF0 + c / 262144) 0x80); [lia|].
  destruct (N.ltb_spec (0xF0 + c / 262144) 0xE0); [lia|].
  destruct (N.ltb_spec (0xF0 + c / 262144) 0xF0); [lia|].
  f_equal. f_equal. lia.
Qed.

Lemma utf8_roundtrip s : scalar_str s -> utf8_decode (utf8 s) = Some s.
Proof.
  induction s as [|c s IH]; intros H; [reflexivity|].
  inversion H; subst. cbn [utf8 flat_map]. fold (utf8 s).
  rewrite utf8_decode_char by assumption. rewrite IH by assumption. reflexivity.
Qed.

Definition fragment_byte_ok (x : N) : bool :=
  (32 <? x) && (x <? 127) && negb (existsb (N.eqb x) [34; 60; 62; 35; 96]).

Lemma percent_encode_bytes_alphabet bs : Forall (fun b => b < 256) bs ->
  Forall (fun x => fragment_byte_ok x = true) (percent_encode_bytes bs).
Proof.
  induction bs as [|b bs IH]; intros H; [constructor|].
  pose proof (Forall_inv H) as Hb. pose proof (Forall_inv_tail H) as Ht. cbn beta in Hb.
  cbn [percent_encode_bytes]. apply Forall_app. split; [|auto].
  assert (K : (if fragment_encode_byte b
               then fragment_byte_ok (hex_digit (b / 16)) && fragment_byte_ok (hex_digit (b mod 16))
               else fragment_byte_ok b) = true).
  { revert b Hb H. intros b Hb _. revert b Hb.
    apply (byte_forall (fun b => if fragment_encode_byte b
               then fragment_byte_ok (hex_digit (b / 16)) && fragment_byte_ok (hex_digit (b mod 16))
               else fragment_byte_ok b)). vm_compute. reflexivity. }
  destruct (fragment_encode_byte b).
  - apply andb_true_iff in K as [K1 K2]. repeat constructor; assumption.
  - repeat constructor; assumption.
Qed.

Lemma percent_encode_spec s : scalar_str s ->
  Forall (fun x => fragment_byte_ok x = true) (percent_encode s) /\
  utf8_decode (percent_decode (percent_encode s)) = Some s.
Proof.
  intros H. unfold percent_encode. pose proof (utf8_bytes s H). split.
  - now apply percent_encode_bytes_alphabet.
  - rewrite percent_bytes_roundtrip by assumption. now apply utf8_roundtrip.
Qed.

Lemma percent_encode_inj a b : scalar_str a -> scalar_str b ->
  percent_encode a = percent_encode b -> a = b.
Proof.
  intros Ha Hb E. pose proof (proj2 (percent_encode_spec a Ha)) as A.
  pose proof (proj2 (percent_encode_spec b Hb)) as B. rewrite E in A. congruence.
Qed.
