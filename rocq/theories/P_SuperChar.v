(** Properties C32 and C33: combined characters. *)
From Verif Require Import Str M_SuperChar S_SuperChar L_SuperChar L_Escape.

(** Building a combined character (base, selector, then overlays in either order) and reading
    its characters back gives base, selector, solidus, vertical line, for all scalar values. *)
Theorem C32_pack_unpack : forall c vs,
  is_scalar c = true -> vs < 16 ->
  sc_chars (sc_from_char c) = Some [c] /\
  sc_chars (sc_from_char_with_vs c vs) = Some (c :: if vs =? 0 then [] else [0xFDFF + vs]) /\
  sc_chars (sc_with_overlay (sc_from_char_with_vs c vs) VerticalLine)
    = Some (c :: (if vs =? 0 then [] else [0xFDFF + vs]) ++ [0x20D2]) /\
  (0 < vs ->
   sc_chars (sc_with_overlay (sc_from_char_with_vs c vs) Solidus) = Some [c; 0xFDFF + vs; 0x338] /\
   sc_chars (sc_with_overlay (sc_with_overlay (sc_from_char_with_vs c vs) VerticalLine) Solidus)
     = Some [c; 0xFDFF + vs; 0x338; 0x20D2] /\
   sc_chars (sc_with_overlay (sc_with_overlay (sc_from_char_with_vs c vs) Solidus) VerticalLine)
     = Some [c; 0xFDFF + vs; 0x338; 0x20D2]).
Proof.
  intros c vs Hs Hv.
  assert (V0 : cc_valid {| cc_base := c; cc_vs := 0; cc_solidus := false; cc_vline := false |}) by (split; [exact Hs|reflexivity]).
  assert (V : cc_valid {| cc_base := c; cc_vs := vs; cc_solidus := false; cc_vline := false |}) by (split; [exact Hs|exact Hv]).
  rewrite from_char_pack, from_char_with_vs_pack by assumption.
  rewrite add_vline_pack, !chars_pack by (try assumption; now apply add_vline_valid).
  repeat split.
  - unfold cc_text. cbn [cc_base cc_vs cc_solidus cc_vline cc_add_vline app negb andb]. now destruct (vs =? 0).
  - rewrite add_solidus_pack, chars_pack by (try assumption; now apply add_solidus_valid).
    unfold cc_add_solidus, cc_text. cbn [cc_vs]. destruct (N.eqb_spec vs 0); [lia|]. cbn [cc_base cc_vs cc_solidus cc_vline cc_add_vline app negb andb].
    destruct (N.eqb_spec vs 0); [lia|]. reflexivity.
  - rewrite add_solidus_pack, chars_pack by (try apply add_solidus_valid; now apply add_vline_valid).
    unfold cc_add_solidus, cc_text. cbn [cc_vs cc_add_vline]. destruct (N.eqb_spec vs 0); [lia|]. cbn [cc_base cc_vs cc_solidus cc_vline cc_add_vline app negb andb].
    destruct (N.eqb_spec vs 0); [lia|]. reflexivity.
  - rewrite add_solidus_pack, add_vline_pack, chars_pack by (try apply add_vline_valid; try assumption; now apply add_solidus_valid).
    unfold cc_add_solidus, cc_add_vline, cc_text. cbn [cc_vs]. destruct (N.eqb_spec vs 0); [lia|]. cbn [cc_base cc_vs cc_solidus cc_vline cc_add_vline app negb andb].
    destruct (N.eqb_spec vs 0); [lia|]. reflexivity.
Qed.

(** Whatever sequence of operations built it, a packed character behaves as the plain record:
    same text, same base, same selector; it fits 32 bits and 12 UTF-8 bytes. *)
Theorem C32_refines_record : forall s r, built s r ->
  cc_valid r /\ s = cc_pack r /\ s < 2 ^ 32 /\
  sc_chars s = Some (cc_text r) /\
  (blen (cc_text r) <= 12)%nat /\
  sc_base_char s = cc_base r /\
  sc_vs s = (if cc_vs r =? 0 then None else Some (cc_vs r)) /\
  (forall c, sc_try_as_char s = Some c <-> sc_chars s = Some [c]).
Proof.
  intros s r H.
  assert (V : cc_valid r /\ s = cc_pack r).
  { induction H as [c Hc|c v Hc Hv|s r H [IV IE]|s r H [IV IE]].
    - split; [split; [exact Hc|reflexivity]|apply from_char_pack].
    - split; [split; [exact Hc|exact Hv]|now apply from_char_with_vs_pack].
    - split; [now apply add_solidus_valid|]. rewrite IE. now apply add_solidus_pack.
    - split; [now apply add_vline_valid|]. rewrite IE. now apply add_vline_pack. }
  clear H. destruct V as [V ->]. repeat split; try (apply V).
  - unfold cc_pack. destruct V as [Hs Hv]. apply is_scalar_lt in Hs.
    change (2 ^ 26) with 67108864. change (2 ^ 32) with 4294967296.
    destruct (cc_vline r), (cc_solidus r); lia.
  - now apply chars_pack.
  - now apply text_len12.
  - unfold sc_base_char. now apply pack_low_mask.
  - now apply pack_vs.
  - intros E. rewrite try_as_char_pack in E by exact V. rewrite chars_pack by exact V. unfold cc_text.
    destruct (cc_vs r =? 0), (cc_solidus r), (cc_vline r); cbn [app negb andb] in *; try discriminate;
      injection E as <-; reflexivity.
  - intros E. rewrite chars_pack in E by exact V. rewrite try_as_char_pack by exact V. unfold cc_text in E.
    destruct (cc_vs r =? 0), (cc_solidus r), (cc_vline r); cbn [app negb andb] in *; try discriminate;
      injection E as <-; reflexivity.
Qed.

(** Different records never share a packed value. *)
Theorem C32_injective : forall a b, cc_valid a -> cc_valid b -> cc_pack a = cc_pack b -> a = b.
Proof. exact pack_inj. Qed.

Example C32_nonvacuous :
  sc_chars (sc_with_overlay (sc_with_overlay (sc_from_char_with_vs 0x222A 1) VerticalLine) Solidus)
  = Some [0x222A; 0xFE00; 0x338; 0x20D2].
Proof. vm_compute. reflexivity. Qed.

(** The search in the rearranged array is the plain table lookup, for every character. *)
Theorem C33_search_is_lookup : forall c,
  get_precomposed_solidus_overlay c = assoc_n c solidus_sorted.
Proof. exact precomposed_is_lookup. Qed.

(** [\not] on any character: the listed precomposed character, else base and U+0338. *)
Theorem C33_negation : forall c, is_scalar c = true ->
  sc_chars (sc_with_overlay (sc_from_char c) Solidus) =
  Some match assoc_n c solidus_sorted with Some p => [p] | None => [c; 0x338] end.
Proof.
  intros c Hs. rewrite from_char_pack.
  assert (V : cc_valid {| cc_base := c; cc_vs := 0; cc_solidus := false; cc_vline := false |}) by (split; [exact Hs|reflexivity]).
  rewrite add_solidus_pack, chars_pack by (try assumption; now apply add_solidus_valid).
  unfold cc_add_solidus. cbn [cc_vs cc_base]. change (0 =? 0) with true. cbn iota.
  now destruct (assoc_n c solidus_sorted).
Qed.

(** Negating twice equals negating once, for every combined character. *)
Theorem C33_idempotent : forall r, cc_valid r ->
  sc_with_overlay (sc_with_overlay (cc_pack r) Solidus) Solidus = sc_with_overlay (cc_pack r) Solidus.
Proof.
  intros r V. rewrite (add_solidus_pack r V), add_solidus_pack by (now apply add_solidus_valid).
  f_equal. now apply add_solidus_idem.
Qed.

(** The order of the two overlays does not matter. *)
Theorem C33_overlays_commute : forall r, cc_valid r ->
  sc_with_overlay (sc_with_overlay (cc_pack r) Solidus) VerticalLine =
  sc_with_overlay (sc_with_overlay (cc_pack r) VerticalLine) Solidus.
Proof.
  intros r V. rewrite (add_solidus_pack r V), (add_vline_pack r V).
  rewrite add_vline_pack, add_solidus_pack by (try apply add_vline_valid; try assumption; now apply add_solidus_valid).
  f_equal. unfold cc_add_solidus, cc_add_vline. cbn [cc_vs cc_base cc_solidus cc_vline].
  now destruct (if cc_vs r =? 0 then assoc_n (cc_base r) solidus_sorted else None).
Qed.

Example C33_nonvacuous :
  sc_chars (sc_with_overlay (sc_from_char 0x3D) Solidus) = Some [0x2260] /\
  sc_chars (sc_with_overlay (sc_from_char 0x61) Solidus) = Some [0x61; 0x338].
Proof. split; vm_compute; reflexivity. Qed.

Print Assumptions C32_pack_unpack.
Print Assumptions C32_refines_record.
Print Assumptions C32_injective.
Print Assumptions C33_search_is_lookup.
Print Assumptions C33_negation.
Print Assumptions C33_idempotent.
Print Assumptions C33_overlays_commute.
