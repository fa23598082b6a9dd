(** Property C34: mathematical alphabets. *)
From Verif Require Import Str M_SuperChar M_Transform S_SuperChar S_Transform L_SuperChar L_Transform.

(** For every style and every scalar value the result is a valid packed character; its text is
    one scalar value, followed by VS1 / VS2 for the two script styles. *)
Theorem C34_valid : forall tf c up, is_scalar c = true ->
  exists t, is_scalar t = true /\
    (sc_chars (transform_char tf c up) = Some [t] \/
     (style_vs tf <> 0 /\ sc_chars (transform_char tf c up) = Some [t; 0xFDFF + style_vs tf])).
Proof.
  intros tf c up H. rewrite transform_char_pack, chars_pack by (try apply transformed_valid; exact H).
  unfold transformed. destruct (apply_rules (rules (effective tf up)) c) as [m|] eqn:E.
  - apply image_props in E as [Em _]. exists m. split; [exact Em|]. unfold cc_text.
    cbn [cc_vs cc_base cc_solidus cc_vline]. rewrite effective_vs. destruct (N.eqb_spec (style_vs tf) 0) as [E0|E0].
    + left. reflexivity.
    + right. split; [exact E0|reflexivity].
  - exists c. split; [exact H|]. left. reflexivity.
Qed.

(** Characters outside the repertoire of the style are unchanged (U+03A2, an unassigned code
    point, excepted). *)
Theorem C34_outside_unchanged_partial : forall tf c up, is_scalar c = true -> c <> 0x3A2 ->
  in_repertoire (effective tf up) c = false -> transform_char tf c up = sc_from_char c.
Proof.
  intros tf c up H Hc Hr. unfold transform_char. now rewrite not_repertoire_unmapped.
Qed.

(** The exception is real: U+03A2 is mapped, and to the same character as the theta symbol. *)
Theorem C34_outside_unchanged_refuted :
  exists tf c d, is_scalar c = true /\ in_repertoire tf c = false /\ c <> d /\
    transform_char tf c false <> sc_from_char c /\ transform_char tf c false = transform_char tf d false.
Proof. exists TBold, 0x3A2, 0x3F4. repeat split; vm_compute; congruence. Qed.

(** Two different characters of the repertoire never become the same output. *)
Theorem C34_injective : forall tf up c d,
  is_scalar c = true -> is_scalar d = true ->
  in_repertoire (effective tf up) c = true -> in_repertoire (effective tf up) d = true ->
  transform_char tf c up = transform_char tf d up -> c = d.
Proof.
  intros tf up c d Hc Hd Rc Rd E. rewrite !transform_char_pack in E by assumption.
  apply pack_inj in E; [|now apply transformed_valid|now apply transformed_valid].
  pose proof (repertoire_not_03A2 _ _ Rc). pose proof (repertoire_not_03A2 _ _ Rd).
  apply repertoire_mapped in Rc as [t Et]. apply repertoire_mapped in Rd as [u Eu].
  unfold transformed in E. rewrite Et, Eu in E. injection E as ->.
  now apply (image_inj (effective tf up) c d u).
Qed.

(** Every character except fraktur I and U+03A2 is mapped to the character Unicode assigns. *)
Theorem C34_follows_unicode_partial : forall tf up c, is_scalar c = true -> c <> 0x3A2 ->
  (effective tf up = TFraktur -> c <> 0x49) ->
  sc_base_char (transform_char tf c up) =
    match unicode_styled (effective tf up) c with Some t => t | None => c end.
Proof.
  intros tf up c H Hc Hf. rewrite transform_char_pack by exact H. unfold sc_base_char.
  rewrite pack_low_mask by (now apply transformed_valid). unfold transformed.
  rewrite rules_follow_unicode.
  - now destruct (unicode_styled (effective tf up) c).
  - unfold exception_to. apply orb_false_iff. split; [now apply N.eqb_neq|].
    destruct (effective tf up); try reflexivity. apply N.eqb_neq. now apply Hf.
Qed.

(** Fraktur I becomes U+210D (double-struck H) instead of U+2111. *)
Theorem C34_follows_unicode_refuted :
  exists tf c, is_scalar c = true /\ unicode_styled tf c = Some 0x2111 /\
    sc_chars (transform_char tf c false) = Some [0x210D] /\
    sc_chars (transform_char TDoubleStruck 0x48 false) = Some [0x210D].
Proof. exists TFraktur, 0x49. repeat split; vm_compute; reflexivity. Qed.

(** Combined characters (with selectors or overlays) are passed through unchanged. *)
Theorem C34_combined_unchanged : forall tf up r, cc_valid r ->
  (cc_vs r =? 0) && negb (cc_solidus r) && negb (cc_vline r) = false ->
  transform tf (cc_pack r) up = cc_pack r.
Proof. intros tf up r V H. unfold transform. now rewrite try_as_char_pack, H. Qed.

Example C34_nonvacuous :
  sc_chars (transform_char TBold 0x41 false) = Some [0x1D400] /\
  sc_chars (transform_char TScriptChancery 0x42 false) = Some [0x212C; 0xFE00] /\
  in_repertoire TItalic 0x68 = true /\ in_repertoire TItalic 0x30 = false.
Proof. repeat split; vm_compute; reflexivity. Qed.

Print Assumptions C34_valid.
Print Assumptions C34_outside_unchanged_partial.
Print Assumptions C34_outside_unchanged_refuted.
Print Assumptions C34_injective.
Print Assumptions C34_follows_unicode_partial.
Print Assumptions C34_follows_unicode_refuted.
Print Assumptions C34_combined_unchanged.
