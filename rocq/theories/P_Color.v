(** Property C35: colors given by a model. *)
From Verif Require Import Str M_SuperChar M_Transform M_Length M_Spec M_Ast M_Emit M_Output M_Token M_Symbols M_Commands M_Env
  M_LatexError M_Lexer M_CustomCmds M_Queue M_Spacing M_Colors M_Leaf M_TextParser M_Parser M_Api
  S_Spec S_Queue S_Scripts S_Formula S_Api S_Color L_Text L_Color L_ColorForm.

(** [HTML]: six hexadecimal digits, in upper or lower case, give their channels. *)
Theorem C35_html : forall r1 r2 g1 g2 b1 b2 c1 c2 c3 c4 c5 c6,
  hex_char r1 c1 -> hex_char r2 c2 -> hex_char g1 c3 -> hex_char g2 c4 -> hex_char b1 c5 -> hex_char b2 c6 ->
  color_of (lit "HTML") [c1; c2; c3; c4; c5; c6] = Some (16 * r1 + r2, 16 * g1 + g2, 16 * b1 + b2).
Proof.
  intros r1 r2 g1 g2 b1 b2 c1 c2 c3 c4 c5 c6 H1 H2 H3 H4 H5 H6.
  apply hex_char_value in H1 as (_ & <- & A1), H2 as (_ & <- & A2), H3 as (_ & <- & A3), H4 as (_ & <- & A4), H5 as (_ & <- & A5), H6 as (_ & <- & A6).
  unfold color_of. cbn [str_eqb lit]. unfold utf8. cbn [flat_map].
  assert (U : forall c, c < 128 -> utf8_char c = [c]) by (intros c Hc; unfold utf8_char; destruct (N.ltb_spec c 128); [reflexivity|lia]).
  rewrite !U by assumption. cbn [app]. now rewrite !(N.mul_comm 16).
Qed.

(** [RGB]: three numbers below 256, with blanks around them and at most two decimals, give the parts before the point. *)
Theorem C35_bytes : forall s1 s2 s3 m1 m2 m3 k1 k2 k3,
  number_text s1 m1 k1 -> number_text s2 m2 k2 -> number_text s3 m3 k3 ->
  (k1 <= 2)%nat -> (k2 <= 2)%nat -> (k3 <= 2)%nat -> m1 < 256 * pow10 k1 -> m2 < 256 * pow10 k2 -> m3 < 256 * pow10 k3 ->
  color_of (lit "RGB") (s1 ++ 44 :: s2 ++ 44 :: s3) = Some (byte_channel m1 k1, byte_channel m2 k2, byte_channel m3 k3).
Proof.
  intros s1 s2 s3 m1 m2 m3 k1 k2 k3 H1 H2 H3 K1 K2 K3 L1 L2 L3. unfold color_of. cbn [str_eqb lit].
  assert (S : forall k m, (k <= 2)%nat -> m < 256 * pow10 k -> small m) by
    (intros k m Hk Hm; pose proof (pow10_bound k ltac:(lia)); unfold small; lia).
  rewrite (three_numbers _ _ _ _ _ _ _ _ _ H1 H2 H3) by eauto. now rewrite !byte_channels.
Qed.

(** [rgb]: three numbers up to 1, with blanks around them and at most four decimals, give 255 times the number, rounded. *)
Theorem C35_units : forall s1 s2 s3 m1 m2 m3 k1 k2 k3,
  number_text s1 m1 k1 -> number_text s2 m2 k2 -> number_text s3 m3 k3 ->
  (k1 <= 4)%nat -> (k2 <= 4)%nat -> (k3 <= 4)%nat -> m1 <= pow10 k1 -> m2 <= pow10 k2 -> m3 <= pow10 k3 ->
  color_of (lit "rgb") (s1 ++ 44 :: s2 ++ 44 :: s3) = Some (unit_channel m1 k1, unit_channel m2 k2, unit_channel m3 k3).
Proof.
  intros s1 s2 s3 m1 m2 m3 k1 k2 k3 H1 H2 H3 K1 K2 K3 L1 L2 L3. unfold color_of. cbn [str_eqb lit].
  assert (S : forall k m, (k <= 4)%nat -> m <= pow10 k -> small m) by
    (intros k m Hk Hm; pose proof (pow10_bound k Hk); unfold small; lia).
  rewrite (three_numbers _ _ _ _ _ _ _ _ _ H1 H2 H3) by eauto. now rewrite !unit_channels.
Qed.

(** The channels of every color are bytes. *)
Theorem C35_channels : forall model desc r g b, color_of model desc = Some (r, g, b) \/ get_color desc = Some (r, g, b) ->
  r < 256 /\ g < 256 /\ b < 256.
Proof. intros model desc r g b [H|H]; [exact (color_of_bytes _ _ _ H)|exact (get_color_bytes _ _ H)]. Qed.

(** A color before a formula colors all of it, and changes nothing else. *)
Theorem C35_selected : forall cfg usize_max gs st model desc c l ns gs', name_meaning cfg gs (lit "color") = T_Color ->
  In model color_models -> lit_ok desc = true -> color_of model desc = Some c ->
  formula_ok l = true -> snippet_meaning cfg usize_max gs st l = Some (ns, gs') ->
  exists F, forall f, (F <= f)%nat ->
    parse_snippet cfg usize_max f gs (color_command model desc ++ formula_text l) st = (Ok [Row ns (mkRowAttrs (Some c) None false)], gs').
Proof.
  intros cfg um gs st model desc c l ns gs' N M L C O E.
  destruct (color_parsed cfg um gs st [ABracket (letters model); ALit desc] c l ns gs' N) as (F & H); try assumption.
  - change (flat_map (arg_toks (name_meaning cfg gs)) [ABracket (letters model); ALit desc]) with
      ((T_SquareBracketOpen :: flat_map (item_toks (name_meaning cfg gs)) (letters model) ++ [T_SquareBracketClose]) ++ (T_GroupBegin :: map lit_tok desc ++ [T_GroupEnd]) ++ []).
    rewrite app_nil_r, forallb_app. cbn [forallb]. rewrite !forallb_app, known_lit, model_known by exact M. reflexivity.
  - cbn [forallb arg_ok]. rewrite L, (proj1 (model_ok model M)). reflexivity.
  - right. exists (letters model), desc. split; [reflexivity|]. now rewrite model_letters.
  - exists F. intros f Hf. rewrite <- (H f Hf). f_equal. unfold formula_text, color_item, color_command. cbn [flat_map item_text head_text sym_text arg_text].
    rewrite (proj2 (model_ok model M)), !app_nil_r, <- !app_assoc. reflexivity.
Qed.
Theorem C35_named : forall cfg usize_max gs st name c l ns gs', name_meaning cfg gs (lit "color") = T_Color ->
  lit_ok name = true -> get_color name = Some c -> formula_ok l = true -> snippet_meaning cfg usize_max gs st l = Some (ns, gs') ->
  exists F, forall f, (F <= f)%nat ->
    parse_snippet cfg usize_max f gs (color_name_command name ++ formula_text l) st = (Ok [Row ns (mkRowAttrs (Some c) None false)], gs').
Proof.
  intros cfg um gs st name c l ns gs' N L C O E.
  destruct (color_parsed cfg um gs st [ALit name] c l ns gs' N) as (F & H); try assumption.
  - cbn [flat_map arg_toks]. rewrite app_nil_r. cbn [forallb]. rewrite forallb_app, known_lit. reflexivity.
  - cbn [forallb arg_ok]. now rewrite L.
  - left. now exists name.
  - exists F. intros f Hf. rewrite <- (H f Hf). f_equal. unfold formula_text, color_item, color_name_command. cbn [flat_map item_text head_text sym_text arg_text].
    rewrite !app_nil_r, <- !app_assoc. reflexivity.
Qed.

(** Not every description that is read is a color of the model: characters that are not hexadecimal digits count as 0, what
    follows the third number is ignored, and numbers that are too large or too small become the largest or smallest channel. *)
Theorem C35_invalid_refuted : exists d1 d2 d3,
  not_hex d1 /\ color_of (lit "HTML") d1 = Some (0, 0, 0) /\
  d2 = lit "1,2,3" ++ d3 /\ d3 = lit ",junk" /\ color_of (lit "RGB") d2 = color_of (lit "RGB") (lit "1,2,3") /\
  color_of (lit "RGB") (lit "300,-1,256") = Some (255, 0, 255) /\ color_of (lit "rgb") (lit "2,-1,1.1") = Some (255, 0, 255).
Proof.
  exists (lit "zzzzzz"), (lit "1,2,3,junk"), (lit ",junk"). split.
  - exists 122. split; [now left|]. intros v H. pose proof (hex_char_value _ _ H) as (_ & V & _). vm_compute in V. subst v. destruct H as [H|H]; discriminate H.
  - repeat split; vm_compute; reflexivity.
Qed.

Example C35_models_nonvacuous :
  color_of (lit "HTML") (lit "aBcD0f") = Some (171, 205, 15) /\ hex_char 11 66 /\ hex_char 11 98 /\
  color_of (lit "RGB") (lit " 007, 255.99 ,1.5") = Some (7, 255, 1) /\ byte_channel 25599 2 = 255 /\
  number_text (lit " 255.99 ") 25599 2 /\
  color_of (lit "rgb") (lit "0.5,.2,1") = Some (128, 51, 255) /\ unit_channel 5 1 = 128 /\ unit_channel 499 3 = 127.
Proof.
  split; [vm_compute; reflexivity|]. split; [now right|]. split; [now left|]. split; [vm_compute; reflexivity|]. split; [vm_compute; reflexivity|]. split.
  - exists (lit " "), (lit "255"), true, (lit "99"), (lit " "). repeat split; try discriminate; repeat constructor.
  - repeat split; vm_compute; reflexivity.
Qed.

Print Assumptions C35_html.
Print Assumptions C35_bytes.
Print Assumptions C35_units.
Print Assumptions C35_channels.
Print Assumptions C35_selected.
Print Assumptions C35_named.
Print Assumptions C35_invalid_refuted.
