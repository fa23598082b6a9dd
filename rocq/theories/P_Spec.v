(** Properties C30 and C31: column and length specifications. *)
From Verif Require Import Str S_Html M_Length M_Spec S_Spec L_Escape L_Spec.

(** Accepted iff only [l c r | :] and blanks occur and at least one of [l c r] does. *)
Theorem C30_accepted_iff : forall s,
  (exists a, parse_column_specification s = Some a) <->
  (Forall (fun c => colspec_char c = true) s /\ Exists (fun c => is_align c = true) s).
Proof.
  intros s. rewrite parse_colspec_iff, forallb_forall, Forall_forall, existsb_exists, Exists_exists. reflexivity.
Qed.

(** The result written out is the specification without blanks; each line is attached to the
    column on its left (or to the left edge) when possible; one content column per letter. *)
Theorem C30_result : forall s a, parse_column_specification s = Some a ->
  spec_str a = filter not_ws s /\ canonical_spec a /\
  content_aligns (as_columns a) = aligns_of s /\ as_border_top a = None /\ as_is_sub a = false.
Proof. intros s a H. apply parse_colspec_sound in H as (H1 & H2 & H3 & H4 & H5). auto. Qed.

(** Conversely every canonical table layout with a content column is what its written form is
    parsed to, so the result is determined by [C30_result]. *)
Theorem C30_round_trip : forall a,
  canonical_spec a -> content_aligns (as_columns a) <> [] -> as_border_top a = None -> as_is_sub a = false ->
  parse_column_specification (spec_str a) = Some a.
Proof. exact parse_colspec_complete. Qed.

Example C30_nonvacuous :
  parse_column_specification (lit " || l| c::r ") =
    Some (mkArraySpec (Some Solid) None false
      [OnlyLine Solid; WithContent LeftJustified (Some Solid);
       WithContent Centered (Some Dashed); OnlyLine Dashed; WithContent RightJustified None]) /\
  parse_column_specification (lit "||") = None /\ parse_column_specification (lit "lx") = None.
Proof. repeat split; vm_compute; reflexivity. Qed.

(** A number is accepted iff it is an optional minus, digits with at most one dot, at least one
    digit, and the digits without the dot stay below 2^64; its value is computed from exactly
    that mantissa and number of decimals. *)
Theorem C31_number_iff : forall s v, scalar_str s ->
  limited_float_parse s = Some v <->
  exists neg ip dot fp,
    s = decimal neg ip dot fp /\ all_digits ip /\ all_digits fp /\ (dot = false -> fp = []) /\
    ip ++ fp <> [] /\ digits_value (ip ++ fp) < 2 ^ 64 /\
    v = decimal_f32 neg (digits_value (ip ++ fp)) (length fp).
Proof.
  intros s v Hs. split.
  - intros E. destruct (float_parse_shape s v Hs E) as (neg & ip & dot & fp & -> & Hi & Hf & Hd & Hn).
    exists neg, ip, dot, fp. rewrite float_parse_decimal in E by assumption.
    destruct (N.leb_spec (digits_value (ip ++ fp)) U64_MAX) as [L|L]; [|discriminate].
    injection E as <-. repeat split; auto. change (2 ^ 64) with (U64_MAX + 1). lia.
  - intros (neg & ip & dot & fp & -> & Hi & Hf & Hd & Hn & L & ->).
    rewrite float_parse_decimal by assumption. change (2 ^ 64) with (U64_MAX + 1) in L.
    destruct (N.leb_spec (digits_value (ip ++ fp)) U64_MAX); [reflexivity|lia].
Qed.

(** Up to 22 decimals the divisor is exactly 10^n (so the f64 quotient is the correctly rounded
    value of the decimal for mantissas below 2^53). *)
Theorem C31_divisor_exact : forall n, (n <= 22)%nat ->
  pow10_f64 n = f64_of_N (10 ^ N.of_nat n) /\
  exists m e, pow10_f64 n = S754_finite false m e /\ Z.of_N (10 ^ N.of_nat n) = (Zpos m * 2 ^ (Z.max e 0) / 2 ^ (Z.max (- e) 0))%Z.
Proof.
  intros n H. do 23 (destruct n as [|n]; [split; [vm_compute; reflexivity|do 2 eexists; split; vm_compute; reflexivity]|]).
  exfalso. lia.
Qed.

(** A length is accepted iff it is such a number, optional blanks, and one of the eight units in
    any mixture of upper and lower case. *)
Theorem C31_length_iff : forall s l unit mu, scalar_str s ->
  parse_length_specification s = Some (l, unit, mu) <->
  exists num ws u v, s = num ++ ws ++ unit /\ all_ws ws /\ unit_spelling unit u /\
    limited_float_parse num = Some v /\ l = length_with_unit u v /\ mu = is_math_unit u.
Proof. exact parse_length_iff. Qed.

Example C31_nonvacuous :
  limited_float_parse (lit "18446744073709551615") <> None /\
  limited_float_parse (lit "18446744073709551616") = None /\
  limited_float_parse (lit "-16777217.0") = Some (S754_finite true 8388608 1) /\
  parse_length_specification (lit "-1.5 eM") = Some (mkLength (S754_finite true 12582912 (-23)) Em, lit "eM", false) /\
  parse_length_specification (lit "1.5") = None.
Proof. repeat split; vm_compute; congruence. Qed.

Print Assumptions C30_accepted_iff.
Print Assumptions C30_result.
Print Assumptions C30_round_trip.
Print Assumptions C31_number_iff.
Print Assumptions C31_divisor_exact.
Print Assumptions C31_length_iff.
