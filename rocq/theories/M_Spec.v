(** Model of crates/math-core/src/specifications.rs and crates/math-core/src/atof.rs: length and
    column specifications. *)
From Verif Require Import Str M_Length.

(** ** atof.rs:21-70 [limited_float_parse] *)

Definition U64_MAX : N := 0xFFFFFFFFFFFFFFFF.
Definition u64_checked_mul (a b : N) : option N := if a * b <=? U64_MAX then Some (a * b) else None.
Definition u64_checked_add (a b : N) : option N := if a + b <=? U64_MAX then Some (a + b) else None.
(** [b.wrapping_sub(c)] on bytes *)
Definition u8_wrapping_sub (b c : N) : N := (b + 256 - c) mod 256.

Definition f64_one : f64 := f64_of_N 1.
Definition f64_ten : f64 := f64_of_N 10.

(** atof.rs:39-58: the loop over the bytes; the result is mantissa, divisor and [seen_digit]. *)
Fixpoint float_loop (bytes : list N) (mantissa : N) (divisor : f64) (seen_dot seen_digit : bool)
  : option (N * f64 * bool) :=
  match bytes with
  | [] => Some (mantissa, divisor, seen_digit)
  | b :: rest =>
      if b =? 46 then
        if seen_dot then None else float_loop rest mantissa divisor true seen_digit
      else
        let d := u8_wrapping_sub b 48 in
        if 9 <? d then None
        else
          match u64_checked_mul mantissa 10 with
          | None => None
          | Some m =>
              match u64_checked_add m d with
              | None => None
              | Some m => float_loop rest m (if seen_dot then f64_mul divisor f64_ten else divisor) seen_dot true
              end
          end
  end.

Definition limited_float_parse (digits : str) : option f32 :=
  let bytes := utf8 digits in
  let '(neg, bytes) := match bytes with
                       | b :: rest => if b =? 45 then (true, rest) else (false, bytes)
                       | [] => (false, bytes)
                       end in
  match float_loop bytes 0 f64_one false false with
  | None => None
  | Some (mantissa, divisor, seen_digit) =>
      if negb seen_digit then None
      else
        let v := f32_of_f64 (f64_div (f64_of_N mantissa) divisor) in
        Some (if neg then SFopp v else v)
  end.

(** ** specifications.rs:13-62 [LatexUnit] *)

Inductive latex_unit := UPt | UMm | UCm | UIn | UEx | UEm | UMu | USp.
Definition all_latex_units : list (str * latex_unit) :=
  [ (lit "pt", UPt); (lit "mm", UMm); (lit "cm", UCm); (lit "in", UIn);
    (lit "ex", UEx); (lit "em", UEm); (lit "mu", UMu); (lit "sp", USp) ].

(** [LatexUnit::try_from(&str)], derived with [ascii_case_insensitive]. *)
Fixpoint assoc_str {A} (k : str) (m : list (str * A)) : option A :=
  match m with [] => None | (k', v) :: r => if str_eqb k k' then Some v else assoc_str k r end.
Definition latex_unit_try_from (s : str) : option latex_unit :=
  assoc_str (map to_ascii_lower s) all_latex_units.

(** specifications.rs:44-46 *)
Definition is_math_unit (u : latex_unit) : bool := match u with UMu => true | _ => false end.

(** specifications.rs:48-61 [length_with_unit]; the decimal literals are given as the [f32]
    nearest to them. *)
Definition length_with_unit (u : latex_unit) (value : f32) : length_t :=
  match u with
  | UPt => mkLength (f32_mul (S754_finite false 13421773 (-27)) value) Rem     (* 0.1 *)
  | UMm => mkLength (f32_mul (S754_finite false 9547243 (-25)) value) Rem      (* 0.28453 *)
  | UCm => mkLength (f32_mul (S754_finite false 11934053 (-22)) value) Rem     (* 2.8453 *)
  | UIn => mkLength (f32_mul (S754_finite false 15099494 (-21)) value) Rem     (* 7.2 *)
  | UEx => mkLength value Ex
  | UEm => mkLength value Em
  | UMu => mkLength (f32_mul (S754_finite false 14913081 (-28)) value) Em      (* 0.055555556 *)
  | USp => mkLength (f32_mul (S754_finite false 13421774 (-43)) value) Rem     (* 1.525879e-6 *)
  end.

(** [str::split_at_checked]: the split at a byte offset, if on a character boundary. *)
Fixpoint split_at_checked (n : nat) (s : str) : option (str * str) :=
  match n with
  | O => Some ([], s)
  | _ => match s with
         | [] => None
         | c :: r => if (len_utf8 c <=? n)%nat
                     then option_map (fun p => (c :: fst p, snd p)) (split_at_checked (n - len_utf8 c) r)
                     else None
         end
  end.

(** [str::trim_ascii_end] *)
Fixpoint trim_ascii_end (s : str) : str :=
  match s with
  | [] => []
  | c :: r => match trim_ascii_end r with
              | [] => if is_ascii_ws c then [] else [c]
              | t => c :: t
              end
  end.

(** specifications.rs:65-81 [parse_length_specification] *)
Definition parse_length_specification (s : str) : option (length_t * str * bool) :=
  if (blen s <? 2)%nat then None
  else
    match split_at_checked (blen s - 2) s with
    | None => None
    | Some (digits, unit) =>
        match limited_float_parse (trim_ascii_end digits) with
        | None => None
        | Some value =>
            match latex_unit_try_from unit with
            | None => None
            | Some u => Some (length_with_unit u value, unit, is_math_unit u)
            end
        end
    end.

(** ** specifications.rs:87-162 [parse_column_specification] *)

(** crates/mathml-renderer/src/table.rs:22-57 *)
Inductive col_align := LeftJustified | Centered | RightJustified.
Inductive line_type := Solid | Dashed.
Inductive col_entry :=
| WithContent (a : col_align) (border_right : option line_type)
| OnlyLine (l : line_type).
Record array_spec := mkArraySpec {
  as_border_left : option line_type;
  as_border_top : option line_type;
  as_is_sub : bool;
  as_columns : list col_entry
}.

Definition align_of (ch : N) : option col_align :=
  if ch =? 108 then Some LeftJustified
  else if ch =? 99 then Some Centered
  else if ch =? 114 then Some RightJustified
  else None.
Definition line_of (ch : N) : option line_type :=
  if ch =? 124 then Some Solid else if ch =? 58 then Some Dashed else None.

(** Adding a line after the entries so far (specifications.rs:121-143). *)
Definition add_line (l : line_type) (border_left : option line_type) (cols : list col_entry)
  : option line_type * list col_entry :=
  match rev cols with
  | WithContent a None :: before => (border_left, rev (WithContent a (Some l) :: before))
  | _ :: _ => (border_left, cols ++ [OnlyLine l])
  | [] => match border_left with
          | None => (Some l, cols)
          | Some _ => (border_left, cols ++ [OnlyLine l])
          end
  end.

Fixpoint colspec_loop (bytes : list N) (cols : list col_entry) (border_left : option line_type)
    (has_content : bool) : option (list col_entry * option line_type * bool) :=
  match bytes with
  | [] => Some (cols, border_left, has_content)
  | ch :: rest =>
      match align_of ch with
      | Some a => colspec_loop rest (cols ++ [WithContent a None]) border_left true
      | None =>
          match line_of ch with
          | Some l => let '(bl, cols) := add_line l border_left cols in
                      colspec_loop rest cols bl has_content
          | None => if is_ascii_ws ch then colspec_loop rest cols border_left has_content else None
          end
      end
  end.

Definition parse_column_specification (s : str) : option array_spec :=
  match colspec_loop (utf8 s) [] None false with
  | None => None
  | Some (cols, bl, has_content) =>
      if match cols with [] => true | _ => false end || negb has_content then None
      else Some (mkArraySpec bl None false cols)
  end.
