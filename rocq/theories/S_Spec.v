(** Specifications for column and length specifications. *)
From Verif Require Import Str M_Length M_Spec.

(** ** Columns *)

Definition align_char (a : col_align) : N :=
  match a with LeftJustified => 108 | Centered => 99 | RightJustified => 114 end.
Definition line_char (l : line_type) : N := match l with Solid => 124 | Dashed => 58 end.
Definition oline_str (l : option line_type) : str :=
  match l with Some l => [line_char l] | None => [] end.
Definition entry_str (e : col_entry) : str :=
  match e with
  | WithContent a br => align_char a :: oline_str br
  | OnlyLine l => [line_char l]
  end.
(** The specification written out. *)
Definition spec_str (a : array_spec) : str :=
  oline_str (as_border_left a) ++ flat_map entry_str (as_columns a).

(** A line is attached to the column (or table edge) on its left when that has none yet;
    separate line entries occur only after such an attached line. *)
Fixpoint canonical_cols (line_before : bool) (cols : list col_entry) : Prop :=
  match cols with
  | [] => True
  | WithContent _ br :: r => canonical_cols (match br with Some _ => true | None => false end) r
  | OnlyLine _ :: r => line_before = true /\ canonical_cols true r
  end.
Definition canonical_spec (a : array_spec) : Prop :=
  canonical_cols (match as_border_left a with Some _ => true | None => false end) (as_columns a).

Fixpoint content_aligns (cols : list col_entry) : list col_align :=
  match cols with
  | [] => []
  | WithContent a _ :: r => a :: content_aligns r
  | OnlyLine _ :: r => content_aligns r
  end.

Definition colspec_char (c : N) : bool :=
  match align_of c with Some _ => true | None =>
  match line_of c with Some _ => true | None => is_ascii_ws c end end.
Definition is_align (c : N) : bool := match align_of c with Some _ => true | None => false end.
Fixpoint aligns_of (s : str) : list col_align :=
  match s with
  | [] => []
  | c :: r => match align_of c with Some a => a :: aligns_of r | None => aligns_of r end
  end.

(** ** Decimal numbers *)

(** Value of a digit string. *)
Definition digits_value (s : str) : N := fold_left (fun m c => 10 * m + (c - 48)) s 0.

(** [decimal neg ip dot fp]: the text of a number. *)
Definition decimal (neg : bool) (ip : str) (dot : bool) (fp : str) : str :=
  (if neg then [45] else []) ++ ip ++ (if dot then 46 :: fp else []).

Definition all_digits (s : str) : Prop := Forall (fun c => is_ascii_digit c = true) s.

(** What the code computes from mantissa and number of decimals: the divisor 10^n as a product
    in f64, the quotient in f64, rounded to f32. *)
Definition pow10_f64 (n : nat) : f64 := Nat.iter n (fun d => f64_mul d f64_ten) f64_one.
Definition decimal_f32 (neg : bool) (mantissa : N) (n : nat) : f32 :=
  let v := f32_of_f64 (f64_div (f64_of_N mantissa) (pow10_f64 n)) in
  if neg then SFopp v else v.

(** Upper and lower case spellings of a unit. *)
Definition unit_spelling (s : str) (u : latex_unit) : Prop :=
  exists name, In (name, u) all_latex_units /\ Forall2 (fun c n => c = n \/ c = n - 32) s name.
