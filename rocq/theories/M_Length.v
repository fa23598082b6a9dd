(** Model of crates/mathml-renderer/src/length.rs: lengths with a unit.  [f32] and [f64] are
    IEEE 754 numbers in the standard library's computable representation [spec_float]. *)
From Coq Require Export SpecFloat.
From Verif Require Import Str.

Definition f32 := spec_float.
Definition f64 := spec_float.
Definition f32_mul : f32 -> f32 -> f32 := SFmul 24 128.
Definition f32_add : f32 -> f32 -> f32 := SFadd 24 128.
Definition f64_mul : f64 -> f64 -> f64 := SFmul 53 1024.
Definition f64_div : f64 -> f64 -> f64 := SFdiv 53 1024.
(** [n as f64] for an integer *)
Definition f64_of_N (n : N) : f64 := binary_normalize 53 1024 (Z.of_N n) 0 false.
Definition f32_of_N (n : N) : f32 := binary_normalize 24 128 (Z.of_N n) 0 false.
(** [x as f32] *)
Definition f32_of_f64 (x : f64) : f32 :=
  match x with
  | S754_finite s m e => binary_normalize 24 128 (if s then Zneg m else Zpos m) e s
  | _ => x
  end.
Definition f32_zero : f32 := S754_zero false.
(** [x == 0.0] *)
Definition f32_is_zero (x : f32) : bool := match x with S754_zero _ => true | _ => false end.
(** [x < 0.0] *)
Definition f32_lt_zero (x : f32) : bool :=
  match x with S754_finite s _ _ => s | S754_infinity s => s | _ => false end.
Definition f32_is_finite (x : f32) : bool :=
  match x with S754_finite _ _ _ | S754_zero _ => true | _ => false end.

(** length.rs:11-21 [LengthUnit] and its strings *)
Inductive length_unit := Rem | Em | Ex.
Definition unit_str (u : length_unit) : str :=
  match u with Rem => lit "rem" | Em => lit "em" | Ex => lit "ex" end.

(** length.rs:23-33 [Length] *)
Record length_t := mkLength { len_value : f32; len_unit : length_unit }.

(** length.rs:53-65 *)
Definition length_none : length_t := mkLength S754_nan Rem.
Definition length_zero : length_t := mkLength f32_zero Rem.

(** length.rs:71-77 [from_parts] *)
Definition length_from_parts (v : f32) (u : length_unit) : option length_t :=
  if f32_is_finite v then Some (mkLength v u) else None.

(** length.rs:79-81 [is_negative] *)
Definition length_is_negative (l : length_t) : bool := f32_lt_zero (len_value l).

Definition strip_suffix (suf s : str) : option str :=
  let n := (length s - length suf)%nat in
  if str_eqb (skipn n s) suf then Some (firstn n s) else None.

(** length.rs:43-51 [push_to_string]; [dtoa] is the float formatter of the dtoa crate. *)
Definition length_text (dtoa : f32 -> str) (l : length_t) : str :=
  let r := dtoa (len_value l) in
  match strip_suffix (lit ".0") r with Some p => p | None => r end ++
  (if f32_is_zero (len_value l) then [] else unit_str (len_unit l)).

(** length.rs:83-89 [LengthSet] *)
Record length_set := mkSet { set_rem : f32; set_em : f32; set_ex : f32 }.
Definition set_zero : length_set := mkSet f32_zero f32_zero f32_zero.

(** length.rs:99-125: the iterator; a non-finite component ends the iteration. *)
Definition set_items (s : length_set) : list length_t :=
  let ex := if f32_is_zero (set_ex s) then [] else
              match length_from_parts (set_ex s) Ex with Some l => [l] | None => [] end in
  let em := if f32_is_zero (set_em s) then ex else
              match length_from_parts (set_em s) Em with Some l => l :: ex | None => [] end in
  if f32_is_zero (set_rem s) then em else
    match length_from_parts (set_rem s) Rem with Some l => l :: em | None => [] end.

(** length.rs:132-140 *)
Definition set_add (a b : length_set) : length_set :=
  mkSet (f32_add (set_rem a) (set_rem b)) (f32_add (set_em a) (set_em b)) (f32_add (set_ex a) (set_ex b)).

(** length.rs:151-162 *)
Definition set_add_length (a : length_set) (l : length_t) : length_set :=
  match len_unit l with
  | Rem => mkSet (f32_add (set_rem a) (len_value l)) (set_em a) (set_ex a)
  | Em => mkSet (set_rem a) (f32_add (set_em a) (len_value l)) (set_ex a)
  | Ex => mkSet (set_rem a) (set_em a) (f32_add (set_ex a) (len_value l))
  end.
(** length.rs:126-130 *)
Definition set_of_length (l : length_t) : length_set := set_add_length set_zero l.
