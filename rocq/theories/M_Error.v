(** Model of error rendering (crates/math-core/src/error.rs) and of the position
    conversions in the bindings. *)
From Verif Require Import Str M_Escape M_Cli.

(** [str::floor_char_boundary] (std): the largest character boundary that is [<= start];
    returned as the prefix before it.  [room] is the number of bytes still available. *)
Fixpoint floor_prefix (input : str) (room : nat) : str :=
  match input with
  | [] => []
  | c :: r => if (len_utf8 c <=? room)%nat then c :: floor_prefix r (room - len_utf8 c) else []
  end.

(** crates/math-core/src/error.rs:391-396 [to_message].  [msg] is the text produced by
    [write_msg] (error.rs:152-348; see [M_LatexError.write_msg]). *)
Definition to_message (s : str) (start : nat) (msg input : str) : str :=
  s ++ dec (N.of_nat (length (floor_prefix input start))) ++ lit ": " ++ msg.

(** crates/math-core/src/error.rs:360-376 [to_html].  [css_class] is the class after
    [unwrap_or("math-core-error")]. *)
Definition to_html (start : nat) (msg latex : str) (d : display) (css_class : str) : option str :=
  let tag := match d with Block => lit "p" | Inline => lit "span" end in
  let output := lit "<" ++ tag ++ lit " class=" ++ [34] ++ css_class ++ [34] ++ lit " title=" ++ [34] in
  let err_msg := to_message [] start msg latex in
  let output := escape_attr output err_msg in
  let output := output ++ [34] ++ lit "><code>" in
  match escape_html_content output latex with
  | None => None
  | Some output => Some (output ++ lit "</code></" ++ tag ++ lit ">")
  end.

(** [char::len_utf16] (std). *)
Definition len_utf16 (c : N) : nat := if c <? 0x10000 then 1%nat else 2%nat.
Definition utf16_len (s : str) : nat := fold_right (fun c n => (len_utf16 c + n)%nat) O s.

(** [str::get(..off)] (std): [None] unless [off] is a character boundary. *)
Fixpoint get_prefix (input : str) (off : nat) : option str :=
  match off with
  | O => Some []
  | _ =>
      match input with
      | [] => None
      | c :: r =>
          if (len_utf8 c <=? off)%nat
          then option_map (cons c) (get_prefix r (off - len_utf8 c)) else None
      end
  end.

(** crates/math-core-wasm/src/lib.rs:394-398 [byte_offset_to_utf16_offset]. *)
Definition byte_offset_to_utf16_offset (s : str) (off : nat) : nat :=
  match get_prefix s off with Some p => utf16_len p | None => off end.
