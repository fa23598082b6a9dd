(** Model of the three escapers and of the percent encoder.

    All special characters are ASCII, and no byte of a multi-byte UTF-8 sequence
    is ASCII, so the byte loops of the Rust code and loops over scalar values do
    the same thing; the lists below may be read either way. *)
From Verif Require Import Str.

(** memchr3 over a haystack: position of the first byte satisfying [p]
    ([memchr::memchr3], external crate). *)
Fixpoint position (p : N -> bool) (s : str) : option nat :=
  match s with
  | [] => None
  | c :: r => if p c then Some O else option_map S (position p r)
  end.

Definition is_content_special (c : N) : bool := (c =? 38) || (c =? 60) || (c =? 62).

(** crates/math-core/src/html_utils.rs:10-38 [escape_html_content]: the [while let]
    loop, [haystack] shrinking by at least one byte per iteration; [fuel] is the
    length of the input.  Fuel exhaustion is [None]. *)
Fixpoint escape_html_content_loop (fuel : nat) (output haystack : str) : option str :=
  match position is_content_special haystack with
  | None => Some (output ++ haystack)
  | Some index =>
      match fuel with
      | O => None
      | S fuel' =>
          let before := firstn index haystack in
          let after := skipn index haystack in
          match after with
          | [] => Some (output ++ before ++ haystack)   (* [break]: unreachable *)
          | special :: rest =>
              let esc :=
                if special =? 38 then lit "&amp;"
                else if special =? 60 then lit "&lt;"
                else if special =? 62 then lit "&gt;"
                else [] in
              escape_html_content_loop fuel' (output ++ before ++ esc) rest
          end
      end
  end.

Definition escape_html_content (output input : str) : option str :=
  escape_html_content_loop (List.length input) output input.

(** crates/math-core/src/html_utils.rs:49-58 [escape_double_quoted_html_attribute]. *)
Fixpoint escape_attr (output input : str) : str :=
  match input with
  | [] => output
  | ch :: r =>
      escape_attr
        (output ++ (if ch =? 38 then lit "&amp;"
                    else if ch =? 34 then lit "&quot;"
                    else [ch])) r
  end.

(** crates/mathml-renderer/src/escaping.rs:16-31 [Display for EscapeHtml]. *)
Fixpoint escape_html (s : str) : str :=
  match s with
  | [] => []
  | c :: r =>
      (if c =? 60 then lit "&lt;"
       else if c =? 62 then lit "&gt;"
       else if c =? 38 then lit "&amp;"
       else if c =? 34 then lit "&quot;"
       else if c =? 39 then lit "&#39;"
       else [c]) ++ escape_html r
  end.

(** crates/mathml-renderer/src/escaping.rs:34-47 [FRAGMENT_SAFE]: the ASCII bytes that
    are percent encoded.  [CONTROLS] of the percent_encoding crate is 0x00..=0x1F and
    0x7F; that crate always encodes non-ASCII bytes. *)
Definition fragment_encode_byte (b : N) : bool :=
  (128 <=? b) || (b <? 32) || (b =? 127) ||
  existsb (N.eqb b) (lit " #%<>[\]^`{|}" ++ [34]).

(** percent_encoding crate: uppercase hexadecimal digits. *)
Definition hex_digit (d : N) : N := if d <? 10 then 48 + d else 55 + d.

Fixpoint percent_encode_bytes (bs : list N) : str :=
  match bs with
  | [] => []
  | b :: r =>
      (if fragment_encode_byte b then [37; hex_digit (b / 16); hex_digit (b mod 16)] else [b])
      ++ percent_encode_bytes r
  end.

(** [utf8_percent_encode(label, FRAGMENT_SAFE)] as used in
    crates/mathml-renderer/src/ast.rs (label ids and [EqRef] links). *)
Definition percent_encode (s : str) : str := percent_encode_bytes (utf8 s).
