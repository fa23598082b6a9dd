(** Specification side: what an HTML consumer does with escaped text. *)
From Verif Require Import Str.

(** The character references an HTML parser knows (only those needed here). *)
Definition entity_table : list (str * N) :=
  [ (lit "&amp;", 38); (lit "&lt;", 60); (lit "&gt;", 62);
    (lit "&quot;", 34); (lit "&#39;", 39) ].

Fixpoint match_entity (tbl : list (str * N)) (s : str) : option (str * N) :=
  match tbl with
  | [] => None
  | (e, c) :: r => if starts_with e s then Some (e, c) else match_entity r s
  end.

(** Decode: replace every known character reference by its character, left to right;
    [skip] counts the characters of a reference still to be dropped. *)
Fixpoint html_decode_go (skip : nat) (s : str) : str :=
  match s with
  | [] => []
  | c :: r =>
      match skip with
      | S k => html_decode_go k r
      | O =>
          match match_entity entity_table s with
          | Some (e, d) => d :: html_decode_go (List.length e - 1) r
          | None => c :: html_decode_go O r
          end
      end
  end.
Definition html_decode (s : str) : str := html_decode_go O s.

(** Text that an HTML parser reads as pure character data: no ['<'], no ['>'] and every
    ['&'] begins one of the references above. *)
Definition every_amp_is_entity (s : str) : Prop :=
  forall a b, s = a ++ 38 :: b -> exists e c, In (e, c) entity_table /\ starts_with e (38 :: b) = true.

Definition content_safe (s : str) : Prop :=
  ~ In 60 s /\ ~ In 62 s /\ every_amp_is_entity s.

(** Text that stays inside a double quoted attribute value. *)
Definition attr_safe (s : str) : Prop :=
  ~ In 34 s /\ every_amp_is_entity s.

(** Percent decoding (RFC 3986), to bytes. *)
Definition unhex (d : N) : option N :=
  if (48 <=? d) && (d <=? 57) then Some (d - 48)
  else if (65 <=? d) && (d <=? 70) then Some (d - 55)
  else if (97 <=? d) && (d <=? 102) then Some (d - 87)
  else None.

Fixpoint percent_decode (s : str) : list N :=
  match s with
  | [] => []
  | c :: r =>
      if c =? 37 then
        match r with
        | h :: l :: r' =>
            match unhex h, unhex l with
            | Some a, Some b => (16 * a + b) :: percent_decode r'
            | _, _ => c :: percent_decode r
            end
        | _ => c :: percent_decode r
        end
      else c :: percent_decode r
  end.

(** UTF-8 decoding of well-formed input, structural with explicit failure. *)
Fixpoint utf8_decode (bs : list N) : option str :=
  match bs with
  | [] => Some []
  | b :: r =>
      if b <? 0x80 then option_map (cons b) (utf8_decode r)
      else if b <? 0xE0 then
        match r with
        | b1 :: r1 => option_map (cons ((b - 0xC0) * 64 + (b1 - 0x80))) (utf8_decode r1)
        | _ => None
        end
      else if b <? 0xF0 then
        match r with
        | b1 :: b2 :: r2 =>
            option_map (cons ((b - 0xE0) * 4096 + (b1 - 0x80) * 64 + (b2 - 0x80))) (utf8_decode r2)
        | _ => None
        end
      else
        match r with
        | b1 :: b2 :: b3 :: r3 =>
            option_map
              (cons ((b - 0xF0) * 262144 + (b1 - 0x80) * 4096 + (b2 - 0x80) * 64 + (b3 - 0x80)))
              (utf8_decode r3)
        | _ => None
        end
  end.

(** Text: every character is a Unicode scalar value. *)
Definition scalar_str (s : str) : Prop := Forall (fun c => is_scalar c = true) s.
