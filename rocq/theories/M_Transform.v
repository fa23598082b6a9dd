(** Model of [TextTransform] (crates/mathml-renderer/src/attribute.rs:206-441): mapping of
    characters to the mathematical alphabets.  The rule lists transcribe the match arms in
    order: [Rng lo hi off] is an arm ['lo'..='hi' => add_offset(c, off)], [Pt c t] an arm
    ['c' => 't']. *)
From Verif Require Import Str M_SuperChar.

(** attribute.rs:206-225 *)
Inductive text_transform :=
| TBold
| TBoldFraktur
| TBoldItalic
| TBoldSansSerif
| TBoldScript
| TDoubleStruck
| TFraktur
| TItalic
| TMonospace
| TSansSerif
| TSansSerifBoldItalic
| TSansSerifItalic
| TScriptChancery
| TScriptRoundhand.

Inductive rule := Rng (lo hi off : N) | Pt (c t : N).

(** attribute.rs:258-421: the arms of each style. *)
Definition rules (tf : text_transform) : list rule :=
  match tf with
  | TBold =>
      [ Rng 0x41 0x5A 0x1D3BF; Rng 0x61 0x7A 0x1D3B9; Rng 0x391 0x3A9 0x1D317; Rng 0x3B1 0x3C9 0x1D311;
        Rng 0x3DC 0x3DD 0x1D3EE; Rng 0x30 0x39 0x1D79E; Pt 0x3F4 0x1D6B9; Pt 0x2207 0x1D6C1;
        Pt 0x2202 0x1D6DB; Pt 0x3F5 0x1D6DC; Pt 0x3D1 0x1D6DD; Pt 0x3F0 0x1D6DE;
        Pt 0x3D5 0x1D6DF; Pt 0x3F1 0x1D6E0; Pt 0x3D6 0x1D6E1 ]
  | TBoldFraktur =>
      [ Rng 0x41 0x5A 0x1D52B; Rng 0x61 0x7A 0x1D525 ]
  | TBoldItalic =>
      [ Rng 0x41 0x5A 0x1D427; Rng 0x61 0x7A 0x1D421; Rng 0x391 0x3A9 0x1D38B; Rng 0x3B1 0x3C9 0x1D385;
        Pt 0x3F4 0x1D72D; Pt 0x2207 0x1D735; Pt 0x2202 0x1D74F; Pt 0x3F5 0x1D750;
        Pt 0x3D1 0x1D751; Pt 0x3F0 0x1D752; Pt 0x3D5 0x1D753; Pt 0x3F1 0x1D754;
        Pt 0x3D6 0x1D755 ]
  | TBoldSansSerif =>
      [ Rng 0x41 0x5A 0x1D593; Rng 0x61 0x7A 0x1D58D; Rng 0x391 0x3A9 0x1D3C5; Rng 0x3B1 0x3C9 0x1D3BF;
        Rng 0x30 0x39 0x1D7BC; Pt 0x3F4 0x1D767; Pt 0x2207 0x1D76F; Pt 0x2202 0x1D789;
        Pt 0x3F5 0x1D78A; Pt 0x3D1 0x1D78B; Pt 0x3F0 0x1D78C; Pt 0x3D5 0x1D78D;
        Pt 0x3F1 0x1D78E; Pt 0x3D6 0x1D78F ]
  | TBoldScript =>
      [ Rng 0x41 0x5A 0x1D48F; Rng 0x61 0x7A 0x1D489 ]
  | TDoubleStruck =>
      [ Rng 0x41 0x42 0x1D4F7; Rng 0x44 0x47 0x1D4F7; Rng 0x49 0x4D 0x1D4F7; Rng 0x4F 0x4F 0x1D4F7;
        Rng 0x53 0x59 0x1D4F7; Rng 0x50 0x51 0x20C9; Rng 0x61 0x7A 0x1D4F1; Rng 0x30 0x39 0x1D7A8;
        Pt 0x43 0x2102; Pt 0x48 0x210D; Pt 0x4E 0x2115; Pt 0x52 0x211D;
        Pt 0x5A 0x2124; Pt 0x3C0 0x213C; Pt 0x3B3 0x213D; Pt 0x393 0x213E;
        Pt 0x3A0 0x213F; Pt 0x2211 0x2140 ]
  | TFraktur =>
      [ Rng 0x41 0x42 0x1D4C3; Rng 0x44 0x47 0x1D4C3; Rng 0x4A 0x51 0x1D4C3; Rng 0x53 0x59 0x1D4C3;
        Rng 0x48 0x49 0x20C4; Rng 0x61 0x7A 0x1D4BD; Pt 0x43 0x212D; Pt 0x52 0x211C;
        Pt 0x5A 0x2128 ]
  | TItalic =>
      [ Rng 0x41 0x5A 0x1D3F3; Rng 0x61 0x67 0x1D3ED; Rng 0x69 0x7A 0x1D3ED; Rng 0x391 0x3A9 0x1D351;
        Rng 0x3B1 0x3C9 0x1D34B; Pt 0x68 0x210E; Pt 0x131 0x1D6A4; Pt 0x237 0x1D6A5;
        Pt 0x3F4 0x1D6F3; Pt 0x2207 0x1D6FB; Pt 0x2202 0x1D715; Pt 0x3F5 0x1D716;
        Pt 0x3D1 0x1D717; Pt 0x3F0 0x1D718; Pt 0x3D5 0x1D719; Pt 0x3F1 0x1D71A;
        Pt 0x3D6 0x1D71B ]
  | TMonospace =>
      [ Rng 0x41 0x5A 0x1D62F; Rng 0x61 0x7A 0x1D629; Rng 0x30 0x39 0x1D7C6 ]
  | TSansSerif =>
      [ Rng 0x41 0x5A 0x1D55F; Rng 0x61 0x7A 0x1D559; Rng 0x30 0x39 0x1D7B2 ]
  | TSansSerifBoldItalic =>
      [ Rng 0x41 0x5A 0x1D5FB; Rng 0x61 0x7A 0x1D5F5; Rng 0x391 0x3A9 0x1D3FF; Rng 0x3B1 0x3C9 0x1D3F9;
        Pt 0x3F4 0x1D7A1; Pt 0x2207 0x1D7A9; Pt 0x2202 0x1D7C3; Pt 0x3F5 0x1D7C4;
        Pt 0x3D1 0x1D7C5; Pt 0x3F0 0x1D7C6; Pt 0x3D5 0x1D7C7; Pt 0x3F1 0x1D7C8;
        Pt 0x3D6 0x1D7C9 ]
  | TSansSerifItalic =>
      [ Rng 0x41 0x5A 0x1D5C7; Rng 0x61 0x7A 0x1D5C1 ]
  | TScriptChancery =>
      [ Rng 0x41 0x41 0x1D45B; Rng 0x43 0x44 0x1D45B; Rng 0x47 0x47 0x1D45B; Rng 0x4A 0x4B 0x1D45B;
        Rng 0x4E 0x51 0x1D45B; Rng 0x53 0x5A 0x1D45B; Rng 0x45 0x46 0x20EB; Rng 0x61 0x64 0x1D455;
        Rng 0x66 0x66 0x1D455; Rng 0x68 0x6E 0x1D455; Rng 0x70 0x7A 0x1D455; Pt 0x42 0x212C;
        Pt 0x48 0x210B; Pt 0x49 0x2110; Pt 0x4C 0x2112; Pt 0x4D 0x2133;
        Pt 0x52 0x211B; Pt 0x65 0x212F; Pt 0x67 0x210A; Pt 0x6F 0x2134 ]
  | TScriptRoundhand =>
      [ Rng 0x41 0x41 0x1D45B; Rng 0x43 0x44 0x1D45B; Rng 0x47 0x47 0x1D45B; Rng 0x4A 0x4B 0x1D45B;
        Rng 0x4E 0x51 0x1D45B; Rng 0x53 0x5A 0x1D45B; Rng 0x45 0x46 0x20EB; Rng 0x61 0x64 0x1D455;
        Rng 0x66 0x66 0x1D455; Rng 0x68 0x6E 0x1D455; Rng 0x70 0x7A 0x1D455; Pt 0x42 0x212C;
        Pt 0x48 0x210B; Pt 0x49 0x2110; Pt 0x4C 0x2112; Pt 0x4D 0x2133;
        Pt 0x52 0x211B; Pt 0x65 0x212F; Pt 0x67 0x210A; Pt 0x6F 0x2134 ]
  end.

Definition apply_rule (r : rule) (c : N) : option N :=
  match r with
  | Rng lo hi off => if (lo <=? c) && (c <=? hi) then Some (c + off) else None
  | Pt a t => if c =? a then Some t else None
  end.

Fixpoint apply_rules (rs : list rule) (c : N) : option N :=
  match rs with
  | [] => None
  | r :: rest => match apply_rule r c with Some t => Some t | None => apply_rules rest c end
  end.

(** attribute.rs:253-257: upright bold italic letters become bold. *)
Definition effective (tf : text_transform) (is_upright : bool) : text_transform :=
  match tf with TBoldItalic => if is_upright then TBold else TBoldItalic | _ => tf end.

(** attribute.rs:251-441 [transform_char] *)
Definition transform_char (tf : text_transform) (c : N) (is_upright : bool) : superchar :=
  let tf := effective tf is_upright in
  match apply_rules (rules tf) c with
  | Some m => match tf with
              | TScriptChancery => sc_from_char_with_vs m 1
              | TScriptRoundhand => sc_from_char_with_vs m 2
              | _ => sc_from_char m
              end
  | None => sc_from_char c
  end.

(** attribute.rs:244-249 [transform] *)
Definition transform (tf : text_transform) (ts : superchar) (is_upright : bool) : superchar :=
  match sc_try_as_char ts with
  | Some c => transform_char tf c is_upright
  | None => ts
  end.
