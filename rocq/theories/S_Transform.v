(** Specification of the mathematical alphabets, from the layout of the Unicode block
    "Mathematical Alphanumeric Symbols" (U+1D400..U+1D7FF) and its reserved positions. *)
From Verif Require Import Str M_SuperChar M_Transform.

(** Reserved positions of the block; the letter lives in "Letterlike Symbols" instead. *)
Definition holes : list (N * N) :=
  [ (0x1D455, 0x210E); (0x1D49D, 0x212C); (0x1D4A0, 0x2130); (0x1D4A1, 0x2131); (0x1D4A3, 0x210B);
    (0x1D4A4, 0x2110); (0x1D4A7, 0x2112); (0x1D4A8, 0x2133); (0x1D4AD, 0x211B); (0x1D4BA, 0x212F);
    (0x1D4BC, 0x210A); (0x1D4C4, 0x2134); (0x1D506, 0x212D); (0x1D50B, 0x210C); (0x1D50C, 0x2111);
    (0x1D515, 0x211C); (0x1D51D, 0x2128); (0x1D53A, 0x2102); (0x1D53F, 0x210D); (0x1D545, 0x2115);
    (0x1D547, 0x2119); (0x1D548, 0x211A); (0x1D549, 0x211D); (0x1D551, 0x2124) ].

Fixpoint lookup_n (k : N) (m : list (N * N)) : option N :=
  match m with [] => None | (k', v) :: r => if k =? k' then Some v else lookup_n k r end.
Definition fill_hole (c : N) : N := match lookup_n c holes with Some d => d | None => c end.

(** Position of the alphabet in the block: 52 Latin letters each. *)
Definition latin_no (tf : text_transform) : N :=
  match tf with
  | TBold => 0 | TItalic => 1 | TBoldItalic => 2 | TScriptChancery => 3 | TScriptRoundhand => 3
  | TBoldScript => 4 | TFraktur => 5 | TDoubleStruck => 6 | TBoldFraktur => 7 | TSansSerif => 8
  | TBoldSansSerif => 9 | TSansSerifItalic => 10 | TSansSerifBoldItalic => 11 | TMonospace => 12
  end.
(** 58 Greek characters each. *)
Definition greek_no (tf : text_transform) : option N :=
  match tf with
  | TBold => Some 0 | TItalic => Some 1 | TBoldItalic => Some 2 | TBoldSansSerif => Some 3
  | TSansSerifBoldItalic => Some 4 | _ => None
  end.
(** 10 digits each. *)
Definition digit_no (tf : text_transform) : option N :=
  match tf with
  | TBold => Some 0 | TDoubleStruck => Some 1 | TSansSerif => Some 2 | TBoldSansSerif => Some 3
  | TMonospace => Some 4 | _ => None
  end.

(** Order of the 58 Greek characters: capitals with the theta symbol after rho, nabla, small
    letters, partial, then the variant forms. *)
Definition greek_order : list N :=
  [ 0x391; 0x392; 0x393; 0x394; 0x395; 0x396; 0x397; 0x398; 0x399; 0x39A; 0x39B; 0x39C; 0x39D;
    0x39E; 0x39F; 0x3A0; 0x3A1; 0x3F4; 0x3A3; 0x3A4; 0x3A5; 0x3A6; 0x3A7; 0x3A8; 0x3A9; 0x2207;
    0x3B1; 0x3B2; 0x3B3; 0x3B4; 0x3B5; 0x3B6; 0x3B7; 0x3B8; 0x3B9; 0x3BA; 0x3BB; 0x3BC; 0x3BD;
    0x3BE; 0x3BF; 0x3C0; 0x3C1; 0x3C2; 0x3C3; 0x3C4; 0x3C5; 0x3C6; 0x3C7; 0x3C8; 0x3C9; 0x2202;
    0x3F5; 0x3D1; 0x3F0; 0x3D5; 0x3F1; 0x3D6 ].
Fixpoint index_of (c : N) (l : list N) : option N :=
  match l with [] => None | x :: r => if c =? x then Some 0 else option_map N.succ (index_of c r) end.

(** Characters with a single styled form outside the regular series. *)
Definition singles (tf : text_transform) : list (N * N) :=
  match tf with
  | TBold => [(0x3DC, 0x1D7CA); (0x3DD, 0x1D7CB)]
  | TItalic => [(0x131, 0x1D6A4); (0x237, 0x1D6A5)]
  | TDoubleStruck => [(0x3C0, 0x213C); (0x3B3, 0x213D); (0x393, 0x213E); (0x3A0, 0x213F); (0x2211, 0x2140)]
  | _ => []
  end.

(** The styled form of a character, if the alphabet has one. *)
Definition unicode_styled (tf : text_transform) (c : N) : option N :=
  match (if (0x41 <=? c) && (c <=? 0x5A) then Some (c - 0x41)
         else if (0x61 <=? c) && (c <=? 0x7A) then Some (26 + (c - 0x61)) else None) with
  | Some i => Some (fill_hole (0x1D400 + 52 * latin_no tf + i))
  | None =>
      match index_of c greek_order, greek_no tf with
      | Some i, Some k => Some (0x1D6A8 + 58 * k + i)
      | _, _ =>
          match (if (0x30 <=? c) && (c <=? 0x39) then digit_no tf else None) with
          | Some k => Some (0x1D7CE + 10 * k + (c - 0x30))
          | None => lookup_n c (singles tf)
          end
      end
  end.
