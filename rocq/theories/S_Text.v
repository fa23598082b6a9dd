(** Specification vocabulary for text: which characters are shown, and how they look. *)
From Verif Require Import Str M_SuperChar M_Length M_Spec M_Ast M_Token M_Symbols M_Env
  M_LatexError M_Lexer M_CustomCmds M_Queue M_Spacing M_Leaf M_TextParser.

(** The look of a character. *)
Record look := mkLook { lk_style : option text_style; lk_size : option text_size; lk_voffset : option length_set }.
Definition in_style (st : option text_style) (k : look) : look := mkLook st (lk_size k) (lk_voffset k).
Definition in_size (z : text_size) (k : look) : look := mkLook (lk_style k) (Some z) (lk_voffset k).
Definition raised_by (v : length_set) (k : look) : look :=
  mkLook (lk_style k) (lk_size k) (Some (match lk_voffset k with Some u => set_add u v | None => v end)).
(** Characters with their look. *)
Definition shown (k : look) (s : str) : list (N * look) := map (fun c => (c, k)) s.
Definition snippet_look (sn : snippet) : look := mkLook (sn_style sn) (sn_size sn) (sn_voffset sn).
(** The characters of the snippets, with their looks. *)
Definition all_shown (l : list snippet) : list (N * look) := flat_map (fun sn => shown (snippet_look sn) (sn_text sn)) l.

(** What a token is in text. *)
Inductive text_kind :=
| KChar (s : str)                                     (* a character, which an accent can be put on *)
| KString (s : str)
| KNothing                                            (* a space that is left out *)
| KAccent (c : N)
| KOpen | KClose
| KStyle (f : option text_style -> option text_style) (* from the style around to the new one *)
| KSize (z : text_size)
| KRaise
| KNone.                                              (* not allowed *)
(** The style of a text command within a style: emphasis in emphasis is upright, bold and italic together are
    bold italic, otherwise the new style replaces the old one. *)
Definition style_within (around new : option text_style) : option text_style :=
  match new with
  | Some TsEmphasis => match around with Some TsEmphasis => None | _ => Some TsEmphasis end
  | Some TsItalic => match around with Some TsBold => Some TsBoldItalic | _ => Some TsItalic end
  | Some TsBold => match around with Some TsItalic => Some TsBoldItalic | _ => Some TsBold end
  | _ => new
  end.
Definition char_kind (c : superchar) : text_kind := match sc_chars c with Some s => KChar s | None => KNone end.
Definition text_kind_of (text_mode : bool) (t : token) : text_kind :=
  match t with
  | T_TextMode (TtAccent c) => if text_mode then KAccent c else KNone
  | T_TextMode (TtLetter c) => if text_mode then char_kind (sc_from_char c) else KNone
  | T_TextMode (TtStyle st) => if text_mode then KStyle (fun _ => Some st) else KNone
  | T_TextMode (TtSize z) => if text_mode then KSize z else KNone
  | T_Text st => KStyle (fun around => style_within around st)
  | T_RaiseBox => KRaise
  | T_GroupBegin => KOpen
  | T_GroupEnd => KClose
  | T_Letter c MMathOrText => char_kind c
  | T_Letter c _ | T_UprightLetter c => if text_mode then KNone else char_kind c
  | T_SquareBracketOpen => char_kind (ord_as_op SYM_LEFT_SQUARE_BRACKET)
  | T_SquareBracketClose => char_kind (ord_as_op SYM_RIGHT_SQUARE_BRACKET)
  | T_Digit d => char_kind (sc_from_char d)
  | T_Whitespace | T_NonBreakingSpace => char_kind (sc_from_char SYM_NO_BREAK_SPACE)
  | T_MathOrTextMode _ c => char_kind (sc_from_char c)
  | T_InternalStringLiteral s => KString s
  | T_Open o | T_Close o | T_Ord o => if text_mode then KNone else char_kind (ord_as_op o)
  | T_BinaryOp o => if text_mode then KNone else char_kind (bin_as_op o)
  | T_Relation o => if text_mode then KNone else char_kind (rel_as_op o)
  | T_ForceRelation o => if text_mode then KNone else char_kind o
  | T_Punctuation c => if text_mode then KNone else char_kind (sc_from_char c)
  | T_Prime k => if text_mode then KNone else char_kind (ord_as_op (prime_ord k))
  | T_PseudoOperator s | T_PseudoOperatorLimits s => if text_mode then KNone else KString s
  | T_Space l => if text_mode then KNone else match space_char l with Some c => char_kind (sc_from_char c) | None => KNothing end
  | _ => KNone
  end.

Section Reads.
Context (cfg : parser_cfg) (text_mode : bool).

(** The next token is of the kind [k]. *)
Definition takes (q : queue) (k : text_kind) (q' : queue) : Prop :=
  exists t, (if text_mode then q_next_any cfg else q_next cfg : St queue qtok) q = (Ok t, q') /\ text_kind_of text_mode (qt_tok t) = k.
(** The length of [\raisebox]. *)
Definition takes_length (q : queue) (v : length_set) (q' : queue) : Prop :=
  exists spec sp, parse_string_literal cfg q = (Ok (spec, sp), q') /\ raise_length spec sp = Ok v.
Definition with_accent (s : str) (a : option N) : str := s ++ match a with Some c => [c] | None => [] end.

(** Text that is read piece by piece, without a stack. [reads_items k a q l k' a' q']: in the look [k] and with the
    accent [a] pending, the queue [q] starts with items that show [l]; the look [k'] and the accent [a'] are in force
    after them. The look of an item ends with the item, but sizes last until the end of the items.
    [reads_arg]: the queue starts with an argument. *)
Inductive reads_items : look -> option N -> queue -> list (N * look) -> look -> option N -> queue -> Prop :=
| items_nil k a q : reads_items k a q [] k a q
| items_char k a q s q1 l k' a' q' : takes q (KChar s) q1 -> reads_items k None q1 l k' a' q' ->
    reads_items k a q (shown k (with_accent s a) ++ l) k' a' q'
| items_string k a q s q1 l k' a' q' : takes q (KString s) q1 -> reads_items k a q1 l k' a' q' ->
    reads_items k a q (shown k s ++ l) k' a' q'
| items_nothing k a q q1 l k' a' q' : takes q KNothing q1 -> reads_items k a q1 l k' a' q' -> reads_items k a q l k' a' q'
| items_accent k a q c q1 l k' a' q' : takes q (KAccent c) q1 -> reads_items k (Some c) q1 l k' a' q' ->
    reads_items k a q l k' a' q'
| items_size k a q z q1 l k' a' q' : takes q (KSize z) q1 -> reads_items (in_size z k) a q1 l k' a' q' ->
    reads_items k a q l k' a' q'
| items_group k a q q1 l1 k1 a1 q2 q3 l2 k' a' q' : takes q KOpen q1 -> reads_items k a q1 l1 k1 a1 q2 -> takes q2 KClose q3 ->
    reads_items k a1 q3 l2 k' a' q' -> reads_items k a q (l1 ++ l2) k' a' q'
| items_style k a q f q1 l1 a1 q2 l2 k' a' q' : takes q (KStyle f) q1 ->
    reads_arg (in_style (f (lk_style k)) k) a q1 l1 a1 q2 -> reads_items k a1 q2 l2 k' a' q' ->
    reads_items k a q (l1 ++ l2) k' a' q'
| items_raise k a q q1 v q2 l1 a1 q3 l2 k' a' q' : takes q KRaise q1 -> takes_length q1 v q2 ->
    reads_arg (raised_by v k) a q2 l1 a1 q3 -> reads_items k a1 q3 l2 k' a' q' ->
    reads_items k a q (l1 ++ l2) k' a' q'
with reads_arg : look -> option N -> queue -> list (N * look) -> option N -> queue -> Prop :=
| arg_group k a q q1 l k1 a' q2 q' : takes q KOpen q1 -> reads_items k a q1 l k1 a' q2 -> takes q2 KClose q' ->
    reads_arg k a q l a' q'
| arg_char k a q s q' : takes q (KChar s) q' -> reads_arg k a q (shown k s) a q'
| arg_string k a q s q' : takes q (KString s) q' -> reads_arg k a q (shown k s) a q'
| arg_nothing k a q q' : takes q KNothing q' -> reads_arg k a q [] a q'
| arg_size k a q z q' : takes q (KSize z) q' -> reads_arg k a q [] a q'
(* a command that needs an argument itself, without braces around it: the argument goes on to the next closing brace *)
| arg_style k a q f q1 l1 a1 q2 l2 k' a' q3 q' : takes q (KStyle f) q1 ->
    reads_arg (in_style (f (lk_style k)) k) a q1 l1 a1 q2 -> reads_items k a1 q2 l2 k' a' q3 -> takes q3 KClose q' ->
    reads_arg k a q (l1 ++ l2) a' q'
| arg_raise k a q q1 v q2 l1 a1 q3 l2 k' a' q4 q' : takes q KRaise q1 -> takes_length q1 v q2 ->
    reads_arg (raised_by v k) a q2 l1 a1 q3 -> reads_items k a1 q3 l2 k' a' q4 -> takes q4 KClose q' ->
    reads_arg k a q (l1 ++ l2) a' q'.
End Reads.
Scheme reads_items_min := Minimality for reads_items Sort Prop
  with reads_arg_min := Minimality for reads_arg Sort Prop.
Combined Scheme reads_text_min from reads_items_min, reads_arg_min.

(** The text of the tokens, when there are no accents. *)
Definition typed_text (text_mode : bool) (t : qtok) : str :=
  match text_kind_of text_mode (qt_tok t) with KChar s | KString s => s | _ => [] end.
Definition plain_text_tok (text_mode : bool) (t : qtok) : bool :=
  match text_kind_of text_mode (qt_tok t) with KAccent _ | KRaise => false | _ => true end.
