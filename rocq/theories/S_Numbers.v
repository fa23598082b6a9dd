(** Specification vocabulary for numbers. *)
From Verif Require Import Str M_SuperChar M_Token M_LatexError M_Lexer M_CustomCmds M_Queue M_Leaf M_Parser S_Lexer S_Queue.

(** The tokens [ts] are the rest of a number with the text [w]: digits, and dots that a digit follows. Blanks
    between them do not count. *)
Inductive number_toks : list qtok -> str -> Prop :=
| number_nil : number_toks [] []
| number_digit bl t d ts w : Forall (fun t => blank_tok t = true) bl -> qt_tok t = T_Digit d -> number_toks ts w ->
    number_toks (bl ++ t :: ts) (d :: w)
| number_dot bl t bl' t' d ts w : Forall (fun t => blank_tok t = true) bl -> is_full_stop (qt_tok t) = true ->
    Forall (fun t => blank_tok t = true) bl' -> qt_tok t' = T_Digit d -> number_toks ts w ->
    number_toks (bl ++ t :: bl' ++ t' :: ts) (46 :: d :: w).
(** The first token of [l] that is no blank is a digit. *)
Definition digit_ahead (l : list qtok) : bool := match skip_blank l with t :: _ => is_digit_tok (qt_tok t) | [] => false end.
(** No number goes on with [l]: neither a digit nor a dot with a digit comes first. *)
Definition ends_number (l : list qtok) : Prop :=
  digit_ahead l = false /\
  match skip_blank l with t :: r => is_full_stop (qt_tok t) = true -> digit_ahead r = false | [] => True end.
(** The longest number that [l] starts with is [w], and [rest] comes after it. *)
Definition number_split (l : list qtok) (w : str) (rest : list qtok) : Prop :=
  exists ts, l = ts ++ rest /\ number_toks ts w /\ ends_number rest.

(** Numbers as they are typed: a digit, and then digits and dots before digits. *)
Fixpoint numeral_rest (w : str) : bool :=
  match w with
  | [] => true
  | c :: r =>
      if c =? 46 then match r with d :: r' => is_ascii_digit d && numeral_rest r' | [] => false end
      else is_ascii_digit c && numeral_rest r
  end.
Definition numeral (w : str) : bool := match w with d :: r => is_ascii_digit d && numeral_rest r | [] => false end.
(** No command that changes letters and digits, like [\mathbf], is in force. *)
Definition no_transform (v : pview) : Prop := forall tf, pv_transform v <> Some (MvTransform tf).
