(** How a browser draws an operator: the operator dictionary of MathML Core (appendix B.2 of
    https://www.w3.org/TR/mathml-core/), and what the attributes of an element change. *)
From Verif Require Import Str M_SuperChar M_Length M_Spec M_Ast M_Token M_Symbols M_Commands M_Env M_LatexError M_Lexer M_CustomCmds M_Queue
  M_Spacing M_Leaf M_Parser M_Emit M_Output S_Html S_Store S_Emit S_MathML S_Spacing S_Queue S_Scripts S_Formula S_Api.

(** ** The dictionary *)

Inductive form := Prefix | Infix | Postfix.
Inductive category := CatDefault | CatA | CatB | CatC | CatD | CatE | CatF | CatG | CatH | CatI | CatJ | CatK | CatL | CatM.

(** The characters of the categories.  Entries for pairs of ASCII characters (such as [&&]) are left out, the slash is
    treated below. *)
Definition cat_a : list (N * N) :=
  [(0x2190, 0x2195); (0x219a, 0x21ae); (0x21b0, 0x21b5); (0x21b9, 0x21b9); (0x21bc, 0x21d5);
    (0x21da, 0x21f0); (0x21f3, 0x21ff); (0x2794, 0x2794); (0x2799, 0x2799); (0x279b, 0x27a1);
    (0x27a5, 0x27a6); (0x27a8, 0x27af); (0x27b1, 0x27b1); (0x27b3, 0x27b3); (0x27b5, 0x27b5);
    (0x27b8, 0x27b8); (0x27ba, 0x27be); (0x27f0, 0x27f1); (0x27f4, 0x27ff); (0x2900, 0x2920);
    (0x2934, 0x2937); (0x2942, 0x2975); (0x297c, 0x297f); (0x2b04, 0x2b07); (0x2b0c, 0x2b11);
    (0x2b30, 0x2b3e); (0x2b40, 0x2b4c); (0x2b60, 0x2b65); (0x2b6a, 0x2b6d); (0x2b70, 0x2b73);
    (0x2b7a, 0x2b7d); (0x2b80, 0x2b87); (0x2b95, 0x2b95); (0x2ba0, 0x2baf); (0x2bb8, 0x2bb8)].
Definition cat_b : list (N * N) :=
  [(0x002b, 0x002b); (0x002d, 0x002d); (0x00b1, 0x00b1); (0x00f7, 0x00f7);
    (0x2044, 0x2044); (0x2212, 0x2216); (0x2227, 0x222a); (0x2236, 0x2236);
    (0x2238, 0x2238); (0x228c, 0x228e); (0x2293, 0x2296); (0x2298, 0x2298); (0x229d, 0x229f);
    (0x22bb, 0x22bd); (0x22ce, 0x22cf); (0x22d2, 0x22d3); (0x2795, 0x2797); (0x29b8, 0x29b8);
    (0x29bc, 0x29bc); (0x29c4, 0x29c5); (0x29f5, 0x29fb); (0x2a1f, 0x2a2e); (0x2a38, 0x2a3a);
    (0x2a3e, 0x2a3e); (0x2a40, 0x2a4f); (0x2a51, 0x2a63); (0x2adb, 0x2adb); (0x2af6, 0x2af6);
    (0x2afb, 0x2afb); (0x2afd, 0x2afd)].
Definition cat_c : list (N * N) :=
  [(0x0025, 0x0025); (0x002a, 0x002a); (0x002e, 0x002e); (0x003f, 0x0040); (0x005e, 0x005e);
    (0x00b7, 0x00b7); (0x00d7, 0x00d7); (0x2022, 0x2022);
    (0x2043, 0x2043); (0x2217, 0x2219); (0x2240, 0x2240); (0x2297, 0x2297); (0x2299, 0x229b);
    (0x22a0, 0x22a1); (0x22ba, 0x22ba); (0x22c4, 0x22c7); (0x22c9, 0x22cc); (0x2305, 0x2306);
    (0x27cb, 0x27cb); (0x27cd, 0x27cd); (0x29c6, 0x29c8); (0x29d4, 0x29d7); (0x29e2, 0x29e2);
    (0x2a1d, 0x2a1e); (0x2a2f, 0x2a37); (0x2a3b, 0x2a3d); (0x2a3f, 0x2a3f); (0x2a50, 0x2a50);
    (0x2a64, 0x2a65); (0x2adc, 0x2add); (0x2afe, 0x2afe)].
Definition cat_d : list (N * N) :=
  [(0x0021, 0x0021); (0x002b, 0x002b); (0x002d, 0x002d); (0x00ac, 0x00ac); (0x00b1, 0x00b1);
    (0x2018, 0x2018); (0x201c, 0x201c); (0x2200, 0x2201); (0x2203, 0x2204);
    (0x2207, 0x2207); (0x2212, 0x2213); (0x221f, 0x2222); (0x2234, 0x2235); (0x223c, 0x223c);
    (0x22be, 0x22bf); (0x2310, 0x2310); (0x2319, 0x2319); (0x2795, 0x2796); (0x27c0, 0x27c0);
    (0x299b, 0x29af); (0x2aec, 0x2aed)].
Definition cat_e : list (N * N) :=
  [(0x0021, 0x0022); (0x0025, 0x0027); (0x0060, 0x0060); (0x00a8, 0x00a8); (0x00b0, 0x00b0);
    (0x00b2, 0x00b4); (0x00b8, 0x00b9); (0x02ca, 0x02cb); (0x02d8, 0x02da); (0x02dd, 0x02dd);
    (0x0311, 0x0311); (0x2019, 0x201b); (0x201d, 0x201f); (0x2032, 0x2037); (0x2057, 0x2057); (0x20db, 0x20dc);
    (0x23cd, 0x23cd)].
Definition cat_f : list (N * N) :=
  [(0x0028, 0x0028); (0x005b, 0x005b); (0x007b, 0x007c); (0x2016, 0x2016); (0x2308, 0x2308);
    (0x230a, 0x230a); (0x2329, 0x2329); (0x2772, 0x2772); (0x27e6, 0x27e6); (0x27e8, 0x27e8);
    (0x27ea, 0x27ea); (0x27ec, 0x27ec); (0x27ee, 0x27ee); (0x2980, 0x2980); (0x2983, 0x2983);
    (0x2985, 0x2985); (0x2987, 0x2987); (0x2989, 0x2989); (0x298b, 0x298b); (0x298d, 0x298d);
    (0x298f, 0x298f); (0x2991, 0x2991); (0x2993, 0x2993); (0x2995, 0x2995); (0x2997, 0x2997);
    (0x2999, 0x2999); (0x29d8, 0x29d8); (0x29da, 0x29da); (0x29fc, 0x29fc)].
Definition cat_g : list (N * N) :=
  [(0x0029, 0x0029); (0x005d, 0x005d); (0x007c, 0x007d); (0x2016, 0x2016); (0x2309, 0x2309);
    (0x230b, 0x230b); (0x232a, 0x232a); (0x2773, 0x2773); (0x27e7, 0x27e7); (0x27e9, 0x27e9);
    (0x27eb, 0x27eb); (0x27ed, 0x27ed); (0x27ef, 0x27ef); (0x2980, 0x2980); (0x2984, 0x2984);
    (0x2986, 0x2986); (0x2988, 0x2988); (0x298a, 0x298a); (0x298c, 0x298c); (0x298e, 0x298e);
    (0x2990, 0x2990); (0x2992, 0x2992); (0x2994, 0x2994); (0x2996, 0x2996); (0x2998, 0x2998);
    (0x2999, 0x2999); (0x29d9, 0x29d9); (0x29db, 0x29db); (0x29fd, 0x29fd)].
Definition cat_h : list (N * N) :=
  [(0x222b, 0x2233); (0x2a0b, 0x2a1c)].
Definition cat_i : list (N * N) :=
  [(0x005e, 0x005f); (0x007e, 0x007e); (0x00af, 0x00af); (0x02c6, 0x02c7); (0x02c9, 0x02c9);
    (0x02cd, 0x02cd); (0x02dc, 0x02dc); (0x02f7, 0x02f7); (0x0302, 0x0302); (0x203e, 0x203e);
    (0x2322, 0x2323); (0x23b4, 0x23b5); (0x23dc, 0x23e1)].
Definition cat_j : list (N * N) :=
  [(0x220f, 0x2211); (0x22c0, 0x22c3); (0x2a00, 0x2a0a); (0x2a1d, 0x2a1e); (0x2afc, 0x2afc);
    (0x2aff, 0x2aff)].
Definition cat_k : list (N * N) :=
  [(0x005c, 0x005c); (0x005f, 0x005f); (0x2061, 0x2064); (0x2206, 0x2206)].
Definition cat_l : list (N * N) :=
  [(0x2145, 0x2146); (0x2202, 0x2202); (0x221a, 0x221c)].
Definition cat_m : list (N * N) :=
  [(0x002c, 0x002c); (0x003a, 0x003b)].
Definition within (c : N) (l : list (N * N)) : bool := existsb (fun p => (fst p <=? c) && (c <=? snd p)) l.
Definition first_of (c : N) (l : list (category * list (N * N))) : option category :=
  option_map fst (find (fun p => within c (snd p)) l).
(** Versions of the dictionary differ: the slash was in category B and now is in category K, and the double vertical line
    may have an infix form like the single one. *)
Record version := mkVersion { v_slash : bool; v_bars : bool }.
(** The entries of a character, for each of the three forms. *)
Definition entries_of (v : version) (c : N) : option category * option category * option category :=
  (first_of c [(CatD, cat_d); (CatF, cat_f); (CatH, cat_h); (CatJ, cat_j); (CatL, cat_l)],
   if (c =? 0x7c) || (c =? 0x223c) || (v_bars v && (c =? 0x2016)) then Some CatDefault
   else if c =? 0x2f then Some (if v_slash v then CatK else CatB)
   else first_of c [(CatA, cat_a); (CatB, cat_b); (CatC, cat_c); (CatK, cat_k); (CatM, cat_m)],
   first_of c [(CatE, cat_e); (CatG, cat_g); (CatI, cat_i)]).
(** The entries of the content of an element: one character, or one that is struck out. *)
Definition entries (v : version) (s : str) : option category * option category * option category :=
  match s with
  | [c] => entries_of v c
  | [c; d] => if (d =? 0x338) || (d =? 0x20d2) then entries_of v c else (None, None, None)
  | _ => (None, None, None)
  end.
Definition at_form {A} (t : A * A * A) (f : form) : A :=
  match t with (a, b, c) => match f with Prefix => a | Infix => b | Postfix => c end end.

Record drawing := mkDrawing {
  d_left : N; d_right : N;   (* in mu *)
  d_stretchy : bool; d_symmetric : bool; d_large : bool; d_movable : bool }.
Definition of_category (c : category) : drawing :=
  match c with
  | CatDefault => mkDrawing 5 5 false false false false
  | CatA => mkDrawing 5 5 true false false false
  | CatB => mkDrawing 4 4 false false false false
  | CatC => mkDrawing 3 3 false false false false
  | CatD | CatE | CatK => mkDrawing 0 0 false false false false
  | CatF | CatG => mkDrawing 0 0 true true false false
  | CatH => mkDrawing 3 3 false true true false
  | CatI => mkDrawing 0 0 true false false false
  | CatJ => mkDrawing 3 3 false true true true
  | CatL => mkDrawing 3 0 false false false false
  | CatM => mkDrawing 0 3 false false false false
  end.

(** ** Drawing an element *)

(** What the position of an element makes its form, if there is no attribute for it, and where browsers differ:
    which version of the dictionary they have, which of the other forms they try first if there is neither an entry
    for the form nor an infix one, and whether they also try other forms than a given one. *)
Record renderer := mkRenderer { rd_form : form; rd_version : version; rd_postfix_first : bool; rd_lenient : bool }.
Definition first_entry (t : option category * option category * option category) (l : list form) : category :=
  match flat_map (fun f => match at_form t f with Some c => [c] | None => [] end) l with c :: _ => c | [] => CatDefault end.
Definition category_of (rd : renderer) (given : option form) (t : option category * option category * option category) : category :=
  let others := Infix :: if rd_postfix_first rd then [Postfix; Prefix] else [Prefix; Postfix] in
  match given with
  | Some f => first_entry t (f :: if rd_lenient rd then others else [])
  | None => first_entry t (rd_form rd :: others)
  end.
Definition value (name : String.string) (a : list (str * str)) : option str :=
  option_map snd (find (fun p => str_eqb (fst p) (lit name)) a).
Definition form_value (s : option str) : option form :=
  match s with
  | Some s => if str_eqb s (lit "prefix") then Some Prefix else if str_eqb s (lit "infix") then Some Infix
              else if str_eqb s (lit "postfix") then Some Postfix else None
  | None => None
  end.
Definition flag_value (default : bool) (s : option str) : bool :=
  match s with
  | Some s => if str_eqb s (lit "true") then true else if str_eqb s (lit "false") then false else default
  | None => default
  end.
(** A length in mu, an eighteenth of an em, rounded. *)
Definition mu_value (default : N) (s : option str) : N :=
  match s with
  | Some s => if str_eqb s (lit "0") then 0 else if str_eqb s (lit "0.1667em") then 3
              else if str_eqb s (lit "0.2222em") then 4 else if str_eqb s (lit "0.2778em") then 5 else default
  | None => default
  end.
Definition draw (rd : renderer) (t : option category * option category * option category) (a : list (str * str)) : drawing :=
  let d := of_category (category_of rd (form_value (value "form" a)) t) in
  mkDrawing (mu_value (d_left d) (value "lspace" a)) (mu_value (d_right d) (value "rspace" a))
    (flag_value (d_stretchy d) (value "stretchy" a)) (flag_value (d_symmetric d) (value "symmetric" a))
    (flag_value (d_large d) (value "largeop" a)) (flag_value (d_movable d) (value "movablelimits" a)).
Definition drawn (rd : renderer) (x : xml) : option drawing :=
  match x with
  | XElem n a [XText s] => if str_eqb n (lit "mo") then Some (draw rd (entries (rd_version rd) s) a) else None
  | _ => None
  end.

(** ** What the code takes for granted *)

Notation triple := (option category * option category * option category)%type.
(** The entries that the categories of symbol.rs stand for. *)
Definition ord_entries (c : ord_category) : list triple :=
  match c with
  | OcD => [(Some CatD, None, None)]
  | OcE => [(None, None, Some CatE)]
  | OcDE => [(Some CatD, None, Some CatE)]
  | OcF => [(Some CatF, None, None)]
  | OcG => [(None, None, Some CatG)]
  | OcFG => [(Some CatF, None, Some CatG)]
  | OcFGandForceDefault => [(Some CatF, Some CatDefault, Some CatG); (Some CatF, None, Some CatG)]
  | OcI => [(None, None, Some CatI)]
  | OcK => [(None, Some CatK, None)]
  | OcIK => [(None, Some CatK, Some CatI)]
  | OcKButUsedToBeB => [(None, Some CatK, None); (None, Some CatB, None)]
  end.
Definition op_entries (c : op_category) : list triple :=
  match c with PcC => [(None, Some CatC, None)] | PcH => [(Some CatH, None, None)] | PcJ => [(Some CatJ, None, None)] end.
Definition bin_entries (c : bin_category) : list triple :=
  match c with BcB => [(None, Some CatB, None)] | BcBD => [(Some CatD, Some CatB, None)] end.
Definition rel_entries (c : rel_category) : list triple :=
  match c with
  | RcDefault => [(None, None, None)]
  | RcA => [(None, Some CatA, None)]
  | RcDandForceDefault => [(Some CatD, Some CatDefault, None)]
  end.
Definition category_eq (a b : category) : {a = b} + {a <> b}. Proof. decide equality. Defined.
Definition triple_eq (a b : triple) : {a = b} + {a <> b}. Proof. repeat decide equality. Defined.
Definition has_entries (v : version) (o : superchar) (l : list triple) : bool :=
  negb (blank (sc_text o)) && existsb (fun t => if triple_eq (entries v (sc_text o)) t then true else false) l.
Definition quiet_text (p : drawing -> bool) (v : version) (s : str) : bool :=
  negb (blank s) &&
  match entries v s with
  | (a, b, c) => forallb (fun e => match e with Some c => negb (p (of_category c)) | None => true end) [a; b; c]
  end.
Definition quiet (p : drawing -> bool) (v : version) (o : superchar) : bool := quiet_text p v (sc_text o).
(** The symbol of a token has the entries that the code takes it to have; one whose spaces are always written out is not
    stretched by itself, nor are its scripts moved. *)
Definition fits (v : version) (t : token) : bool :=
  match t with
  | T_Ord o => has_entries v (ord_as_op o) (ord_entries (ord_cat o)) && match ord_cat o with OcI | OcIK => false | _ => true end
  | T_Open o | T_Close o =>
      has_entries v (ord_as_op o) (ord_entries (ord_cat o)) && match ord_cat o with OcI | OcIK | OcKButUsedToBeB => false | _ => true end
  | T_Op o | T_Inner o => has_entries v (op_as_op o) (op_entries (op_cat o))
  | T_BinaryOp o => has_entries v (bin_as_op o) (bin_entries (bin_cat o))
  | T_Relation r | T_XArrow r => has_entries v (rel_as_op r) (rel_entries (rel_cat r))
  | T_Punctuation c => has_entries v (sc_from_char c) [(None, Some CatM, None)]
  | T_ForceOrd o | T_ForceBinaryOp o | T_ForceRelation o | T_ForcePunctuation o | T_ForceMathInner o
  | T_ForceOpen o _ | T_ForceClose o _ => quiet d_stretchy v o
  | T_ForceLargeOp o => quiet d_movable v o && quiet d_stretchy v o
  | T_PseudoOperator s | T_PseudoOperatorLimits s => quiet_text d_movable v s && quiet_text d_stretchy v s && quiet_text d_large v s
  | T_OverUnderBrace o _ => has_entries v (ord_as_op o) (ord_entries OcI)
  | T_SquareBracketOpen => has_entries v (ord_as_op SYM_LEFT_SQUARE_BRACKET) (ord_entries OcF)
  | T_SquareBracketClose => has_entries v (ord_as_op SYM_RIGHT_SQUARE_BRACKET) (ord_entries OcG)
  | _ => true
  end.
(** A token and those that it stands for. *)
Fixpoint parts (t : token) : list token :=
  t :: match t with
       | T_MathOrTextMode u _ => parts u
       | T_CustomCmd _ body => flat_map parts body
       | T_MathChoiceInternal _ a b c d => parts a ++ parts b ++ parts c ++ parts d
       | _ => []
       end.

(** ** What is meant *)

(** The atom of a symbol without arguments. *)
Definition atom_of (t : token) : option atom :=
  match t with
  | T_Ord _ | T_ForceOrd _ => Some AOrd
  | T_BinaryOp _ | T_ForceBinaryOp _ => Some ABin
  | T_Relation _ | T_ForceRelation _ => Some ARel
  | T_Open _ | T_ForceOpen _ _ | T_SquareBracketOpen => Some AOpen
  | T_Close _ | T_ForceClose _ _ | T_SquareBracketClose => Some AClose
  | T_Punctuation _ | T_ForcePunctuation _ => Some APunct
  | T_Inner _ | T_ForceMathInner _ => Some AInner
  | _ => None
  end.
(** An operator such as [+] is a sign at the start of a row. *)
Definition sign (t : token) : bool := match t with T_BinaryOp o => match bin_cat o with BcBD => true | BcB => false end | _ => false end.
Definition starts_operand (prev : class) : bool :=
  match prev with ClRelation | ClPunctuation | ClBinaryOp | ClOperator | ClOpen => true | _ => false end.

(** Where the scripts of an operator are, in display style or not. *)
Inductive place := Beside | AboveAndBelow.
Definition scripts_place (display : bool) (rd : renderer) (x : xml) : option place :=
  match x with
  | XElem n _ (base :: _) =>
      if existsb (str_eqb n) [lit "msub"; lit "msup"; lit "msubsup"] then Some Beside
      else if existsb (str_eqb n) [lit "munder"; lit "mover"; lit "munderover"] then
        option_map (fun d => if d_movable d && negb display then Beside else AboveAndBelow) (drawn rd base)
      else None
  | _ => None
  end.
(** TeX: [\limits], [\nolimits] and [\displaylimits] decide, otherwise the operator does; those with limits have them in
    display style. *)
Definition tex_place (display with_limits : bool) (k : option limits_kind) : place :=
  match k with
  | Some LkAlways => AboveAndBelow
  | Some LkNever => Beside
  | Some LkDisplay => if display then AboveAndBelow else Beside
  | None => if with_limits && display then AboveAndBelow else Beside
  end.
Definition takes_limits (t : token) : bool :=
  match t with T_Op o => is_jop o | T_ForceLargeOp _ | T_PseudoOperatorLimits _ => true | _ => false end.
Definition is_operator (t : token) : bool :=
  match t with T_Op o => match op_cat o with PcC => false | _ => true end | T_ForceLargeOp _ | T_PseudoOperator _ | T_PseudoOperatorLimits _ => true | _ => false end.
(** Those that are larger in display style. *)
Definition is_large (t : token) : bool := match t with T_Op _ | T_ForceLargeOp _ => true | _ => false end.
(** Delimiters that are not in the dictionary, and those of them that cannot be stretched for want of larger glyphs. *)
Definition forced (t : token) : bool := match t with T_ForceOpen _ _ | T_ForceClose _ _ => true | _ => false end.
Definition pretended (t : token) : bool := match t with T_ForceOpen _ FsPretend | T_ForceClose _ FsPretend => true | _ => false end.

(** The commands for accents that grow with what they are put on, and those for other accents. *)
Definition wide_accents : list str := map lit
  ["Overrightarrow"; "overgroup"; "overleftarrow"; "overleftharpoon"; "overleftrightarrow"; "overline"; "overrightarrow";
   "overrightharpoon"; "undergroup"; "underleftarrow"; "underleftrightarrow"; "underrightarrow"; "underline"; "widehat"]%string.
Definition narrow_accents : list str := map lit
  ["acute"; "bar"; "breve"; "check"; "ddddot"; "dddot"; "ddot"; "dot"; "grave"; "hat"; "mathring"; "tilde"; "vec"]%string.

(** ** Rows *)

(** The operator in the middle of scripts. *)
Fixpoint core (x : xml) : xml :=
  match x with
  | XElem n _ (base :: _) =>
      if existsb (str_eqb n) [lit "msub"; lit "msup"; lit "msubsup"; lit "munder"; lit "mover"; lit "munderover"] then core base else x
  | _ => x
  end.
(** The spaces left and right of an element of a row: what is not an operator has none. *)
Definition side_spaces (rd : renderer) (x : xml) : N * N :=
  match drawn rd (core x) with Some d => (d_left d, d_right d) | None => (0, 0) end.
(** The form that the position in a row gives. *)
Definition form_at (length i : nat) : form :=
  if Nat.leb length 1 then Infix else if Nat.eqb i 0 then Prefix else if Nat.eqb (S i) length then Postfix else Infix.
Definition row_spaces (v : version) (postfix_first lenient : bool) (l : list xml) : list (N * N) :=
  mapi (fun i x => side_spaces (mkRenderer (form_at (length l) i) v postfix_first lenient) x) 0 l.

(** Formulas that are rows of atoms. The spaces around some atoms depend on what comes after them, which must not be a script. *)
Definition sym_atom (t : token) : option atom :=
  match t with
  | T_Letter _ _ | T_UprightLetter _ => Some AOrd
  | _ => if is_operator t then Some AOp else atom_of t
  end.
Section Rows.
Context (mean : str -> token).
Definition item_atom (i : item) : option atom :=
  match i with
  | Item (HSym s []) ms =>
      match sym_atom (tok mean s), ms with
      | Some a, [] => Some a
      | Some (AOrd | AOp | AOpen | AClose) as a, _ => a
      | _, _ => None
      end
  | Item (HNum s) _ => if number_ok s then Some AOrd else None
  | _ => None
  end.
Definition item_fits (v : version) (i : item) : bool := match i with Item (HSym s []) _ => fits v (tok mean s) | _ => true end.
End Rows.
(** Symbols without those that are drawn in another way than they should be. *)
Definition usual_name (n : str) : bool := negb (existsb (str_eqb n) [lit "frown"; lit "smile"]).
Definition usual_char (c : N) : bool := negb (existsb (N.eqb c) [0x2322; 0x2323; 0x2a1d; 0x2a1e]).
Definition usual (i : item) : bool :=
  match i with
  | Item (HSym (SName n) _) _ => usual_name n
  | Item (HSym (SChar c) _) _ => usual_char c
  | Item (HSym (STok _) _) _ => false
  | _ => true
  end.
(** The mark of an accent. *)
Definition accent_mark (c : N) (attrs : op_attrs) : xml := el "mo" (operator_attributes attrs) (data (sc_text (sc_from_char c))).
(** The mark of a brace. *)
Definition brace_mark (o : ord_like) : xml := el "mo" (operator_attributes A_EMPTY) (data (sc_text (ord_as_op o))).
(** What is drawn, apart from spaces: an operator and a delimiter. *)
Definition operator_drawing (t : token) (spaces : N * N) (d : drawing) : Prop :=
  (d_left d, d_right d) = spaces /\ d_stretchy d = false /\ d_large d = is_large t.
Definition delimiter_drawing (t : token) (d : drawing) : Prop :=
  d_stretchy d = negb (pretended t) /\ (forced t = false -> d_left d = 0 /\ d_right d = 0).

(** ** For examples *)
Definition shown (st : style) (l : list item) : option (list xml) :=
  option_map (fun r => flat_map (mathml (env_of plain_emitter (fun _ => None))) (fst r)) (snippet_meaning plain_cfg 1000 gs_default st l).
Definition first_child (x : xml) : xml := match x with XElem _ _ (y :: _) => y | _ => x end.
Definition children (x : xml) : list xml := match x with XElem _ _ l => l | _ => [] end.
