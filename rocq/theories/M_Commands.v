(** Generated from crates/math-core/src/commands.rs and predefined.rs: the tables of built-in
    commands and of Unicode operators.  The perfect hash maps become association lists; their
    keys are distinct. *)
From Verif Require Import Str M_SuperChar M_Transform M_Length M_Spec M_Ast M_Token M_Symbols.
Import ListNotations.

(** predefined.rs:9 *)
Definition PRE_DOTS : list token := [T_Inner SYM_FULL_STOP; T_ForcePunctuation (op_as_op SYM_FULL_STOP); T_Inner SYM_FULL_STOP].
(** predefined.rs:15 *)
Definition PRE_CDOTS : list token := [T_Inner SYM_MIDDLE_DOT; T_ForcePunctuation (op_as_op SYM_MIDDLE_DOT); T_Inner SYM_MIDDLE_DOT].
(** predefined.rs:21 *)
Definition PRE_IDOTSINT : list token := [T_Op SYM_INTEGRAL; T_CustomCmd (0%nat) PRE_CDOTS; T_Op SYM_INTEGRAL].
(** predefined.rs:27 *)
Definition PRE_MATHSTRUT : list token := [T_Phantom PkV; T_Open SYM_LEFT_PARENTHESIS].
(** predefined.rs:29 *)
Definition PRE_SURD : list token := [T_Sqrt; T_Phantom PkV; T_Letter (ord_as_op SYM_VERTICAL_LINE) MMath].
(** predefined.rs:35 *)
Definition PRE_AND : list token := [T_Space (length_with_unit UMu (S754_finite false 10485760 (-21))); T_ForceRelation (ord_as_op SYM_AMPERSAND); T_Space (length_with_unit UMu (S754_finite false 10485760 (-21)))].
(** predefined.rs:41 *)
Definition PRE_IFF : list token := [T_Space (length_with_unit UMu (S754_finite false 10485760 (-21))); T_Relation SYM_LONG_LEFT_RIGHT_DOUBLE_ARROW; T_Space (length_with_unit UMu (S754_finite false 10485760 (-21)))].
(** predefined.rs:47 *)
Definition PRE_IMPLIEDBY : list token := [T_Space (length_with_unit UMu (S754_finite false 10485760 (-21))); T_Relation SYM_LONG_LEFTWARDS_DOUBLE_ARROW; T_Space (length_with_unit UMu (S754_finite false 10485760 (-21)))].
(** predefined.rs:53 *)
Definition PRE_IMPLIES : list token := [T_Space (length_with_unit UMu (S754_finite false 10485760 (-21))); T_Relation SYM_LONG_RIGHTWARDS_DOUBLE_ARROW; T_Space (length_with_unit UMu (S754_finite false 10485760 (-21)))].
(** predefined.rs:59 *)
Definition PRE_BMOD : list token := [T_Space (length_with_unit UMu (S754_finite false 8388608 (-21))); T_Transform MvNormal; T_InternalStringLiteral (lit "mod"); T_Space (length_with_unit UMu (S754_finite false 8388608 (-21)))].
(** predefined.rs:83 *)
Definition PRE_MOD : list token := [T_MathChoiceInternal None (T_Space (length_with_unit UMu (S754_finite false 9437184 (-19)))) (T_Space (length_with_unit UMu (S754_finite false 12582912 (-20)))) (T_Space (length_with_unit UMu (S754_finite false 12582912 (-20)))) (T_Space (length_with_unit UMu (S754_finite false 12582912 (-20)))); T_Transform MvNormal; T_InternalStringLiteral (lit "mod"); T_Space (length_with_unit UMu (S754_finite false 12582912 (-21)))].
(** predefined.rs:90 *)
Definition PRE_POD : list token := [T_MathChoiceInternal None (T_Space (length_with_unit UMu (S754_finite false 9437184 (-19)))) (T_Space (length_with_unit UMu (S754_finite false 8388608 (-20)))) (T_Space (length_with_unit UMu (S754_finite false 8388608 (-20)))) (T_Space (length_with_unit UMu (S754_finite false 8388608 (-20)))); T_Open SYM_LEFT_PARENTHESIS; T_CustomCmdArg (0%nat); T_Close SYM_RIGHT_PARENTHESIS].
(** predefined.rs:97 *)
Definition PRE_PMOD : list token := [T_MathChoiceInternal None (T_Space (length_with_unit UMu (S754_finite false 9437184 (-19)))) (T_Space (length_with_unit UMu (S754_finite false 8388608 (-20)))) (T_Space (length_with_unit UMu (S754_finite false 8388608 (-20)))) (T_Space (length_with_unit UMu (S754_finite false 8388608 (-20)))); T_Open SYM_LEFT_PARENTHESIS; T_Transform MvNormal; T_InternalStringLiteral (lit "mod"); T_Space (length_with_unit UMu (S754_finite false 12582912 (-21))); T_CustomCmdArg (0%nat); T_Close SYM_RIGHT_PARENTHESIS].
(** predefined.rs:107 *)
Definition PRE_BRA : list token := [T_Open SYM_MATHEMATICAL_LEFT_ANGLE_BRACKET; T_CustomCmdArg (0%nat); T_Close SYM_VERTICAL_LINE].
(** predefined.rs:113 *)
Definition PRE_KET : list token := [T_Open SYM_VERTICAL_LINE; T_CustomCmdArg (0%nat); T_Close SYM_MATHEMATICAL_RIGHT_ANGLE_BRACKET].
(** predefined.rs:119 *)
Definition PRE_BRAKET : list token := [T_Open SYM_MATHEMATICAL_LEFT_ANGLE_BRACKET; T_CustomCmdArg (0%nat); T_Close SYM_MATHEMATICAL_RIGHT_ANGLE_BRACKET].
(** predefined.rs:125 *)
Definition PRE_BIG_BRA : list token := [T_Left; T_Open SYM_MATHEMATICAL_LEFT_ANGLE_BRACKET; T_CustomCmdArg (0%nat); T_Right; T_Close SYM_VERTICAL_LINE].
(** predefined.rs:133 *)
Definition PRE_BIG_KET : list token := [T_Left; T_Open SYM_VERTICAL_LINE; T_CustomCmdArg (0%nat); T_Right; T_Close SYM_MATHEMATICAL_RIGHT_ANGLE_BRACKET].
(** predefined.rs:142 *)
Definition PRE_BIG_BRAKET : list token := [T_Left; T_Open SYM_MATHEMATICAL_LEFT_ANGLE_BRACKET; T_VerticalLineDef (Some VldOpSpacingStretchy); T_CustomCmdArg (0%nat); T_VerticalLineDef None; T_Right; T_Close SYM_MATHEMATICAL_RIGHT_ANGLE_BRACKET].
(** predefined.rs:153 *)
Definition PRE_SET : list token := [T_Open SYM_LEFT_CURLY_BRACKET; T_Space (length_with_unit UMu (S754_finite false 12582912 (-22))); T_VerticalLineDef (Some VldRelSpacing); T_CustomCmdArg (0%nat); T_VerticalLineDef None; T_Space (length_with_unit UMu (S754_finite false 12582912 (-22))); T_Close SYM_RIGHT_CURLY_BRACKET].
(** predefined.rs:164 *)
Definition PRE_BIG_SET : list token := [T_Left; T_Open SYM_LEFT_CURLY_BRACKET; T_Space (length_with_unit UMu (S754_finite false 8388608 (-21))); T_VerticalLineDef (Some VldRelSpacingStretchy); T_CustomCmdArg (0%nat); T_VerticalLineDef None; T_Space (length_with_unit UMu (S754_finite false 8388608 (-21))); T_Right; T_Close SYM_RIGHT_CURLY_BRACKET].
(** predefined.rs:181 *)
Definition PRE_FBOX : list token := [T_Enclose N_BOX; T_Text None; T_GroupBegin; T_CustomCmdArg (0%nat); T_GroupEnd].
(** predefined.rs:193 *)
Definition PRE_TEXTCOLOR : list token := [T_GroupBegin; T_Color; T_GroupBegin; T_CustomCmdArg (0%nat); T_GroupEnd; T_CustomCmdArg (1%nat); T_GroupEnd].
(** predefined.rs:203 *)
Definition PRE_COLON_EQUALS : list token := [T_ForceRelation (bin_as_op SYM_RATIO); T_Relation SYM_EQUALS_SIGN].
(** predefined.rs:208 *)
Definition PRE_DOUBLE_COLON_EQUAL : list token := [T_ForceRelation (bin_as_op SYM_RATIO); T_ForceRelation (bin_as_op SYM_RATIO); T_Relation SYM_EQUALS_SIGN].
(** predefined.rs:214 *)
Definition PRE_EQUALS_COLON : list token := [T_Relation SYM_EQUALS_SIGN; T_ForceRelation (bin_as_op SYM_RATIO)].
(** predefined.rs:219 *)
Definition PRE_DOUBLE_COLON : list token := [T_ForceRelation (bin_as_op SYM_RATIO); T_ForceRelation (bin_as_op SYM_RATIO)].
(** predefined.rs:224 *)
Definition PRE_COLON_APPROX : list token := [T_ForceRelation (bin_as_op SYM_RATIO); T_Relation SYM_ALMOST_EQUAL_TO].
(** predefined.rs:229 *)
Definition PRE_DOUBLE_COLON_APPROX : list token := [T_ForceRelation (bin_as_op SYM_RATIO); T_ForceRelation (bin_as_op SYM_RATIO); T_Relation SYM_ALMOST_EQUAL_TO].
(** predefined.rs:235 *)
Definition PRE_COLON_MINUS : list token := [T_ForceRelation (bin_as_op SYM_RATIO); T_ForceRelation (bin_as_op SYM_MINUS_SIGN)].
(** predefined.rs:240 *)
Definition PRE_DOUBLE_COLON_MINUS : list token := [T_ForceRelation (bin_as_op SYM_RATIO); T_ForceRelation (bin_as_op SYM_RATIO); T_ForceRelation (bin_as_op SYM_MINUS_SIGN)].
(** predefined.rs:246 *)
Definition PRE_COLON_SIM : list token := [T_ForceRelation (bin_as_op SYM_RATIO); T_Relation SYM_TILDE_OPERATOR].
(** predefined.rs:251 *)
Definition PRE_DOUBLE_COLON_SIM : list token := [T_ForceRelation (bin_as_op SYM_RATIO); T_ForceRelation (bin_as_op SYM_RATIO); T_Relation SYM_TILDE_OPERATOR].
(** predefined.rs:257 *)
Definition PRE_EQUALS_DOUBLE_COLON : list token := [T_Relation SYM_EQUALS_SIGN; T_ForceRelation (bin_as_op SYM_RATIO); T_ForceRelation (bin_as_op SYM_RATIO)].
(** predefined.rs:263 *)
Definition PRE_MINUS_COLON : list token := [T_ForceRelation (bin_as_op SYM_MINUS_SIGN); T_ForceRelation (bin_as_op SYM_RATIO)].
(** predefined.rs:268 *)
Definition PRE_MINUS_DOUBLE_COLON : list token := [T_ForceRelation (bin_as_op SYM_MINUS_SIGN); T_ForceRelation (bin_as_op SYM_RATIO); T_ForceRelation (bin_as_op SYM_RATIO)].
(** predefined.rs:274 *)
Definition PRE_SIM_COLON : list token := [T_Relation SYM_TILDE_OPERATOR; T_ForceRelation (bin_as_op SYM_RATIO)].
(** predefined.rs:279 *)
Definition PRE_SIM_DOUBLE_COLON : list token := [T_Relation SYM_TILDE_OPERATOR; T_ForceRelation (bin_as_op SYM_RATIO); T_ForceRelation (bin_as_op SYM_RATIO)].
(** predefined.rs:285 *)
Definition PRE_ANGLN : list token := [T_Enclose N_ACTUARIAL; T_Letter (sc_from_char 110) MMath].
(** predefined.rs:290 *)
Definition PRE_APPROX_COLON : list token := [T_Relation SYM_ALMOST_EQUAL_TO; T_ForceRelation (bin_as_op SYM_RATIO)].
(** predefined.rs:295 *)
Definition PRE_APPROX_DOUBLE_COLON : list token := [T_Relation SYM_ALMOST_EQUAL_TO; T_ForceRelation (bin_as_op SYM_RATIO); T_ForceRelation (bin_as_op SYM_RATIO)].

(** commands.rs:22-27 *)
Definition FUNCTIONS : list str :=
  [lit "arccos";
   lit "arcctg";
   lit "arcsin";
   lit "arctan";
   lit "arctg";
   lit "arg";
   lit "ch";
   lit "cos";
   lit "cosec";
   lit "cosh";
   lit "cot";
   lit "cotg";
   lit "coth";
   lit "csc";
   lit "ctg";
   lit "cth";
   lit "deg";
   lit "det";
   lit "dim";
   lit "erf";
   lit "erfc";
   lit "exp";
   lit "hom";
   lit "ker";
   lit "lg";
   lit "ln";
   lit "log";
   lit "sec";
   lit "sh";
   lit "sin";
   lit "sinh";
   lit "tan";
   lit "tanh";
   lit "tg";
   lit "th"].

(** commands.rs:29-950 *)
Definition COMMANDS : list (str * token) :=
  [(lit " ", T_MathOrTextMode T_NonBreakingSpace SYM_NO_BREAK_SPACE);
   (lit "#", T_Letter (sc_from_char SYM_NUMBER_SIGN) MMathOrText);
   (lit "$", T_Letter (sc_from_char SYM_DOLLAR_SIGN) MMathOrText);
   (lit "%", T_Letter (sc_from_char SYM_PERCENT_SIGN) MMathOrText);
   (lit "&", T_MathOrTextMode (T_Ord SYM_AMPERSAND) 38);
   (lit "'", T_TextMode (TtAccent SYM_COMBINING_ACUTE_ACCENT));
   (lit ",", T_MathOrTextMode (T_Space (length_with_unit UMu (S754_finite false 12582912 (-22)))) SYM_THIN_SPACE);
   (lit ".", T_TextMode (TtAccent SYM_COMBINING_DOT_ABOVE));
   (lit ":", T_MathOrTextMode (T_Space (length_with_unit UMu (S754_finite false 8388608 (-21)))) SYM_MEDIUM_MATHEMATICAL_SPACE);
   (lit ";", T_MathOrTextMode (T_Space (length_with_unit UMu (S754_finite false 10485760 (-21)))) SYM_THREE_PER_EM_SPACE);
   (lit "=", T_TextMode (TtAccent SYM_COMBINING_MACRON));
   (lit ">", T_MathOrTextMode (T_Space (length_with_unit UMu (S754_finite false 8388608 (-21)))) SYM_MEDIUM_MATHEMATICAL_SPACE);
   (lit "!", T_Space (length_with_unit UMu (S754_finite true 12582912 (-22))));
   (lit "AA", T_TextMode (TtLetter 197));
   (lit "AE", T_TextMode (TtLetter 198));
   (lit "Alpha", T_UprightLetter (sc_from_char SYM_GREEK_CAPITAL_LETTER_ALPHA));
   (lit "And", T_CustomCmd (0%nat) PRE_AND);
   (lit "Bbb", T_Transform (MvTransform TDoubleStruck));
   (lit "Bbbk", T_Letter (transform_char TDoubleStruck 107 false) MMath);
   (lit "Beta", T_UprightLetter (sc_from_char SYM_GREEK_CAPITAL_LETTER_BETA));
   (lit "Big", T_Big Scale2 None);
   (lit "Bigg", T_Big Scale4 None);
   (lit "Biggl", T_Big Scale4 (Some PtLeft));
   (lit "Biggm", T_Big Scale4 (Some PtMiddle));
   (lit "Biggr", T_Big Scale4 (Some PtRight));
   (lit "Bigl", T_Big Scale2 (Some PtLeft));
   (lit "Bigm", T_Big Scale2 (Some PtMiddle));
   (lit "Bigr", T_Big Scale2 (Some PtRight));
   (lit "Box", T_Letter (sc_from_char SYM_WHITE_MEDIUM_SQUARE) MMath);
   (lit "Bra", T_CustomCmd (1%nat) PRE_BIG_BRA);
   (lit "Braket", T_CustomCmd (1%nat) PRE_BIG_BRAKET);
   (lit "Bumpeq", T_Relation SYM_GEOMETRICALLY_EQUIVALENT_TO);
   (lit "Cap", T_BinaryOp SYM_DOUBLE_INTERSECTION);
   (lit "Chi", T_UprightLetter (sc_from_char SYM_GREEK_CAPITAL_LETTER_CHI));
   (lit "Coloneq", T_CustomCmd (0%nat) PRE_DOUBLE_COLON_EQUAL);
   (lit "Coloneqq", T_CustomCmd (0%nat) PRE_DOUBLE_COLON_EQUAL);
   (lit "Colonapprox", T_CustomCmd (0%nat) PRE_DOUBLE_COLON_APPROX);
   (lit "Colondash", T_CustomCmd (0%nat) PRE_DOUBLE_COLON_MINUS);
   (lit "Colonsim", T_CustomCmd (0%nat) PRE_DOUBLE_COLON_SIM);
   (lit "Complex", T_Letter (sc_from_char SYM_DOUBLE_STRUCK_CAPITAL_C) MMath);
   (lit "Cup", T_BinaryOp SYM_DOUBLE_UNION);
   (lit "Dagger", T_ForceBinaryOp SYM_DOUBLE_DAGGER);
   (lit "Darr", T_Relation SYM_DOWNWARDS_DOUBLE_ARROW);
   (lit "Dashcolon", T_CustomCmd (0%nat) PRE_MINUS_DOUBLE_COLON);
   (lit "Delta", T_UprightLetter (sc_from_char SYM_GREEK_CAPITAL_LETTER_DELTA));
   (lit "Diamond", T_Letter (sc_from_char SYM_LOZENGE) MMath);
   (lit "Doteq", T_Relation SYM_GEOMETRICALLY_EQUAL_TO);
   (lit "Downarrow", T_Relation SYM_DOWNWARDS_DOUBLE_ARROW);
   (lit "Epsilon", T_UprightLetter (sc_from_char SYM_GREEK_CAPITAL_LETTER_EPSILON));
   (lit "Eqcolon", T_CustomCmd (0%nat) PRE_EQUALS_DOUBLE_COLON);
   (lit "Eqqcolon", T_CustomCmd (0%nat) PRE_EQUALS_DOUBLE_COLON);
   (lit "Eta", T_UprightLetter (sc_from_char SYM_GREEK_CAPITAL_LETTER_ETA));
   (lit "Finv", T_Letter (sc_from_char SYM_TURNED_CAPITAL_F) MMath);
   (lit "Game", T_Letter (sc_from_char SYM_TURNED_SANS_SERIF_CAPITAL_G) MMath);
   (lit "Gamma", T_UprightLetter (sc_from_char SYM_GREEK_CAPITAL_LETTER_GAMMA));
   (lit "H", T_TextMode (TtAccent SYM_COMBINING_DOUBLE_ACUTE_ACCENT));
   (lit "Harr", T_Relation SYM_LEFT_RIGHT_DOUBLE_ARROW);
   (lit "Huge", T_TextMode (TtSize Size250));
   (lit "Im", T_Letter (sc_from_char SYM_BLACK_LETTER_CAPITAL_I) MMath);
   (lit "Iota", T_UprightLetter (sc_from_char SYM_GREEK_CAPITAL_LETTER_IOTA));
   (lit "Join", T_Relation SYM_BOWTIE);
   (lit "Kappa", T_UprightLetter (sc_from_char SYM_GREEK_CAPITAL_LETTER_KAPPA));
   (lit "Ket", T_CustomCmd (1%nat) PRE_BIG_KET);
   (lit "L", T_TextMode (TtLetter 0x141));
   (lit "LARGE", T_TextMode (TtSize Size170));
   (lit "Lambda", T_UprightLetter (sc_from_char SYM_GREEK_CAPITAL_LETTER_LAMBDA));
   (lit "Large", T_TextMode (TtSize Size140));
   (lit "Larr", T_Relation SYM_LEFTWARDS_DOUBLE_ARROW);
   (lit "Leftarrow", T_Relation SYM_LEFTWARDS_DOUBLE_ARROW);
   (lit "Leftrightarrow", T_Relation SYM_LEFT_RIGHT_DOUBLE_ARROW);
   (lit "Lleftarrow", T_Relation SYM_LEFTWARDS_TRIPLE_ARROW);
   (lit "Longleftarrow", T_Relation SYM_LONG_LEFTWARDS_DOUBLE_ARROW);
   (lit "Longleftrightarrow", T_Relation SYM_LONG_LEFT_RIGHT_DOUBLE_ARROW);
   (lit "Longrightarrow", T_Relation SYM_LONG_RIGHTWARDS_DOUBLE_ARROW);
   (lit "Lrarr", T_Relation SYM_LEFT_RIGHT_DOUBLE_ARROW);
   (lit "Lsh", T_Relation SYM_UPWARDS_ARROW_WITH_TIP_LEFTWARDS);
   (lit "Mu", T_UprightLetter (sc_from_char SYM_GREEK_CAPITAL_LETTER_MU));
   (lit "N", T_Letter (sc_from_char SYM_DOUBLE_STRUCK_CAPITAL_N) MMath);
   (lit "Nu", T_UprightLetter (sc_from_char SYM_GREEK_CAPITAL_LETTER_NU));
   (lit "O", T_TextMode (TtLetter 216));
   (lit "OE", T_TextMode (TtLetter 0x152));
   (lit "Omega", T_UprightLetter (sc_from_char SYM_GREEK_CAPITAL_LETTER_OMEGA));
   (lit "Omicron", T_UprightLetter (sc_from_char SYM_GREEK_CAPITAL_LETTER_OMICRON));
   (lit "Overrightarrow", T_Accent (rel_char SYM_RIGHTWARDS_DOUBLE_ARROW) true A_EMPTY);
   (lit "P", T_Letter (sc_from_char SYM_PILCROW_SIGN) MMathOrText);
   (lit "Phi", T_UprightLetter (sc_from_char SYM_GREEK_CAPITAL_LETTER_PHI));
   (lit "Pi", T_UprightLetter (sc_from_char SYM_GREEK_CAPITAL_LETTER_PI));
   (lit "Pr", T_PseudoOperatorLimits (lit "Pr"));
   (lit "Psi", T_UprightLetter (sc_from_char SYM_GREEK_CAPITAL_LETTER_PSI));
   (lit "R", T_Letter (sc_from_char SYM_DOUBLE_STRUCK_CAPITAL_R) MMath);
   (lit "Rarr", T_Relation SYM_RIGHTWARDS_DOUBLE_ARROW);
   (lit "Re", T_Letter (sc_from_char SYM_BLACK_LETTER_CAPITAL_R) MMath);
   (lit "Reals", T_Letter (sc_from_char SYM_DOUBLE_STRUCK_CAPITAL_R) MMath);
   (lit "Rho", T_UprightLetter (sc_from_char SYM_GREEK_CAPITAL_LETTER_RHO));
   (lit "Rightarrow", T_Relation SYM_RIGHTWARDS_DOUBLE_ARROW);
   (lit "Rrightarrow", T_Relation SYM_RIGHTWARDS_TRIPLE_ARROW);
   (lit "Rsh", T_Relation SYM_UPWARDS_ARROW_WITH_TIP_RIGHTWARDS);
   (lit "S", T_Letter (sc_from_char SYM_SECTION_SIGN) MMathOrText);
   (lit "Set", T_CustomCmd (1%nat) PRE_BIG_SET);
   (lit "Sigma", T_UprightLetter (sc_from_char SYM_GREEK_CAPITAL_LETTER_SIGMA));
   (lit "Simcolon", T_CustomCmd (0%nat) PRE_SIM_DOUBLE_COLON);
   (lit "Subset", T_Relation SYM_DOUBLE_SUBSET);
   (lit "Supset", T_Relation SYM_DOUBLE_SUPERSET);
   (lit "Tau", T_UprightLetter (sc_from_char SYM_GREEK_CAPITAL_LETTER_TAU));
   (lit "Theta", T_UprightLetter (sc_from_char SYM_GREEK_CAPITAL_LETTER_THETA));
   (lit "Uarr", T_Relation SYM_UPWARDS_DOUBLE_ARROW);
   (lit "Uparrow", T_Relation SYM_UPWARDS_DOUBLE_ARROW);
   (lit "Updownarrow", T_Relation SYM_UP_DOWN_DOUBLE_ARROW);
   (lit "Upsilon", T_UprightLetter (sc_from_char SYM_GREEK_CAPITAL_LETTER_UPSILON));
   (lit "VDash", T_Relation SYM_DOUBLE_VERTICAL_BAR_DOUBLE_RIGHT_TURNSTILE);
   (lit "Vdash", T_Relation SYM_FORCES);
   (lit "Vert", T_Ord SYM_DOUBLE_VERTICAL_LINE);
   (lit "Vvdash", T_Relation SYM_TRIPLE_VERTICAL_BAR_RIGHT_TURNSTILE);
   (lit "Xi", T_UprightLetter (sc_from_char SYM_GREEK_CAPITAL_LETTER_XI));
   (lit "Yleft", T_Relation SYM_LEFTWARDS_ARROW_TAIL);
   (lit "Yright", T_Relation SYM_RIGHTWARDS_ARROW_TAIL);
   (lit "Z", T_Letter (sc_from_char SYM_DOUBLE_STRUCK_CAPITAL_Z) MMath);
   (lit "Zeta", T_UprightLetter (sc_from_char SYM_GREEK_CAPITAL_LETTER_ZETA));
   (lit """", T_TextMode (TtAccent SYM_COMBINING_DIAERESIS));
   (lit "\", T_NewLine);
   (lit "^", T_TextMode (TtAccent SYM_COMBINING_CIRCUMFLEX_ACCENT));
   (lit "_", T_Letter (ord_as_op SYM_LOW_LINE) MMathOrText);
   (lit "`", T_TextMode (TtAccent SYM_COMBINING_GRAVE_ACCENT));
   (lit "aa", T_TextMode (TtLetter 229));
   (lit "acute", T_Accent SYM_ACUTE_ACCENT true A_EMPTY);
   (lit "ae", T_TextMode (TtLetter 230));
   (lit "alef", T_Letter (sc_from_char SYM_ALEF_SYMBOL) MMath);
   (lit "alefsym", T_Letter (sc_from_char SYM_ALEF_SYMBOL) MMath);
   (lit "aleph", T_Letter (sc_from_char SYM_ALEF_SYMBOL) MMath);
   (lit "alpha", T_Letter (sc_from_char SYM_GREEK_SMALL_LETTER_ALPHA) MMath);
   (lit "amalg", T_ForceBinaryOp (op_as_op SYM_AMALGAMATION_OR_COPRODUCT));
   (lit "angl", T_Enclose N_ACTUARIAL);
   (lit "angle", T_Letter (sc_from_char SYM_ANGLE) MMath);
   (lit "angln", T_CustomCmd (0%nat) PRE_ANGLN);
   (lit "approx", T_Relation SYM_ALMOST_EQUAL_TO);
   (lit "approxcolon", T_CustomCmd (0%nat) PRE_APPROX_COLON);
   (lit "approxcoloncolon", T_CustomCmd (0%nat) PRE_APPROX_DOUBLE_COLON);
   (lit "approxeq", T_Relation SYM_ALMOST_EQUAL_OR_EQUAL_TO);
   (lit "arceq", T_Relation SYM_CORRESPONDS_TO);
   (lit "argmax", T_PseudoOperatorLimits (lit "arg" ++ [0x2009] ++ lit "max"));
   (lit "argmin", T_PseudoOperatorLimits (lit "arg" ++ [0x2009] ++ lit "min"));
   (lit "ascnode", T_Letter (sc_from_char SYM_ASCENDING_NODE) MMath);
   (lit "ast", T_ForceBinaryOp (op_as_op SYM_ASTERISK_OPERATOR));
   (lit "asymp", T_Relation SYM_EQUIVALENT_TO);
   (lit "atop", T_InfixGenFrac false None);
   (lit "awint", T_Op SYM_ANTICLOCKWISE_INTEGRATION);
   (lit "backepsilon", T_Letter (sc_from_char SYM_GREEK_REVERSED_LUNATE_EPSILON_SYMBOL) MMath);
   (lit "backprime", T_Ord SYM_REVERSED_PRIME);
   (lit "backsim", T_Relation SYM_REVERSED_TILDE);
   (lit "backsimeq", T_Relation SYM_REVERSED_TILDE_EQUALS);
   (lit "backslash", T_Ord SYM_REVERSE_SOLIDUS);
   (lit "bar", T_Accent SYM_MACRON true A_STRETCHY_FALSE);
   (lit "barwedge", T_BinaryOp SYM_NAND);
   (lit "bcancel", T_Enclose N_DOWN_DIAGONAL);
   (lit "because", T_ForceRelation (ord_as_op SYM_BECAUSE));
   (lit "begingroup", T_GroupBegin);
   (lit "beta", T_Letter (sc_from_char SYM_GREEK_SMALL_LETTER_BETA) MMath);
   (lit "beth", T_Letter (sc_from_char SYM_BET_SYMBOL) MMath);
   (lit "between", T_Relation SYM_BETWEEN);
   (lit "bf", T_TransformSwitch (MvTransform TBold));
   (lit "big", T_Big Scale1 None);
   (lit "bigcap", T_Op SYM_N_ARY_INTERSECTION);
   (lit "bigcirc", T_Letter (sc_from_char SYM_LARGE_CIRCLE) MMath);
   (lit "bigcup", T_Op SYM_N_ARY_UNION);
   (lit "bigcupdot", T_Op SYM_N_ARY_UNION_OPERATOR_WITH_DOT);
   (lit "bigdoublevee", T_Op SYM_TWO_LOGICAL_OR_OPERATOR);
   (lit "bigdoublewedge", T_Op SYM_TWO_LOGICAL_AND_OPERATOR);
   (lit "bigg", T_Big Scale3 None);
   (lit "biggl", T_Big Scale3 (Some PtLeft));
   (lit "biggm", T_Big Scale3 (Some PtMiddle));
   (lit "biggr", T_Big Scale3 (Some PtRight));
   (lit "bigl", T_Big Scale1 (Some PtLeft));
   (lit "bigm", T_Big Scale1 (Some PtMiddle));
   (lit "bigodot", T_Op SYM_N_ARY_CIRCLED_DOT_OPERATOR);
   (lit "bigoplus", T_Op SYM_N_ARY_CIRCLED_PLUS_OPERATOR);
   (lit "bigotimes", T_Op SYM_N_ARY_CIRCLED_TIMES_OPERATOR);
   (lit "bigr", T_Big Scale1 (Some PtRight));
   (lit "bigsqcap", T_Op SYM_N_ARY_SQUARE_INTERSECTION_OPERATOR);
   (lit "bigsqcup", T_Op SYM_N_ARY_SQUARE_UNION_OPERATOR);
   (lit "bigstar", T_Letter (sc_from_char SYM_BLACK_STAR) MMath);
   (lit "bigtimes", T_Op SYM_N_ARY_TIMES_OPERATOR);
   (lit "bigtriangledown", T_ForceBinaryOp SYM_WHITE_DOWN_POINTING_TRIANGLE);
   (lit "bigtriangleup", T_ForceBinaryOp SYM_WHITE_UP_POINTING_TRIANGLE);
   (lit "biguplus", T_Op SYM_N_ARY_UNION_OPERATOR_WITH_PLUS);
   (lit "bigvee", T_Op SYM_N_ARY_LOGICAL_OR);
   (lit "bigwedge", T_Op SYM_N_ARY_LOGICAL_AND);
   (lit "binom", T_Binom None);
   (lit "blacklozenge", T_Letter (sc_from_char SYM_BLACK_LOZENGE) MMath);
   (lit "blacksquare", T_Letter (sc_from_char SYM_BLACK_SQUARE) MMath);
   (lit "blacktriangle", T_Letter (sc_from_char SYM_BLACK_UP_POINTING_TRIANGLE) MMath);
   (lit "blacktriangledown", T_Letter (sc_from_char SYM_BLACK_DOWN_POINTING_TRIANGLE) MMath);
   (lit "blacktriangleleft", T_ForceRelation SYM_BLACK_LEFT_POINTING_TRIANGLE);
   (lit "blacktriangleright", T_ForceRelation SYM_BLACK_RIGHT_POINTING_TRIANGLE);
   (lit "bm", T_Transform (MvTransform TBoldItalic));
   (lit "bmod", T_CustomCmd (0%nat) PRE_BMOD);
   (lit "bold", T_Transform (MvTransform TBold));
   (lit "boldsymbol", T_Transform (MvTransform TBoldItalic));
   (lit "bot", T_Letter (sc_from_char SYM_UP_TACK) MMath);
   (lit "botdoteq", T_Relation SYM_EQUALS_SIGN_WITH_DOT_BELOW);
   (lit "bowtie", T_Relation SYM_BOWTIE);
   (lit "boxdot", T_ForceBinaryOp (op_as_op SYM_SQUARED_DOT_OPERATOR));
   (lit "boxed", T_Enclose N_BOX);
   (lit "boxminus", T_BinaryOp SYM_SQUARED_MINUS);
   (lit "boxplus", T_BinaryOp SYM_SQUARED_PLUS);
   (lit "boxtimes", T_ForceBinaryOp (op_as_op SYM_SQUARED_TIMES));
   (lit "bra", T_CustomCmd (1%nat) PRE_BRA);
   (lit "brace", T_InfixGenFrac false (Some IdBrace));
   (lit "brack", T_InfixGenFrac false (Some IdBrack));
   (lit "braket", T_CustomCmd (1%nat) PRE_BRAKET);
   (lit "breve", T_Accent SYM_BREVE true A_EMPTY);
   (lit "bull", T_ForceBinaryOp (op_as_op SYM_BULLET_OPERATOR));
   (lit "bullet", T_ForceBinaryOp (op_as_op SYM_BULLET_OPERATOR));
   (lit "bumpeq", T_Relation SYM_DIFFERENCE_BETWEEN);
   (lit "c", T_TextMode (TtAccent SYM_COMBINING_CEDILLA));
   (lit "cal", T_TransformSwitch (MvTransform TScriptChancery));
   (lit "cancel", T_Enclose N_UP_DIAGONAL);
   (lit "cap", T_BinaryOp SYM_INTERSECTION);
   (lit "cdot", T_ForceBinaryOp (op_as_op SYM_DOT_OPERATOR));
   (lit "cdotp", T_ForcePunctuation (op_as_op SYM_MIDDLE_DOT));
   (lit "cdots", T_CustomCmd (0%nat) PRE_CDOTS);
   (lit "cfrac", T_Frac (Some CFracStyle));
   (lit "check", T_Accent SYM_CARON true A_STRETCHY_FALSE);
   (lit "checkmark", T_Letter (sc_from_char SYM_CHECK_MARK) MMathOrText);
   (lit "chi", T_Letter (sc_from_char SYM_GREEK_SMALL_LETTER_CHI) MMath);
   (lit "choose", T_InfixGenFrac false (Some IdParen));
   (lit "circ", T_ForceBinaryOp (op_as_op SYM_RING_OPERATOR));
   (lit "circeq", T_Relation SYM_RING_EQUAL_TO);
   (lit "circlearrowleft", T_Relation SYM_ANTICLOCKWISE_OPEN_CIRCLE_ARROW);
   (lit "circlearrowright", T_Relation SYM_CLOCKWISE_OPEN_CIRCLE_ARROW);
   (lit "circledR", T_Letter (sc_from_char SYM_CIRCLED_LATIN_CAPITAL_LETTER_R) MMathOrText);
   (lit "circledS", T_Letter (sc_from_char SYM_CIRCLED_LATIN_CAPITAL_LETTER_S) MMath);
   (lit "circledast", T_ForceBinaryOp (op_as_op SYM_CIRCLED_ASTERISK_OPERATOR));
   (lit "circledcirc", T_ForceBinaryOp (op_as_op SYM_CIRCLED_RING_OPERATOR));
   (lit "circleddash", T_ForceBinaryOp (bin_as_op SYM_CIRCLED_DASH));
   (lit "cirfnint", T_Op SYM_CIRCULATION_FUNCTION);
   (lit "clubs", T_Letter (sc_from_char SYM_BLACK_CLUB_SUIT) MMath);
   (lit "clubsuit", T_Letter (sc_from_char SYM_BLACK_CLUB_SUIT) MMath);
   (lit "cnums", T_Letter (sc_from_char SYM_DOUBLE_STRUCK_CAPITAL_C) MMath);
   (lit "colon", T_Letter (sc_from_char SYM_COLON) MMath);
   (lit "colonapprox", T_CustomCmd (0%nat) PRE_COLON_APPROX);
   (lit "coloncolon", T_CustomCmd (0%nat) PRE_DOUBLE_COLON);
   (lit "coloncolonapprox", T_CustomCmd (0%nat) PRE_DOUBLE_COLON_APPROX);
   (lit "coloncolonequals", T_CustomCmd (0%nat) PRE_DOUBLE_COLON_EQUAL);
   (lit "coloncolonminus", T_CustomCmd (0%nat) PRE_DOUBLE_COLON_MINUS);
   (lit "coloncolonsim", T_CustomCmd (0%nat) PRE_DOUBLE_COLON_SIM);
   (lit "colondash", T_CustomCmd (0%nat) PRE_COLON_MINUS);
   (lit "coloneq", T_CustomCmd (0%nat) PRE_COLON_EQUALS);
   (lit "colonequals", T_CustomCmd (0%nat) PRE_COLON_EQUALS);
   (lit "coloneqq", T_CustomCmd (0%nat) PRE_COLON_EQUALS);
   (lit "colonminus", T_CustomCmd (0%nat) PRE_COLON_MINUS);
   (lit "colonsim", T_CustomCmd (0%nat) PRE_COLON_SIM);
   (lit "color", T_Color);
   (lit "complement", T_Letter (ord_as_op SYM_COMPLEMENT) MMath);
   (lit "cong", T_Relation SYM_APPROXIMATELY_EQUAL_TO);
   (lit "coprod", T_Op SYM_N_ARY_COPRODUCT);
   (lit "copyright", T_Letter (sc_from_char SYM_COPYRIGHT_SIGN) MMath);
   (lit "cramped", T_Cramped);
   (lit "cup", T_BinaryOp SYM_UNION);
   (lit "curlyeqprec", T_Relation SYM_EQUAL_TO_OR_PRECEDES);
   (lit "curlyeqsucc", T_Relation SYM_EQUAL_TO_OR_SUCCEEDS);
   (lit "curlyvee", T_BinaryOp SYM_CURLY_LOGICAL_OR);
   (lit "curlywedge", T_BinaryOp SYM_CURLY_LOGICAL_AND);
   (lit "curvearrowleft", T_Relation SYM_ANTICLOCKWISE_TOP_SEMICIRCLE_ARROW);
   (lit "curvearrowright", T_Relation SYM_CLOCKWISE_TOP_SEMICIRCLE_ARROW);
   (lit "dArr", T_Relation SYM_DOWNWARDS_DOUBLE_ARROW);
   (lit "dag", T_Letter SYM_DAGGER MMathOrText);
   (lit "dagger", T_ForceBinaryOp SYM_DAGGER);
   (lit "daleth", T_Letter (sc_from_char SYM_DALET_SYMBOL) MMath);
   (lit "darr", T_Relation SYM_DOWNWARDS_ARROW);
   (lit "dashcolon", T_CustomCmd (0%nat) PRE_MINUS_COLON);
   (lit "dashleftarrow", T_Relation SYM_LEFTWARDS_DASHED_ARROW);
   (lit "dashrightarrow", T_Relation SYM_RIGHTWARDS_DASHED_ARROW);
   (lit "dashv", T_Relation SYM_LEFT_TACK);
   (lit "dbinom", T_Binom (Some DisplayStyleTrue));
   (lit "dblcolon", T_CustomCmd (0%nat) PRE_DOUBLE_COLON);
   (lit "ddag", T_Letter SYM_DOUBLE_DAGGER MMathOrText);
   (lit "ddagger", T_ForceBinaryOp SYM_DOUBLE_DAGGER);
   (lit "ddddot", T_Accent SYM_COMBINING_FOUR_DOTS_ABOVE true A_EMPTY);
   (lit "dddot", T_Accent SYM_COMBINING_THREE_DOTS_ABOVE true A_EMPTY);
   (lit "ddot", T_Accent SYM_DIAERESIS true A_EMPTY);
   (lit "ddots", T_Relation SYM_DOWN_RIGHT_DIAGONAL_ELLIPSIS);
   (lit "def", T_Def false);
   (lit "degree", T_Letter (sc_from_char SYM_DEGREE_SIGN) MMathOrText);
   (lit "delta", T_Letter (sc_from_char SYM_GREEK_SMALL_LETTER_DELTA) MMath);
   (lit "dfrac", T_Frac (Some DisplayStyleTrue));
   (lit "diagdown", T_ForceOrd (op_as_op SYM_MATHEMATICAL_FALLING_DIAGONAL));
   (lit "diagup", T_ForceOrd (op_as_op SYM_MATHEMATICAL_RISING_DIAGONAL));
   (lit "diamond", T_ForceBinaryOp (op_as_op SYM_DIAMOND_OPERATOR));
   (lit "diamonds", T_Letter (sc_from_char SYM_WHITE_DIAMOND_SUIT) MMath);
   (lit "diamondsuit", T_Letter (sc_from_char SYM_WHITE_DIAMOND_SUIT) MMath);
   (lit "digamma", T_Letter (sc_from_char SYM_GREEK_SMALL_LETTER_DIGAMMA) MMath);
   (lit "displaylimits", T_Limits LkDisplay);
   (lit "displaystyle", T_Style StDisplay);
   (lit "div", T_BinaryOp SYM_DIVISION_SIGN);
   (lit "divideontimes", T_ForceBinaryOp (op_as_op SYM_DIVISION_TIMES));
   (lit "dot", T_Accent SYM_DOT_ABOVE true A_EMPTY);
   (lit "doteq", T_Relation SYM_APPROACHES_THE_LIMIT);
   (lit "doteqdot", T_Relation SYM_GEOMETRICALLY_EQUAL_TO);
   (lit "dotplus", T_BinaryOp SYM_DOT_PLUS);
   (lit "dots", T_MathOrTextMode T_Dots SYM_HORIZONTAL_ELLIPSIS);
   (lit "dotsminusdots", T_Relation SYM_GEOMETRIC_PROPORTION);
   (lit "doublebarwedge", T_BinaryOp SYM_LOGICAL_AND_WITH_DOUBLE_OVERBAR);
   (lit "doublecap", T_BinaryOp SYM_DOUBLE_INTERSECTION);
   (lit "doublecup", T_BinaryOp SYM_DOUBLE_UNION);
   (lit "downarrow", T_Relation SYM_DOWNWARDS_ARROW);
   (lit "downdownarrows", T_Relation SYM_DOWNWARDS_PAIRED_ARROWS);
   (lit "downharpoonleft", T_Relation SYM_DOWNWARDS_HARPOON_WITH_BARB_LEFTWARDS);
   (lit "downharpoonright", T_Relation SYM_DOWNWARDS_HARPOON_WITH_BARB_RIGHTWARDS);
   (lit "ell", T_Letter (sc_from_char SYM_SCRIPT_SMALL_L) MMath);
   (lit "emph", T_Text (Some TsEmphasis));
   (lit "empty", T_Letter SYM_EMPTY_SET_ZERO_WITH_LONG_DIAGONAL_STROKE_OVERLAY_FORM MMath);
   (lit "emptyset", T_Letter SYM_EMPTY_SET_ZERO_WITH_LONG_DIAGONAL_STROKE_OVERLAY_FORM MMath);
   (lit "endgroup", T_GroupEnd);
   (lit "enspace", T_MathOrTextMode (T_Space (length_with_unit UEm (S754_finite false 8388608 (-24)))) SYM_EN_SPACE);
   (lit "epsilon", T_Letter (sc_from_char SYM_GREEK_LUNATE_EPSILON_SYMBOL) MMath);
   (lit "eqcirc", T_Relation SYM_RING_IN_EQUAL_TO);
   (lit "eqcolon", T_CustomCmd (0%nat) PRE_EQUALS_COLON);
   (lit "eqdef", T_Relation SYM_EQUAL_TO_BY_DEFINITION);
   (lit "eqqcolon", T_CustomCmd (0%nat) PRE_EQUALS_COLON);
   (lit "eqref", T_EqRef);
   (lit "eqsim", T_Relation SYM_MINUS_TILDE);
   (lit "eqslantgtr", T_Relation SYM_SLANTED_EQUAL_TO_OR_GREATER_THAN);
   (lit "eqslantless", T_Relation SYM_SLANTED_EQUAL_TO_OR_LESS_THAN);
   (lit "equalscolon", T_CustomCmd (0%nat) PRE_EQUALS_COLON);
   (lit "equalscoloncolon", T_CustomCmd (0%nat) PRE_EQUALS_DOUBLE_COLON);
   (lit "equiv", T_Relation SYM_IDENTICAL_TO);
   (lit "eta", T_Letter (sc_from_char SYM_GREEK_SMALL_LETTER_ETA) MMath);
   (lit "eth", T_Letter (sc_from_char SYM_LATIN_SMALL_LETTER_ETH) MMath);
   (lit "exist", T_Ord SYM_THERE_EXISTS);
   (lit "exists", T_Ord SYM_THERE_EXISTS);
   (lit "fallingdotseq", T_Relation SYM_APPROXIMATELY_EQUAL_TO_OR_THE_IMAGE_OF);
   (lit "fbox", T_CustomCmd (1%nat) PRE_FBOX);
   (lit "fcmp", T_BinaryOp SYM_Z_NOTATION_RELATIONAL_COMPOSITION);
   (lit "fint", T_Op SYM_INTEGRAL_AVERAGE_WITH_SLASH);
   (lit "flat", T_Letter (sc_from_char SYM_MUSIC_FLAT_SIGN) MMath);
   (lit "footnotesize", T_TextMode (TtSize Size80));
   (lit "forall", T_Ord SYM_FOR_ALL);
   (lit "frac", T_Frac None);
   (lit "frak", T_Transform (MvTransform TFraktur));
   (lit "frown", T_ForceRelation (ord_as_op SYM_FROWN));
   (lit "gamma", T_Letter (sc_from_char SYM_GREEK_SMALL_LETTER_GAMMA) MMath);
   (lit "gcd", T_PseudoOperatorLimits (lit "gcd"));
   (lit "gdef", T_Def true);
   (lit "ge", T_Relation SYM_GREATER_THAN_OR_EQUAL_TO);
   (lit "genfrac", T_Genfrac);
   (lit "geq", T_Relation SYM_GREATER_THAN_OR_EQUAL_TO);
   (lit "geqq", T_Relation SYM_GREATER_THAN_OVER_EQUAL_TO);
   (lit "geqslant", T_Relation SYM_GREATER_THAN_OR_SLANTED_EQUAL_TO);
   (lit "gets", T_Relation SYM_LEFTWARDS_ARROW);
   (lit "gg", T_Relation SYM_MUCH_GREATER_THAN);
   (lit "ggg", T_Relation SYM_VERY_MUCH_GREATER_THAN);
   (lit "gggtr", T_Relation SYM_VERY_MUCH_GREATER_THAN);
   (lit "gimel", T_Letter (sc_from_char SYM_GIMEL_SYMBOL) MMath);
   (lit "global", T_Global);
   (lit "gnapprox", T_Relation SYM_GREATER_THAN_AND_NOT_APPROXIMATE);
   (lit "gneq", T_Relation SYM_GREATER_THAN_AND_SINGLE_LINE_NOT_EQUAL_TO);
   (lit "gneqq", T_Relation SYM_GREATER_THAN_BUT_NOT_EQUAL_TO);
   (lit "gnsim", T_Relation SYM_GREATER_THAN_BUT_NOT_EQUIVALENT_TO);
   (lit "grave", T_Accent SYM_GRAVE_ACCENT true A_EMPTY);
   (lit "gt", T_Relation SYM_GREATER_THAN_SIGN);
   (lit "gtrapprox", T_Relation SYM_GREATER_THAN_OR_APPROXIMATE);
   (lit "gtreqless", T_Relation SYM_GREATER_THAN_EQUAL_TO_OR_LESS_THAN);
   (lit "gtreqqless", T_Relation SYM_GREATER_THAN_ABOVE_DOUBLE_LINE_EQUAL_ABOVE_LESS_THAN);
   (lit "gtrdot", T_Relation SYM_GREATER_THAN_WITH_DOT);
   (lit "gtrless", T_Relation SYM_GREATER_THAN_OR_LESS_THAN);
   (lit "gtrsim", T_Relation SYM_GREATER_THAN_OR_EQUIVALENT_TO);
   (lit "gvertneqq", T_Relation SYM_GREATER_THAN_BUT_NOT_EQUAL_TO_WITH_VERTICAL_STROKE);
   (lit "hArr", T_Relation SYM_LEFT_RIGHT_DOUBLE_ARROW);
   (lit "harr", T_Relation SYM_LEFT_RIGHT_ARROW);
   (lit "hat", T_Accent SYM_MODIFIER_LETTER_CIRCUMFLEX_ACCENT true A_STRETCHY_FALSE);
   (lit "hbar", T_Letter (sc_from_char SYM_PLANCK_CONSTANT_OVER_TWO_PI) MMath);
   (lit "hdashline", T_HLine Dashed);
   (lit "hearts", T_Letter (sc_from_char SYM_WHITE_HEART_SUIT) MMath);
   (lit "heartsuit", T_Letter (sc_from_char SYM_WHITE_HEART_SUIT) MMath);
   (lit "hline", T_HLine Solid);
   (lit "hookleftarrow", T_Relation SYM_LEFTWARDS_ARROW_WITH_HOOK);
   (lit "hookrightarrow", T_Relation SYM_RIGHTWARDS_ARROW_WITH_HOOK);
   (lit "hphantom", T_Phantom PkH);
   (lit "hskip", T_KernOrSkip UkText);
   (lit "hslash", T_Letter (sc_from_char SYM_PLANCK_CONSTANT_OVER_TWO_PI) MMath);
   (lit "hspace", T_CustomSpace UkText);
   (lit "huge", T_TextMode (TtSize Size200));
   (lit "i", T_TextMode (TtLetter 0x131));
   (lit "iddots", T_Relation SYM_UP_RIGHT_DIAGONAL_ELLIPSIS);
   (lit "idotsint", T_CustomCmd (0%nat) PRE_IDOTSINT);
   (lit "iff", T_CustomCmd (0%nat) PRE_IFF);
   (lit "iiiint", T_Op SYM_QUADRUPLE_INTEGRAL_OPERATOR);
   (lit "iiint", T_Op SYM_TRIPLE_INTEGRAL);
   (lit "iint", T_Op SYM_DOUBLE_INTEGRAL);
   (lit "image", T_Letter (sc_from_char SYM_BLACK_LETTER_CAPITAL_I) MMath);
   (lit "imageof", T_Relation SYM_IMAGE_OF);
   (lit "imath", T_Letter (sc_from_char SYM_LATIN_SMALL_LETTER_DOTLESS_I) MMath);
   (lit "impliedby", T_CustomCmd (0%nat) PRE_IMPLIEDBY);
   (lit "implies", T_CustomCmd (0%nat) PRE_IMPLIES);
   (lit "in", T_Relation SYM_ELEMENT_OF);
   (lit "inf", T_PseudoOperatorLimits (lit "inf"));
   (lit "infin", T_Letter (sc_from_char SYM_INFINITY) MMath);
   (lit "infty", T_Letter (sc_from_char SYM_INFINITY) MMath);
   (lit "injlim", T_PseudoOperatorLimits (lit "inj" ++ [0x2009] ++ lit "lim"));
   (lit "int", T_Op SYM_INTEGRAL);
   (lit "intBar", T_Op SYM_INTEGRAL_WITH_DOUBLE_STROKE);
   (lit "intbar", T_Op SYM_FINITE_PART_INTEGRAL);
   (lit "intclockwise", T_Op SYM_CLOCKWISE_INTEGRAL);
   (lit "intercal", T_ForceBinaryOp (op_as_op SYM_INTERCALATE));
   (lit "iota", T_Letter (sc_from_char SYM_GREEK_SMALL_LETTER_IOTA) MMath);
   (lit "isin", T_Relation SYM_ELEMENT_OF);
   (lit "it", T_TransformSwitch (MvTransform TItalic));
   (lit "j", T_TextMode (TtLetter 0x237));
   (lit "jmath", T_Letter (sc_from_char SYM_LATIN_SMALL_LETTER_DOTLESS_J) MMath);
   (lit "kappa", T_Letter (sc_from_char SYM_GREEK_SMALL_LETTER_KAPPA) MMath);
   (lit "kern", T_KernOrSkip UkText);
   (lit "kernelcontraction", T_Relation SYM_HOMOTHETIC);
   (lit "ket", T_CustomCmd (1%nat) PRE_KET);
   (lit "l", T_TextMode (TtLetter 0x142));
   (lit "lAngle", T_Open SYM_MATHEMATICAL_LEFT_DOUBLE_ANGLE_BRACKET);
   (lit "lArr", T_Relation SYM_LEFTWARDS_DOUBLE_ARROW);
   (lit "lBrace", T_Open SYM_LEFT_WHITE_CURLY_BRACKET);
   (lit "lVert", T_Open SYM_DOUBLE_VERTICAL_LINE);
   (lit "label", T_Label);
   (lit "lambda", T_Letter (sc_from_char SYM_GREEK_SMALL_LETTER_LAMBDA) MMath);
   (lit "land", T_BinaryOp SYM_LOGICAL_AND);
   (lit "lang", T_Open SYM_MATHEMATICAL_LEFT_ANGLE_BRACKET);
   (lit "langle", T_Open SYM_MATHEMATICAL_LEFT_ANGLE_BRACKET);
   (lit "large", T_TextMode (TtSize Size120));
   (lit "larr", T_Relation SYM_LEFTWARDS_ARROW);
   (lit "lbrace", T_Open SYM_LEFT_CURLY_BRACKET);
   (lit "lbrack", T_Open SYM_LEFT_SQUARE_BRACKET);
   (lit "lceil", T_Open SYM_LEFT_CEILING);
   (lit "ldotp", T_ForcePunctuation (op_as_op SYM_FULL_STOP));
   (lit "ldots", T_MathOrTextMode (T_CustomCmd (0%nat) PRE_DOTS) SYM_HORIZONTAL_ELLIPSIS);
   (lit "le", T_Relation SYM_LESS_THAN_OR_EQUAL_TO);
   (lit "leadsto", T_Relation SYM_RIGHTWARDS_SQUIGGLE_ARROW);
   (lit "left", T_Left);
   (lit "leftarrow", T_Relation SYM_LEFTWARDS_ARROW);
   (lit "leftarrowtail", T_Relation SYM_LEFTWARDS_ARROW_WITH_TAIL);
   (lit "leftharpoondown", T_Relation SYM_LEFTWARDS_HARPOON_WITH_BARB_DOWNWARDS);
   (lit "leftharpoonup", T_Relation SYM_LEFTWARDS_HARPOON_WITH_BARB_UPWARDS);
   (lit "leftleftarrows", T_Relation SYM_LEFTWARDS_PAIRED_ARROWS);
   (lit "leftrightarrow", T_Relation SYM_LEFT_RIGHT_ARROW);
   (lit "leftrightarrows", T_Relation SYM_LEFTWARDS_ARROW_OVER_RIGHTWARDS_ARROW);
   (lit "leftrightharpoons", T_Relation SYM_LEFTWARDS_HARPOON_OVER_RIGHTWARDS_HARPOON);
   (lit "leftrightsquigarrow", T_Relation SYM_LEFT_RIGHT_WAVE_ARROW);
   (lit "leftthreetimes", T_ForceBinaryOp (op_as_op SYM_LEFT_SEMIDIRECT_PRODUCT));
   (lit "leq", T_Relation SYM_LESS_THAN_OR_EQUAL_TO);
   (lit "leqq", T_Relation SYM_LESS_THAN_OVER_EQUAL_TO);
   (lit "leqslant", T_Relation SYM_LESS_THAN_OR_SLANTED_EQUAL_TO);
   (lit "lessapprox", T_Relation SYM_LESS_THAN_OR_APPROXIMATE);
   (lit "lessdot", T_Relation SYM_LESS_THAN_WITH_DOT);
   (lit "lesseqgtr", T_Relation SYM_LESS_THAN_EQUAL_TO_OR_GREATER_THAN);
   (lit "lesseqqgtr", T_Relation SYM_LESS_THAN_ABOVE_DOUBLE_LINE_EQUAL_ABOVE_GREATER_THAN);
   (lit "lessgtr", T_Relation SYM_LESS_THAN_OR_GREATER_THAN);
   (lit "lesssim", T_Relation SYM_LESS_THAN_OR_EQUIVALENT_TO);
   (lit "let", T_Let);
   (lit "lfloor", T_Open SYM_LEFT_FLOOR);
   (lit "lgroup", T_Open SYM_MATHEMATICAL_LEFT_FLATTENED_PARENTHESIS);
   (lit "lhd", T_Relation SYM_NORMAL_SUBGROUP_OF);
   (lit "lightning", T_Relation SYM_DOWNWARDS_ZIGZAG_ARROW);
   (lit "lim", T_PseudoOperatorLimits (lit "lim"));
   (lit "liminf", T_PseudoOperatorLimits (lit "lim" ++ [0x2009] ++ lit "inf"));
   (lit "limits", T_Limits LkAlways);
   (lit "limsup", T_PseudoOperatorLimits (lit "lim" ++ [0x2009] ++ lit "sup"));
   (lit "ll", T_Relation SYM_MUCH_LESS_THAN);
   (lit "llangle", T_Open SYM_Z_NOTATION_LEFT_BINDING_BRACKET);
   (lit "llbracket", T_Open SYM_MATHEMATICAL_LEFT_WHITE_SQUARE_BRACKET);
   (lit "llcorner", T_ForceOpen SYM_BOTTOM_LEFT_CORNER FsPretend);
   (lit "lll", T_Relation SYM_VERY_MUCH_LESS_THAN);
   (lit "llless", T_Relation SYM_VERY_MUCH_LESS_THAN);
   (lit "lmoustache", T_ForceOpen SYM_UPPER_LEFT_OR_LOWER_RIGHT_CURLY_BRACKET_SECTION FsYes);
   (lit "llparenthesis", T_Open SYM_Z_NOTATION_LEFT_IMAGE_BRACKET);
   (lit "lnapprox", T_Relation SYM_LESS_THAN_AND_NOT_APPROXIMATE);
   (lit "lneq", T_Relation SYM_LESS_THAN_AND_SINGLE_LINE_NOT_EQUAL_TO);
   (lit "lneqq", T_Relation SYM_LESS_THAN_BUT_NOT_EQUAL_TO);
   (lit "lnot", T_Ord SYM_NOT_SIGN);
   (lit "lnsim", T_Relation SYM_LESS_THAN_BUT_NOT_EQUIVALENT_TO);
   (lit "longleftarrow", T_Relation SYM_LONG_LEFTWARDS_ARROW);
   (lit "longleftrightarrow", T_Relation SYM_LONG_LEFT_RIGHT_ARROW);
   (lit "longmapsto", T_Relation SYM_LONG_RIGHTWARDS_ARROW_FROM_BAR);
   (lit "longrightarrow", T_Relation SYM_LONG_RIGHTWARDS_ARROW);
   (lit "looparrowleft", T_Relation SYM_LEFTWARDS_ARROW_WITH_LOOP);
   (lit "looparrowright", T_Relation SYM_RIGHTWARDS_ARROW_WITH_LOOP);
   (lit "lor", T_BinaryOp SYM_LOGICAL_OR);
   (lit "lozenge", T_Letter (sc_from_char SYM_LOZENGE) MMath);
   (lit "lparen", T_Open SYM_LEFT_PARENTHESIS);
   (lit "lq", T_Letter (sc_from_char SYM_LEFT_SINGLE_QUOTATION_MARK) MMathOrText);
   (lit "lrArr", T_Relation SYM_LEFT_RIGHT_DOUBLE_ARROW);
   (lit "lrarr", T_Relation SYM_LEFT_RIGHT_ARROW);
   (lit "lrcorner", T_ForceClose SYM_BOTTOM_RIGHT_CORNER FsPretend);
   (lit "lt", T_Relation SYM_LESS_THAN_SIGN);
   (lit "ltimes", T_ForceBinaryOp (op_as_op SYM_LEFT_NORMAL_FACTOR_SEMIDIRECT_PRODUCT));
   (lit "lvert", T_Open SYM_VERTICAL_LINE);
   (lit "lvertneqq", T_Relation SYM_LESS_THAN_BUT_NOT_EQUAL_TO_WITH_VERTICAL_STROKE);
   (lit "maltese", T_Letter (sc_from_char SYM_MALTESE_CROSS) MMathOrText);
   (lit "mapsto", T_Relation SYM_RIGHTWARDS_ARROW_FROM_BAR);
   (lit "mathbb", T_Transform (MvTransform TDoubleStruck));
   (lit "mathbf", T_Transform (MvTransform TBold));
   (lit "mathbin", T_MathClass MkBin);
   (lit "mathcal", T_Transform (MvTransform TScriptChancery));
   (lit "mathchoice", T_MathChoice);
   (lit "mathclose", T_MathClass MkClose);
   (lit "mathfrak", T_Transform (MvTransform TFraktur));
   (lit "mathinner", T_MathClass MkInner);
   (lit "mathit", T_Transform (MvTransform TItalic));
   (lit "mathop", T_MathClass MkOp);
   (lit "mathopen", T_MathClass MkOpen);
   (lit "mathord", T_MathClass MkOrd);
   (lit "mathpunct", T_MathClass MkPunct);
   (lit "mathrel", T_MathClass MkRel);
   (lit "mathring", T_Accent SYM_RING_ABOVE true A_EMPTY);
   (lit "mathrm", T_Transform MvNormal);
   (lit "mathscr", T_Transform (MvTransform TScriptRoundhand));
   (lit "mathsf", T_Transform (MvTransform TSansSerif));
   (lit "mathsterling", T_Letter (sc_from_char SYM_POUND_SIGN) MMath);
   (lit "mathstrut", T_CustomCmd (0%nat) PRE_MATHSTRUT);
   (lit "mathtt", T_Transform (MvTransform TMonospace));
   (lit "max", T_PseudoOperatorLimits (lit "max"));
   (lit "measeq", T_Relation SYM_MEASURED_BY);
   (lit "measuredangle", T_Letter (sc_from_char SYM_MEASURED_ANGLE) MMath);
   (lit "medspace", T_MathOrTextMode (T_Space (length_with_unit UMu (S754_finite false 8388608 (-21)))) SYM_MEDIUM_MATHEMATICAL_SPACE);
   (lit "mho", T_Letter (sc_from_char SYM_INVERTED_OHM_SIGN) MMath);
   (lit "mid", T_Relation SYM_DIVIDES);
   (lit "middle", T_Middle);
   (lit "min", T_PseudoOperatorLimits (lit "min"));
   (lit "minuscolon", T_CustomCmd (0%nat) PRE_MINUS_COLON);
   (lit "minuscoloncolon", T_CustomCmd (0%nat) PRE_MINUS_DOUBLE_COLON);
   (lit "minuso", T_ForceBinaryOp SYM_CIRCLE_WITH_HORIZONTAL_BAR);
   (lit "mkern", T_KernOrSkip UkMath);
   (lit "mod", T_CustomCmd (0%nat) PRE_MOD);
   (lit "models", T_Relation SYM_TRUE);
   (lit "mp", T_BinaryOp SYM_MINUS_OR_PLUS_SIGN);
   (lit "mskip", T_KernOrSkip UkMath);
   (lit "mspace", T_CustomSpace UkMath);
   (lit "mu", T_Letter (sc_from_char SYM_GREEK_SMALL_LETTER_MU) MMath);
   (lit "multimap", T_Relation SYM_MULTIMAP);
   (lit "nLeftarrow", T_Relation SYM_LEFTWARDS_DOUBLE_ARROW_WITH_STROKE);
   (lit "nLeftrightarrow", T_Relation SYM_LEFT_RIGHT_DOUBLE_ARROW_WITH_STROKE);
   (lit "nRightarrow", T_Relation SYM_RIGHTWARDS_DOUBLE_ARROW_WITH_STROKE);
   (lit "nVDash", T_Relation SYM_NEGATED_DOUBLE_VERTICAL_BAR_DOUBLE_RIGHT_TURNSTILE);
   (lit "nVdash", T_Relation SYM_DOES_NOT_FORCE);
   (lit "nabla", T_UprightLetter (sc_from_char SYM_NABLA));
   (lit "natnums", T_Letter (sc_from_char SYM_DOUBLE_STRUCK_CAPITAL_N) MMath);
   (lit "natural", T_Letter (sc_from_char SYM_MUSIC_NATURAL_SIGN) MMath);
   (lit "ncong", T_Relation SYM_NEITHER_APPROXIMATELY_NOR_ACTUALLY_EQUAL_TO);
   (lit "ne", T_Relation SYM_NOT_EQUAL_TO);
   (lit "nearrow", T_Relation SYM_NORTH_EAST_ARROW);
   (lit "neg", T_Ord SYM_NOT_SIGN);
   (lit "negmedspace", T_Space (length_with_unit UMu (S754_finite true 8388608 (-21))));
   (lit "negthickspace", T_Space (length_with_unit UMu (S754_finite true 10485760 (-21))));
   (lit "negthinspace", T_Space (length_with_unit UMu (S754_finite true 12582912 (-22))));
   (lit "neq", T_Relation SYM_NOT_EQUAL_TO);
   (lit "nequiv", T_Relation SYM_NOT_IDENTICAL_TO);
   (lit "newcommand", T_NewCommand DmNew);
   (lit "newline", T_NewLine);
   (lit "nexists", T_Ord SYM_THERE_DOES_NOT_EXIST);
   (lit "ngeq", T_Relation SYM_NEITHER_GREATER_THAN_NOR_EQUAL_TO);
   (lit "ngeqq", T_CustomCmd (0%nat) [T_Overlay Solidus; T_Relation SYM_GREATER_THAN_OVER_EQUAL_TO]);
   (lit "ngeqslant", T_CustomCmd (0%nat) [T_Overlay Solidus; T_Relation SYM_GREATER_THAN_OR_SLANTED_EQUAL_TO]);
   (lit "ngtr", T_Relation SYM_NOT_GREATER_THAN);
   (lit "ngtrless", T_Relation SYM_NEITHER_GREATER_THAN_NOR_LESS_THAN);
   (lit "ngtrsim", T_Relation SYM_NEITHER_GREATER_THAN_NOR_EQUIVALENT_TO);
   (lit "ni", T_Relation SYM_CONTAINS_AS_MEMBER);
   (lit "nleftarrow", T_Relation SYM_LEFTWARDS_ARROW_WITH_STROKE);
   (lit "nleftrightarrow", T_Relation SYM_LEFT_RIGHT_ARROW_WITH_STROKE);
   (lit "nleqq", T_CustomCmd (0%nat) [T_Overlay Solidus; T_Relation SYM_LESS_THAN_OVER_EQUAL_TO]);
   (lit "nleqslant", T_CustomCmd (0%nat) [T_Overlay Solidus; T_Relation SYM_LESS_THAN_OR_SLANTED_EQUAL_TO]);
   (lit "nleq", T_Relation SYM_NEITHER_LESS_THAN_NOR_EQUAL_TO);
   (lit "nless", T_Relation SYM_NOT_LESS_THAN);
   (lit "nlessgt", T_Relation SYM_NEITHER_LESS_THAN_NOR_GREATER_THAN);
   (lit "nlesssim", T_Relation SYM_NEITHER_LESS_THAN_NOR_EQUIVALENT_TO);
   (lit "nmid", T_Relation SYM_DOES_NOT_DIVIDE);
   (lit "nobreakspace", T_NonBreakingSpace);
   (lit "nolimits", T_Limits LkNever);
   (lit "nonumber", T_NoNumber);
   (lit "normalsize", T_TextMode (TtSize Size100));
   (lit "not", T_Overlay Solidus);
   (lit "notag", T_NoNumber);
   (lit "notin", T_Relation SYM_NOT_AN_ELEMENT_OF);
   (lit "notni", T_Relation SYM_DOES_NOT_CONTAIN_AS_MEMBER);
   (lit "nparallel", T_Relation SYM_NOT_PARALLEL_TO);
   (lit "nprec", T_Relation SYM_DOES_NOT_PRECEDE);
   (lit "npreceq", T_Relation SYM_DOES_NOT_PRECEDE_OR_EQUAL);
   (lit "nrightarrow", T_Relation SYM_RIGHTWARDS_ARROW_WITH_STROKE);
   (lit "nsim", T_Relation SYM_NOT_TILDE);
   (lit "nsubset", T_Relation SYM_NOT_A_SUBSET_OF);
   (lit "nsubseteq", T_Relation SYM_NEITHER_A_SUBSET_OF_NOR_EQUAL_TO);
   (lit "nsubseteqq", T_CustomCmd (0%nat) [T_Overlay Solidus; T_Relation SYM_SUBSET_OF_ABOVE_EQUALS_SIGN]);
   (lit "nsucc", T_Relation SYM_DOES_NOT_SUCCEED);
   (lit "nsucceq", T_Relation SYM_DOES_NOT_SUCCEED_OR_EQUAL);
   (lit "nsupset", T_Relation SYM_NOT_A_SUPERSET_OF);
   (lit "nsupseteq", T_Relation SYM_NEITHER_A_SUPERSET_OF_NOR_EQUAL_TO);
   (lit "nsupseteqq", T_CustomCmd (0%nat) [T_Overlay Solidus; T_Relation SYM_SUPERSET_OF_ABOVE_EQUALS_SIGN]);
   (lit "ntriangleleft", T_Relation SYM_NOT_NORMAL_SUBGROUP_OF);
   (lit "ntrianglelefteq", T_Relation SYM_NOT_NORMAL_SUBGROUP_OF_OR_EQUAL_TO);
   (lit "ntriangleright", T_Relation SYM_DOES_NOT_CONTAIN_AS_NORMAL_SUBGROUP);
   (lit "ntrianglerighteq", T_Relation SYM_DOES_NOT_CONTAIN_AS_NORMAL_SUBGROUP_OR_EQUAL);
   (lit "nu", T_Letter (sc_from_char SYM_GREEK_SMALL_LETTER_NU) MMath);
   (lit "nvDash", T_Relation SYM_NOT_TRUE);
   (lit "nvdash", T_Relation SYM_DOES_NOT_PROVE);
   (lit "nwarrow", T_Relation SYM_NORTH_WEST_ARROW);
   (lit "o", T_TextMode (TtLetter 248));
   (lit "odot", T_ForceBinaryOp (op_as_op SYM_CIRCLED_DOT_OPERATOR));
   (lit "oe", T_TextMode (TtLetter 0x153));
   (lit "oiiint", T_Op SYM_VOLUME_INTEGRAL);
   (lit "oiint", T_Op SYM_SURFACE_INTEGRAL);
   (lit "oint", T_Op SYM_CONTOUR_INTEGRAL);
   (lit "ointctrclockwise", T_Op SYM_ANTICLOCKWISE_CONTOUR_INTEGRAL);
   (lit "omega", T_Letter (sc_from_char SYM_GREEK_SMALL_LETTER_OMEGA) MMath);
   (lit "omicron", T_Letter (sc_from_char SYM_GREEK_SMALL_LETTER_OMICRON) MMath);
   (lit "ominus", T_BinaryOp SYM_CIRCLED_MINUS);
   (lit "operatorname", T_OperatorName false);
   (lit "operatorname*", T_OperatorName true);
   (lit "operatornamewithlimits", T_OperatorName true);
   (lit "oplus", T_BinaryOp SYM_CIRCLED_PLUS);
   (lit "origof", T_Relation SYM_ORIGINAL_OF);
   (lit "oslash", T_BinaryOp SYM_CIRCLED_DIVISION_SLASH);
   (lit "otimes", T_ForceBinaryOp (op_as_op SYM_CIRCLED_TIMES));
   (lit "over", T_InfixGenFrac true None);
   (lit "overbrace", T_OverUnderBrace SYM_TOP_CURLY_BRACKET true);
   (lit "overbracket", T_OverUnderBrace SYM_TOP_SQUARE_BRACKET true);
   (lit "overgroup", T_Accent (ord_char SYM_TOP_TORTOISE_SHELL_BRACKET) true A_EMPTY);
   (lit "overleftarrow", T_Accent (rel_char SYM_LEFTWARDS_ARROW) true A_EMPTY);
   (lit "overleftharpoon", T_Accent (rel_char SYM_LEFTWARDS_HARPOON_WITH_BARB_UPWARDS) true A_EMPTY);
   (lit "overleftrightarrow", T_Accent (rel_char SYM_LEFT_RIGHT_ARROW) true A_EMPTY);
   (lit "overline", T_Accent SYM_COMBINING_LOW_LINE true A_STRETCHY_TRUE);
   (lit "overparen", T_OverUnderBrace SYM_TOP_PARENTHESIS true);
   (lit "overrightarrow", T_Accent (rel_char SYM_RIGHTWARDS_ARROW) true A_EMPTY);
   (lit "overrightharpoon", T_Accent (rel_char SYM_RIGHTWARDS_HARPOON_WITH_BARB_UPWARDS) true A_EMPTY);
   (lit "overset", T_Overset);
   (lit "owns", T_Relation SYM_CONTAINS_AS_MEMBER);
   (lit "parallel", T_Relation SYM_PARALLEL_TO);
   (lit "partial", T_Letter (sc_from_char SYM_PARTIAL_DIFFERENTIAL) MMath);
   (lit "perp", T_Relation SYM_PERPENDICULAR);
   (lit "phantom", T_Phantom PkFull);
   (lit "phase", T_Enclose N_PHASOR_ANGLE);
   (lit "phi", T_Letter (sc_from_char SYM_GREEK_PHI_SYMBOL) MMath);
   (lit "pi", T_Letter (sc_from_char SYM_GREEK_SMALL_LETTER_PI) MMath);
   (lit "pitchfork", T_Relation SYM_PITCHFORK);
   (lit "plim", T_PseudoOperatorLimits (lit "plim"));
   (lit "plusmn", T_BinaryOp SYM_PLUS_MINUS_SIGN);
   (lit "pm", T_BinaryOp SYM_PLUS_MINUS_SIGN);
   (lit "pmod", T_CustomCmd (1%nat) PRE_PMOD);
   (lit "pod", T_CustomCmd (1%nat) PRE_POD);
   (lit "pounds", T_Letter (sc_from_char SYM_POUND_SIGN) MMath);
   (lit "prec", T_Relation SYM_PRECEDES);
   (lit "precapprox", T_Relation SYM_PRECEDES_ABOVE_ALMOST_EQUAL_TO);
   (lit "preccurlyeq", T_Relation SYM_PRECEDES_OR_EQUAL_TO);
   (lit "preceq", T_Relation SYM_PRECEDES_ABOVE_SINGLE_LINE_EQUALS_SIGN);
   (lit "precnapprox", T_Relation SYM_PRECEDES_ABOVE_NOT_ALMOST_EQUAL_TO);
   (lit "precneqq", T_Relation SYM_PRECEDES_ABOVE_NOT_EQUAL_TO);
   (lit "precnsim", T_Relation SYM_PRECEDES_BUT_NOT_EQUIVALENT_TO);
   (lit "precsim", T_Relation SYM_PRECEDES_OR_EQUIVALENT_TO);
   (lit "prescript", T_Prescript);
   (lit "prime", T_Ord SYM_PRIME);
   (lit "prod", T_Op SYM_N_ARY_PRODUCT);
   (lit "projlim", T_PseudoOperatorLimits (lit "proj" ++ [0x2009] ++ lit "lim"));
   (lit "propto", T_Relation SYM_PROPORTIONAL_TO);
   (lit "providecommand", T_NewCommand DmProvide);
   (lit "psi", T_Letter (sc_from_char SYM_GREEK_SMALL_LETTER_PSI) MMath);
   (lit "qquad", T_Space (length_with_unit UEm (S754_finite false 8388608 (-22))));
   (lit "quad", T_MathOrTextMode (T_Space (length_with_unit UEm (S754_finite false 8388608 (-23)))) SYM_EM_SPACE);
   (lit "questeq", T_Relation SYM_QUESTIONED_EQUAL_TO);
   (lit "r", T_TextMode (TtAccent SYM_COMBINING_RING_ABOVE));
   (lit "rAngle", T_Close SYM_MATHEMATICAL_RIGHT_DOUBLE_ANGLE_BRACKET);
   (lit "rArr", T_Relation SYM_RIGHTWARDS_DOUBLE_ARROW);
   (lit "rBrace", T_Close SYM_RIGHT_WHITE_CURLY_BRACKET);
   (lit "rVert", T_Close SYM_DOUBLE_VERTICAL_LINE);
   (lit "raisebox", T_RaiseBox);
   (lit "rang", T_Close SYM_MATHEMATICAL_RIGHT_ANGLE_BRACKET);
   (lit "rangle", T_Close SYM_MATHEMATICAL_RIGHT_ANGLE_BRACKET);
   (lit "rarr", T_Relation SYM_RIGHTWARDS_ARROW);
   (lit "ratio", T_ForceRelation (bin_as_op SYM_RATIO));
   (lit "rbrace", T_Close SYM_RIGHT_CURLY_BRACKET);
   (lit "rbrack", T_Close SYM_RIGHT_SQUARE_BRACKET);
   (lit "rceil", T_Close SYM_RIGHT_CEILING);
   (lit "real", T_Letter (sc_from_char SYM_BLACK_LETTER_CAPITAL_R) MMath);
   (lit "reals", T_Letter (sc_from_char SYM_DOUBLE_STRUCK_CAPITAL_R) MMath);
   (lit "relax", T_Relax);
   (lit "renewcommand", T_NewCommand DmRenew);
   (lit "restriction", T_Relation SYM_UPWARDS_HARPOON_WITH_BARB_RIGHTWARDS);
   (lit "rfloor", T_Close SYM_RIGHT_FLOOR);
   (lit "rgroup", T_Close SYM_MATHEMATICAL_RIGHT_FLATTENED_PARENTHESIS);
   (lit "rhd", T_Relation SYM_CONTAINS_AS_NORMAL_SUBGROUP);
   (lit "rho", T_Letter (sc_from_char SYM_GREEK_SMALL_LETTER_RHO) MMath);
   (lit "right", T_Right);
   (lit "rightarrow", T_Relation SYM_RIGHTWARDS_ARROW);
   (lit "rightarrowtail", T_Relation SYM_RIGHTWARDS_ARROW_WITH_TAIL);
   (lit "rightharpoondown", T_Relation SYM_RIGHTWARDS_HARPOON_WITH_BARB_DOWNWARDS);
   (lit "rightharpoonup", T_Relation SYM_RIGHTWARDS_HARPOON_WITH_BARB_UPWARDS);
   (lit "rightleftarrows", T_Relation SYM_RIGHTWARDS_ARROW_OVER_LEFTWARDS_ARROW);
   (lit "rightleftharpoons", T_Relation SYM_RIGHTWARDS_HARPOON_OVER_LEFTWARDS_HARPOON);
   (lit "rightrightarrows", T_Relation SYM_RIGHTWARDS_PAIRED_ARROWS);
   (lit "rightsquigarrow", T_Relation SYM_RIGHTWARDS_SQUIGGLE_ARROW);
   (lit "rightthreetimes", T_ForceBinaryOp (op_as_op SYM_RIGHT_SEMIDIRECT_PRODUCT));
   (lit "risingdotseq", T_Relation SYM_IMAGE_OF_OR_APPROXIMATELY_EQUAL_TO);
   (lit "rm", T_TransformSwitch MvNormal);
   (lit "rmoustache", T_ForceClose SYM_UPPER_RIGHT_OR_LOWER_LEFT_CURLY_BRACKET_SECTION FsYes);
   (lit "rparen", T_Close SYM_RIGHT_PARENTHESIS);
   (lit "rq", T_Letter (sc_from_char SYM_RIGHT_SINGLE_QUOTATION_MARK) MMathOrText);
   (lit "rrangle", T_Close SYM_Z_NOTATION_RIGHT_BINDING_BRACKET);
   (lit "rrbracket", T_Close SYM_MATHEMATICAL_RIGHT_WHITE_SQUARE_BRACKET);
   (lit "rrparenthesis", T_Close SYM_Z_NOTATION_RIGHT_IMAGE_BRACKET);
   (lit "rtimes", T_ForceBinaryOp (op_as_op SYM_RIGHT_NORMAL_FACTOR_SEMIDIRECT_PRODUCT));
   (lit "rupee", T_Letter (sc_from_char 0x20b9) MMath);
   (lit "rvert", T_Close SYM_VERTICAL_LINE);
   (lit "scriptscriptstyle", T_Style StScriptScript);
   (lit "scriptsize", T_TextMode (TtSize Size70));
   (lit "scriptstyle", T_Style StScript);
   (lit "searrow", T_Relation SYM_SOUTH_EAST_ARROW);
   (lit "sect", T_Letter (sc_from_char SYM_SECTION_SIGN) MMathOrText);
   (lit "set", T_CustomCmd (1%nat) PRE_SET);
   (lit "setminus", T_BinaryOp SYM_SET_MINUS);
   (lit "sf", T_TransformSwitch (MvTransform TSansSerif));
   (lit "sideset", T_Sideset);
   (lit "sixptsize", T_TextMode (TtSize Size60));
   (lit "sharp", T_Letter (sc_from_char SYM_MUSIC_SHARP_SIGN) MMath);
   (lit "sigma", T_Letter (sc_from_char SYM_GREEK_SMALL_LETTER_SIGMA) MMath);
   (lit "sim", T_Relation SYM_TILDE_OPERATOR);
   (lit "simcolon", T_CustomCmd (0%nat) PRE_SIM_COLON);
   (lit "simcoloncolon", T_CustomCmd (0%nat) PRE_SIM_DOUBLE_COLON);
   (lit "simeq", T_Relation SYM_ASYMPTOTICALLY_EQUAL_TO);
   (lit "slashed", T_Overlay Solidus);
   (lit "small", T_TextMode (TtSize Size90));
   (lit "smile", T_ForceRelation (ord_as_op SYM_SMILE));
   (lit "sout", T_TextMode (TtStyle TsStrikethrough));
   (lit "space", T_NonBreakingSpace);
   (lit "spades", T_Letter (sc_from_char SYM_BLACK_SPADE_SUIT) MMath);
   (lit "spadesuit", T_Letter (sc_from_char SYM_BLACK_SPADE_SUIT) MMath);
   (lit "sphericalangle", T_Letter (sc_from_char SYM_SPHERICAL_ANGLE) MMath);
   (lit "sqcap", T_BinaryOp SYM_SQUARE_CAP);
   (lit "sqcup", T_BinaryOp SYM_SQUARE_CUP);
   (lit "sqrt", T_Sqrt);
   (lit "sqsubset", T_Relation SYM_SQUARE_IMAGE_OF);
   (lit "sqsubseteq", T_Relation SYM_SQUARE_IMAGE_OF_OR_EQUAL_TO);
   (lit "sqsupset", T_Relation SYM_SQUARE_ORIGINAL_OF);
   (lit "sqsupseteq", T_Relation SYM_SQUARE_ORIGINAL_OF_OR_EQUAL_TO);
   (lit "square", T_Letter (sc_from_char SYM_WHITE_SQUARE) MMath);
   (lit "ss", T_TextMode (TtLetter 223));
   (lit "stackrel", T_Overset);
   (lit "star", T_ForceBinaryOp (op_as_op SYM_STAR_OPERATOR));
   (lit "stareq", T_Relation SYM_STAR_EQUALS);
   (lit "sub", T_Relation SYM_SUBSET_OF);
   (lit "sube", T_Relation SYM_SUBSET_OF_OR_EQUAL_TO);
   (lit "subset", T_Relation SYM_SUBSET_OF);
   (lit "subseteq", T_Relation SYM_SUBSET_OF_OR_EQUAL_TO);
   (lit "subseteqq", T_Relation SYM_SUBSET_OF_ABOVE_EQUALS_SIGN);
   (lit "subsetneq", T_Relation SYM_SUBSET_OF_WITH_NOT_EQUAL_TO);
   (lit "subsetneqq", T_Relation SYM_SUBSET_OF_ABOVE_NOT_EQUAL_TO);
   (lit "succ", T_Relation SYM_SUCCEEDS);
   (lit "succapprox", T_Relation SYM_SUCCEEDS_ABOVE_ALMOST_EQUAL_TO);
   (lit "succcurlyeq", T_Relation SYM_SUCCEEDS_OR_EQUAL_TO);
   (lit "succeq", T_Relation SYM_SUCCEEDS_ABOVE_SINGLE_LINE_EQUALS_SIGN);
   (lit "succnapprox", T_Relation SYM_SUCCEEDS_ABOVE_NOT_ALMOST_EQUAL_TO);
   (lit "succneqq", T_Relation SYM_SUCCEEDS_ABOVE_NOT_EQUAL_TO);
   (lit "succnsim", T_Relation SYM_SUCCEEDS_BUT_NOT_EQUIVALENT_TO);
   (lit "succsim", T_Relation SYM_SUCCEEDS_OR_EQUIVALENT_TO);
   (lit "sum", T_Op SYM_N_ARY_SUMMATION);
   (lit "sumint", T_Op SYM_SUMMATION_WITH_INTEGRAL);
   (lit "sup", T_PseudoOperatorLimits (lit "sup"));
   (lit "supe", T_Relation SYM_SUPERSET_OF_OR_EQUAL_TO);
   (lit "supset", T_Relation SYM_SUPERSET_OF);
   (lit "supseteq", T_Relation SYM_SUPERSET_OF_OR_EQUAL_TO);
   (lit "supseteqq", T_Relation SYM_SUPERSET_OF_ABOVE_EQUALS_SIGN);
   (lit "supsetneq", T_Relation SYM_SUPERSET_OF_WITH_NOT_EQUAL_TO);
   (lit "supsetneqq", T_Relation SYM_SUPERSET_OF_ABOVE_NOT_EQUAL_TO);
   (lit "surd", T_CustomCmd (0%nat) PRE_SURD);
   (lit "swarrow", T_Relation SYM_SOUTH_WEST_ARROW);
   (lit "symbf", T_Transform (MvTransform TBoldItalic));
   (lit "tag", T_Tag true);
   (lit "tag*", T_Tag false);
   (lit "tau", T_Letter (sc_from_char SYM_GREEK_SMALL_LETTER_TAU) MMath);
   (lit "tbinom", T_Binom (Some DisplayStyleFalse));
   (lit "text", T_Text None);
   (lit "textasciicircum", T_TextMode (TtLetter SYM_MODIFIER_LETTER_CIRCUMFLEX_ACCENT));
   (lit "textasciitilde", T_TextMode (TtLetter SYM_SMALL_TILDE));
   (lit "textbackslash", T_TextMode (TtLetter 92));
   (lit "textbar", T_TextMode (TtLetter 124));
   (lit "textbardbl", T_TextMode (TtLetter 0x2016));
   (lit "textbf", T_Text (Some TsBold));
   (lit "textbraceleft", T_TextMode (TtLetter 123));
   (lit "textbraceright", T_TextMode (TtLetter 125));
   (lit "textcolor", T_CustomCmd (2%nat) PRE_TEXTCOLOR);
   (lit "textdagger", T_TextMode (TtLetter (sc_base_char SYM_DAGGER)));
   (lit "textdaggerdbl", T_TextMode (TtLetter (sc_base_char SYM_DOUBLE_DAGGER)));
   (lit "textdegree", T_TextMode (TtLetter SYM_DEGREE_SIGN));
   (lit "textdollar", T_TextMode (TtLetter SYM_DOLLAR_SIGN));
   (lit "textellipsis", T_TextMode (TtLetter SYM_HORIZONTAL_ELLIPSIS));
   (lit "textemdash", T_TextMode (TtLetter 0x2014));
   (lit "textendash", T_TextMode (TtLetter 0x2013));
   (lit "textgreater", T_TextMode (TtLetter 62));
   (lit "textit", T_Text (Some TsItalic));
   (lit "textless", T_TextMode (TtLetter 60));
   (lit "textquotedblleft", T_TextMode (TtLetter 0x201c));
   (lit "textquotedblright", T_TextMode (TtLetter SYM_RIGHT_DOUBLE_QUOTATION_MARK));
   (lit "textquoteleft", T_TextMode (TtLetter SYM_LEFT_SINGLE_QUOTATION_MARK));
   (lit "textquoteright", T_TextMode (TtLetter SYM_RIGHT_SINGLE_QUOTATION_MARK));
   (lit "textregistered", T_TextMode (TtLetter 174));
   (lit "textrm", T_Text (Some TsSerif));
   (lit "textsc", T_Text (Some TsSmallCaps));
   (lit "textsf", T_Text (Some TsSansSerif));
   (lit "textsterling", T_TextMode (TtLetter SYM_POUND_SIGN));
   (lit "textstyle", T_Style StText);
   (lit "texttt", T_Text (Some TsTypewriter));
   (lit "textunderscore", T_TextMode (TtLetter 95));
   (lit "textyen", T_TextMode (TtLetter SYM_YEN_SIGN));
   (lit "tfrac", T_Frac (Some DisplayStyleFalse));
   (lit "therefore", T_ForceRelation (ord_as_op SYM_THEREFORE));
   (lit "theta", T_Letter (sc_from_char SYM_GREEK_SMALL_LETTER_THETA) MMath);
   (lit "thetasym", T_Letter (sc_from_char SYM_GREEK_THETA_SYMBOL) MMath);
   (lit "thickspace", T_MathOrTextMode (T_Space (length_with_unit UMu (S754_finite false 10485760 (-21)))) SYM_THREE_PER_EM_SPACE);
   (lit "thinspace", T_MathOrTextMode (T_Space (length_with_unit UMu (S754_finite false 12582912 (-22)))) SYM_THIN_SPACE);
   (lit "tilde", T_Accent SYM_SMALL_TILDE true A_STRETCHY_FALSE);
   (lit "times", T_ForceBinaryOp (op_as_op SYM_MULTIPLICATION_SIGN));
   (lit "tiny", T_TextMode (TtSize Size50));
   (lit "to", T_Relation SYM_RIGHTWARDS_ARROW);
   (lit "top", T_Letter (sc_from_char SYM_DOWN_TACK) MMath);
   (lit "triangle", T_Letter SYM_WHITE_UP_POINTING_TRIANGLE MMath);
   (lit "triangledown", T_Letter SYM_WHITE_DOWN_POINTING_TRIANGLE MMath);
   (lit "triangleleft", T_ForceBinaryOp SYM_WHITE_LEFT_POINTING_TRIANGLE);
   (lit "trianglelefteq", T_Relation SYM_NORMAL_SUBGROUP_OF_OR_EQUAL_TO);
   (lit "triangleq", T_Relation SYM_DELTA_EQUAL_TO);
   (lit "triangleright", T_ForceBinaryOp SYM_WHITE_RIGHT_POINTING_TRIANGLE);
   (lit "trianglerighteq", T_Relation SYM_CONTAINS_AS_NORMAL_SUBGROUP_OR_EQUAL_TO);
   (lit "tt", T_TransformSwitch (MvTransform TMonospace));
   (lit "twoheadleftarrow", T_Relation SYM_LEFTWARDS_TWO_HEADED_ARROW);
   (lit "twoheadrightarrow", T_Relation SYM_RIGHTWARDS_TWO_HEADED_ARROW);
   (lit "u", T_TextMode (TtAccent SYM_COMBINING_BREVE));
   (lit "uArr", T_Relation SYM_UPWARDS_DOUBLE_ARROW);
   (lit "uarr", T_Relation SYM_UPWARDS_ARROW);
   (lit "ulcorner", T_ForceOpen SYM_TOP_LEFT_CORNER FsPretend);
   (lit "underbar", T_Text (Some TsUnderline));
   (lit "underbrace", T_OverUnderBrace SYM_BOTTOM_CURLY_BRACKET false);
   (lit "underbracket", T_OverUnderBrace SYM_BOTTOM_SQUARE_BRACKET false);
   (lit "undergroup", T_Accent (ord_char SYM_BOTTOM_TORTOISE_SHELL_BRACKET) false A_EMPTY);
   (lit "underleftarrow", T_Accent (rel_char SYM_LEFTWARDS_ARROW) false A_EMPTY);
   (lit "underleftrightarrow", T_Accent (rel_char SYM_LEFT_RIGHT_ARROW) false A_EMPTY);
   (lit "underrightarrow", T_Accent (rel_char SYM_RIGHTWARDS_ARROW) false A_EMPTY);
   (lit "underline", T_Accent SYM_COMBINING_LOW_LINE false A_STRETCHY_TRUE);
   (lit "underparen", T_OverUnderBrace SYM_BOTTOM_PARENTHESIS false);
   (lit "underset", T_Underset);
   (lit "unlhd", T_Relation SYM_NORMAL_SUBGROUP_OF_OR_EQUAL_TO);
   (lit "unrhd", T_Relation SYM_CONTAINS_AS_NORMAL_SUBGROUP_OR_EQUAL_TO);
   (lit "uparrow", T_Relation SYM_UPWARDS_ARROW);
   (lit "updownarrow", T_Relation SYM_UP_DOWN_ARROW);
   (lit "upharpoonleft", T_Relation SYM_UPWARDS_HARPOON_WITH_BARB_LEFTWARDS);
   (lit "upharpoonright", T_Relation SYM_UPWARDS_HARPOON_WITH_BARB_RIGHTWARDS);
   (lit "uplus", T_BinaryOp SYM_MULTISET_UNION);
   (lit "upsilon", T_Letter (sc_from_char SYM_GREEK_SMALL_LETTER_UPSILON) MMath);
   (lit "upuparrows", T_Relation SYM_UPWARDS_PAIRED_ARROWS);
   (lit "urcorner", T_ForceClose SYM_TOP_RIGHT_CORNER FsPretend);
   (lit "v", T_TextMode (TtAccent SYM_COMBINING_CARON));
   (lit "vDash", T_Relation SYM_TRUE);
   (lit "varDelta", T_Letter (sc_from_char SYM_GREEK_CAPITAL_LETTER_DELTA) MMath);
   (lit "varGamma", T_Letter (sc_from_char SYM_GREEK_CAPITAL_LETTER_GAMMA) MMath);
   (lit "varLambda", T_Letter (sc_from_char SYM_GREEK_CAPITAL_LETTER_LAMBDA) MMath);
   (lit "varOmega", T_Letter (sc_from_char SYM_GREEK_CAPITAL_LETTER_OMEGA) MMath);
   (lit "varPhi", T_Letter (sc_from_char SYM_GREEK_CAPITAL_LETTER_PHI) MMath);
   (lit "varPi", T_Letter (sc_from_char SYM_GREEK_CAPITAL_LETTER_PI) MMath);
   (lit "varPsi", T_Letter (sc_from_char SYM_GREEK_CAPITAL_LETTER_PSI) MMath);
   (lit "varSigma", T_Letter (sc_from_char SYM_GREEK_CAPITAL_LETTER_SIGMA) MMath);
   (lit "varTheta", T_Letter (sc_from_char SYM_GREEK_CAPITAL_LETTER_THETA) MMath);
   (lit "varUpsilon", T_Letter (sc_from_char SYM_GREEK_CAPITAL_LETTER_UPSILON) MMath);
   (lit "varXi", T_Letter (sc_from_char SYM_GREEK_CAPITAL_LETTER_XI) MMath);
   (lit "varepsilon", T_Letter (sc_from_char SYM_GREEK_SMALL_LETTER_EPSILON) MMath);
   (lit "varkappa", T_Letter (sc_from_char SYM_GREEK_KAPPA_SYMBOL) MMath);
   (lit "varnothing", T_Letter (sc_from_char SYM_EMPTY_SET) MMath);
   (lit "varointclockwise", T_Op SYM_CLOCKWISE_CONTOUR_INTEGRAL);
   (lit "varphi", T_Letter (sc_from_char SYM_GREEK_SMALL_LETTER_PHI) MMath);
   (lit "varpi", T_Letter (sc_from_char SYM_GREEK_PI_SYMBOL) MMath);
   (lit "varrho", T_Letter (sc_from_char SYM_GREEK_RHO_SYMBOL) MMath);
   (lit "varsigma", T_Letter (sc_from_char SYM_GREEK_SMALL_LETTER_FINAL_SIGMA) MMath);
   (lit "varsubsetneq", T_Relation SYM_SUBSET_OF_WITH_NOT_EQUAL_TO_WITH_STROKE_THROUGH_BOTTOM_MEMBERS);
   (lit "varsubsetneqq", T_Relation SYM_SUBSET_OF_ABOVE_NOT_EQUAL_TO_WITH_STROKE_THROUGH_BOTTOM_MEMBERS);
   (lit "varsupsetneq", T_Relation SYM_SUPERSET_OF_WITH_NOT_EQUAL_TO_WITH_STROKE_THROUGH_BOTTOM_MEMBERS);
   (lit "varsupsetneqq", T_Relation SYM_SUPERSET_OF_ABOVE_NOT_EQUAL_TO_WITH_STROKE_THROUGH_BOTTOM_MEMBERS);
   (lit "vartheta", T_Letter (sc_from_char SYM_GREEK_THETA_SYMBOL) MMath);
   (lit "vartriangle", T_ForceRelation SYM_WHITE_UP_POINTING_TRIANGLE);
   (lit "vartriangleleft", T_Relation SYM_NORMAL_SUBGROUP_OF);
   (lit "vartriangleright", T_Relation SYM_CONTAINS_AS_NORMAL_SUBGROUP);
   (lit "vcentcolon", T_ForceRelation (bin_as_op SYM_RATIO));
   (lit "vdash", T_Relation SYM_RIGHT_TACK);
   (lit "vdots", T_Relation SYM_VERTICAL_ELLIPSIS);
   (lit "vec", T_Accent SYM_COMBINING_RIGHT_ARROW_ABOVE true A_STRETCHY_FALSE);
   (lit "vee", T_BinaryOp SYM_LOGICAL_OR);
   (lit "veebar", T_BinaryOp SYM_XOR);
   (lit "veeeq", T_Relation SYM_EQUIANGULAR_TO);
   (lit "vert", T_Ord SYM_VERTICAL_LINE);
   (lit "vertoverlay", T_Overlay VerticalLine);
   (lit "vphantom", T_Phantom PkV);
   (lit "wedge", T_BinaryOp SYM_LOGICAL_AND);
   (lit "wedgeq", T_Relation SYM_ESTIMATES);
   (lit "weierp", T_Letter (sc_from_char SYM_SCRIPT_CAPITAL_P) MMath);
   (lit "widehat", T_Accent SYM_COMBINING_CIRCUMFLEX_ACCENT true A_STRETCHY_TRUE);
   (lit "wp", T_Letter (sc_from_char SYM_SCRIPT_CAPITAL_P) MMath);
   (lit "wr", T_ForceBinaryOp (op_as_op SYM_WREATH_PRODUCT));
   (lit "xLeftarrow", T_XArrow SYM_LEFTWARDS_DOUBLE_ARROW);
   (lit "xLeftrightarrow", T_XArrow SYM_LEFT_RIGHT_DOUBLE_ARROW);
   (lit "xRightarrow", T_XArrow SYM_RIGHTWARDS_DOUBLE_ARROW);
   (lit "xcancel", T_Enclose (N.lor N_UP_DIAGONAL N_DOWN_DIAGONAL));
   (lit "xhookleftarrow", T_XArrow SYM_LEFTWARDS_ARROW_WITH_HOOK);
   (lit "xhookrightarrow", T_XArrow SYM_RIGHTWARDS_ARROW_WITH_HOOK);
   (lit "xi", T_Letter (sc_from_char SYM_GREEK_SMALL_LETTER_XI) MMath);
   (lit "xleftarrow", T_XArrow SYM_LEFTWARDS_ARROW);
   (lit "xleftharpoondown", T_XArrow SYM_LEFTWARDS_HARPOON_WITH_BARB_DOWNWARDS);
   (lit "xleftharpoonup", T_XArrow SYM_LEFTWARDS_HARPOON_WITH_BARB_UPWARDS);
   (lit "xleftrightarrow", T_XArrow SYM_LEFT_RIGHT_ARROW);
   (lit "xleftrightharpoons", T_XArrow SYM_LEFTWARDS_HARPOON_OVER_RIGHTWARDS_HARPOON);
   (lit "xlongequal", T_XArrow SYM_EQUALS_SIGN);
   (lit "xmapsto", T_XArrow SYM_RIGHTWARDS_ARROW_FROM_BAR);
   (lit "xrightarrow", T_XArrow SYM_RIGHTWARDS_ARROW);
   (lit "xrightharpoondown", T_XArrow SYM_RIGHTWARDS_HARPOON_WITH_BARB_DOWNWARDS);
   (lit "xrightharpoonup", T_XArrow SYM_RIGHTWARDS_HARPOON_WITH_BARB_UPWARDS);
   (lit "xrightleftharpoons", T_XArrow SYM_RIGHTWARDS_HARPOON_OVER_LEFTWARDS_HARPOON);
   (lit "xtofrom", T_XArrow SYM_RIGHTWARDS_ARROW_OVER_LEFTWARDS_ARROW);
   (lit "xtwoheadleftarrow", T_XArrow SYM_LEFTWARDS_TWO_HEADED_ARROW);
   (lit "xtwoheadrightarrow", T_XArrow SYM_RIGHTWARDS_TWO_HEADED_ARROW);
   (lit "yen", T_Letter (sc_from_char SYM_YEN_SIGN) MMathOrText);
   (lit "zeta", T_Letter (sc_from_char SYM_GREEK_SMALL_LETTER_ZETA) MMath);
   (lit "{", T_MathOrTextMode (T_Open SYM_LEFT_CURLY_BRACKET) 123);
   (lit "|", T_Ord SYM_DOUBLE_VERTICAL_LINE);
   (lit "}", T_MathOrTextMode (T_Close SYM_RIGHT_CURLY_BRACKET) 125);
   (lit "~", T_TextMode (TtAccent SYM_COMBINING_TILDE))].

(** commands.rs:1000-1927 *)
Definition UNICODE_OPERATORS : list (N * token) :=
  [(0x2308, T_Open SYM_LEFT_CEILING);
   (0x230a, T_Open SYM_LEFT_FLOOR);
   (0x231c, T_ForceOpen SYM_TOP_LEFT_CORNER FsPretend);
   (0x231e, T_ForceOpen SYM_BOTTOM_LEFT_CORNER FsPretend);
   (0x23b0, T_ForceOpen SYM_UPPER_LEFT_OR_LOWER_RIGHT_CURLY_BRACKET_SECTION FsYes);
   (0x2772, T_Open SYM_LIGHT_LEFT_TORTOISE_SHELL_BRACKET_ORNAMENT);
   (0x27c5, T_ForceOpen SYM_LEFT_S_SHAPED_BAG_DELIMITER FsYes);
   (0x27e6, T_Open SYM_MATHEMATICAL_LEFT_WHITE_SQUARE_BRACKET);
   (0x27e8, T_Open SYM_MATHEMATICAL_LEFT_ANGLE_BRACKET);
   (0x27ea, T_Open SYM_MATHEMATICAL_LEFT_DOUBLE_ANGLE_BRACKET);
   (0x27ec, T_Open SYM_MATHEMATICAL_LEFT_WHITE_TORTOISE_SHELL_BRACKET);
   (0x27ee, T_Open SYM_MATHEMATICAL_LEFT_FLATTENED_PARENTHESIS);
   (0x2983, T_Open SYM_LEFT_WHITE_CURLY_BRACKET);
   (0x2985, T_Open SYM_LEFT_WHITE_PARENTHESIS);
   (0x2987, T_Open SYM_Z_NOTATION_LEFT_IMAGE_BRACKET);
   (0x2989, T_Open SYM_Z_NOTATION_LEFT_BINDING_BRACKET);
   (0x298b, T_Open SYM_LEFT_SQUARE_BRACKET_WITH_UNDERBAR);
   (0x298d, T_Open SYM_LEFT_SQUARE_BRACKET_WITH_TICK_IN_TOP_CORNER);
   (0x298f, T_Open SYM_LEFT_SQUARE_BRACKET_WITH_TICK_IN_BOTTOM_CORNER);
   (0x2991, T_Open SYM_LEFT_ANGLE_BRACKET_WITH_DOT);
   (0x2993, T_Open SYM_LEFT_ARC_LESS_THAN_BRACKET);
   (0x2995, T_Open SYM_DOUBLE_LEFT_ARC_GREATER_THAN_BRACKET);
   (0x2997, T_Open SYM_LEFT_BLACK_TORTOISE_SHELL_BRACKET);
   (0x29d8, T_Open SYM_LEFT_WIGGLY_FENCE);
   (0x29da, T_Open SYM_LEFT_DOUBLE_WIGGLY_FENCE);
   (0x29fc, T_Open SYM_LEFT_POINTING_CURVED_ANGLE_BRACKET);
   (0x2309, T_Close SYM_RIGHT_CEILING);
   (0x230b, T_Close SYM_RIGHT_FLOOR);
   (0x231d, T_ForceClose SYM_TOP_RIGHT_CORNER FsPretend);
   (0x231f, T_ForceClose SYM_BOTTOM_RIGHT_CORNER FsPretend);
   (0x23b1, T_ForceClose SYM_UPPER_RIGHT_OR_LOWER_LEFT_CURLY_BRACKET_SECTION FsYes);
   (0x2773, T_Close SYM_LIGHT_RIGHT_TORTOISE_SHELL_BRACKET_ORNAMENT);
   (0x27c6, T_ForceClose SYM_RIGHT_S_SHAPED_BAG_DELIMITER FsYes);
   (0x27e7, T_Close SYM_MATHEMATICAL_RIGHT_WHITE_SQUARE_BRACKET);
   (0x27e9, T_Close SYM_MATHEMATICAL_RIGHT_ANGLE_BRACKET);
   (0x27eb, T_Close SYM_MATHEMATICAL_RIGHT_DOUBLE_ANGLE_BRACKET);
   (0x27ed, T_Close SYM_MATHEMATICAL_RIGHT_WHITE_TORTOISE_SHELL_BRACKET);
   (0x27ef, T_Close SYM_MATHEMATICAL_RIGHT_FLATTENED_PARENTHESIS);
   (0x2984, T_Close SYM_RIGHT_WHITE_CURLY_BRACKET);
   (0x2986, T_Close SYM_RIGHT_WHITE_PARENTHESIS);
   (0x2988, T_Close SYM_Z_NOTATION_RIGHT_IMAGE_BRACKET);
   (0x298a, T_Close SYM_Z_NOTATION_RIGHT_BINDING_BRACKET);
   (0x298c, T_Close SYM_RIGHT_SQUARE_BRACKET_WITH_UNDERBAR);
   (0x298e, T_Close SYM_RIGHT_SQUARE_BRACKET_WITH_TICK_IN_BOTTOM_CORNER);
   (0x2990, T_Close SYM_RIGHT_SQUARE_BRACKET_WITH_TICK_IN_TOP_CORNER);
   (0x2992, T_Close SYM_RIGHT_ANGLE_BRACKET_WITH_DOT);
   (0x2994, T_Close SYM_RIGHT_ARC_GREATER_THAN_BRACKET);
   (0x2996, T_Close SYM_DOUBLE_RIGHT_ARC_LESS_THAN_BRACKET);
   (0x2998, T_Close SYM_RIGHT_BLACK_TORTOISE_SHELL_BRACKET);
   (0x29d9, T_Close SYM_RIGHT_WIGGLY_FENCE);
   (0x29db, T_Close SYM_RIGHT_DOUBLE_WIGGLY_FENCE);
   (0x29fd, T_Close SYM_RIGHT_POINTING_CURVED_ANGLE_BRACKET);
   (124, T_Ord SYM_VERTICAL_LINE);
   (0x2016, T_Ord SYM_DOUBLE_VERTICAL_LINE);
   (0x2980, T_Ord SYM_TRIPLE_VERTICAL_BAR_DELIMITER);
   (0x2140, T_ForceLargeOp SYM_DOUBLE_STRUCK_N_ARY_SUMMATION);
   (0x220f, T_Op SYM_N_ARY_PRODUCT);
   (0x2210, T_Op SYM_N_ARY_COPRODUCT);
   (0x2211, T_Op SYM_N_ARY_SUMMATION);
   (0x222b, T_Op SYM_INTEGRAL);
   (0x222c, T_Op SYM_DOUBLE_INTEGRAL);
   (0x222d, T_Op SYM_TRIPLE_INTEGRAL);
   (0x222e, T_Op SYM_CONTOUR_INTEGRAL);
   (0x222f, T_Op SYM_SURFACE_INTEGRAL);
   (0x2230, T_Op SYM_VOLUME_INTEGRAL);
   (0x2231, T_Op SYM_CLOCKWISE_INTEGRAL);
   (0x2232, T_Op SYM_CLOCKWISE_CONTOUR_INTEGRAL);
   (0x2233, T_Op SYM_ANTICLOCKWISE_CONTOUR_INTEGRAL);
   (0x22c0, T_Op SYM_N_ARY_LOGICAL_AND);
   (0x22c1, T_Op SYM_N_ARY_LOGICAL_OR);
   (0x22c2, T_Op SYM_N_ARY_INTERSECTION);
   (0x22c3, T_Op SYM_N_ARY_UNION);
   (0x27d5, T_ForceLargeOp SYM_LEFT_OUTER_JOIN);
   (0x27d6, T_ForceLargeOp SYM_RIGHT_OUTER_JOIN);
   (0x27d7, T_ForceLargeOp SYM_FULL_OUTER_JOIN);
   (0x27d8, T_ForceLargeOp SYM_LARGE_UP_TACK);
   (0x27d9, T_ForceLargeOp SYM_LARGE_DOWN_TACK);
   (0x29f8, T_ForceLargeOp (bin_as_op SYM_BIG_SOLIDUS));
   (0x29f9, T_ForceLargeOp (bin_as_op SYM_BIG_REVERSE_SOLIDUS));
   (0x2a00, T_Op SYM_N_ARY_CIRCLED_DOT_OPERATOR);
   (0x2a01, T_Op SYM_N_ARY_CIRCLED_PLUS_OPERATOR);
   (0x2a02, T_Op SYM_N_ARY_CIRCLED_TIMES_OPERATOR);
   (0x2a03, T_Op SYM_N_ARY_UNION_OPERATOR_WITH_DOT);
   (0x2a04, T_Op SYM_N_ARY_UNION_OPERATOR_WITH_PLUS);
   (0x2a05, T_Op SYM_N_ARY_SQUARE_INTERSECTION_OPERATOR);
   (0x2a06, T_Op SYM_N_ARY_SQUARE_UNION_OPERATOR);
   (0x2a07, T_Op SYM_TWO_LOGICAL_AND_OPERATOR);
   (0x2a08, T_Op SYM_TWO_LOGICAL_OR_OPERATOR);
   (0x2a09, T_Op SYM_N_ARY_TIMES_OPERATOR);
   (0x2a0a, T_Op SYM_MODULO_TWO_SUM);
   (0x2a0b, T_Op SYM_SUMMATION_WITH_INTEGRAL);
   (0x2a0c, T_Op SYM_QUADRUPLE_INTEGRAL_OPERATOR);
   (0x2a0d, T_Op SYM_FINITE_PART_INTEGRAL);
   (0x2a0e, T_Op SYM_INTEGRAL_WITH_DOUBLE_STROKE);
   (0x2a0f, T_Op SYM_INTEGRAL_AVERAGE_WITH_SLASH);
   (0x2a10, T_Op SYM_CIRCULATION_FUNCTION);
   (0x2a11, T_Op SYM_ANTICLOCKWISE_INTEGRATION);
   (0x2a12, T_Op SYM_LINE_INTEGRATION_WITH_RECTANGULAR_PATH_AROUND_POLE);
   (0x2a13, T_Op SYM_LINE_INTEGRATION_WITH_SEMICIRCULAR_PATH_AROUND_POLE);
   (0x2a14, T_Op SYM_LINE_INTEGRATION_NOT_INCLUDING_THE_POLE);
   (0x2a15, T_Op SYM_INTEGRAL_AROUND_A_POINT_OPERATOR);
   (0x2a16, T_Op SYM_QUATERNION_INTEGRAL_OPERATOR);
   (0x2a17, T_Op SYM_INTEGRAL_WITH_LEFTWARDS_ARROW_WITH_HOOK);
   (0x2a18, T_Op SYM_INTEGRAL_WITH_TIMES_SIGN);
   (0x2a19, T_Op SYM_INTEGRAL_WITH_INTERSECTION);
   (0x2a1a, T_Op SYM_INTEGRAL_WITH_UNION);
   (0x2a1b, T_Op SYM_INTEGRAL_WITH_OVERBAR);
   (0x2a1c, T_Op SYM_INTEGRAL_WITH_UNDERBAR);
   (0x2a1d, T_ForceLargeOp SYM_JOIN);
   (0x2a1e, T_ForceLargeOp SYM_LARGE_LEFT_TRIANGLE_OPERATOR);
   (0x2afc, T_Op SYM_LARGE_TRIPLE_VERTICAL_BAR_OPERATOR);
   (0x2aff, T_Op SYM_N_ARY_WHITE_VERTICAL_BAR);
   (177, T_BinaryOp SYM_PLUS_MINUS_SIGN);
   (183, T_ForcePunctuation (op_as_op SYM_MIDDLE_DOT));
   (215, T_ForceBinaryOp (op_as_op SYM_MULTIPLICATION_SIGN));
   (247, T_BinaryOp SYM_DIVISION_SIGN);
   (0x2020, T_ForceBinaryOp SYM_DAGGER);
   (0x2021, T_ForceBinaryOp SYM_DOUBLE_DAGGER);
   (0x2022, T_ForceBinaryOp SYM_BULLET);
   (0x2040, T_ForceBinaryOp SYM_CHARACTER_TIE);
   (0x2044, T_BinaryOp SYM_FRACTION_SLASH);
   (0x214b, T_ForceBinaryOp SYM_TURNED_AMPERSAND);
   (0x2212, T_BinaryOp SYM_MINUS_SIGN);
   (0x2213, T_BinaryOp SYM_MINUS_OR_PLUS_SIGN);
   (0x2214, T_BinaryOp SYM_DOT_PLUS);
   (0x2215, T_BinaryOp SYM_DIVISION_SLASH);
   (0x2216, T_BinaryOp SYM_SET_MINUS);
   (0x2217, T_ForceBinaryOp (op_as_op SYM_ASTERISK_OPERATOR));
   (0x2218, T_ForceBinaryOp (op_as_op SYM_RING_OPERATOR));
   (0x2219, T_ForceBinaryOp (op_as_op SYM_BULLET_OPERATOR));
   (0x2227, T_BinaryOp SYM_LOGICAL_AND);
   (0x2228, T_BinaryOp SYM_LOGICAL_OR);
   (0x2229, T_BinaryOp SYM_INTERSECTION);
   (0x222a, T_BinaryOp SYM_UNION);
   (0x2238, T_BinaryOp SYM_DOT_MINUS);
   (0x223e, T_ForceBinaryOp SYM_INVERTED_LAZY_S);
   (0x2240, T_ForceBinaryOp (op_as_op SYM_WREATH_PRODUCT));
   (0x228c, T_BinaryOp SYM_MULTISET);
   (0x228d, T_BinaryOp SYM_MULTISET_MULTIPLICATION);
   (0x228e, T_BinaryOp SYM_MULTISET_UNION);
   (0x2293, T_BinaryOp SYM_SQUARE_CAP);
   (0x2294, T_BinaryOp SYM_SQUARE_CUP);
   (0x2295, T_BinaryOp SYM_CIRCLED_PLUS);
   (0x2296, T_BinaryOp SYM_CIRCLED_MINUS);
   (0x2297, T_ForceBinaryOp (op_as_op SYM_CIRCLED_TIMES));
   (0x2298, T_BinaryOp SYM_CIRCLED_DIVISION_SLASH);
   (0x2299, T_ForceBinaryOp (op_as_op SYM_CIRCLED_DOT_OPERATOR));
   (0x229a, T_ForceBinaryOp (op_as_op SYM_CIRCLED_RING_OPERATOR));
   (0x229b, T_ForceBinaryOp (op_as_op SYM_CIRCLED_ASTERISK_OPERATOR));
   (0x229c, T_ForceBinaryOp (rel_as_op SYM_CIRCLED_EQUALS));
   (0x229d, T_BinaryOp SYM_CIRCLED_DASH);
   (0x229e, T_BinaryOp SYM_SQUARED_PLUS);
   (0x229f, T_BinaryOp SYM_SQUARED_MINUS);
   (0x22a0, T_ForceBinaryOp (op_as_op SYM_SQUARED_TIMES));
   (0x22a1, T_ForceBinaryOp (op_as_op SYM_SQUARED_DOT_OPERATOR));
   (0x22ba, T_ForceBinaryOp (op_as_op SYM_INTERCALATE));
   (0x22bb, T_BinaryOp SYM_XOR);
   (0x22bc, T_BinaryOp SYM_NAND);
   (0x22bd, T_BinaryOp SYM_NOR);
   (0x22c4, T_ForceBinaryOp (op_as_op SYM_DIAMOND_OPERATOR));
   (0x22c5, T_ForceBinaryOp (op_as_op SYM_DOT_OPERATOR));
   (0x22c6, T_ForceBinaryOp (op_as_op SYM_STAR_OPERATOR));
   (0x22c7, T_ForceBinaryOp (op_as_op SYM_DIVISION_TIMES));
   (0x22c9, T_ForceBinaryOp (op_as_op SYM_LEFT_NORMAL_FACTOR_SEMIDIRECT_PRODUCT));
   (0x22ca, T_ForceBinaryOp (op_as_op SYM_RIGHT_NORMAL_FACTOR_SEMIDIRECT_PRODUCT));
   (0x22cb, T_ForceBinaryOp (op_as_op SYM_LEFT_SEMIDIRECT_PRODUCT));
   (0x22cc, T_ForceBinaryOp (op_as_op SYM_RIGHT_SEMIDIRECT_PRODUCT));
   (0x22ce, T_BinaryOp SYM_CURLY_LOGICAL_OR);
   (0x22cf, T_BinaryOp SYM_CURLY_LOGICAL_AND);
   (0x22d2, T_BinaryOp SYM_DOUBLE_INTERSECTION);
   (0x22d3, T_BinaryOp SYM_DOUBLE_UNION);
   (0x25b3, T_ForceBinaryOp SYM_WHITE_UP_POINTING_TRIANGLE);
   (0x25b7, T_ForceBinaryOp SYM_WHITE_RIGHT_POINTING_TRIANGLE);
   (0x25c1, T_ForceBinaryOp SYM_WHITE_LEFT_POINTING_TRIANGLE);
   (0x25cb, T_ForceBinaryOp SYM_WHITE_CIRCLE);
   (0x25eb, T_ForceBinaryOp SYM_WHITE_SQUARE_WITH_VERTICAL_BISECTING_LINE);
   (0x27c7, T_ForceBinaryOp SYM_OR_WITH_DOT_INSIDE);
   (0x27d1, T_ForceBinaryOp SYM_AND_WITH_DOT);
   (0x29b5, T_ForceBinaryOp SYM_CIRCLE_WITH_HORIZONTAL_BAR);
   (0x29b6, T_ForceBinaryOp (rel_as_op SYM_CIRCLED_VERTICAL_BAR));
   (0x29b7, T_ForceBinaryOp (rel_as_op SYM_CIRCLED_PARALLEL));
   (0x29b8, T_ForceBinaryOp (bin_as_op SYM_CIRCLED_REVERSE_SOLIDUS));
   (0x29b9, T_ForceBinaryOp (rel_as_op SYM_CIRCLED_PERPENDICULAR));
   (0x29c0, T_ForceBinaryOp (rel_as_op SYM_CIRCLED_LESS_THAN));
   (0x29c1, T_ForceBinaryOp (rel_as_op SYM_CIRCLED_GREATER_THAN));
   (0x29c4, T_BinaryOp SYM_SQUARED_RISING_DIAGONAL_SLASH);
   (0x29c5, T_BinaryOp SYM_SQUARED_FALLING_DIAGONAL_SLASH);
   (0x29c6, T_ForceBinaryOp (op_as_op SYM_SQUARED_ASTERISK));
   (0x29c7, T_ForceBinaryOp (op_as_op SYM_SQUARED_SMALL_CIRCLE));
   (0x29c8, T_ForceBinaryOp (op_as_op SYM_SQUARED_SQUARE));
   (0x29e2, T_ForceBinaryOp (op_as_op SYM_SHUFFLE_PRODUCT));
   (0x29f5, T_BinaryOp SYM_REVERSE_SOLIDUS_OPERATOR);
   (0x29f6, T_BinaryOp SYM_SOLIDUS_WITH_OVERBAR);
   (0x29f7, T_BinaryOp SYM_REVERSE_SOLIDUS_WITH_HORIZONTAL_STROKE);
   (0x29fa, T_BinaryOp SYM_DOUBLE_PLUS);
   (0x29fb, T_BinaryOp SYM_TRIPLE_PLUS);
   (0x2a22, T_BinaryOp SYM_PLUS_SIGN_WITH_SMALL_CIRCLE_ABOVE);
   (0x2a23, T_BinaryOp SYM_PLUS_SIGN_WITH_CIRCUMFLEX_ACCENT_ABOVE);
   (0x2a24, T_BinaryOp SYM_PLUS_SIGN_WITH_TILDE_ABOVE);
   (0x2a25, T_BinaryOp SYM_PLUS_SIGN_WITH_DOT_BELOW);
   (0x2a26, T_BinaryOp SYM_PLUS_SIGN_WITH_TILDE_BELOW);
   (0x2a27, T_BinaryOp SYM_PLUS_SIGN_WITH_SUBSCRIPT_TWO);
   (0x2a28, T_BinaryOp SYM_PLUS_SIGN_WITH_BLACK_TRIANGLE);
   (0x2a29, T_BinaryOp SYM_MINUS_SIGN_WITH_COMMA_ABOVE);
   (0x2a2a, T_BinaryOp SYM_MINUS_SIGN_WITH_DOT_BELOW);
   (0x2a2b, T_BinaryOp SYM_MINUS_SIGN_WITH_FALLING_DOTS);
   (0x2a2c, T_BinaryOp SYM_MINUS_SIGN_WITH_RISING_DOTS);
   (0x2a2d, T_BinaryOp SYM_PLUS_SIGN_IN_LEFT_HALF_CIRCLE);
   (0x2a2e, T_BinaryOp SYM_PLUS_SIGN_IN_RIGHT_HALF_CIRCLE);
   (0x2a2f, T_ForceBinaryOp (op_as_op SYM_VECTOR_OR_CROSS_PRODUCT));
   (0x2a30, T_ForceBinaryOp (op_as_op SYM_MULTIPLICATION_SIGN_WITH_DOT_ABOVE));
   (0x2a31, T_ForceBinaryOp (op_as_op SYM_MULTIPLICATION_SIGN_WITH_UNDERBAR));
   (0x2a32, T_ForceBinaryOp (op_as_op SYM_SEMIDIRECT_PRODUCT_WITH_BOTTOM_CLOSED));
   (0x2a33, T_ForceBinaryOp (op_as_op SYM_SMASH_PRODUCT));
   (0x2a34, T_ForceBinaryOp (op_as_op SYM_MULTIPLICATION_SIGN_IN_LEFT_HALF_CIRCLE));
   (0x2a35, T_ForceBinaryOp (op_as_op SYM_MULTIPLICATION_SIGN_IN_RIGHT_HALF_CIRCLE));
   (0x2a36, T_ForceBinaryOp (op_as_op SYM_CIRCLED_MULTIPLICATION_SIGN_WITH_CIRCUMFLEX_ACCENT));
   (0x2a37, T_ForceBinaryOp (op_as_op SYM_MULTIPLICATION_SIGN_IN_DOUBLE_CIRCLE));
   (0x2a38, T_BinaryOp SYM_CIRCLED_DIVISION_SIGN);
   (0x2a39, T_BinaryOp SYM_PLUS_SIGN_IN_TRIANGLE);
   (0x2a3a, T_BinaryOp SYM_MINUS_SIGN_IN_TRIANGLE);
   (0x2a3b, T_ForceBinaryOp (op_as_op SYM_MULTIPLICATION_SIGN_IN_TRIANGLE));
   (0x2a3c, T_ForceBinaryOp (op_as_op SYM_INTERIOR_PRODUCT));
   (0x2a3d, T_ForceBinaryOp (op_as_op SYM_RIGHTHAND_INTERIOR_PRODUCT));
   (0x2a3e, T_BinaryOp SYM_Z_NOTATION_RELATIONAL_COMPOSITION);
   (0x2a3f, T_ForceBinaryOp (op_as_op SYM_AMALGAMATION_OR_COPRODUCT));
   (0x2a40, T_BinaryOp SYM_INTERSECTION_WITH_DOT);
   (0x2a41, T_BinaryOp SYM_UNION_WITH_MINUS_SIGN);
   (0x2a42, T_BinaryOp SYM_UNION_WITH_OVERBAR);
   (0x2a43, T_BinaryOp SYM_INTERSECTION_WITH_OVERBAR);
   (0x2a44, T_BinaryOp SYM_INTERSECTION_WITH_LOGICAL_AND);
   (0x2a45, T_BinaryOp SYM_UNION_WITH_LOGICAL_OR);
   (0x2a46, T_BinaryOp SYM_UNION_ABOVE_INTERSECTION);
   (0x2a47, T_BinaryOp SYM_INTERSECTION_ABOVE_UNION);
   (0x2a48, T_BinaryOp SYM_UNION_ABOVE_BAR_ABOVE_INTERSECTION);
   (0x2a49, T_BinaryOp SYM_INTERSECTION_ABOVE_BAR_ABOVE_UNION);
   (0x2a4a, T_BinaryOp SYM_UNION_BESIDE_AND_JOINED_WITH_UNION);
   (0x2a4b, T_BinaryOp SYM_INTERSECTION_BESIDE_AND_JOINED_WITH_INTERSECTION);
   (0x2a4c, T_BinaryOp SYM_CLOSED_UNION_WITH_SERIFS);
   (0x2a4d, T_BinaryOp SYM_CLOSED_INTERSECTION_WITH_SERIFS);
   (0x2a4e, T_BinaryOp SYM_DOUBLE_SQUARE_INTERSECTION);
   (0x2a4f, T_BinaryOp SYM_DOUBLE_SQUARE_UNION);
   (0x2a50, T_ForceBinaryOp (op_as_op SYM_CLOSED_UNION_WITH_SERIFS_AND_SMASH_PRODUCT));
   (0x2a51, T_BinaryOp SYM_LOGICAL_AND_WITH_DOT_ABOVE);
   (0x2a52, T_BinaryOp SYM_LOGICAL_OR_WITH_DOT_ABOVE);
   (0x2a53, T_BinaryOp SYM_DOUBLE_LOGICAL_AND);
   (0x2a54, T_BinaryOp SYM_DOUBLE_LOGICAL_OR);
   (0x2a55, T_BinaryOp SYM_TWO_INTERSECTING_LOGICAL_AND);
   (0x2a56, T_BinaryOp SYM_TWO_INTERSECTING_LOGICAL_OR);
   (0x2a57, T_BinaryOp SYM_SLOPING_LARGE_OR);
   (0x2a58, T_BinaryOp SYM_SLOPING_LARGE_AND);
   (0x2a59, T_BinaryOp SYM_LOGICAL_OR_OVERLAPPING_LOGICAL_AND);
   (0x2a5a, T_BinaryOp SYM_LOGICAL_AND_WITH_MIDDLE_STEM);
   (0x2a5b, T_BinaryOp SYM_LOGICAL_OR_WITH_MIDDLE_STEM);
   (0x2a5c, T_BinaryOp SYM_LOGICAL_AND_WITH_HORIZONTAL_DASH);
   (0x2a5d, T_BinaryOp SYM_LOGICAL_OR_WITH_HORIZONTAL_DASH);
   (0x2a5e, T_BinaryOp SYM_LOGICAL_AND_WITH_DOUBLE_OVERBAR);
   (0x2a5f, T_BinaryOp SYM_LOGICAL_AND_WITH_UNDERBAR);
   (0x2a60, T_BinaryOp SYM_LOGICAL_AND_WITH_DOUBLE_UNDERBAR);
   (0x2a62, T_BinaryOp SYM_LOGICAL_OR_WITH_DOUBLE_OVERBAR);
   (0x2a63, T_BinaryOp SYM_LOGICAL_OR_WITH_DOUBLE_UNDERBAR);
   (0x2a64, T_ForceBinaryOp (op_as_op SYM_Z_NOTATION_DOMAIN_ANTIRESTRICTION));
   (0x2a65, T_ForceBinaryOp (op_as_op SYM_Z_NOTATION_RANGE_ANTIRESTRICTION));
   (0x2af6, T_BinaryOp SYM_TRIPLE_COLON_OPERATOR);
   (0x2afd, T_BinaryOp SYM_DOUBLE_SOLIDUS_OPERATOR);
   (0x2afe, T_ForceBinaryOp (op_as_op SYM_WHITE_VERTICAL_BAR));
   (172, T_Ord SYM_NOT_SIGN);
   (0x2032, T_Prime PrSingle);
   (0x2033, T_Prime PrDouble);
   (0x2034, T_Prime PrTriple);
   (0x2035, T_Prime PrReversed);
   (0x2036, T_Prime PrReversedDouble);
   (0x2037, T_Prime PrReversedTriple);
   (0x2057, T_Prime PrQuadruple);
   (0x2200, T_Ord SYM_FOR_ALL);
   (0x2201, T_Ord SYM_COMPLEMENT);
   (0x2203, T_Ord SYM_THERE_EXISTS);
   (0x2204, T_Ord SYM_THERE_DOES_NOT_EXIST);
   (0x2190, T_Relation SYM_LEFTWARDS_ARROW);
   (0x2191, T_Relation SYM_UPWARDS_ARROW);
   (0x2192, T_Relation SYM_RIGHTWARDS_ARROW);
   (0x2193, T_Relation SYM_DOWNWARDS_ARROW);
   (0x2194, T_Relation SYM_LEFT_RIGHT_ARROW);
   (0x2195, T_Relation SYM_UP_DOWN_ARROW);
   (0x2196, T_Relation SYM_NORTH_WEST_ARROW);
   (0x2197, T_Relation SYM_NORTH_EAST_ARROW);
   (0x2198, T_Relation SYM_SOUTH_EAST_ARROW);
   (0x2199, T_Relation SYM_SOUTH_WEST_ARROW);
   (0x219a, T_Relation SYM_LEFTWARDS_ARROW_WITH_STROKE);
   (0x219b, T_Relation SYM_RIGHTWARDS_ARROW_WITH_STROKE);
   (0x219c, T_Relation SYM_LEFTWARDS_WAVE_ARROW);
   (0x219d, T_Relation SYM_RIGHTWARDS_WAVE_ARROW);
   (0x219e, T_Relation SYM_LEFTWARDS_TWO_HEADED_ARROW);
   (0x219f, T_Relation SYM_UPWARDS_TWO_HEADED_ARROW);
   (0x21a0, T_Relation SYM_RIGHTWARDS_TWO_HEADED_ARROW);
   (0x21a1, T_Relation SYM_DOWNWARDS_TWO_HEADED_ARROW);
   (0x21a2, T_Relation SYM_LEFTWARDS_ARROW_WITH_TAIL);
   (0x21a3, T_Relation SYM_RIGHTWARDS_ARROW_WITH_TAIL);
   (0x21a4, T_Relation SYM_LEFTWARDS_ARROW_FROM_BAR);
   (0x21a5, T_Relation SYM_UPWARDS_ARROW_FROM_BAR);
   (0x21a6, T_Relation SYM_RIGHTWARDS_ARROW_FROM_BAR);
   (0x21a7, T_Relation SYM_DOWNWARDS_ARROW_FROM_BAR);
   (0x21a9, T_Relation SYM_LEFTWARDS_ARROW_WITH_HOOK);
   (0x21aa, T_Relation SYM_RIGHTWARDS_ARROW_WITH_HOOK);
   (0x21ab, T_Relation SYM_LEFTWARDS_ARROW_WITH_LOOP);
   (0x21ac, T_Relation SYM_RIGHTWARDS_ARROW_WITH_LOOP);
   (0x21ad, T_Relation SYM_LEFT_RIGHT_WAVE_ARROW);
   (0x21ae, T_Relation SYM_LEFT_RIGHT_ARROW_WITH_STROKE);
   (0x21af, T_Relation SYM_DOWNWARDS_ZIGZAG_ARROW);
   (0x21b0, T_Relation SYM_UPWARDS_ARROW_WITH_TIP_LEFTWARDS);
   (0x21b1, T_Relation SYM_UPWARDS_ARROW_WITH_TIP_RIGHTWARDS);
   (0x21b2, T_Relation SYM_DOWNWARDS_ARROW_WITH_TIP_LEFTWARDS);
   (0x21b3, T_Relation SYM_DOWNWARDS_ARROW_WITH_TIP_RIGHTWARDS);
   (0x21b6, T_Relation SYM_ANTICLOCKWISE_TOP_SEMICIRCLE_ARROW);
   (0x21b7, T_Relation SYM_CLOCKWISE_TOP_SEMICIRCLE_ARROW);
   (0x21bc, T_Relation SYM_LEFTWARDS_HARPOON_WITH_BARB_UPWARDS);
   (0x21bd, T_Relation SYM_LEFTWARDS_HARPOON_WITH_BARB_DOWNWARDS);
   (0x21be, T_Relation SYM_UPWARDS_HARPOON_WITH_BARB_RIGHTWARDS);
   (0x21bf, T_Relation SYM_UPWARDS_HARPOON_WITH_BARB_LEFTWARDS);
   (0x21c0, T_Relation SYM_RIGHTWARDS_HARPOON_WITH_BARB_UPWARDS);
   (0x21c1, T_Relation SYM_RIGHTWARDS_HARPOON_WITH_BARB_DOWNWARDS);
   (0x21c2, T_Relation SYM_DOWNWARDS_HARPOON_WITH_BARB_RIGHTWARDS);
   (0x21c3, T_Relation SYM_DOWNWARDS_HARPOON_WITH_BARB_LEFTWARDS);
   (0x21c4, T_Relation SYM_RIGHTWARDS_ARROW_OVER_LEFTWARDS_ARROW);
   (0x21c5, T_Relation SYM_UPWARDS_ARROW_LEFTWARDS_OF_DOWNWARDS_ARROW);
   (0x21c6, T_Relation SYM_LEFTWARDS_ARROW_OVER_RIGHTWARDS_ARROW);
   (0x21c7, T_Relation SYM_LEFTWARDS_PAIRED_ARROWS);
   (0x21c8, T_Relation SYM_UPWARDS_PAIRED_ARROWS);
   (0x21c9, T_Relation SYM_RIGHTWARDS_PAIRED_ARROWS);
   (0x21ca, T_Relation SYM_DOWNWARDS_PAIRED_ARROWS);
   (0x21cb, T_Relation SYM_LEFTWARDS_HARPOON_OVER_RIGHTWARDS_HARPOON);
   (0x21cc, T_Relation SYM_RIGHTWARDS_HARPOON_OVER_LEFTWARDS_HARPOON);
   (0x21cd, T_Relation SYM_LEFTWARDS_DOUBLE_ARROW_WITH_STROKE);
   (0x21ce, T_Relation SYM_LEFT_RIGHT_DOUBLE_ARROW_WITH_STROKE);
   (0x21cf, T_Relation SYM_RIGHTWARDS_DOUBLE_ARROW_WITH_STROKE);
   (0x21d0, T_Relation SYM_LEFTWARDS_DOUBLE_ARROW);
   (0x21d1, T_Relation SYM_UPWARDS_DOUBLE_ARROW);
   (0x21d2, T_Relation SYM_RIGHTWARDS_DOUBLE_ARROW);
   (0x21d3, T_Relation SYM_DOWNWARDS_DOUBLE_ARROW);
   (0x21d4, T_Relation SYM_LEFT_RIGHT_DOUBLE_ARROW);
   (0x21d5, T_Relation SYM_UP_DOWN_DOUBLE_ARROW);
   (0x21d6, T_Relation SYM_NORTH_WEST_DOUBLE_ARROW);
   (0x21d7, T_Relation SYM_NORTH_EAST_DOUBLE_ARROW);
   (0x21d8, T_Relation SYM_SOUTH_EAST_DOUBLE_ARROW);
   (0x21d9, T_Relation SYM_SOUTH_WEST_DOUBLE_ARROW);
   (0x21da, T_Relation SYM_LEFTWARDS_TRIPLE_ARROW);
   (0x21db, T_Relation SYM_RIGHTWARDS_TRIPLE_ARROW);
   (0x21dc, T_Relation SYM_LEFTWARDS_SQUIGGLE_ARROW);
   (0x21dd, T_Relation SYM_RIGHTWARDS_SQUIGGLE_ARROW);
   (0x21e4, T_Relation SYM_LEFTWARDS_ARROW_TO_BAR);
   (0x21e5, T_Relation SYM_RIGHTWARDS_ARROW_TO_BAR);
   (0x21f4, T_Relation SYM_RIGHT_ARROW_WITH_SMALL_CIRCLE);
   (0x21f5, T_Relation SYM_DOWNWARDS_ARROW_LEFTWARDS_OF_UPWARDS_ARROW);
   (0x21f6, T_Relation SYM_THREE_RIGHTWARDS_ARROWS);
   (0x21f7, T_Relation SYM_LEFTWARDS_ARROW_WITH_VERTICAL_STROKE);
   (0x21f8, T_Relation SYM_RIGHTWARDS_ARROW_WITH_VERTICAL_STROKE);
   (0x21f9, T_Relation SYM_LEFT_RIGHT_ARROW_WITH_VERTICAL_STROKE);
   (0x21fa, T_Relation SYM_LEFTWARDS_ARROW_WITH_DOUBLE_VERTICAL_STROKE);
   (0x21fb, T_Relation SYM_RIGHTWARDS_ARROW_WITH_DOUBLE_VERTICAL_STROKE);
   (0x21fc, T_Relation SYM_LEFT_RIGHT_ARROW_WITH_DOUBLE_VERTICAL_STROKE);
   (0x21fd, T_Relation SYM_LEFTWARDS_OPEN_HEADED_ARROW);
   (0x21fe, T_Relation SYM_RIGHTWARDS_OPEN_HEADED_ARROW);
   (0x21ff, T_Relation SYM_LEFT_RIGHT_OPEN_HEADED_ARROW);
   (0x2208, T_Relation SYM_ELEMENT_OF);
   (0x2209, T_Relation SYM_NOT_AN_ELEMENT_OF);
   (0x220a, T_Relation SYM_SMALL_ELEMENT_OF);
   (0x220b, T_Relation SYM_CONTAINS_AS_MEMBER);
   (0x220c, T_Relation SYM_DOES_NOT_CONTAIN_AS_MEMBER);
   (0x220d, T_Relation SYM_SMALL_CONTAINS_AS_MEMBER);
   (0x221d, T_Relation SYM_PROPORTIONAL_TO);
   (0x2223, T_Relation SYM_DIVIDES);
   (0x2224, T_Relation SYM_DOES_NOT_DIVIDE);
   (0x2225, T_Relation SYM_PARALLEL_TO);
   (0x2226, T_Relation SYM_NOT_PARALLEL_TO);
   (0x2236, T_ForceRelation (bin_as_op SYM_RATIO));
   (0x2237, T_Relation SYM_PROPORTION);
   (0x2239, T_Relation SYM_EXCESS);
   (0x223a, T_Relation SYM_GEOMETRIC_PROPORTION);
   (0x223b, T_Relation SYM_HOMOTHETIC);
   (0x223c, T_Relation SYM_TILDE_OPERATOR);
   (0x223d, T_Relation SYM_REVERSED_TILDE);
   (0x2241, T_Relation SYM_NOT_TILDE);
   (0x2242, T_Relation SYM_MINUS_TILDE);
   (0x2243, T_Relation SYM_ASYMPTOTICALLY_EQUAL_TO);
   (0x2244, T_Relation SYM_NOT_ASYMPTOTICALLY_EQUAL_TO);
   (0x2245, T_Relation SYM_APPROXIMATELY_EQUAL_TO);
   (0x2246, T_Relation SYM_APPROXIMATELY_BUT_NOT_ACTUALLY_EQUAL_TO);
   (0x2247, T_Relation SYM_NEITHER_APPROXIMATELY_NOR_ACTUALLY_EQUAL_TO);
   (0x2248, T_Relation SYM_ALMOST_EQUAL_TO);
   (0x2249, T_Relation SYM_NOT_ALMOST_EQUAL_TO);
   (0x224a, T_Relation SYM_ALMOST_EQUAL_OR_EQUAL_TO);
   (0x224b, T_Relation SYM_TRIPLE_TILDE);
   (0x224c, T_Relation SYM_ALL_EQUAL_TO);
   (0x224d, T_Relation SYM_EQUIVALENT_TO);
   (0x224e, T_Relation SYM_GEOMETRICALLY_EQUIVALENT_TO);
   (0x224f, T_Relation SYM_DIFFERENCE_BETWEEN);
   (0x2250, T_Relation SYM_APPROACHES_THE_LIMIT);
   (0x2251, T_Relation SYM_GEOMETRICALLY_EQUAL_TO);
   (0x2252, T_Relation SYM_APPROXIMATELY_EQUAL_TO_OR_THE_IMAGE_OF);
   (0x2253, T_Relation SYM_IMAGE_OF_OR_APPROXIMATELY_EQUAL_TO);
   (0x2254, T_Relation SYM_COLON_EQUALS);
   (0x2255, T_Relation SYM_EQUALS_COLON);
   (0x2256, T_Relation SYM_RING_IN_EQUAL_TO);
   (0x2257, T_Relation SYM_RING_EQUAL_TO);
   (0x2258, T_Relation SYM_CORRESPONDS_TO);
   (0x2259, T_Relation SYM_ESTIMATES);
   (0x225a, T_Relation SYM_EQUIANGULAR_TO);
   (0x225b, T_Relation SYM_STAR_EQUALS);
   (0x225c, T_Relation SYM_DELTA_EQUAL_TO);
   (0x225d, T_Relation SYM_EQUAL_TO_BY_DEFINITION);
   (0x225e, T_Relation SYM_MEASURED_BY);
   (0x225f, T_Relation SYM_QUESTIONED_EQUAL_TO);
   (0x2260, T_Relation SYM_NOT_EQUAL_TO);
   (0x2261, T_Relation SYM_IDENTICAL_TO);
   (0x2262, T_Relation SYM_NOT_IDENTICAL_TO);
   (0x2263, T_Relation SYM_STRICTLY_EQUIVALENT_TO);
   (0x2264, T_Relation SYM_LESS_THAN_OR_EQUAL_TO);
   (0x2265, T_Relation SYM_GREATER_THAN_OR_EQUAL_TO);
   (0x2266, T_Relation SYM_LESS_THAN_OVER_EQUAL_TO);
   (0x2267, T_Relation SYM_GREATER_THAN_OVER_EQUAL_TO);
   (0x2268, T_Relation SYM_LESS_THAN_BUT_NOT_EQUAL_TO);
   (0x2269, T_Relation SYM_GREATER_THAN_BUT_NOT_EQUAL_TO);
   (0x226a, T_Relation SYM_MUCH_LESS_THAN);
   (0x226b, T_Relation SYM_MUCH_GREATER_THAN);
   (0x226c, T_Relation SYM_BETWEEN);
   (0x226d, T_Relation SYM_NOT_EQUIVALENT_TO);
   (0x226e, T_Relation SYM_NOT_LESS_THAN);
   (0x226f, T_Relation SYM_NOT_GREATER_THAN);
   (0x2270, T_Relation SYM_NEITHER_LESS_THAN_NOR_EQUAL_TO);
   (0x2271, T_Relation SYM_NEITHER_GREATER_THAN_NOR_EQUAL_TO);
   (0x2272, T_Relation SYM_LESS_THAN_OR_EQUIVALENT_TO);
   (0x2273, T_Relation SYM_GREATER_THAN_OR_EQUIVALENT_TO);
   (0x2274, T_Relation SYM_NEITHER_LESS_THAN_NOR_EQUIVALENT_TO);
   (0x2275, T_Relation SYM_NEITHER_GREATER_THAN_NOR_EQUIVALENT_TO);
   (0x2276, T_Relation SYM_LESS_THAN_OR_GREATER_THAN);
   (0x2277, T_Relation SYM_GREATER_THAN_OR_LESS_THAN);
   (0x2278, T_Relation SYM_NEITHER_LESS_THAN_NOR_GREATER_THAN);
   (0x2279, T_Relation SYM_NEITHER_GREATER_THAN_NOR_LESS_THAN);
   (0x227a, T_Relation SYM_PRECEDES);
   (0x227b, T_Relation SYM_SUCCEEDS);
   (0x227c, T_Relation SYM_PRECEDES_OR_EQUAL_TO);
   (0x227d, T_Relation SYM_SUCCEEDS_OR_EQUAL_TO);
   (0x227e, T_Relation SYM_PRECEDES_OR_EQUIVALENT_TO);
   (0x227f, T_Relation SYM_SUCCEEDS_OR_EQUIVALENT_TO);
   (0x2280, T_Relation SYM_DOES_NOT_PRECEDE);
   (0x2281, T_Relation SYM_DOES_NOT_SUCCEED);
   (0x2282, T_Relation SYM_SUBSET_OF);
   (0x2283, T_Relation SYM_SUPERSET_OF);
   (0x2284, T_Relation SYM_NOT_A_SUBSET_OF);
   (0x2285, T_Relation SYM_NOT_A_SUPERSET_OF);
   (0x2286, T_Relation SYM_SUBSET_OF_OR_EQUAL_TO);
   (0x2287, T_Relation SYM_SUPERSET_OF_OR_EQUAL_TO);
   (0x2288, T_Relation SYM_NEITHER_A_SUBSET_OF_NOR_EQUAL_TO);
   (0x2289, T_Relation SYM_NEITHER_A_SUPERSET_OF_NOR_EQUAL_TO);
   (0x228a, T_Relation SYM_SUBSET_OF_WITH_NOT_EQUAL_TO);
   (0x228b, T_Relation SYM_SUPERSET_OF_WITH_NOT_EQUAL_TO);
   (0x228f, T_Relation SYM_SQUARE_IMAGE_OF);
   (0x2290, T_Relation SYM_SQUARE_ORIGINAL_OF);
   (0x2291, T_Relation SYM_SQUARE_IMAGE_OF_OR_EQUAL_TO);
   (0x2292, T_Relation SYM_SQUARE_ORIGINAL_OF_OR_EQUAL_TO);
   (0x22a2, T_Relation SYM_RIGHT_TACK);
   (0x22a3, T_Relation SYM_LEFT_TACK);
   (0x22a6, T_Relation SYM_ASSERTION);
   (0x22a7, T_Relation SYM_MODELS);
   (0x22a8, T_Relation SYM_TRUE);
   (0x22a9, T_Relation SYM_FORCES);
   (0x22aa, T_Relation SYM_TRIPLE_VERTICAL_BAR_RIGHT_TURNSTILE);
   (0x22ab, T_Relation SYM_DOUBLE_VERTICAL_BAR_DOUBLE_RIGHT_TURNSTILE);
   (0x22ac, T_Relation SYM_DOES_NOT_PROVE);
   (0x22ad, T_Relation SYM_NOT_TRUE);
   (0x22ae, T_Relation SYM_DOES_NOT_FORCE);
   (0x22af, T_Relation SYM_NEGATED_DOUBLE_VERTICAL_BAR_DOUBLE_RIGHT_TURNSTILE);
   (0x22b0, T_Relation SYM_PRECEDES_UNDER_RELATION);
   (0x22b1, T_Relation SYM_SUCCEEDS_UNDER_RELATION);
   (0x22b2, T_Relation SYM_NORMAL_SUBGROUP_OF);
   (0x22b3, T_Relation SYM_CONTAINS_AS_NORMAL_SUBGROUP);
   (0x22b4, T_Relation SYM_NORMAL_SUBGROUP_OF_OR_EQUAL_TO);
   (0x22b5, T_Relation SYM_CONTAINS_AS_NORMAL_SUBGROUP_OR_EQUAL_TO);
   (0x22b6, T_Relation SYM_ORIGINAL_OF);
   (0x22b7, T_Relation SYM_IMAGE_OF);
   (0x22b8, T_Relation SYM_MULTIMAP);
   (0x22c8, T_Relation SYM_BOWTIE);
   (0x22cd, T_Relation SYM_REVERSED_TILDE_EQUALS);
   (0x22d0, T_Relation SYM_DOUBLE_SUBSET);
   (0x22d1, T_Relation SYM_DOUBLE_SUPERSET);
   (0x22d4, T_Relation SYM_PITCHFORK);
   (0x22d5, T_Relation SYM_EQUAL_AND_PARALLEL_TO);
   (0x22d6, T_Relation SYM_LESS_THAN_WITH_DOT);
   (0x22d7, T_Relation SYM_GREATER_THAN_WITH_DOT);
   (0x22d8, T_Relation SYM_VERY_MUCH_LESS_THAN);
   (0x22d9, T_Relation SYM_VERY_MUCH_GREATER_THAN);
   (0x22da, T_Relation SYM_LESS_THAN_EQUAL_TO_OR_GREATER_THAN);
   (0x22db, T_Relation SYM_GREATER_THAN_EQUAL_TO_OR_LESS_THAN);
   (0x22dc, T_Relation SYM_EQUAL_TO_OR_LESS_THAN);
   (0x22dd, T_Relation SYM_EQUAL_TO_OR_GREATER_THAN);
   (0x22de, T_Relation SYM_EQUAL_TO_OR_PRECEDES);
   (0x22df, T_Relation SYM_EQUAL_TO_OR_SUCCEEDS);
   (0x22e0, T_Relation SYM_DOES_NOT_PRECEDE_OR_EQUAL);
   (0x22e1, T_Relation SYM_DOES_NOT_SUCCEED_OR_EQUAL);
   (0x22e2, T_Relation SYM_NOT_SQUARE_IMAGE_OF_OR_EQUAL_TO);
   (0x22e3, T_Relation SYM_NOT_SQUARE_ORIGINAL_OF_OR_EQUAL_TO);
   (0x22e4, T_Relation SYM_SQUARE_IMAGE_OF_OR_NOT_EQUAL_TO);
   (0x22e5, T_Relation SYM_SQUARE_ORIGINAL_OF_OR_NOT_EQUAL_TO);
   (0x22e6, T_Relation SYM_LESS_THAN_BUT_NOT_EQUIVALENT_TO);
   (0x22e7, T_Relation SYM_GREATER_THAN_BUT_NOT_EQUIVALENT_TO);
   (0x22e8, T_Relation SYM_PRECEDES_BUT_NOT_EQUIVALENT_TO);
   (0x22e9, T_Relation SYM_SUCCEEDS_BUT_NOT_EQUIVALENT_TO);
   (0x22ea, T_Relation SYM_NOT_NORMAL_SUBGROUP_OF);
   (0x22eb, T_Relation SYM_DOES_NOT_CONTAIN_AS_NORMAL_SUBGROUP);
   (0x22ec, T_Relation SYM_NOT_NORMAL_SUBGROUP_OF_OR_EQUAL_TO);
   (0x22ed, T_Relation SYM_DOES_NOT_CONTAIN_AS_NORMAL_SUBGROUP_OR_EQUAL);
   (0x22ee, T_Relation SYM_VERTICAL_ELLIPSIS);
   (0x22f0, T_Relation SYM_UP_RIGHT_DIAGONAL_ELLIPSIS);
   (0x22f1, T_Relation SYM_DOWN_RIGHT_DIAGONAL_ELLIPSIS);
   (0x22f2, T_Relation SYM_ELEMENT_OF_WITH_LONG_HORIZONTAL_STROKE);
   (0x22f3, T_Relation SYM_ELEMENT_OF_WITH_VERTICAL_BAR_AT_END_OF_HORIZONTAL_STROKE);
   (0x22f4, T_Relation SYM_SMALL_ELEMENT_OF_WITH_VERTICAL_BAR_AT_END_OF_HORIZONTAL_STROKE);
   (0x22f5, T_Relation SYM_ELEMENT_OF_WITH_DOT_ABOVE);
   (0x22f6, T_Relation SYM_ELEMENT_OF_WITH_OVERBAR);
   (0x22f7, T_Relation SYM_SMALL_ELEMENT_OF_WITH_OVERBAR);
   (0x22f8, T_Relation SYM_ELEMENT_OF_WITH_UNDERBAR);
   (0x22f9, T_Relation SYM_ELEMENT_OF_WITH_TWO_HORIZONTAL_STROKES);
   (0x22fa, T_Relation SYM_CONTAINS_WITH_LONG_HORIZONTAL_STROKE);
   (0x22fb, T_Relation SYM_CONTAINS_WITH_VERTICAL_BAR_AT_END_OF_HORIZONTAL_STROKE);
   (0x22fc, T_Relation SYM_SMALL_CONTAINS_WITH_VERTICAL_BAR_AT_END_OF_HORIZONTAL_STROKE);
   (0x22fd, T_Relation SYM_CONTAINS_WITH_OVERBAR);
   (0x22fe, T_Relation SYM_SMALL_CONTAINS_WITH_OVERBAR);
   (0x22ff, T_Relation SYM_Z_NOTATION_BAG_MEMBERSHIP);
   (0x2322, T_ForceRelation (ord_as_op SYM_FROWN));
   (0x2323, T_ForceRelation (ord_as_op SYM_SMILE));
   (0x27c2, T_Relation SYM_PERPENDICULAR);
   (0x27c8, T_Relation SYM_REVERSE_SOLIDUS_PRECEDING_SUPERSET);
   (0x27c9, T_Relation SYM_SUPERSET_PRECEDING_SOLIDUS);
   (0x27d2, T_Relation SYM_ELEMENT_OF_OPENING_UPWARDS);
   (0x27da, T_Relation SYM_LEFT_AND_RIGHT_DOUBLE_TURNSTILE);
   (0x27db, T_Relation SYM_LEFT_AND_RIGHT_TACK);
   (0x27dc, T_Relation SYM_LEFT_MULTIMAP);
   (0x27dd, T_Relation SYM_LONG_RIGHT_TACK);
   (0x27de, T_Relation SYM_LONG_LEFT_TACK);
   (0x27df, T_Relation SYM_UP_TACK_WITH_CIRCLE_ABOVE);
   (0x27f0, T_Relation SYM_UPWARDS_QUADRUPLE_ARROW);
   (0x27f1, T_Relation SYM_DOWNWARDS_QUADRUPLE_ARROW);
   (0x27f2, T_Relation SYM_ANTICLOCKWISE_GAPPED_CIRCLE_ARROW);
   (0x27f3, T_Relation SYM_CLOCKWISE_GAPPED_CIRCLE_ARROW);
   (0x27f4, T_Relation SYM_RIGHT_ARROW_WITH_CIRCLED_PLUS);
   (0x27f5, T_Relation SYM_LONG_LEFTWARDS_ARROW);
   (0x27f6, T_Relation SYM_LONG_RIGHTWARDS_ARROW);
   (0x27f7, T_Relation SYM_LONG_LEFT_RIGHT_ARROW);
   (0x27f8, T_Relation SYM_LONG_LEFTWARDS_DOUBLE_ARROW);
   (0x27f9, T_Relation SYM_LONG_RIGHTWARDS_DOUBLE_ARROW);
   (0x27fa, T_Relation SYM_LONG_LEFT_RIGHT_DOUBLE_ARROW);
   (0x27fb, T_Relation SYM_LONG_LEFTWARDS_ARROW_FROM_BAR);
   (0x27fc, T_Relation SYM_LONG_RIGHTWARDS_ARROW_FROM_BAR);
   (0x27fd, T_Relation SYM_LONG_LEFTWARDS_DOUBLE_ARROW_FROM_BAR);
   (0x27fe, T_Relation SYM_LONG_RIGHTWARDS_DOUBLE_ARROW_FROM_BAR);
   (0x27ff, T_Relation SYM_LONG_RIGHTWARDS_SQUIGGLE_ARROW);
   (0x2900, T_Relation SYM_RIGHTWARDS_TWO_HEADED_ARROW_WITH_VERTICAL_STROKE);
   (0x2901, T_Relation SYM_RIGHTWARDS_TWO_HEADED_ARROW_WITH_DOUBLE_VERTICAL_STROKE);
   (0x2902, T_Relation SYM_LEFTWARDS_DOUBLE_ARROW_WITH_VERTICAL_STROKE);
   (0x2903, T_Relation SYM_RIGHTWARDS_DOUBLE_ARROW_WITH_VERTICAL_STROKE);
   (0x2904, T_Relation SYM_LEFT_RIGHT_DOUBLE_ARROW_WITH_VERTICAL_STROKE);
   (0x2905, T_Relation SYM_RIGHTWARDS_TWO_HEADED_ARROW_FROM_BAR);
   (0x2906, T_Relation SYM_LEFTWARDS_DOUBLE_ARROW_FROM_BAR);
   (0x2907, T_Relation SYM_RIGHTWARDS_DOUBLE_ARROW_FROM_BAR);
   (0x2908, T_Relation SYM_DOWNWARDS_ARROW_WITH_HORIZONTAL_STROKE);
   (0x2909, T_Relation SYM_UPWARDS_ARROW_WITH_HORIZONTAL_STROKE);
   (0x290a, T_Relation SYM_UPWARDS_TRIPLE_ARROW);
   (0x290b, T_Relation SYM_DOWNWARDS_TRIPLE_ARROW);
   (0x290c, T_Relation SYM_LEFTWARDS_DOUBLE_DASH_ARROW);
   (0x290d, T_Relation SYM_RIGHTWARDS_DOUBLE_DASH_ARROW);
   (0x290e, T_Relation SYM_LEFTWARDS_TRIPLE_DASH_ARROW);
   (0x290f, T_Relation SYM_RIGHTWARDS_TRIPLE_DASH_ARROW);
   (0x2910, T_Relation SYM_RIGHTWARDS_TWO_HEADED_TRIPLE_DASH_ARROW);
   (0x2911, T_Relation SYM_RIGHTWARDS_ARROW_WITH_DOTTED_STEM);
   (0x2912, T_Relation SYM_UPWARDS_ARROW_TO_BAR);
   (0x2913, T_Relation SYM_DOWNWARDS_ARROW_TO_BAR);
   (0x2914, T_Relation SYM_RIGHTWARDS_ARROW_WITH_TAIL_WITH_VERTICAL_STROKE);
   (0x2915, T_Relation SYM_RIGHTWARDS_ARROW_WITH_TAIL_WITH_DOUBLE_VERTICAL_STROKE);
   (0x2916, T_Relation SYM_RIGHTWARDS_TWO_HEADED_ARROW_WITH_TAIL);
   (0x2917, T_Relation SYM_RIGHTWARDS_TWO_HEADED_ARROW_WITH_TAIL_WITH_VERTICAL_STROKE);
   (0x2918, T_Relation SYM_RIGHTWARDS_TWO_HEADED_ARROW_WITH_TAIL_WITH_DOUBLE_VERTICAL_STROKE);
   (0x291b, T_Relation SYM_LEFTWARDS_DOUBLE_ARROW_TAIL);
   (0x291c, T_Relation SYM_RIGHTWARDS_DOUBLE_ARROW_TAIL);
   (0x291d, T_Relation SYM_LEFTWARDS_ARROW_TO_BLACK_DIAMOND);
   (0x291e, T_Relation SYM_RIGHTWARDS_ARROW_TO_BLACK_DIAMOND);
   (0x291f, T_Relation SYM_LEFTWARDS_ARROW_FROM_BAR_TO_BLACK_DIAMOND);
   (0x2920, T_Relation SYM_RIGHTWARDS_ARROW_FROM_BAR_TO_BLACK_DIAMOND);
   (0x2921, T_Relation SYM_NORTH_WEST_AND_SOUTH_EAST_ARROW);
   (0x2922, T_Relation SYM_NORTH_EAST_AND_SOUTH_WEST_ARROW);
   (0x2923, T_Relation SYM_NORTH_WEST_ARROW_WITH_HOOK);
   (0x2924, T_Relation SYM_NORTH_EAST_ARROW_WITH_HOOK);
   (0x2925, T_Relation SYM_SOUTH_EAST_ARROW_WITH_HOOK);
   (0x2926, T_Relation SYM_SOUTH_WEST_ARROW_WITH_HOOK);
   (0x2927, T_Relation SYM_NORTH_WEST_ARROW_AND_NORTH_EAST_ARROW);
   (0x2928, T_Relation SYM_NORTH_EAST_ARROW_AND_SOUTH_EAST_ARROW);
   (0x2929, T_Relation SYM_SOUTH_EAST_ARROW_AND_SOUTH_WEST_ARROW);
   (0x292a, T_Relation SYM_SOUTH_WEST_ARROW_AND_NORTH_WEST_ARROW);
   (0x292b, T_Relation SYM_RISING_DIAGONAL_CROSSING_FALLING_DIAGONAL);
   (0x292c, T_Relation SYM_FALLING_DIAGONAL_CROSSING_RISING_DIAGONAL);
   (0x292d, T_Relation SYM_SOUTH_EAST_ARROW_CROSSING_NORTH_EAST_ARROW);
   (0x292e, T_Relation SYM_NORTH_EAST_ARROW_CROSSING_SOUTH_EAST_ARROW);
   (0x292f, T_Relation SYM_FALLING_DIAGONAL_CROSSING_NORTH_EAST_ARROW);
   (0x2930, T_Relation SYM_RISING_DIAGONAL_CROSSING_SOUTH_EAST_ARROW);
   (0x2931, T_Relation SYM_NORTH_EAST_ARROW_CROSSING_NORTH_WEST_ARROW);
   (0x2932, T_Relation SYM_NORTH_WEST_ARROW_CROSSING_NORTH_EAST_ARROW);
   (0x2933, T_Relation SYM_WAVE_ARROW_POINTING_DIRECTLY_RIGHT);
   (0x2934, T_Relation SYM_ARROW_POINTING_RIGHTWARDS_THEN_CURVING_UPWARDS);
   (0x2935, T_Relation SYM_ARROW_POINTING_RIGHTWARDS_THEN_CURVING_DOWNWARDS);
   (0x2936, T_Relation SYM_ARROW_POINTING_DOWNWARDS_THEN_CURVING_LEFTWARDS);
   (0x2937, T_Relation SYM_ARROW_POINTING_DOWNWARDS_THEN_CURVING_RIGHTWARDS);
   (0x2938, T_Relation SYM_RIGHT_SIDE_ARC_CLOCKWISE_ARROW);
   (0x2939, T_Relation SYM_LEFT_SIDE_ARC_ANTICLOCKWISE_ARROW);
   (0x293a, T_Relation SYM_TOP_ARC_ANTICLOCKWISE_ARROW);
   (0x293b, T_Relation SYM_BOTTOM_ARC_ANTICLOCKWISE_ARROW);
   (0x293c, T_Relation SYM_TOP_ARC_CLOCKWISE_ARROW_WITH_MINUS);
   (0x293d, T_Relation SYM_TOP_ARC_ANTICLOCKWISE_ARROW_WITH_PLUS);
   (0x293e, T_Relation SYM_LOWER_RIGHT_SEMICIRCULAR_CLOCKWISE_ARROW);
   (0x293f, T_Relation SYM_LOWER_LEFT_SEMICIRCULAR_ANTICLOCKWISE_ARROW);
   (0x2940, T_Relation SYM_ANTICLOCKWISE_CLOSED_CIRCLE_ARROW);
   (0x2941, T_Relation SYM_CLOCKWISE_CLOSED_CIRCLE_ARROW);
   (0x2942, T_Relation SYM_RIGHTWARDS_ARROW_ABOVE_SHORT_LEFTWARDS_ARROW);
   (0x2943, T_Relation SYM_LEFTWARDS_ARROW_ABOVE_SHORT_RIGHTWARDS_ARROW);
   (0x2944, T_Relation SYM_SHORT_RIGHTWARDS_ARROW_ABOVE_LEFTWARDS_ARROW);
   (0x2945, T_Relation SYM_RIGHTWARDS_ARROW_WITH_PLUS_BELOW);
   (0x2946, T_Relation SYM_LEFTWARDS_ARROW_WITH_PLUS_BELOW);
   (0x2947, T_Relation SYM_RIGHTWARDS_ARROW_THROUGH_X);
   (0x2948, T_Relation SYM_LEFT_RIGHT_ARROW_THROUGH_SMALL_CIRCLE);
   (0x2949, T_Relation SYM_UPWARDS_TWO_HEADED_ARROW_FROM_SMALL_CIRCLE);
   (0x294a, T_Relation SYM_LEFT_BARB_UP_RIGHT_BARB_DOWN_HARPOON);
   (0x294b, T_Relation SYM_LEFT_BARB_DOWN_RIGHT_BARB_UP_HARPOON);
   (0x294c, T_Relation SYM_UP_BARB_RIGHT_DOWN_BARB_LEFT_HARPOON);
   (0x294d, T_Relation SYM_UP_BARB_LEFT_DOWN_BARB_RIGHT_HARPOON);
   (0x294e, T_Relation SYM_LEFT_BARB_UP_RIGHT_BARB_UP_HARPOON);
   (0x294f, T_Relation SYM_UP_BARB_RIGHT_DOWN_BARB_RIGHT_HARPOON);
   (0x2950, T_Relation SYM_LEFT_BARB_DOWN_RIGHT_BARB_DOWN_HARPOON);
   (0x2951, T_Relation SYM_UP_BARB_LEFT_DOWN_BARB_LEFT_HARPOON);
   (0x2952, T_Relation SYM_LEFTWARDS_HARPOON_WITH_BARB_UP_TO_BAR);
   (0x2953, T_Relation SYM_RIGHTWARDS_HARPOON_WITH_BARB_UP_TO_BAR);
   (0x2954, T_Relation SYM_UPWARDS_HARPOON_WITH_BARB_RIGHT_TO_BAR);
   (0x2955, T_Relation SYM_DOWNWARDS_HARPOON_WITH_BARB_RIGHT_TO_BAR);
   (0x2956, T_Relation SYM_LEFTWARDS_HARPOON_WITH_BARB_DOWN_TO_BAR);
   (0x2957, T_Relation SYM_RIGHTWARDS_HARPOON_WITH_BARB_DOWN_TO_BAR);
   (0x2958, T_Relation SYM_UPWARDS_HARPOON_WITH_BARB_LEFT_TO_BAR);
   (0x2959, T_Relation SYM_DOWNWARDS_HARPOON_WITH_BARB_LEFT_TO_BAR);
   (0x295a, T_Relation SYM_LEFTWARDS_HARPOON_WITH_BARB_UP_FROM_BAR);
   (0x295b, T_Relation SYM_RIGHTWARDS_HARPOON_WITH_BARB_UP_FROM_BAR);
   (0x295c, T_Relation SYM_UPWARDS_HARPOON_WITH_BARB_RIGHT_FROM_BAR);
   (0x295d, T_Relation SYM_DOWNWARDS_HARPOON_WITH_BARB_RIGHT_FROM_BAR);
   (0x295e, T_Relation SYM_LEFTWARDS_HARPOON_WITH_BARB_DOWN_FROM_BAR);
   (0x295f, T_Relation SYM_RIGHTWARDS_HARPOON_WITH_BARB_DOWN_FROM_BAR);
   (0x2960, T_Relation SYM_UPWARDS_HARPOON_WITH_BARB_LEFT_FROM_BAR);
   (0x2961, T_Relation SYM_DOWNWARDS_HARPOON_WITH_BARB_LEFT_FROM_BAR);
   (0x2962, T_Relation SYM_LEFTWARDS_HARPOON_WITH_BARB_UP_ABOVE_LEFTWARDS_HARPOON_WITH_BARB_DOWN);
   (0x2963, T_Relation SYM_UPWARDS_HARPOON_WITH_BARB_LEFT_BESIDE_UPWARDS_HARPOON_WITH_BARB_RIGHT);
   (0x2964, T_Relation SYM_RIGHTWARDS_HARPOON_WITH_BARB_UP_ABOVE_RIGHTWARDS_HARPOON_WITH_BARB_DOWN);
   (0x2965, T_Relation SYM_DOWNWARDS_HARPOON_WITH_BARB_LEFT_BESIDE_DOWNWARDS_HARPOON_WITH_BARB_RIGHT);
   (0x2966, T_Relation SYM_LEFTWARDS_HARPOON_WITH_BARB_UP_ABOVE_RIGHTWARDS_HARPOON_WITH_BARB_UP);
   (0x2967, T_Relation SYM_LEFTWARDS_HARPOON_WITH_BARB_DOWN_ABOVE_RIGHTWARDS_HARPOON_WITH_BARB_DOWN);
   (0x2968, T_Relation SYM_RIGHTWARDS_HARPOON_WITH_BARB_UP_ABOVE_LEFTWARDS_HARPOON_WITH_BARB_UP);
   (0x2969, T_Relation SYM_RIGHTWARDS_HARPOON_WITH_BARB_DOWN_ABOVE_LEFTWARDS_HARPOON_WITH_BARB_DOWN);
   (0x296a, T_Relation SYM_LEFTWARDS_HARPOON_WITH_BARB_UP_ABOVE_LONG_DASH);
   (0x296b, T_Relation SYM_LEFTWARDS_HARPOON_WITH_BARB_DOWN_BELOW_LONG_DASH);
   (0x296c, T_Relation SYM_RIGHTWARDS_HARPOON_WITH_BARB_UP_ABOVE_LONG_DASH);
   (0x296d, T_Relation SYM_RIGHTWARDS_HARPOON_WITH_BARB_DOWN_BELOW_LONG_DASH);
   (0x296e, T_Relation SYM_UPWARDS_HARPOON_WITH_BARB_LEFT_BESIDE_DOWNWARDS_HARPOON_WITH_BARB_RIGHT);
   (0x296f, T_Relation SYM_DOWNWARDS_HARPOON_WITH_BARB_LEFT_BESIDE_UPWARDS_HARPOON_WITH_BARB_RIGHT);
   (0x2970, T_Relation SYM_RIGHT_DOUBLE_ARROW_WITH_ROUNDED_HEAD);
   (0x2971, T_Relation SYM_EQUALS_SIGN_ABOVE_RIGHTWARDS_ARROW);
   (0x2972, T_Relation SYM_TILDE_OPERATOR_ABOVE_RIGHTWARDS_ARROW);
   (0x2973, T_Relation SYM_LEFTWARDS_ARROW_ABOVE_TILDE_OPERATOR);
   (0x2974, T_Relation SYM_RIGHTWARDS_ARROW_ABOVE_TILDE_OPERATOR);
   (0x2975, T_Relation SYM_RIGHTWARDS_ARROW_ABOVE_ALMOST_EQUAL_TO);
   (0x2976, T_Relation SYM_LESS_THAN_ABOVE_LEFTWARDS_ARROW);
   (0x2977, T_Relation SYM_LEFTWARDS_ARROW_THROUGH_LESS_THAN);
   (0x2978, T_Relation SYM_GREATER_THAN_ABOVE_RIGHTWARDS_ARROW);
   (0x2979, T_Relation SYM_SUBSET_ABOVE_RIGHTWARDS_ARROW);
   (0x297a, T_Relation SYM_LEFTWARDS_ARROW_THROUGH_SUBSET);
   (0x297b, T_Relation SYM_SUPERSET_ABOVE_LEFTWARDS_ARROW);
   (0x297c, T_Relation SYM_LEFT_FISH_TAIL);
   (0x297d, T_Relation SYM_RIGHT_FISH_TAIL);
   (0x297e, T_Relation SYM_UP_FISH_TAIL);
   (0x297f, T_Relation SYM_DOWN_FISH_TAIL);
   (0x2982, T_Relation SYM_Z_NOTATION_TYPE_COLON);
   (0x29ce, T_Relation SYM_RIGHT_TRIANGLE_ABOVE_LEFT_TRIANGLE);
   (0x29cf, T_Relation SYM_LEFT_TRIANGLE_BESIDE_VERTICAL_BAR);
   (0x29d0, T_Relation SYM_VERTICAL_BAR_BESIDE_RIGHT_TRIANGLE);
   (0x29d1, T_Relation SYM_BOWTIE_WITH_LEFT_HALF_BLACK);
   (0x29d2, T_Relation SYM_BOWTIE_WITH_RIGHT_HALF_BLACK);
   (0x29d3, T_Relation SYM_BLACK_BOWTIE);
   (0x29d4, T_ForceRelation (op_as_op SYM_TIMES_WITH_LEFT_HALF_BLACK));
   (0x29d5, T_ForceRelation (op_as_op SYM_TIMES_WITH_RIGHT_HALF_BLACK));
   (0x29df, T_Relation SYM_DOUBLE_ENDED_MULTIMAP);
   (0x29e0, T_Relation SYM_SQUARE_WITH_CONTOURED_OUTLINE);
   (0x29e1, T_Relation SYM_INCREASES_AS);
   (0x29e3, T_Relation SYM_EQUALS_SIGN_AND_SLANTED_PARALLEL);
   (0x29e4, T_Relation SYM_EQUALS_SIGN_AND_SLANTED_PARALLEL_WITH_TILDE_ABOVE);
   (0x29e5, T_Relation SYM_IDENTICAL_TO_AND_SLANTED_PARALLEL);
   (0x29e6, T_Relation SYM_GLEICH_STARK);
   (0x29f4, T_Relation SYM_RULE_DELAYED);
   (0x2a66, T_Relation SYM_EQUALS_SIGN_WITH_DOT_BELOW);
   (0x2a67, T_Relation SYM_IDENTICAL_WITH_DOT_ABOVE);
   (0x2a68, T_Relation SYM_TRIPLE_HORIZONTAL_BAR_WITH_DOUBLE_VERTICAL_STROKE);
   (0x2a69, T_Relation SYM_TRIPLE_HORIZONTAL_BAR_WITH_TRIPLE_VERTICAL_STROKE);
   (0x2a6a, T_Relation SYM_TILDE_OPERATOR_WITH_DOT_ABOVE);
   (0x2a6b, T_Relation SYM_TILDE_OPERATOR_WITH_RISING_DOTS);
   (0x2a6c, T_Relation SYM_SIMILAR_MINUS_SIMILAR);
   (0x2a6d, T_Relation SYM_CONGRUENT_WITH_DOT_ABOVE);
   (0x2a6e, T_Relation SYM_EQUALS_WITH_ASTERISK);
   (0x2a6f, T_Relation SYM_ALMOST_EQUAL_TO_WITH_CIRCUMFLEX_ACCENT);
   (0x2a70, T_Relation SYM_APPROXIMATELY_EQUAL_OR_EQUAL_TO);
   (0x2a71, T_Relation SYM_EQUALS_SIGN_ABOVE_PLUS_SIGN);
   (0x2a72, T_Relation SYM_PLUS_SIGN_ABOVE_EQUALS_SIGN);
   (0x2a73, T_Relation SYM_EQUALS_SIGN_ABOVE_TILDE_OPERATOR);
   (0x2a74, T_Relation SYM_DOUBLE_COLON_EQUAL);
   (0x2a75, T_Relation SYM_TWO_CONSECUTIVE_EQUALS_SIGNS);
   (0x2a76, T_Relation SYM_THREE_CONSECUTIVE_EQUALS_SIGNS);
   (0x2a77, T_Relation SYM_EQUALS_SIGN_WITH_TWO_DOTS_ABOVE_AND_TWO_DOTS_BELOW);
   (0x2a78, T_Relation SYM_EQUIVALENT_WITH_FOUR_DOTS_ABOVE);
   (0x2a79, T_Relation SYM_LESS_THAN_WITH_CIRCLE_INSIDE);
   (0x2a7a, T_Relation SYM_GREATER_THAN_WITH_CIRCLE_INSIDE);
   (0x2a7b, T_Relation SYM_LESS_THAN_WITH_QUESTION_MARK_ABOVE);
   (0x2a7c, T_Relation SYM_GREATER_THAN_WITH_QUESTION_MARK_ABOVE);
   (0x2a7d, T_Relation SYM_LESS_THAN_OR_SLANTED_EQUAL_TO);
   (0x2a7e, T_Relation SYM_GREATER_THAN_OR_SLANTED_EQUAL_TO);
   (0x2a7f, T_Relation SYM_LESS_THAN_OR_SLANTED_EQUAL_TO_WITH_DOT_INSIDE);
   (0x2a80, T_Relation SYM_GREATER_THAN_OR_SLANTED_EQUAL_TO_WITH_DOT_INSIDE);
   (0x2a81, T_Relation SYM_LESS_THAN_OR_SLANTED_EQUAL_TO_WITH_DOT_ABOVE);
   (0x2a82, T_Relation SYM_GREATER_THAN_OR_SLANTED_EQUAL_TO_WITH_DOT_ABOVE);
   (0x2a83, T_Relation SYM_LESS_THAN_OR_SLANTED_EQUAL_TO_WITH_DOT_ABOVE_RIGHT);
   (0x2a84, T_Relation SYM_GREATER_THAN_OR_SLANTED_EQUAL_TO_WITH_DOT_ABOVE_LEFT);
   (0x2a85, T_Relation SYM_LESS_THAN_OR_APPROXIMATE);
   (0x2a86, T_Relation SYM_GREATER_THAN_OR_APPROXIMATE);
   (0x2a87, T_Relation SYM_LESS_THAN_AND_SINGLE_LINE_NOT_EQUAL_TO);
   (0x2a88, T_Relation SYM_GREATER_THAN_AND_SINGLE_LINE_NOT_EQUAL_TO);
   (0x2a89, T_Relation SYM_LESS_THAN_AND_NOT_APPROXIMATE);
   (0x2a8a, T_Relation SYM_GREATER_THAN_AND_NOT_APPROXIMATE);
   (0x2a8b, T_Relation SYM_LESS_THAN_ABOVE_DOUBLE_LINE_EQUAL_ABOVE_GREATER_THAN);
   (0x2a8c, T_Relation SYM_GREATER_THAN_ABOVE_DOUBLE_LINE_EQUAL_ABOVE_LESS_THAN);
   (0x2a8d, T_Relation SYM_LESS_THAN_ABOVE_SIMILAR_OR_EQUAL);
   (0x2a8e, T_Relation SYM_GREATER_THAN_ABOVE_SIMILAR_OR_EQUAL);
   (0x2a8f, T_Relation SYM_LESS_THAN_ABOVE_SIMILAR_ABOVE_GREATER_THAN);
   (0x2a90, T_Relation SYM_GREATER_THAN_ABOVE_SIMILAR_ABOVE_LESS_THAN);
   (0x2a91, T_Relation SYM_LESS_THAN_ABOVE_GREATER_THAN_ABOVE_DOUBLE_LINE_EQUAL);
   (0x2a92, T_Relation SYM_GREATER_THAN_ABOVE_LESS_THAN_ABOVE_DOUBLE_LINE_EQUAL);
   (0x2a93, T_Relation SYM_LESS_THAN_ABOVE_SLANTED_EQUAL_ABOVE_GREATER_THAN_ABOVE_SLANTED_EQUAL);
   (0x2a94, T_Relation SYM_GREATER_THAN_ABOVE_SLANTED_EQUAL_ABOVE_LESS_THAN_ABOVE_SLANTED_EQUAL);
   (0x2a95, T_Relation SYM_SLANTED_EQUAL_TO_OR_LESS_THAN);
   (0x2a96, T_Relation SYM_SLANTED_EQUAL_TO_OR_GREATER_THAN);
   (0x2a97, T_Relation SYM_SLANTED_EQUAL_TO_OR_LESS_THAN_WITH_DOT_INSIDE);
   (0x2a98, T_Relation SYM_SLANTED_EQUAL_TO_OR_GREATER_THAN_WITH_DOT_INSIDE);
   (0x2a99, T_Relation SYM_DOUBLE_LINE_EQUAL_TO_OR_LESS_THAN);
   (0x2a9a, T_Relation SYM_DOUBLE_LINE_EQUAL_TO_OR_GREATER_THAN);
   (0x2a9b, T_Relation SYM_DOUBLE_LINE_SLANTED_EQUAL_TO_OR_LESS_THAN);
   (0x2a9c, T_Relation SYM_DOUBLE_LINE_SLANTED_EQUAL_TO_OR_GREATER_THAN);
   (0x2a9d, T_Relation SYM_SIMILAR_OR_LESS_THAN);
   (0x2a9e, T_Relation SYM_SIMILAR_OR_GREATER_THAN);
   (0x2a9f, T_Relation SYM_SIMILAR_ABOVE_LESS_THAN_ABOVE_EQUALS_SIGN);
   (0x2aa0, T_Relation SYM_SIMILAR_ABOVE_GREATER_THAN_ABOVE_EQUALS_SIGN);
   (0x2aa1, T_Relation SYM_DOUBLE_NESTED_LESS_THAN);
   (0x2aa2, T_Relation SYM_DOUBLE_NESTED_GREATER_THAN);
   (0x2aa3, T_Relation SYM_DOUBLE_NESTED_LESS_THAN_WITH_UNDERBAR);
   (0x2aa4, T_Relation SYM_GREATER_THAN_OVERLAPPING_LESS_THAN);
   (0x2aa5, T_Relation SYM_GREATER_THAN_BESIDE_LESS_THAN);
   (0x2aa6, T_Relation SYM_LESS_THAN_CLOSED_BY_CURVE);
   (0x2aa7, T_Relation SYM_GREATER_THAN_CLOSED_BY_CURVE);
   (0x2aa8, T_Relation SYM_LESS_THAN_CLOSED_BY_CURVE_ABOVE_SLANTED_EQUAL);
   (0x2aa9, T_Relation SYM_GREATER_THAN_CLOSED_BY_CURVE_ABOVE_SLANTED_EQUAL);
   (0x2aaa, T_Relation SYM_SMALLER_THAN);
   (0x2aab, T_Relation SYM_LARGER_THAN);
   (0x2aac, T_Relation SYM_SMALLER_THAN_OR_EQUAL_TO);
   (0x2aad, T_Relation SYM_LARGER_THAN_OR_EQUAL_TO);
   (0x2aae, T_Relation SYM_EQUALS_SIGN_WITH_BUMPY_ABOVE);
   (0x2aaf, T_Relation SYM_PRECEDES_ABOVE_SINGLE_LINE_EQUALS_SIGN);
   (0x2ab0, T_Relation SYM_SUCCEEDS_ABOVE_SINGLE_LINE_EQUALS_SIGN);
   (0x2ab1, T_Relation SYM_PRECEDES_ABOVE_SINGLE_LINE_NOT_EQUAL_TO);
   (0x2ab2, T_Relation SYM_SUCCEEDS_ABOVE_SINGLE_LINE_NOT_EQUAL_TO);
   (0x2ab3, T_Relation SYM_PRECEDES_ABOVE_EQUALS_SIGN);
   (0x2ab4, T_Relation SYM_SUCCEEDS_ABOVE_EQUALS_SIGN);
   (0x2ab5, T_Relation SYM_PRECEDES_ABOVE_NOT_EQUAL_TO);
   (0x2ab6, T_Relation SYM_SUCCEEDS_ABOVE_NOT_EQUAL_TO);
   (0x2ab7, T_Relation SYM_PRECEDES_ABOVE_ALMOST_EQUAL_TO);
   (0x2ab8, T_Relation SYM_SUCCEEDS_ABOVE_ALMOST_EQUAL_TO);
   (0x2ab9, T_Relation SYM_PRECEDES_ABOVE_NOT_ALMOST_EQUAL_TO);
   (0x2aba, T_Relation SYM_SUCCEEDS_ABOVE_NOT_ALMOST_EQUAL_TO);
   (0x2abb, T_Relation SYM_DOUBLE_PRECEDES);
   (0x2abc, T_Relation SYM_DOUBLE_SUCCEEDS);
   (0x2abd, T_Relation SYM_SUBSET_WITH_DOT);
   (0x2abe, T_Relation SYM_SUPERSET_WITH_DOT);
   (0x2abf, T_Relation SYM_SUBSET_WITH_PLUS_SIGN_BELOW);
   (0x2ac0, T_Relation SYM_SUPERSET_WITH_PLUS_SIGN_BELOW);
   (0x2ac1, T_Relation SYM_SUBSET_WITH_MULTIPLICATION_SIGN_BELOW);
   (0x2ac2, T_Relation SYM_SUPERSET_WITH_MULTIPLICATION_SIGN_BELOW);
   (0x2ac3, T_Relation SYM_SUBSET_OF_OR_EQUAL_TO_WITH_DOT_ABOVE);
   (0x2ac4, T_Relation SYM_SUPERSET_OF_OR_EQUAL_TO_WITH_DOT_ABOVE);
   (0x2ac5, T_Relation SYM_SUBSET_OF_ABOVE_EQUALS_SIGN);
   (0x2ac6, T_Relation SYM_SUPERSET_OF_ABOVE_EQUALS_SIGN);
   (0x2ac7, T_Relation SYM_SUBSET_OF_ABOVE_TILDE_OPERATOR);
   (0x2ac8, T_Relation SYM_SUPERSET_OF_ABOVE_TILDE_OPERATOR);
   (0x2ac9, T_Relation SYM_SUBSET_OF_ABOVE_ALMOST_EQUAL_TO);
   (0x2aca, T_Relation SYM_SUPERSET_OF_ABOVE_ALMOST_EQUAL_TO);
   (0x2acb, T_Relation SYM_SUBSET_OF_ABOVE_NOT_EQUAL_TO);
   (0x2acc, T_Relation SYM_SUPERSET_OF_ABOVE_NOT_EQUAL_TO);
   (0x2acd, T_Relation SYM_SQUARE_LEFT_OPEN_BOX_OPERATOR);
   (0x2ace, T_Relation SYM_SQUARE_RIGHT_OPEN_BOX_OPERATOR);
   (0x2acf, T_Relation SYM_CLOSED_SUBSET);
   (0x2ad0, T_Relation SYM_CLOSED_SUPERSET);
   (0x2ad1, T_Relation SYM_CLOSED_SUBSET_OR_EQUAL_TO);
   (0x2ad2, T_Relation SYM_CLOSED_SUPERSET_OR_EQUAL_TO);
   (0x2ad3, T_Relation SYM_SUBSET_ABOVE_SUPERSET);
   (0x2ad4, T_Relation SYM_SUPERSET_ABOVE_SUBSET);
   (0x2ad5, T_Relation SYM_SUBSET_ABOVE_SUBSET);
   (0x2ad6, T_Relation SYM_SUPERSET_ABOVE_SUPERSET);
   (0x2ad7, T_Relation SYM_SUPERSET_BESIDE_SUBSET);
   (0x2ad8, T_Relation SYM_SUPERSET_BESIDE_AND_JOINED_BY_DASH_WITH_SUBSET);
   (0x2ade, T_Relation SYM_SHORT_LEFT_TACK);
   (0x2adf, T_Relation SYM_SHORT_DOWN_TACK);
   (0x2ae0, T_Relation SYM_SHORT_UP_TACK);
   (0x2ae1, T_Relation SYM_PERPENDICULAR_WITH_S);
   (0x2ae2, T_Relation SYM_VERTICAL_BAR_TRIPLE_RIGHT_TURNSTILE);
   (0x2ae3, T_Relation SYM_DOUBLE_VERTICAL_BAR_LEFT_TURNSTILE);
   (0x2ae4, T_Relation SYM_VERTICAL_BAR_DOUBLE_LEFT_TURNSTILE);
   (0x2ae5, T_Relation SYM_DOUBLE_VERTICAL_BAR_DOUBLE_LEFT_TURNSTILE);
   (0x2ae6, T_Relation SYM_LONG_DASH_FROM_LEFT_MEMBER_OF_DOUBLE_VERTICAL);
   (0x2ae7, T_Relation SYM_SHORT_DOWN_TACK_WITH_OVERBAR);
   (0x2ae8, T_Relation SYM_SHORT_UP_TACK_WITH_UNDERBAR);
   (0x2ae9, T_Relation SYM_SHORT_UP_TACK_ABOVE_SHORT_DOWN_TACK);
   (0x2aea, T_Relation SYM_DOUBLE_DOWN_TACK);
   (0x2aeb, T_Relation SYM_DOUBLE_UP_TACK);
   (0x2aee, T_Relation SYM_DOES_NOT_DIVIDE_WITH_REVERSED_NEGATION_SLASH);
   (0x2af2, T_Relation SYM_PARALLEL_WITH_HORIZONTAL_STROKE);
   (0x2af3, T_Relation SYM_PARALLEL_WITH_TILDE_OPERATOR);
   (0x2af7, T_Relation SYM_TRIPLE_NESTED_LESS_THAN);
   (0x2af8, T_Relation SYM_TRIPLE_NESTED_GREATER_THAN);
   (0x2af9, T_Relation SYM_DOUBLE_LINE_SLANTED_LESS_THAN_OR_EQUAL_TO);
   (0x2afa, T_Relation SYM_DOUBLE_LINE_SLANTED_GREATER_THAN_OR_EQUAL_TO);
   (0x2b30, T_Relation SYM_LEFT_ARROW_WITH_SMALL_CIRCLE);
   (0x2b31, T_Relation SYM_THREE_LEFTWARDS_ARROWS);
   (0x2b32, T_Relation SYM_LEFT_ARROW_WITH_CIRCLED_PLUS);
   (0x2b33, T_Relation SYM_LONG_LEFTWARDS_SQUIGGLE_ARROW);
   (0x2b34, T_Relation SYM_LEFTWARDS_TWO_HEADED_ARROW_WITH_VERTICAL_STROKE);
   (0x2b35, T_Relation SYM_LEFTWARDS_TWO_HEADED_ARROW_WITH_DOUBLE_VERTICAL_STROKE);
   (0x2b36, T_Relation SYM_LEFTWARDS_TWO_HEADED_ARROW_FROM_BAR);
   (0x2b37, T_Relation SYM_LEFTWARDS_TWO_HEADED_TRIPLE_DASH_ARROW);
   (0x2b38, T_Relation SYM_LEFTWARDS_ARROW_WITH_DOTTED_STEM);
   (0x2b39, T_Relation SYM_LEFTWARDS_ARROW_WITH_TAIL_WITH_VERTICAL_STROKE);
   (0x2b3a, T_Relation SYM_LEFTWARDS_ARROW_WITH_TAIL_WITH_DOUBLE_VERTICAL_STROKE);
   (0x2b3b, T_Relation SYM_LEFTWARDS_TWO_HEADED_ARROW_WITH_TAIL);
   (0x2b3c, T_Relation SYM_LEFTWARDS_TWO_HEADED_ARROW_WITH_TAIL_WITH_VERTICAL_STROKE);
   (0x2b3d, T_Relation SYM_LEFTWARDS_TWO_HEADED_ARROW_WITH_TAIL_WITH_DOUBLE_VERTICAL_STROKE);
   (0x2b3e, T_Relation SYM_LEFTWARDS_ARROW_THROUGH_X);
   (0x2b3f, T_Relation SYM_WAVE_ARROW_POINTING_DIRECTLY_LEFT);
   (0x2b40, T_Relation SYM_EQUALS_SIGN_ABOVE_LEFTWARDS_ARROW);
   (0x2b41, T_Relation SYM_REVERSE_TILDE_OPERATOR_ABOVE_LEFTWARDS_ARROW);
   (0x2b42, T_Relation SYM_LEFTWARDS_ARROW_ABOVE_REVERSE_ALMOST_EQUAL_TO);
   (0x2b43, T_Relation SYM_RIGHTWARDS_ARROW_THROUGH_GREATER_THAN);
   (0x2b44, T_Relation SYM_RIGHTWARDS_ARROW_THROUGH_SUPERSET);
   (0x2b45, T_Relation SYM_LEFTWARDS_QUADRUPLE_ARROW);
   (0x2b46, T_Relation SYM_RIGHTWARDS_QUADRUPLE_ARROW);
   (0x2b47, T_Relation SYM_REVERSE_TILDE_OPERATOR_ABOVE_RIGHTWARDS_ARROW);
   (0x2b48, T_Relation SYM_RIGHTWARDS_ARROW_ABOVE_REVERSE_ALMOST_EQUAL_TO);
   (0x2b49, T_Relation SYM_TILDE_OPERATOR_ABOVE_LEFTWARDS_ARROW);
   (0x2b4a, T_Relation SYM_LEFTWARDS_ARROW_ABOVE_ALMOST_EQUAL_TO);
   (0x2b4b, T_Relation SYM_LEFTWARDS_ARROW_ABOVE_REVERSE_TILDE_OPERATOR);
   (0x2b4c, T_Relation SYM_RIGHTWARDS_ARROW_ABOVE_REVERSE_TILDE_OPERATOR)].
