(** Model of the tokens (crates/math-core/src/token.rs), the character classes
    (character_class.rs) and the operator types (crates/mathml-renderer/src/symbol.rs:108-243).
    References to static tokens become subterms. *)
From Verif Require Import Str M_SuperChar M_Transform M_Length M_Spec M_Ast.

(** ** Operators *)

(** symbol.rs:155-189 [OrdCategory] *)
Inductive ord_category := OcD | OcE | OcDE | OcF | OcG | OcFG | OcFGandForceDefault | OcI | OcK | OcIK | OcKButUsedToBeB.
(** symbol.rs:196-205 [OpCategory] *)
Inductive op_category := PcC | PcH | PcJ.
(** symbol.rs:212-218 [BinCategory] *)
Inductive bin_category := BcB | BcBD.
(** symbol.rs:225-234 [RelCategory] *)
Inductive rel_category := RcDefault | RcA | RcDandForceDefault.

(** symbol.rs:108-153, 191-194 [OrdLike]; likewise the other three.  Characters are in the
    Basic Multilingual Plane ([BMPChar::new] would not compile otherwise). *)
Record ord_like := mkOrd { ord_char : N; ord_cat : ord_category; ord_vs1 : bool }.
Record op := mkOp { op_char : N; op_cat : op_category; op_vs1 : bool }.
Record bin := mkBin { bin_char : N; bin_cat : bin_category; bin_vs1 : bool }.
Record rel := mkRel { rel_char : N; rel_cat : rel_category; rel_vs1 : bool }.

(** symbol.rs:133-141 [as_op]; VS1 has the number 1 (super_char.rs) *)
Definition as_op_gen (c : N) (vs1 : bool) : superchar :=
  if vs1 then sc_from_char_with_vs c 1 else sc_from_char c.
Definition ord_as_op (o : ord_like) : superchar := as_op_gen (ord_char o) (ord_vs1 o).
Definition op_as_op (o : op) : superchar := as_op_gen (op_char o) (op_vs1 o).
Definition bin_as_op (o : bin) : superchar := as_op_gen (bin_char o) (bin_vs1 o).
Definition rel_as_op (o : rel) : superchar := as_op_gen (rel_char o) (rel_vs1 o).

(** ** Small enumerations *)

(** character_class.rs:12-33 [Class] *)
Inductive class := ClDefault | ClOperator | ClBinaryOp | ClRelation | ClOpen | ClClose | ClPunctuation | ClInner | ClEnd.
(** character_class.rs:35-40 [ParenType] *)
Inductive paren_type := PtLeft | PtRight | PtMiddle.
(** character_class.rs:42-49 [MathVariant] *)
Inductive math_variant := MvNormal | MvTransform (t : text_transform).
(** environments.rs:41-65 [Env] *)
Inductive env :=
| EArray | EDArray | ESubarray | EAlign | EAlignStar | EAligned | EEquation | EEquationStar
| EGather | EGatherStar | EGathered | EMultLine | ECases | ERCases | EDCases | EDRCases
| EMatrix | EBMatrix | EBmatrix | EPMatrix | EVMatrix | EVmatrix.
(** custom_cmds.rs:25-41 [CmdSource] *)
Inductive cmd_source := SrcConfig | SrcDocument | SrcLocal.
(** token.rs:294-304 [DefineMode] *)
Inductive define_mode := DmNew | DmProvide | DmRenew.
(** token.rs:306-318 [VerticalLineDef] *)
Inductive vertical_line_def := VldRelSpacing | VldRelSpacingStretchy | VldOpSpacingStretchy.
(** token.rs:320-339 [MathClassKind] *)
Inductive math_class_kind := MkOrd | MkOp | MkBin | MkRel | MkOpen | MkClose | MkPunct | MkInner.
(** token.rs:341-347 [TextToken] *)
Inductive text_token := TtAccent (c : N) | TtLetter (c : N) | TtStyle (s : text_style) | TtSize (s : text_size).
(** token.rs:349-358 [InfixDelim] *)
Inductive infix_delim := IdParen | IdBrace | IdBrack.
(** token.rs:360-376 [ForceStretchy] *)
Inductive force_stretchy := FsNo | FsPretend | FsYes.
(** token.rs:378-385 [UnitKind] *)
Inductive unit_kind := UkText | UkMath.
(** token.rs:387-396 [PhantomKind] *)
Inductive phantom_kind := PkFull | PkH | PkV.
(** token.rs:398-407 [LimitsKind] *)
Inductive limits_kind := LkAlways | LkNever | LkDisplay.
(** token.rs:409-418 [PrimeKind] *)
Inductive prime_kind := PrSingle | PrDouble | PrTriple | PrQuadruple | PrReversed | PrReversedDouble | PrReversedTriple.
(** token.rs:420-424 [PrimeDirection] *)
Inductive prime_direction := Forward | Reversed.
(** token.rs:678-683 [Mode] *)
Inductive mode := MMath | MMathOrText.
(** token.rs:776-788 [EndToken] *)
Inductive end_token := EtEnd | EtGroupClose | EtRight | EtSquareBracketClose | EtEoi.

(** ** Tokens *)

(** token.rs:20-271 [Token].  Differences: an [UnresolvedCommand] carries the name itself
    instead of its place in the string pool (the pool is modelled on its own in M_Pool);
    [usize] and [u8] numbers are natural numbers. *)
Inductive token :=
| T_Eoi
| T_Begin (e : env)
| T_End (e : env)
| T_NewColumn
| T_NewLine
| T_HLine (l : line_type)
| T_NoNumber
| T_Tag (parenthesized : bool)
| T_Label
| T_EqRef
| T_Left
| T_Right
| T_Middle
| T_SquareBracketOpen
| T_SquareBracketClose
| T_GroupBegin
| T_GroupEnd
| T_Dollar
| T_Frac (a : option frac_attr)
| T_InfixGenFrac (with_line : bool) (delim : option infix_delim)
| T_Genfrac
| T_Underscore
| T_Circumflex
| T_Prescript
| T_Sideset
| T_Binom (a : option frac_attr)
| T_Overset
| T_Underset
| T_OverUnderBrace (o : ord_like) (is_over : bool)
| T_Sqrt
| T_Limits (k : limits_kind)
| T_Space (l : length_t)
| T_CustomSpace (k : unit_kind)
| T_KernOrSkip (k : unit_kind)
| T_NonBreakingSpace
| T_Whitespace
| T_Transform (v : math_variant)
| T_TransformSwitch (v : math_variant)
| T_Big (s : size) (p : option paren_type)
| T_Accent (c : N) (is_over : bool) (a : op_attrs)
| T_Ord (o : ord_like)
| T_Op (o : op)
| T_BinaryOp (b : bin)
| T_Relation (r : rel)
| T_Open (o : ord_like)
| T_Close (o : ord_like)
| T_Punctuation (c : N)
| T_Inner (o : op)
| T_Prime (k : prime_kind)
| T_Dots
| T_ForceOrd (o : superchar)
| T_ForceBinaryOp (o : superchar)
| T_ForceRelation (o : superchar)
| T_ForceOpen (o : superchar) (s : force_stretchy)
| T_ForceClose (o : superchar) (s : force_stretchy)
| T_ForcePunctuation (o : superchar)
| T_ForceMathInner (o : superchar)
| T_ForceLargeOp (o : superchar)
| T_MathClass (k : math_class_kind)
| T_XArrow (r : rel)
| T_Letter (c : superchar) (m : mode)
| T_UprightLetter (c : superchar)
| T_Digit (c : N)
| T_PseudoOperator (s : str)
| T_PseudoOperatorLimits (s : str)
| T_Enclose (n : notation_t)
| T_OperatorName (with_limits : bool)
| T_Overlay (o : overlay)
| T_Text (s : option text_style)
| T_Style (s : style)
| T_Cramped
| T_Color
| T_Phantom (k : phantom_kind)
| T_CustomCmdArg (n : nat)
| T_CustomCmd (num_args : nat) (body : list token)
| T_CustomCmdArgInput (n : nat)
| T_CustomCmdRef (src : cmd_source) (num_args : nat) (cl : option class) (start stop : nat)
| T_NewCommand (m : define_mode)
| T_Let
| T_Def (global : bool)
| T_Global
| T_TextMode (t : text_token)
| T_MathOrTextMode (t : token) (c : N)
| T_VerticalLineDef (d : option vertical_line_def)
| T_UnresolvedCommand (name : str)
| T_InternalStringLiteral (s : str)
| T_Relax
| T_RaiseBox
| T_MathChoice
| T_MathChoiceInternal (cl : option class) (display text script scriptscript : token).

(** [Iterator::find_map] (std) *)
Fixpoint find_map {A B} (f : A -> option B) (l : list A) : option B :=
  match l with
  | [] => None
  | x :: r => match f x with Some y => Some y | None => find_map f r end
  end.

(** token.rs:547-657 [Token::class].  The [panic!] for a [CustomCmdArg] is only there in debug
    builds; the value is the one of a release build.  [unwrap_math_ref] removes one layer
    only, so the class of a token wrapped twice would be [Default]; [class_inner] is the match
    itself. *)
Fixpoint class_inner (t : token) : option class :=
  let cls u := match u with T_MathOrTextMode v _ => class_inner v | _ => class_inner u end in
  match t with
  | T_Relation _ | T_ForceRelation _ | T_XArrow _ => Some ClRelation
  | T_Punctuation _ | T_ForcePunctuation _ => Some ClPunctuation
  | T_Open _ | T_Left | T_SquareBracketOpen | T_ForceOpen _ _ | T_Begin _ | T_GroupBegin => Some ClOpen
  | T_Close _ | T_SquareBracketClose | T_ForceClose _ _ | T_Right | T_Middle => Some ClClose
  | T_BinaryOp _ | T_ForceBinaryOp _ => Some ClBinaryOp
  | T_Op _ | T_ForceLargeOp _ | T_PseudoOperator _ | T_PseudoOperatorLimits _ | T_OperatorName _ => Some ClOperator
  | T_End _ | T_NewLine | T_NewColumn | T_GroupEnd | T_Eoi => Some ClEnd
  | T_Inner _ | T_ForceMathInner _ | T_Dots => Some ClInner
  | T_Big _ (Some PtLeft) => Some ClOpen
  | T_Big _ (Some PtRight) => Some ClClose
  | T_Big _ (Some PtMiddle) => Some ClRelation
  | T_MathClass k =>
      Some match k with
           | MkOrd => ClDefault | MkOp => ClOperator | MkBin => ClBinaryOp | MkOpen => ClOpen
           | MkClose => ClClose | MkRel => ClRelation | MkPunct => ClPunctuation | MkInner => ClInner
           end
  | T_CustomCmd _ toks =>
      (fix go l := match l with [] => None | u :: r => match cls u with Some c => Some c | None => go r end end) toks
  | T_MathChoiceInternal cl _ _ _ _ => cl
  | T_CustomCmdRef _ _ cl _ _ => cl
  | T_MathChoice | T_Relax | T_Whitespace | T_Space _ | T_Overlay _ | T_TransformSwitch _ | T_NoNumber
  | T_Tag _ | T_CustomSpace _ | T_KernOrSkip _ | T_Limits _ | T_NonBreakingSpace | T_Label | T_EqRef
  | T_HLine _ | T_NewCommand _ | T_Let | T_Def _ | T_Global | T_VerticalLineDef _ | T_CustomCmdArgInput _ => None
  | T_CustomCmdArg _ => None
  | T_Letter _ _ | T_UprightLetter _ | T_Digit _ | T_Big _ None | T_Frac _ | T_InfixGenFrac _ _ | T_Genfrac
  | T_Underscore | T_Circumflex | T_Prescript | T_Sideset | T_Binom _ | T_Overset | T_Underset
  | T_OverUnderBrace _ _ | T_Sqrt | T_Transform _ | T_Ord _ | T_Prime _ | T_Enclose _ | T_Text _
  | T_RaiseBox | T_Style _ | T_Cramped | T_Color | T_Phantom _ | T_TextMode _ | T_MathOrTextMode _ _
  | T_UnresolvedCommand _ | T_InternalStringLiteral _ | T_ForceOrd _ | T_Dollar | T_Accent _ _ _ => Some ClDefault
  end.
Definition token_class (t : token) : option class :=
  match t with T_MathOrTextMode u _ => class_inner u | _ => class_inner t end.

(** token.rs:659-676 [unwrap_math_ref], [unwrap_math] *)
Definition unwrap_math (t : token) : token := match t with T_MathOrTextMode u _ => u | _ => t end.

(** token.rs:790-801 [EndToken::matches] *)
Definition end_matches (e : end_token) (t : token) : bool :=
  match e, t with
  | EtEnd, T_End _ | EtGroupClose, T_GroupEnd | EtRight, T_Right
  | EtSquareBracketClose, T_SquareBracketClose | EtEoi, T_Eoi => true
  | _, _ => false
  end.

(** token.rs:426-445 [PrimeKind::direction], [PrimeKind::count] *)
Definition prime_dir (k : prime_kind) : prime_direction :=
  match k with PrSingle | PrDouble | PrTriple | PrQuadruple => Forward | _ => Reversed end.
Definition prime_count (k : prime_kind) : nat :=
  match k with
  | PrSingle | PrReversed => 1 | PrDouble | PrReversedDouble => 2 | PrTriple | PrReversedTriple => 3
  | PrQuadruple => 4
  end%nat.

(** ** Spans *)

(** token.rs:685-728 [Span]; also the [Range<usize>] of an error *)
Record span := mkSpan { sp_start : nat; sp_end : nat }.
Definition span_zero_width (at_ : nat) : span := mkSpan at_ at_.
(** token.rs:730-774 [TokSpan], and [TokSpan::from] which uses the default span *)
Definition tokspan : Type := token * span.
Definition span_default : span := mkSpan 0 0.
