(** Model of the spacing rules and small helpers of crates/math-core/src/parser.rs. *)
From Verif Require Import Str M_SuperChar M_Length M_Spec M_Ast M_Token M_Symbols M_Env M_LatexError M_Lexer M_CustomCmds M_Queue.

Definition is_script (st : style) : bool := match st with StScript | StScriptScript => true | _ => false end.
Definition spacing_pair : Type := option math_spacing * option math_spacing.
Definition zero_or (zero explicit : bool) (s : math_spacing) : option math_spacing :=
  if zero then Some MsZero else if explicit then Some s else None.

(** parser.rs:2936-2974 [mathop_spacing], once the next class is known *)
Definition mathop_spacing (st : style) (prev next : class) (explicit : bool) : spacing_pair :=
  (zero_or match prev with
           | ClRelation | ClPunctuation | ClOperator | ClInner | ClBinaryOp | ClOpen => true
           | _ => false
           end explicit ThreeMu,
   zero_or match next with
           | ClRelation | ClPunctuation | ClOpen | ClClose | ClEnd => true
           | ClInner => is_script st
           | _ => false
           end explicit ThreeMu).

(** parser.rs:3213-3243 [relation_spacing] *)
Definition relation_spacing (st : style) (prev next : class) (force : bool) : spacing_pair :=
  (zero_or (match prev with ClRelation | ClOpen | ClPunctuation => true | _ => false end || is_script st) force FiveMu,
   zero_or (match next with ClRelation | ClPunctuation | ClClose | ClEnd => true | _ => false end || is_script st) force FiveMu).

(** parser.rs:3245-3269 [bin_op_spacing] *)
Definition bin_op_spacing (st : style) (in_sequence : bool) (prev next : class) (force : bool) : option math_spacing :=
  if in_sequence then
    zero_or (match prev with ClRelation | ClPunctuation | ClBinaryOp | ClOperator | ClOpen => true | _ => false end
             || match next with ClRelation | ClPunctuation | ClClose | ClEnd => true | _ => false end
             || is_script st) force FourMu
  else None.

(** parser.rs:3271-3289 [punctuation_spacing] *)
Definition punctuation_spacing (st : style) (next : class) (force : bool) : spacing_pair :=
  (if force then Some MsZero else None,
   zero_or (match next with ClEnd => true | _ => false end || is_script st) force ThreeMu).

(** parser.rs:3291-3321 [mathinner_spacing] *)
Definition mathinner_spacing (st : style) (prev next : class) (force : bool) : spacing_pair :=
  (zero_or (match prev with ClRelation | ClPunctuation | ClOperator | ClBinaryOp | ClOpen => true | _ => false end
            || is_script st) force ThreeMu,
   zero_or (match next with ClRelation | ClBinaryOp | ClClose | ClEnd => true | _ => false end
            || (is_script st && match next with ClOperator => false | _ => true end)) force ThreeMu).

(** parser.rs:658-671 and 680-691: the class of a binary operator with the given spacing *)
Definition bin_class (spacing : option math_spacing) : class :=
  match spacing with Some MsZero => ClDefault | _ => ClBinaryOp end.

(** parser.rs:3357-3364 [middle_stretch_attrs] *)
Definition middle_stretch_attrs (o : stretchable_op) : op_attrs :=
  match so_stretchy o with
  | SyPrePostfix | SyNever => A_STRETCHY_TRUE
  | SyAlwaysAsymmetric => A_SYMMETRIC_TRUE
  | SyAlways => A_EMPTY
  end.

(** parser.rs:3367-3392 [extract_delimiter] *)
Definition extract_delimiter (t : tokspan) (location : delimiter_modifier) : res stretchable_op :=
  let delim :=
    match fst t with
    | T_Ord o | T_Open o | T_Close o => stretchable_from_ord o
    | T_Relation r => stretchable_from_rel r
    | T_ForceOpen o s | T_ForceClose o s => stretchable_from_force o s
    | T_SquareBracketOpen => OPEN_BRACKET
    | T_SquareBracketClose => CLOSE_BRACKET
    | _ => None
    end in
  match delim with
  | Some d => Ok d
  | None => Err (mkErr (snd t) (E_ExpectedDelimiter location))
  end.

(** parser.rs:3394-3404 [relation_attrs] *)
Definition relation_attrs (c : rel_category) : op_attrs :=
  match c with RcA => A_STRETCHY_FALSE | RcDefault => A_EMPTY | RcDandForceDefault => A_FORM_INFIX end.

(** parser.rs:3406-3408 [Bounds] *)
Record bounds := mkBounds { b_sub : option node; b_sup : option node }.
Definition bounds_none : bounds := mkBounds None None.
(** parser.rs:3411-3413 [is_trivial] *)
Definition bounds_trivial (b : bounds) : bool :=
  match b_sub b, b_sup b with None, None => true | _, _ => false end.
(** parser.rs:3416-3432 [try_wrap_node_underover], with the node itself for trivial bounds *)
Definition wrap_underover (b : bounds) (n : node) : node :=
  match b_sub b, b_sup b with
  | None, None => n
  | Some under, Some over => UnderOver n under over
  | Some symbol, None => Under symbol n
  | None, Some symbol => Over symbol n
  end.
(** parser.rs:3435-3451 [try_wrap_node_subsup] *)
Definition wrap_subsup (b : bounds) (n : node) : node :=
  match b_sub b, b_sup b with
  | None, None => n
  | Some sub, Some sup => SubSup n sub sup
  | Some symbol, None => Sub n symbol
  | None, Some symbol => Sup n symbol
  end.
Definition wrap_bounds (underover : bool) (b : bounds) (n : node) : node :=
  if underover then wrap_underover b n else wrap_subsup b n.
(** parser.rs:3454-3461 [MultiscriptPair::from] *)
Definition bounds_pair (b : bounds) : node * node :=
  (match b_sub b with Some n => n | None => EMPTY_ROW end, match b_sup b with Some n => n | None => EMPTY_ROW end).

(** parser.rs:3464-3494 [BoundsWithLimits] *)
Record bounds_limits := mkBl { bl_bounds : bounds; bl_limits : option (limits_kind * span) }.
Definition bl_none : bounds_limits := mkBl bounds_none None.
Definition bl_kind (b : bounds_limits) : option limits_kind := option_map fst (bl_limits b).
Definition ensure_no_limits (b : bounds_limits) : res bounds :=
  match bl_limits b with
  | Some (k, sp) => Err (mkErr sp (E_CannotBeUsedHere (limited_from_limits k) AfterBigOp))
  | None => Ok (bl_bounds b)
  end.

(** parser.rs:1058-1074: whether the bounds of an operator go under and over it, and its attributes *)
Definition op_limits (limits : option limits_kind) (movable trivial : bool) : bool * op_attrs :=
  if trivial then (false, A_EMPTY)
  else match limits, movable with
       | None, _ => (movable, A_EMPTY)
       | Some LkDisplay, true => (true, A_EMPTY)
       | Some LkDisplay, false => (true, A_FORCE_MOVABLE_LIMITS)
       | Some LkAlways, false => (true, A_EMPTY)
       | Some LkAlways, true => (true, A_NO_MOVABLE_LIMITS)
       | Some LkNever, _ => (false, A_EMPTY)
       end.
(** parser.rs:564-580 for [ForceLargeOp] *)
Definition large_op_limits (limits : option limits_kind) (trivial : bool) : bool * op_attrs :=
  let a := add_attr A_SYMMETRIC_TRUE A_LARGEOP_TRUE in
  if trivial then (true, a)
  else match limits with
       | None | Some LkDisplay => (true, add_attr a A_FORCE_MOVABLE_LIMITS)
       | Some LkAlways => (true, a)
       | Some LkNever => (false, a)
       end.
(** parser.rs:1100-1109 and 1588-1596 for pseudo operators *)
Definition pseudo_limits (limits : option limits_kind) (by_default trivial : bool) : bool * op_attrs :=
  if trivial then (false, A_EMPTY)
  else match limits, by_default with
       | None, true | Some LkDisplay, _ => (true, A_FORCE_MOVABLE_LIMITS)
       | None, false | Some LkNever, _ => (false, A_EMPTY)
       | Some LkAlways, _ => (true, A_EMPTY)
       end.

(** The node of an operator without size. *)
Definition op_node (o : superchar) (attrs : op_attrs) (sp : spacing_pair) : node := Operator o attrs None (fst sp) (snd sp).
Definition no_spacing : spacing_pair := (None, None).
Definition zero_spacing : spacing_pair := (Some MsZero, Some MsZero).

Definition stretches_by_itself (c : ord_category) : bool :=
  match c with OcF | OcG | OcFG | OcFGandForceDefault => true | _ => false end.
(** parser.rs:600-651: an ordinary symbol, and [|] with one of its special meanings *)
Definition is_vertical_line (o : ord_like) : bool :=
  (ord_char o =? ord_char SYM_VERTICAL_LINE) && Bool.eqb (ord_vs1 o) (ord_vs1 SYM_VERTICAL_LINE)
  && match ord_cat o, ord_cat SYM_VERTICAL_LINE with
     | OcD, OcD | OcE, OcE | OcDE, OcDE | OcF, OcF | OcG, OcG | OcFG, OcFG
     | OcFGandForceDefault, OcFGandForceDefault | OcI, OcI | OcK, OcK | OcIK, OcIK
     | OcKButUsedToBeB, OcKButUsedToBeB => true
     | _, _ => false
     end.
Definition ord_node (vld : option vertical_line_def) (o : ord_like) : node :=
  match is_vertical_line o, vld with
  | true, Some VldOpSpacingStretchy =>
      op_node (ord_as_op o) (add_attr A_FORM_INFIX A_STRETCHY_TRUE) (Some ThreeMu, Some ThreeMu)
  | true, Some VldRelSpacingStretchy => op_node (ord_as_op o) (add_attr A_FORM_INFIX A_STRETCHY_TRUE) no_spacing
  | true, Some VldRelSpacing => op_node (ord_as_op o) A_FORM_INFIX no_spacing
  | _, _ =>
      op_node (ord_as_op o) (if stretches_by_itself (ord_cat o) then A_STRETCHY_FALSE else A_EMPTY)
              (match ord_cat o with OcKButUsedToBeB | OcFGandForceDefault => zero_spacing | _ => no_spacing end)
  end.
(** parser.rs:1288-1328: opening and closing symbols *)
Definition paren_node (open : bool) (o : ord_like) : node :=
  let form := match ord_cat o with
              | OcFG | OcFGandForceDefault | OcDE => if open then A_FORM_PREFIX else A_FORM_POSTFIX
              | _ => A_EMPTY
              end in
  op_node (ord_as_op o) (if stretches_by_itself (ord_cat o) then add_attr form A_STRETCHY_FALSE else form) no_spacing.

(** parser.rs:1394-1402: attributes of a sized delimiter *)
Definition big_attrs (p : stretchable_op) : op_attrs :=
  match so_stretchy p with
  | SyPrePostfix | SyNever => add_attr A_STRETCHY_TRUE A_SYMMETRIC_TRUE
  | SyAlwaysAsymmetric => A_SYMMETRIC_TRUE
  | SyAlways => A_EMPTY
  end.
(** parser.rs:1389-1393: its class *)
Definition big_class (p : option paren_type) : class :=
  match p with
  | Some PtLeft => ClOpen | Some PtRight => ClClose | Some PtMiddle => ClRelation | None => ClDefault
  end.
(** parser.rs:1405-1452: the attributes and the spacing *)
Definition big_spacing (st : style) (prev next : class) (pt : option paren_type) (p : stretchable_op)
  : op_attrs * spacing_pair :=
  let attrs := big_attrs p in
  match pt with
  | Some PtMiddle =>
      (match so_spacing p with DsInfixRelation => add_attr attrs A_FORM_INFIX | _ => attrs end,
       relation_spacing st prev next
         (match so_spacing p with DsInfixRelation | DsRelation => false | _ => true end))
  | _ =>
      match so_spacing p, pt with
      | DsInfixRelation, Some PtLeft => (add_attr attrs A_FORM_PREFIX, no_spacing)
      | DsInfixRelation, Some _ => (add_attr attrs A_FORM_POSTFIX, no_spacing)
      | DsZero, _ => (attrs, no_spacing)
      | _, _ => (attrs, zero_spacing)
      end
  end.

(** token.rs:447-457 [PrimeKind::to_ord] and 459-540 [to_node] *)
Definition prime_ord (k : prime_kind) : ord_like :=
  match k with
  | PrSingle => SYM_PRIME | PrDouble => SYM_DOUBLE_PRIME | PrTriple => SYM_TRIPLE_PRIME
  | PrQuadruple => SYM_QUADRUPLE_PRIME | PrReversed => SYM_REVERSED_PRIME
  | PrReversedDouble => SYM_REVERSED_DOUBLE_PRIME | PrReversedTriple => SYM_REVERSED_TRIPLE_PRIME
  end.
Definition prime_node (k : prime_kind) : node := op_node (ord_as_op (prime_ord k)) A_EMPTY no_spacing.

(** parser.rs:2833-2842: the run of primes, as counts of equal direction *)
Definition dir_eqb (a b : prime_direction) : bool :=
  match a, b with Forward, Forward | Reversed, Reversed => true | _, _ => false end.
Fixpoint add_prime (k : prime_kind) (l : list (prime_direction * nat)) : list (prime_direction * nat) :=
  match l with
  | [] => [(prime_dir k, prime_count k)]
  | [(d, n)] => if dir_eqb d (prime_dir k) then [(d, (n + prime_count k)%nat)] else [(d, n); (prime_dir k, prime_count k)]
  | x :: r => x :: add_prime k r
  end.
(** parser.rs:2854-2898: the nodes of a run; a count is never zero *)
Definition PRIME_SPACE : node := Space (mkLength (S754_finite true 11180337 (-27)) Em).
Definition primes_of (d : prime_direction) : list ord_like :=
  match d with
  | Forward => [SYM_PRIME; SYM_DOUBLE_PRIME; SYM_TRIPLE_PRIME; SYM_QUADRUPLE_PRIME]
  | Reversed => [SYM_REVERSED_PRIME; SYM_REVERSED_DOUBLE_PRIME; SYM_REVERSED_TRIPLE_PRIME]
  end.
Definition prime_symbol (o : ord_like) : node := op_node (ord_as_op o) A_EMPTY no_spacing.
Definition primes_nodes (p : prime_direction * nat) : list node :=
  let arr := primes_of (fst p) in
  match nth_error arr (snd p - 1) with
  | Some o => [prime_symbol o]
  | None =>
      let one := prime_symbol (hd SYM_PRIME arr) in
      one :: concat (repeat [PRIME_SPACE; one] (snd p - 1))
  end.

(** parser.rs:1143-1166 [after_first_char_and_vs], and the insertion of the overlay there *)
Definition overlay_insert (c : N) (s : str) : str :=
  match s with
  | [] => [c]
  | [a] => [a; c]
  | a :: v :: r => if (0xFE00 <=? v) && (v <? 0xFE0F) then a :: v :: c :: r else a :: c :: v :: r
  end.
