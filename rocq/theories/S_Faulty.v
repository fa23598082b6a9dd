(** Texts that are not formulas, with the kind of error that is due for each of them. *)
From Verif Require Import Str M_SuperChar M_Length M_Spec M_Ast M_Token M_Symbols M_Commands M_Env M_LatexError M_Lexer M_CustomCmds M_Queue M_Spacing M_Colors M_Leaf M_Parser M_Api
  S_Lexer S_Queue S_Scripts S_Formula S_Api S_Reading.
Local Open Scope nat_scope.

(** The first token that is not a blank, and the tokens after it; at the end there is none. *)
Definition first (w : list token) : token := unwrap_math (hd T_Eoi (bare w)).
Definition rest (w : list token) : list token := tl (bare w).
(** A literal in braces. *)
Definition braced (w : list token) (t : str) (k : list token) : Prop :=
  lit_ok t = true /\ bare w = T_GroupBegin :: map lit_tok t ++ T_GroupEnd :: k.

(** What ends a sequence. *)
Definition is_end (e : seq_end) (t : token) : bool :=
  match e, t with
  | SeqEnd EtEoi, T_Eoi | SeqEnd EtGroupClose, T_GroupEnd | SeqEnd EtRight, T_Right | SeqEnd EtEnd, T_End _ | SeqEnd EtSquareBracketClose, T_SquareBracketClose => true
  | SeqAny, (T_Eoi | T_GroupEnd | T_Right | T_End _) => true
  | _, _ => false
  end.
Definition closes (e : seq_end) (w : list token) : bool := is_end e (hd T_Eoi (bare w)).
(** The end of the sequence, seen by what comes before it. *)
Definition sees_end (w : list token) (c : class) : Prop :=
  match bare w with [] | T_GroupEnd :: _ | T_End _ :: _ => c = ClEnd | T_Right :: _ => c = ClClose | _ => False end.
(** No script comes next. *)
Definition no_script (w : list token) : bool :=
  match first w with T_Underscore | T_Circumflex | T_Prime _ | T_Limits _ | T_Whitespace => false | _ => true end.
Definition script_sign (t : token) : bool := match t with T_Underscore | T_Circumflex | T_Prime _ => true | _ => false end.
(** A number or a word is over. *)
Definition ended_head (tf : option math_variant) (h : head) (w : list token) : Prop :=
  match h with
  | HNum _ => is_digit_tok (hd T_Eoi (bare w)) = false /\ (is_full_stop (hd T_Eoi (bare w)) = true -> is_digit_tok (hd T_Eoi (bare (rest w))) = false)
  | HWord _ => word_char tf (hd T_Eoi (bare w)) = None
  | _ => True
  end.

(** Parts that go into a sequence, unlike arguments. *)
Definition takes_part (a : parse_as) : bool := match a with PaSequence | PaContinue => true | _ => false end.

(** Tokens that cannot stand where they are. *)
Definition misplaced (x : ctx) (a : parse_as) (t : token) : option err_kind :=
  match t with
  | T_Eoi => Some E_ExpectedArgumentGotEOI
  | T_GroupEnd => Some (if takes_part a then E_UnmatchedClose EtGroupClose else E_ExpectedArgumentGotClose)
  | T_Right => Some (if takes_part a then E_UnmatchedClose EtRight else E_ExpectedArgumentGotClose)
  | T_End _ => Some (if takes_part a then E_UnmatchedClose EtEnd else E_ExpectedArgumentGotClose)
  | T_NewColumn => if cx_cols x then None else Some (E_CannotBeUsedHere LtAmpersand TableEnv)
  | T_HLine Solid => Some (E_CannotBeUsedHere LtHLine ArrayRowStart)
  | T_HLine Dashed => Some (E_CannotBeUsedHere LtHDashLine ArrayRowStart)
  | T_Limits LkAlways => Some (E_CannotBeUsedHere LtLimits AfterBigOp)
  | T_Limits LkNever => Some (E_CannotBeUsedHere LtNoLimits AfterBigOp)
  | T_Limits LkDisplay => Some (E_CannotBeUsedHere LtDisplayLimits AfterBigOp)
  | T_TextMode _ => Some E_NotValidInMathMode
  | T_CustomCmdArgInput _ => Some E_MacroParameterOutsideCustomCommand
  | T_Dollar => Some E_UnexpectedDollar
  | T_TransformSwitch _ | T_NoNumber | T_Tag _ | T_Label | T_NewCommand _ | T_Let | T_Def _ | T_Global | T_InfixGenFrac _ _ => Some E_CannotBeUsedAsArgument
  | T_Style _ => if takes_part a then None else Some E_CannotBeUsedAsArgument
  | _ => None
  end.

(** The arguments of a command: the context in which each is read, how, and the class of what counts as being before it. *)
Definition plan (x : ctx) (a : parse_as) (prev : class) (t : token) : option (list (ctx * parse_as * class)) :=
  match t with
  | T_Frac attr | T_Binom attr =>
      let y := with_style (fraction_style (cx_style x) attr) x in Some [(y, PaArg, ClDefault); (y, PaArg, ClDefault)]
  | T_Sqrt | T_Phantom _ => Some [(x, PaArg, ClDefault)]
  | T_Cramped => Some [(x, PaArg, prev)]
  | T_XArrow _ => Some [(with_hack (with_style StScript x), PaArg, ClDefault)]
  | T_Enclose _ | T_Accent _ _ _ | T_OverUnderBrace _ _ => Some [(x, PaArgSpace, ClDefault)]
  | T_Overset | T_Underset => Some [(with_style StScript x, PaArg, ClDefault); (with_hack x, PaContinue, prev)]
  | T_Transform v => Some [(with_tf (Some v) x, PaArg, ClDefault)]
  | T_Prescript => Some [(x, PaArg, ClDefault); (x, PaArg, ClDefault); (x, PaArg, ClDefault)]
  | T_MathClass _ | T_Overlay _ => Some [(x, a, prev)]
  | _ => None
  end.
(** Commands with an optional argument. *)
Definition has_option (t : token) : bool := match t with T_Sqrt | T_Cramped | T_XArrow _ => true | _ => false end.
(** The context of a formula in brackets and of the argument after it. *)
Definition option_ctx (x : ctx) (t : token) : option ctx :=
  match t with T_Sqrt => Some x | T_XArrow _ => Some (with_hack (with_style StScript x)) | _ => None end.
(** Operators: the scripts after them are theirs. *)
Definition takes_scripts (t : token) : bool :=
  match t with
  | T_Op o => match op_cat o with PcC => false | _ => true end
  | T_ForceLargeOp _ | T_PseudoOperator _ | T_PseudoOperatorLimits _ => true
  | _ => false
  end.
Definition is_delimiter (t : token) : bool := match extract_delimiter (t, span_default) DmBig with Ok _ => true | _ => false end.
Definition is_fence (t : token) : bool := is_full_stop t || is_delimiter t.
(** Environments whose columns are given, and what comes before their first cell. *)
Definition has_columns (e : env) : bool := match e with EArray | EDArray | ESubarray => true | _ => false end.
Definition columns_given (e : env) (w k : list token) : Prop :=
  if has_columns e then exists t, braced w t k /\ parse_column_specification t <> None else k = w.
Definition top_line (e : env) (w k : list token) : Prop :=
  if env_allows_hlines e then match hd T_Eoi (bare w) with T_HLine _ => k = rest w | _ => k = w end else k = w.
Definition fresh_rows (e : env) (d : numbering) : numbering := mkNu (nu_count d) (nu_labels d) (numbered_env_state e).
Definition no_overlay (m : node) : bool :=
  match m with Operator _ _ _ _ _ | IdentifierChar _ _ | PseudoOp _ _ _ _ | IdentifierStr _ => false | _ => true end.
Definition limits_name (k : limits_kind) : limited_token := match k with LkAlways => LtLimits | LkNever => LtNoLimits | LkDisplay => LtDisplayLimits end.
Definition is_sub (v : mark_value) : bool := match v with VSub _ => true | _ => false end.
Definition is_sup (v : mark_value) : bool := match v with VSup _ => true | _ => false end.
(** Primes and a caret after them have been read as far as possible. *)
Definition mark_over (m : fmark) (w : list token) : bool :=
  match m with
  | FPrimes _ None => match unwrap_math (hd T_Eoi w) with T_Prime _ | T_Circumflex => false | _ => true end
  | _ => true
  end.

Section Faulty.
(** The meaning of names, the bodies of macros, whether unknown commands are passed over, and the highest number. *)
Context (mean : str -> token) (body_of : cmd_source -> nat -> nat -> option (list recorded)) (ignore : bool) (usize_max : N).
Notation den_item := (den_item mean usize_max).
Notation den_head := (den_head mean usize_max).
Notation den_arg := (den_arg mean usize_max).
Notation den_target := (den_target mean usize_max).
Notation den_mark := (den_mark mean usize_max).
Notation den_items := (den_items mean usize_max den_item).
Notation reads_items := (reads_items mean body_of ignore).
Notation reads_head := (reads_head mean body_of ignore).
Notation reads_arg := (reads_arg mean body_of ignore).
Notation reads_marks := (reads_marks mean body_of ignore).
Notation reads_mark := (reads_mark mean body_of ignore).
Notation script x := (with_style (style_scriptify (cx_style x)) x).

(** The tokens [w] are the rest of a sequence with the end [e]: an atom of the class [prev] comes before them, and a
    command like [\over] if [inf] is [true]. With [n] uses of macros at hand, it is an error of the kind [K]. *)
Inductive wrong_seq (K : err_kind) : ctx -> numbering -> seq_end -> class -> bool -> nat -> list token -> Prop :=
(* what comes first is all right *)
| ws_item x d e prev inf n w h n1 w1 ms n2 w2 c m d1 : closes e w = false -> reads_head true n w h n1 w1 -> ended_head (cx_tf x) h w1 -> reads_marks n1 w1 ms n2 w2 -> no_script w2 = true ->
    den_item x PaSequence prev (class_ahead w2 ClEnd) (Item h ms) d = Some ((c, m), d1) -> wrong_seq K x d1 e c inf n2 w2 -> wrong_seq K x d e prev inf n w
| ws_relax x d e prev inf n w : first w = T_Relax -> wrong_seq K x d e prev inf n (rest w) -> wrong_seq K x d e prev inf n w
| ws_alphabet x d e prev inf n w v : first w = T_TransformSwitch v -> wrong_seq K (with_tf (Some v) x) d e prev inf n (rest w) -> wrong_seq K x d e prev inf n w
| ws_over x d e prev n w line delim : first w = T_InfixGenFrac line delim -> wrong_seq K (with_style (style_shrink (cx_style x)) x) d e prev true n (rest w) ->
    wrong_seq K x d e prev false n w
| ws_column x d e prev inf n w : first w = T_NewColumn -> cx_cols x = true -> no_script (rest w) = true -> wrong_seq K x d e ClClose inf n (rest w) -> wrong_seq K x d e prev inf n w
| ws_newline x d e prev inf n w : first w = T_NewLine -> cx_rows x = false -> no_script (rest w) = true -> wrong_seq K x d e ClOpen inf n (rest w) -> wrong_seq K x d e prev inf n w
| ws_row x d e prev inf n w r d1 : first w = T_NewLine -> cx_rows x = true -> end_row usize_max false d = Some (r, d1) -> (forall l, hd T_Eoi (bare (rest w)) <> T_HLine l) -> no_script (rest w) = true ->
    wrong_seq K x d1 e ClOpen inf n (rest w) -> wrong_seq K x d e prev inf n w
| ws_row_line x d e prev inf n w r d1 l : first w = T_NewLine -> cx_rows x = true -> cx_hlines x = true -> end_row usize_max false d = Some (r, d1) ->
    hd T_Eoi (bare (rest w)) = T_HLine l -> no_script (rest (rest w)) = true -> wrong_seq K x d1 e ClOpen inf n (rest (rest w)) -> wrong_seq K x d e prev inf n w
| ws_no_number x d e prev inf n w u d1 : first w = T_NoNumber -> drow_if numbered_notag d = Some (u, d1) -> wrong_seq K x d1 e prev inf n (rest w) -> wrong_seq K x d e prev inf n w
| ws_tag x d e prev inf n w p t k u d1 : first w = T_Tag p -> braced (rest w) t k -> drow (fun r => Some (numbered_tag (mkTag t p) r)) d = Some (u, d1) ->
    wrong_seq K x d1 e prev inf n k -> wrong_seq K x d e prev inf n w
| ws_label x d e prev inf n w t k u d1 : first w = T_Label -> braced (rest w) t k -> drow (numbered_label t) d = Some (u, d1) -> wrong_seq K x d1 e prev inf n k -> wrong_seq K x d e prev inf n w
(* a switch takes all up to the end *)
| ws_style x d e prev inf n w st l ns d1 n1 k c : first w = T_Style st -> closes e w = false -> reads_items n (rest w) l n1 k -> sees_end k c -> den_items (in_bracket false (with_style st x)) c prev [] None l d = Some (ns, d1) ->
    wrong_seq K x d1 e ClDefault inf n1 k -> wrong_seq K x d e prev inf n w
| ws_color x d e prev inf n w t w1 rgb l ns d1 n1 k c : first w = T_Color -> closes e w = false -> braced (rest w) t w1 -> get_color t = Some rgb -> reads_items n w1 l n1 k -> sees_end k c ->
    den_items (in_bracket false x) c prev [] None l d = Some (ns, d1) -> wrong_seq K x d1 e ClDefault inf n1 k -> wrong_seq K x d e prev inf n w
(* what comes first is wrong *)
| ws_unclosed x d prev inf n w en : first w = T_Eoi -> en <> EtEoi -> K = E_UnclosedGroup en -> wrong_seq K x d (SeqEnd en) prev inf n w
| ws_over_twice x d e prev n w line delim : first w = T_InfixGenFrac line delim -> K = E_MoreThanOneInfixCmd -> wrong_seq K x d e prev true n w
| ws_tag_wrong x d e prev inf n w p t k : first w = T_Tag p -> braced (rest w) t k -> nu_row d = None -> K = E_CannotBeUsedHere (if p then LtTag else LtTagStar) NumberedEnv -> wrong_seq K x d e prev inf n w
| ws_label_wrong x d e prev inf n w t k : first w = T_Label -> braced (rest w) t k -> nu_row d = None -> K = E_CannotBeUsedHere LtLabel NumberedEnv -> wrong_seq K x d e prev inf n w
| ws_label_twice x d e prev inf n w t k r l : first w = T_Label -> braced (rest w) t k -> nu_row d = Some r -> ne_label r = Some l -> K = E_MoreThanOneLabel -> wrong_seq K x d e prev inf n w
| ws_tok x d e prev inf n w : closes e w = false -> silent (first w) = false -> wrong_tok K PaSequence prev x d n w -> wrong_seq K x d e prev inf n w
| ws_marks x d e prev inf n w h n1 w1 c m d1 : closes e w = false -> reads_head true n w h n1 w1 -> ended_head (cx_tf x) h w1 -> match h with HWord _ => False | _ => True end ->
    den_head x PaSequence prev (class_ahead w1 ClEnd) h d = Some ((c, m), d1) -> wrong_marks K x d1 false false n1 w1 -> wrong_seq K x d e prev inf n w
| ws_limits x d e prev inf n w h n1 w1 c m d1 ms n2 w2 vs d2 b k : closes e w = false -> reads_head true n w h n1 w1 -> ended_head (cx_tf x) h w1 -> match h with HWord _ => False | _ => True end ->
    den_head x PaSequence prev (class_ahead w1 ClEnd) h d = Some ((c, m), d1) -> reads_marks n1 w1 ms n2 w2 -> no_script w2 = true ->
    values (den_mark x) ms d1 = Some (vs, d2) -> scripts_of vs = Some (b, Some k) -> K = E_CannotBeUsedHere (limits_name k) AfterBigOp -> wrong_seq K x d e prev inf n w
(** The first of the tokens [w] is read as [a]; that is wrong, or what belongs to it is. *)
with wrong_tok (K : err_kind) : parse_as -> class -> ctx -> numbering -> nat -> list token -> Prop :=
| wt_misplaced a prev x d n w : misplaced x a (first w) = Some K -> wrong_tok K a prev x d n w
| wt_macro a prev x d n w u r m body args r' : bare w = u :: r -> macro_def body_of (unwrap_math u) = Some (m, body) -> body_ok m body -> grabs_all r args r' -> length args = m ->
    (ignore = true \/ Forall (fun t => known t = true) (unfolded mean args body)) -> wrong_tok K a prev x d n (unfolded mean args body ++ r') -> wrong_tok K a prev x d (S n) w
| wt_group a prev x d n w : first w = T_GroupBegin -> wrong_seq K x d (SeqEnd EtGroupClose) (match a with PaContinue => prev | _ => ClOpen end) false n (rest w) -> wrong_tok K a prev x d n w
| wt_args a prev x d n w p : plan x a prev (first w) = Some p -> (has_option (first w) = true -> first (rest w) <> T_SquareBracketOpen) -> wrong_args K p d n (rest w) -> wrong_tok K a prev x d n w
| wt_option a prev x d n w y : option_ctx x (first w) = Some y -> first (rest w) = T_SquareBracketOpen -> wrong_seq K y d (SeqEnd EtSquareBracketClose) ClOpen false n (rest (rest w)) ->
    wrong_tok K a prev x d n w
| wt_after_option a prev x d n w y l ns d1 n1 w1 k : option_ctx x (first w) = Some y -> first (rest w) = T_SquareBracketOpen -> reads_items n (rest (rest w)) l n1 w1 -> bare w1 = T_SquareBracketClose :: k ->
    den_items (in_bracket true y) ClClose ClOpen [] None l d = Some (ns, d1) -> wrong_tok K PaArg ClDefault y d1 n1 k -> wrong_tok K a prev x d n w
| wt_brace a prev x d n w o is_over g m d1 n1 w1 w2 : first w = T_OverUnderBrace o is_over -> reads_arg false n (rest w) g n1 w1 -> den_arg x PaArgSpace ClDefault g d = Some (m, d1) ->
    bare w1 = (if is_over then T_Circumflex else T_Underscore) :: w2 -> wrong_tok K PaArg ClDefault x d1 n1 w2 -> wrong_tok K a prev x d n w
| wt_operator a prev x d n w : takes_scripts (first w) = true -> wrong_marks K x d false false n (rest w) -> wrong_tok K a prev x d n w
| wt_script a prev x d n w : first w = T_Underscore \/ first w = T_Circumflex -> wrong_script K x d n (rest w) -> wrong_tok K a prev x d n w
| wt_after_script a prev x d n w g m d1 n1 w1 : first w = T_Underscore \/ first w = T_Circumflex -> reads_arg false n (rest w) g n1 w1 -> den_arg (script x) PaArg ClDefault g d = Some (m, d1) ->
    wrong_marks K x d1 (match first w with T_Underscore => true | _ => false end) (match first w with T_Underscore => false | _ => true end) n1 w1 -> wrong_tok K a prev x d n w
| wt_overlay a prev x d n w o g c m d1 n1 k : first w = T_Overlay o -> reads_arg false n (rest w) g n1 k -> den_target x a prev (class_ahead k ClEnd) g d = Some ((c, m), d1) -> no_overlay m = true ->
    K = E_ExpectedRelation -> wrong_tok K a prev x d n w
| wt_length a prev x d n w u t k : first w = T_CustomSpace u -> braced (rest w) t k -> parse_length_specification (trim_ascii t) = None -> K = E_ExpectedLength t -> wrong_tok K a prev x d n w
| wt_unit a prev x d n w u t k l unit is_math : first w = T_CustomSpace u -> braced (rest w) t k -> parse_length_specification (trim_ascii t) = Some (l, unit, is_math) ->
    is_math = (match u with UkMath => false | UkText => true end) -> K = E_IllegalUnit unit (negb is_math) -> wrong_tok K a prev x d n w
| wt_color a prev x d n w t k : first w = T_Color -> braced (rest w) t k -> get_color t = None -> K = E_UnknownColor t -> wrong_tok K a prev x d n w
| wt_color_arg a prev x d n w t k rgb : first w = T_Color -> braced (rest w) t k -> get_color t = Some rgb -> takes_part a = false -> K = E_CannotBeUsedAsArgument -> wrong_tok K a prev x d n w
| wt_color_in a prev x d n w t k rgb : first w = T_Color -> braced (rest w) t k -> get_color t = Some rgb -> takes_part a = true -> wrong_seq K x d SeqAny prev false n k -> wrong_tok K a prev x d n w
| wt_style_in a prev x d n w st : first w = T_Style st -> takes_part a = true -> wrong_seq K (with_style st x) d SeqAny prev false n (rest w) -> wrong_tok K a prev x d n w
| wt_middle a prev x d n w : first w = T_Middle -> is_delimiter (first (rest w)) = false -> K = E_ExpectedDelimiter DmMiddle -> wrong_tok K a prev x d n w
| wt_big a prev x d n w sz pt : first w = T_Big sz pt -> is_delimiter (first (rest w)) = false -> K = E_ExpectedDelimiter DmBig -> wrong_tok K a prev x d n w
| wt_left a prev x d n w : first w = T_Left -> is_fence (first (rest w)) = false -> K = E_ExpectedDelimiter DmLeft -> wrong_tok K a prev x d n w
| wt_fenced a prev x d n w : first w = T_Left -> is_fence (first (rest w)) = true -> wrong_seq K x d (SeqEnd EtRight) ClOpen false n (rest (rest w)) -> wrong_tok K a prev x d n w
| wt_right a prev x d n w l ns d1 n1 k k1 : first w = T_Left -> is_fence (first (rest w)) = true -> reads_items n (rest (rest w)) l n1 k -> den_items (in_bracket false x) ClClose ClOpen [] None l d = Some (ns, d1) ->
    bare k = T_Right :: k1 -> is_fence (first k1) = false -> K = E_ExpectedDelimiter DmRight -> wrong_tok K a prev x d n w
| wt_columns a prev x d n w e t k : first w = T_Begin e -> has_columns e = true -> braced (rest w) t k -> parse_column_specification t = None -> K = E_ExpectedColSpec t -> wrong_tok K a prev x d n w
| wt_env_arg a prev x d n w e w1 w2 : first w = T_Begin e -> columns_given e (rest w) w1 -> top_line e w1 w2 -> takes_part a = false -> K = E_CannotBeUsedAsArgument -> wrong_tok K a prev x d n w
| wt_env_in a prev x d n w e w1 w2 : first w = T_Begin e -> columns_given e (rest w) w1 -> top_line e w1 w2 -> takes_part a = true ->
    wrong_seq K (in_env e x) (fresh_rows e d) (SeqEnd EtEnd) ClOpen false n w2 -> wrong_tok K a prev x d n w
| wt_env_end a prev x d n w e w1 w2 l ns d1 n1 k e' k1 : first w = T_Begin e -> columns_given e (rest w) w1 -> top_line e w1 w2 -> takes_part a = true ->
    reads_items n w2 l n1 k -> den_items (in_env e x) ClEnd ClOpen [] None l (fresh_rows e d) = Some (ns, d1) -> bare k = T_End e' :: k1 -> e' <> e -> K = E_MismatchedEnvironment e e' -> wrong_tok K a prev x d n w
(** Arguments, read one after the other. *)
with wrong_args (K : err_kind) : list (ctx * parse_as * class) -> numbering -> nat -> list token -> Prop :=
| wa_here x a prev p d n w : wrong_tok K a prev x d n w -> wrong_args K ((x, a, prev) :: p) d n w
| wa_later x a prev p d n w g m d1 n1 w1 : takes_part a = false -> reads_arg false n w g n1 w1 -> den_arg x a prev g d = Some (m, d1) -> wrong_args K p d1 n1 w1 -> wrong_args K ((x, a, prev) :: p) d n w
(** Scripts; there has been a subscript before them, or not, and a superscript. *)
with wrong_marks (K : err_kind) : ctx -> numbering -> bool -> bool -> nat -> list token -> Prop :=
| wm_later x d sb sp n w m v d1 n1 w1 : reads_mark n w m n1 w1 -> mark_over m w1 = true -> den_mark x m d = Some (v, d1) -> sb && is_sub v = false -> sp && is_sup v = false ->
    wrong_marks K x d1 (sb || is_sub v) (sp || is_sup v) n1 w1 -> wrong_marks K x d sb sp n w
| wm_twice x d sb sp n w m v d1 n1 w1 : reads_mark n w m n1 w1 -> mark_over m w1 = true -> den_mark x m d = Some (v, d1) -> sb && is_sub v || sp && is_sup v = true -> K = E_DuplicateSubOrSup ->
    wrong_marks K x d sb sp n w
| wm_script x d sb sp n w : first w = T_Underscore \/ first w = T_Circumflex -> wrong_script K x d n (rest w) -> wrong_marks K x d sb sp n w
(** What comes after the sign of a script. *)
with wrong_script (K : err_kind) : ctx -> numbering -> nat -> list token -> Prop :=
| wc_none x d n w : first w = T_Eoi -> K = E_ExpectedArgumentGotEOI -> wrong_script K x d n w
| wc_sign x d n w : script_sign (first w) = true -> K = E_BoundFollowedByBound -> wrong_script K x d n w
| wc_tok x d n w : first w <> T_Eoi -> script_sign (first w) = false -> wrong_tok K PaArg ClDefault (script x) d n w -> wrong_script K x d n w.
End Faulty.
(** A text is no formula; [K] is the kind of error that is due. *)
Definition text_wrong (cfg : parser_cfg) (usize_max : N) (gs : global_state) (st : style) (input : str) (K : err_kind) : Prop :=
  exists w, text_tokens (name_meaning cfg gs) input = Some w /\ (pc_ignore_unknown cfg = true \/ Forall (fun t => known t = true) w) /\
  wrong_seq (name_meaning cfg gs) (macro_source cfg gs) (pc_ignore_unknown cfg) usize_max K (snippet_ctx st) (snippet_nu gs) (SeqEnd EtEoi) ClOpen false (pc_max_expansions cfg) w.

(** For examples. *)
Definition sym_x : sym := SChar 120.
Definition sym_1 : sym := SChar 49.
