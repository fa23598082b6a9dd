(** Model of crates/math-core/src/text_parser.rs. *)
From Verif Require Import Str M_SuperChar M_Length M_Spec M_Ast M_Token M_Symbols M_Env
  M_LatexError M_Lexer M_CustomCmds M_Queue M_Spacing M_Leaf.

(** text_parser.rs:21-27 [TextSnippet] *)
Record snippet := mkSnip { sn_style : option text_style; sn_size : option text_size; sn_voffset : option length_set; sn_text : str }.

(** text_parser.rs:36-46: the state of [extract_text]; the tops of the stacks are first *)
Record text_state := mkTx {
  tx_styles : list (nat * option text_style * option length_set);
  tx_builder : option str;
  tx_snips : list snippet;
  tx_accent : option N;
  tx_nest : nat;
  tx_sizes : list (nat * nat * text_size) }.
Definition text_start (st : option text_style) (vo : option length_set) : text_state :=
  mkTx [(O, st, vo)] None [] None O [].
Definition tx_size (s : text_state) : option text_size :=
  match tx_sizes s with (_, _, z) :: _ => Some z | [] => None end.

(** text_parser.rs:382-399 [discard_dead_sizes] *)
Fixpoint discard_dead_sizes (l : list (nat * nat * text_size)) (depth nest : nat) : list (nat * nat * text_size) :=
  match l with
  | (d, n, _) :: r =>
      if ((depth <? d) || ((d =? depth) && (nest <? n)))%nat then discard_dead_sizes r depth nest else l
  | [] => []
  end.

(** derived [PartialEq] on lengths *)
Definition unit_eqb (a b : length_unit) : bool :=
  match a, b with Rem, Rem | Em, Em | Ex, Ex => true | _, _ => false end.
Definition length_eqb (a b : length_t) : bool := SFeqb (len_value a) (len_value b) && unit_eqb (len_unit a) (len_unit b).
Definition set_eqb (a b : length_set) : bool :=
  SFeqb (set_rem a) (set_rem b) && SFeqb (set_em a) (set_em b) && SFeqb (set_ex a) (set_ex b).
Definition F32_1 : f32 := S754_finite false 8388608 (-23).
Definition F32_3 : f32 := S754_finite false 12582912 (-22).
Definition F32_4 : f32 := S754_finite false 8388608 (-21).
Definition F32_5 : f32 := S754_finite false 10485760 (-21).
(** text_parser.rs:323-333: spaces which have a character *)
Definition space_char (l : length_t) : option N :=
  if length_eqb l (mkLength F32_1 Em) then Some 0x2003
  else if length_eqb l (length_with_unit UMu F32_5) then Some 0x2004
  else if length_eqb l (length_with_unit UMu F32_4) then Some 0x205F
  else if length_eqb l (length_with_unit UMu F32_3) then Some 0x2009
  else None.

(** What one token does. *)
Inductive text_result :=
| TrNext (s : text_state)
| TrRaise (s : text_state)
| TrErr (k : err_kind)
| TrCrash.

(** The finished text in the builder becomes a snippet, unless it is empty. *)
Definition flush (st : option text_style) (size : option text_size) (vo : option length_set) (text : str) : list snippet :=
  match text with [] => [] | _ => [mkSnip st size vo text] end.
Definition flush_opt st size vo (b : option str) : list snippet :=
  match b with Some text => flush st size vo text | None => [] end.

(** text_parser.rs:120-134 and other places: the end of the topmost style; the builder is [None] before *)
Definition pop_style (snips : list snippet) (s : text_state) : text_state :=
  match tx_styles s with
  | [] => s
  | (previous, _, _) :: rest =>
      mkTx rest (match rest with [] => None | _ => Some [] end) snips (tx_accent s) previous
           (discard_dead_sizes (tx_sizes s) (length rest) previous)
  end.
(** text_parser.rs:100-115, 207-223 and 235-251: a new style *)
Definition push_style (st : option text_style) (vo : option length_set) (snips : list snippet) (s : text_state) : text_state :=
  mkTx ((tx_nest s, st, vo) :: tx_styles s) None snips (tx_accent s) O (tx_sizes s).
(** text_parser.rs:352-372: one character *)
Definition push_char (c : superchar) (st : option text_style) (size : option text_size) (vo : option length_set)
  (s : text_state) : text_result :=
  match sc_chars c with
  | None => TrCrash
  | Some text =>
      match tx_builder s with
      | Some b =>
          TrNext (mkTx (tx_styles s)
                       (Some (b ++ text ++ match tx_accent s with Some a => [a] | None => [] end))
                       (tx_snips s) None (tx_nest s) (tx_sizes s))
      | None => TrNext (pop_style (tx_snips s ++ [mkSnip st size vo text]) s)
      end
  end.
(** text_parser.rs:150-167 and 305-320: a whole string at once *)
Definition push_string (str : str) (st : option text_style) (size : option text_size) (vo : option length_set)
  (s : text_state) : text_result :=
  match tx_builder s with
  | Some b => TrNext (mkTx (tx_styles s) (Some (b ++ str)) (tx_snips s) (tx_accent s) (tx_nest s) (tx_sizes s))
  | None => TrNext (pop_style (tx_snips s ++ [mkSnip st size vo str]) s)
  end.

(** text_parser.rs:224-232: the style within a style *)
Definition combine_style (current new : option text_style) : option text_style :=
  match current, new with
  | Some TsEmphasis, Some TsEmphasis => None
  | Some TsBold, Some TsItalic | Some TsItalic, Some TsBold => Some TsBoldItalic
  | _, _ => new
  end.

(** text_parser.rs:60-351: the effect of a token under the topmost style *)
Definition text_token_step (text_mode : bool) (t : token) (st : option text_style) (vo : option length_set)
  (s : text_state) : text_result :=
  let size := tx_size s in
  let char c := push_char c st size vo s in
  let sstr x := push_string x st size vo s in
  let flushed := tx_snips s ++ flush_opt st size vo (tx_builder s) in
  match t with
  | T_Dollar => TrErr (if text_mode then E_NestedMathModeUnimplemented else E_UnexpectedDollar)
  | T_TextMode x =>
      if text_mode then
        match x with
        | TtAccent a =>
            match tx_builder s with
            | Some _ => TrNext (mkTx (tx_styles s) (tx_builder s) (tx_snips s) (Some a) (tx_nest s) (tx_sizes s))
            | None => TrErr E_ExpectedArgumentGotEOI
            end
        | TtLetter c => char (sc_from_char c)
        | TtStyle style => TrNext (push_style (Some style) vo flushed s)
        | TtSize z =>
            match tx_builder s with
            | Some b =>
                TrNext (mkTx (tx_styles s) (Some []) flushed (tx_accent s) (tx_nest s)
                             ((length (tx_styles s), tx_nest s, z) :: tx_sizes s))
            | None => TrNext (pop_style (tx_snips s) s)
            end
        end
      else TrErr E_NotValidInMathMode
  | T_Letter c MMathOrText => char c
  | T_SquareBracketOpen => char (ord_as_op SYM_LEFT_SQUARE_BRACKET)
  | T_SquareBracketClose => char (ord_as_op SYM_RIGHT_SQUARE_BRACKET)
  | T_Digit d => char (sc_from_char d)
  | T_Whitespace | T_NonBreakingSpace => char (sc_from_char SYM_NO_BREAK_SPACE)
  | T_InternalStringLiteral str => sstr str
  | T_GroupBegin =>
      TrNext (match tx_builder s with
              | None => mkTx (tx_styles s) (Some []) (tx_snips s) (tx_accent s) (tx_nest s) (tx_sizes s)
              | Some _ => mkTx (tx_styles s) (tx_builder s) (tx_snips s) (tx_accent s) (S (tx_nest s)) (tx_sizes s)
              end)
  | T_GroupEnd =>
      match tx_builder s with
      | None => TrErr E_ExpectedArgumentGotClose
      | Some b =>
          match tx_nest s with
          | S nest =>
              let had_sizes := match tx_sizes s with
                               | (d, n, _) :: _ => (d =? length (tx_styles s)) && (nest <? n)
                               | [] => false
                               end%nat in
              TrNext (if had_sizes then
                        mkTx (tx_styles s) (Some []) flushed (tx_accent s) nest
                             (discard_dead_sizes (tx_sizes s) (length (tx_styles s)) nest)
                      else mkTx (tx_styles s) (Some b) (tx_snips s) (tx_accent s) nest (tx_sizes s))
          | O => TrNext (pop_style flushed s)
          end
      end
  | T_MathOrTextMode _ c => char (sc_from_char c)
  | T_Text style => TrNext (push_style (combine_style st style) vo flushed s)
  | T_RaiseBox =>
      TrRaise (mkTx (tx_styles s) (tx_builder s) flushed (tx_accent s) (tx_nest s) (tx_sizes s))
  | T_Eoi => TrErr (match tx_builder s with Some _ => E_UnclosedGroup EtGroupClose | None => E_ExpectedArgumentGotEOI end)
  | T_Right | T_End _ => TrErr E_ExpectedArgumentGotClose
  | _ =>
      if text_mode then TrErr E_NotValidInTextMode
      else
        match t with
        | T_Letter c _ | T_UprightLetter c => char c
        | T_Open o | T_Close o | T_Ord o => char (ord_as_op o)
        | T_BinaryOp o => char (bin_as_op o)
        | T_Relation o => char (rel_as_op o)
        | T_ForceRelation o => char o
        | T_Punctuation c => char (sc_from_char c)
        | T_PseudoOperator name | T_PseudoOperatorLimits name => sstr name
        | T_Space l =>
            match space_char l with
            | Some c => char (sc_from_char c)
            | None => TrNext (match tx_builder s with Some _ => s | None => pop_style (tx_snips s) s end)
            end
        | T_Prime k => char (ord_as_op (prime_ord k))
        | _ => TrErr E_CouldNotExtractText
        end
  end.

(** text_parser.rs:247-276 and parser.rs:1650-1671: the length of [\raisebox] *)
Definition raise_length (spec : str) (sp : span) : res length_set :=
  match parse_length_specification spec with
  | Some (l, unit, is_math) =>
      if is_math then Err (mkErr sp (E_IllegalUnit unit false)) else Ok (set_of_length l)
  | None => Err (mkErr sp (E_ExpectedLength spec))
  end.

Section Text.
Context (cfg : parser_cfg) (text_mode : bool).

(** text_parser.rs:48-375: the loop of [extract_text] *)
Fixpoint text_loop (fuel : nat) (s : text_state) : St queue (list snippet) :=
  match tx_styles s with
  | [] => sret (tx_snips s)
  | (_, st, vo) :: _ =>
      match fuel with
      | O => scrash OutOfFuel
      | S f =>
          let* t := (if text_mode then q_next_any cfg else q_next cfg) in
          match text_token_step text_mode (qt_tok t) st vo s with
          | TrNext s' => text_loop f s'
          | TrRaise s' =>
              let* '(spec, sp) := parse_string_literal cfg in
              let* new := sres (raise_length spec sp) in
              text_loop f (push_style st (Some (match vo with Some v => set_add v new | None => new end)) (tx_snips s') s')
          | TrErr k => sfail (qt_span t) k
          | TrCrash => scrash Undefined
          end
      end
  end.
(** text_parser.rs:30-377 [extract_text] *)
Definition extract_text (st : option text_style) (vo : option length_set) : St queue (list snippet) :=
  fun q => text_loop (S (q_size q)) (text_start st vo) q.
End Text.
