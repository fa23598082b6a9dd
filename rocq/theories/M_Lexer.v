(** Model of crates/math-core/src/lexer.rs. *)
From Verif Require Import Str M_SuperChar M_Ast M_Token M_Symbols M_Commands M_Env M_LatexError.

(** lexer.rs:20-25 [Lexer]: the byte offset of the peeked character and the characters from it on. *)
Record lexer := mkLexer { lx_pos : nat; lx_rest : str }.
(** lexer.rs:29-38 [new] *)
Definition lexer_new (input : str) : lexer := mkLexer 0 input.

(** lexer.rs:315-318 [LexerOutput] *)
Inductive lexer_output := LexTok (t : tokspan) | LexCmd (name : str) (sp : span).

(** The longest prefix whose characters satisfy [p], and the rest. *)
Fixpoint span_while (p : N -> bool) (s : str) : str * str :=
  match s with
  | [] => ([], [])
  | c :: r => if p c then let (a, b) := span_while p r in (c :: a, b) else ([], s)
  end.

(** Moving the lexer past [consumed]. *)
Definition lex_advance (l : lexer) (consumed rest : str) : lexer := mkLexer (lx_pos l + blen consumed) rest.

(** lexer.rs:59-71 [skip_whitespace]: the span of the first skipped character *)
Definition skip_whitespace (l : lexer) : option span * lexer :=
  let (ws, rest) := span_while is_ascii_ws (lx_rest l) in
  (match ws with [] => None | c :: _ => Some (mkSpan (lx_pos l) (lx_pos l + len_utf8 c)) end,
   lex_advance l ws rest).

(** lexer.rs:74-97 [read_command]: the name, and the offset after it is the new position *)
Definition read_command (l : lexer) : str * lexer :=
  let (letters, r1) := span_while is_ascii_alpha (lx_rest l) in
  let (name, r2) := match r1 with
                    | 42 :: r => (letters ++ [42], r)
                    | _ => (letters, r1)
                    end in
  match name with
  | [] => match r2 with
          | [] => ([], l)
          | c :: r => ([c], lex_advance l [c] r)
          end
  | _ => (name, lex_advance l name r2)
  end.

Definition env_name_char (c : N) : bool := is_ascii_alpha c || is_ascii_ws c || (c =? 42).

(** lexer.rs:108-136 [read_env_name]: the name and the end offset, or the offending character (none
    at the end of the input) and its span *)
Definition read_env_name (l : lexer) : (str * nat + option N * span) * lexer :=
  match lx_rest l with
  | [] => (inr (None, span_zero_width (lx_pos l)), l)
  | c :: r =>
      let l1 := lex_advance l [c] r in
      if c =? 123 then
        let (name, r1) := span_while env_name_char r in
        let l2 := lex_advance l1 name r1 in
        match r1 with
        | [] => (inr (None, span_zero_width (lx_pos l2)), l2)
        | d :: r2 =>
            let l3 := lex_advance l2 [d] r2 in
            if d =? 125 then (inl (name, (lx_pos l2 + 1)%nat), l3)
            else (inr (Some d, mkSpan (lx_pos l2) (lx_pos l2 + len_utf8 d)), l3)
        end
      else if is_ascii_alpha c || (c =? 42) then (inl ([c], lx_pos l1), l1)
      else (inr (Some c, mkSpan (lx_pos l) (lx_pos l + len_utf8 c)), l1)
  end.

(** lexer.rs:258-309 [parse_env_marker] *)
Definition parse_env_marker (l : lexer) (sp : span) (cmd : str) : (lexer_output + latex_error) * lexer :=
  let is_begin := str_eqb cmd (lit "begin") in
  if is_begin || str_eqb cmd (lit "end") then
    let (_, l1) := skip_whitespace l in
    let group_loc := lx_pos l1 in
    match read_env_name l1 with
    | (inl (name, end_), l2) =>
        match env_from_str name with
        | Some e => (inl (LexTok (if is_begin then T_Begin e else T_End e, mkSpan (sp_start sp) end_)), l2)
        | None => (inr (mkErr (mkSpan group_loc end_) (E_UnknownEnvironment name)), l2)
        end
    | (inr (None, esp), l2) => (inr (mkErr esp (E_UnclosedGroup EtGroupClose)), l2)
    | (inr (Some c, esp), l2) => (inr (mkErr esp (E_DisallowedChar c)), l2)
    end
  else (inl (LexCmd cmd sp), l).

(** lexer.rs:154-165: skipping one comment after its [%], the blanks of the next line, and any
    comments that follow (the recursive call of [next_token] finds a non-blank character).
    [in_comment] tells whether the end of the line is still to be found. *)
Fixpoint skip_comments (in_comment : bool) (s : str) : str :=
  match s with
  | [] => []
  | c :: r =>
      if in_comment then skip_comments (negb (c =? 10)) r
      else if is_ascii_ws c then skip_comments false r
      else if c =? 37 then skip_comments true r
      else s
  end.

(** The input after the comments at its front, if there are any. *)
Definition after_comments (s : str) : str := match s with 37 :: r => skip_comments true r | _ => s end.

(** commands.rs:1929-1933 [get_operator_from_unicode] *)
Fixpoint assoc_n {A} (k : N) (m : list (N * A)) : option A :=
  match m with [] => None | (k', v) :: r => if k =? k' then Some v else assoc_n k r end.
Definition get_operator_from_unicode (c : N) : option token :=
  match assoc_n c UNICODE_OPERATORS with Some t => Some (T_MathOrTextMode t c) | None => None end.

(** lexer.rs:173-253, the characters that make a token on their own *)
Definition char_token (c : N) : token :=
  if c =? 32 then T_Letter SYM_NO_BREAK_SPACE MMathOrText
  else if c =? 34 then T_Letter SYM_RIGHT_DOUBLE_QUOTATION_MARK MMathOrText
  else if c =? 36 then T_Dollar
  else if c =? 38 then T_NewColumn
  else if c =? 39 then T_MathOrTextMode (T_Prime PrSingle) 8217
  else if c =? 60 then T_MathOrTextMode (T_Relation SYM_LESS_THAN_SIGN) 60
  else if c =? 62 then T_MathOrTextMode (T_Relation SYM_GREATER_THAN_SIGN) 62
  else if c =? 91 then T_SquareBracketOpen
  else if c =? 93 then T_SquareBracketClose
  else if c =? 94 then T_Circumflex
  else if c =? 95 then T_Underscore
  else if c =? 96 then T_Letter SYM_LEFT_SINGLE_QUOTATION_MARK MMathOrText
  else if c =? 123 then T_GroupBegin
  else if c =? 125 then T_GroupEnd
  else if c =? 126 then T_NonBreakingSpace
  else if c =? 33 then T_MathOrTextMode (T_Close SYM_EXCLAMATION_MARK) 33
  else if c =? 40 then T_MathOrTextMode (T_Open SYM_LEFT_PARENTHESIS) 40
  else if c =? 41 then T_MathOrTextMode (T_Close SYM_RIGHT_PARENTHESIS) 41
  else if c =? 42 then T_MathOrTextMode (T_ForceBinaryOp (op_as_op SYM_ASTERISK_OPERATOR)) 42
  else if c =? 43 then T_MathOrTextMode (T_BinaryOp SYM_PLUS_SIGN) 43
  else if c =? 44 then T_MathOrTextMode (T_Punctuation SYM_COMMA) 44
  else if c =? 45 then T_MathOrTextMode (T_BinaryOp SYM_MINUS_SIGN) 45
  else if c =? 47 then T_MathOrTextMode (T_Ord SYM_SOLIDUS) 47
  else if c =? 58 then T_MathOrTextMode (T_ForceRelation (SYM_COLON)) 58
  else if c =? 59 then T_MathOrTextMode (T_Punctuation SYM_SEMICOLON) 59
  else if c =? 61 then T_MathOrTextMode (T_Relation SYM_EQUALS_SIGN) 61
  else if c =? 124 then T_MathOrTextMode (T_Ord SYM_VERTICAL_LINE) 124
  else if is_ascii_digit c then T_Digit c
  else if is_ascii_alpha c then T_Letter c MMathOrText
  else match get_operator_from_unicode c with
       | Some t => t
       | None => T_Letter c MMathOrText
       end.

(** lexer.rs:150-256: the token starting at the first character [c] (not a blank, not a comment) *)
Definition lex_char (l : lexer) (c : N) (r : str) : (lexer_output + latex_error) * lexer :=
  let loc := lx_pos l in
  let l1 := lex_advance l [c] r in
  let sp := mkSpan loc (loc + len_utf8 c) in
  if c =? 0 then (inr (mkErr (mkSpan loc (loc + 1)) (E_DisallowedChar c)), l1)
  else if c =? 35 then
    match r with
    | d :: r' =>
        if is_ascii_digit d then
          if d =? 48 then (inr (mkErr (mkSpan (loc + 1) (loc + 2)) E_InvalidParameterNumber), l1)
          else (inl (LexTok (T_CustomCmdArgInput (N.to_nat (d - 49)), mkSpan loc (loc + 2))), lex_advance l1 [d] r')
        else (inr (mkErr (mkSpan (lx_pos l1) (lx_pos l1 + len_utf8 d)) E_InvalidParameterNumber), lex_advance l1 [d] r')
    | [] => (inr (mkErr (span_zero_width (lx_pos l1)) E_ExpectedParamNumberGotEOI), l1)
    end
  else if c =? 92 then
    let (cmd, l2) := read_command l1 in
    let sp := mkSpan loc (lx_pos l2) in
    let (_, l3) := skip_whitespace l2 in
    parse_env_marker l3 sp cmd
  else (inl (LexTok (char_token c, sp)), l1).

(** lexer.rs:142-256 [next_token] *)
Definition next_token (l : lexer) : (lexer_output + latex_error) * lexer :=
  match skip_whitespace l with
  | (Some sp, l1) => (inl (LexTok (T_Whitespace, sp)), l1)
  | (None, _) =>
      (* no blank at the front: skip comments, if there are any *)
      let rest := after_comments (lx_rest l) in
      let l1 := mkLexer (lx_pos l + (blen (lx_rest l) - blen rest)) rest in
      match rest with
      | [] => (inl (LexTok (T_Eoi, span_zero_width (lx_pos l1))), l1)
      | c :: r => lex_char l1 c r
      end
  end.

(** lexer.rs:326-342 [recover_limited_ascii] *)
Definition recover_limited_ascii (t : token) : option N :=
  match t with
  | T_Letter ch _ =>
      match sc_try_as_char ch with
      | Some c => if is_ascii_alpha c || (c =? 46) || (c =? 63) || (c =? 64) then Some c else None
      | None => None
      end
  | T_Digit ch | T_MathOrTextMode _ ch =>
      if is_ascii ch && negb ((ch =? 38) || (ch =? 123) || (ch =? 125)) then Some ch else None
  | T_Whitespace => Some 32
  | _ => None
  end.
