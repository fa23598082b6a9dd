(** A language of formulas, how they are written, and what they mean.

    A formula is a list of items: an atom with the scripts after it. Its meaning is the syntax tree, defined by
    recursion on the formula without any reference to the parser: no tokens are read, and nothing is set and
    put back. *)
From Verif Require Import Str M_SuperChar M_Transform M_Length M_Spec M_Ast M_Token M_Symbols M_Commands M_Env
  M_LatexError M_Lexer M_CustomCmds M_Queue M_Spacing M_Colors M_Leaf M_TextParser M_Parser S_Queue S_Scripts S_Choice.

(** ** Formulas *)

(** A character, or a command. *)
(** A character, a name, or a token that cannot be written down by itself but may come from a macro. *)
Inductive sym := SChar (c : N) | SName (name : str) | STok (t : token).
Inductive item := Item (h : head) (marks : list fmark)
with head :=
| HSym (s : sym) (args : list arg)                        (* a character or a command with its arguments *)
| HNum (s : str)                                          (* a number *)
| HWord (l : list sym)                                    (* letters and digits in an alphabet that is in force *)
| HGroup (l : list item)                                  (* [{...}] *)
| HFence (open : sym) (l : list item) (close : sym)       (* [\left( ... \right)] *)
| HEnv (e : env) (args : list arg) (l : list item)        (* [\begin{...} ... \end{...}] *)
with arg :=
| AGroup (l : list item)                                  (* [{...}] *)
| ASym (s : sym)                                          (* without braces *)
| ABracket (l : list item)                                (* [[...]] *)
| ALit (s : str)                                          (* [{...}] with letters, digits and the like *)
| AItem (i : item)                                        (* a command with its arguments, without braces *)
| AScripts (ms : list fmark) (l : list item)              (* [{...}] with scripts in front: for [\sideset] *)
with fmark :=
| FSub (a : arg)
| FSup (a : arg)
| FPrimes (ps : list sym) (sup : option arg)              (* primes, perhaps with a superscript after them *)
| FLimits (s : sym).

(** ** Source text *)

Definition sym_text (s : sym) : str := match s with SChar c => [c] | SName n => 92 :: n ++ [32] | STok _ => [] end.
Fixpoint item_text (i : item) : str := match i with Item h ms => head_text h ++ flat_map mark_text ms end
with head_text (h : head) : str :=
  match h with
  | HSym s args => sym_text s ++ flat_map arg_text args
  | HNum s => s
  | HWord l => flat_map sym_text l
  | HGroup l => lit "{" ++ flat_map item_text l ++ lit "}"
  | HFence o l c => lit "\left " ++ sym_text o ++ flat_map item_text l ++ lit "\right " ++ sym_text c
  | HEnv e args l => lit "\begin{" ++ env_as_str e ++ lit "}" ++ flat_map arg_text args ++ flat_map item_text l ++
      lit "\end{" ++ env_as_str e ++ lit "}"
  end
with arg_text (a : arg) : str :=
  match a with
  | AGroup l => lit "{" ++ flat_map item_text l ++ lit "}"
  | ASym s => sym_text s
  | ABracket l => lit "[" ++ flat_map item_text l ++ lit "]"
  | ALit s => lit "{" ++ s ++ lit "}"
  | AItem i => item_text i
  | AScripts ms l => lit "{" ++ flat_map mark_text ms ++ flat_map item_text l ++ lit "}"
  end
with mark_text (m : fmark) : str :=
  match m with
  | FSub a => lit "_" ++ arg_text a
  | FSup a => lit "^" ++ arg_text a
  | FPrimes ps sup => flat_map sym_text ps ++ match sup with Some a => lit "^" ++ arg_text a | None => [] end
  | FLimits s => sym_text s
  end.
Definition formula_text (l : list item) : str := flat_map item_text l.

(** Characters that are tokens by themselves; names of commands; characters that stand for themselves in a literal,
    and blanks, which must not follow each other. *)
Definition sym_char_ok (c : N) : bool := negb (is_ascii_ws c || (c =? 0) || (c =? 35) || (c =? 37) || (c =? 92)).
Definition name_ok (n : str) : bool :=
  negb (str_eqb n (lit "begin") || str_eqb n (lit "end")) &&
  match span_while is_ascii_alpha n with
  | (_ :: _, []) => true
  | (_ :: _, [c]) => c =? 42
  | ([], [_]) => true
  | _ => false
  end.
Definition sym_ok (s : sym) : bool := match s with SChar c => sym_char_ok c | SName n => name_ok n | STok _ => false end.
Definition lit_char_ok (c : N) : bool :=
  sym_char_ok c && match recover_limited_ascii (char_token c) with Some d => c =? d | None => false end.
Fixpoint lit_ok (s : str) : bool :=
  match s with
  | [] => true
  | 32 :: r => match r with 32 :: _ => false | _ => lit_ok r end
  | c :: r => lit_char_ok c && lit_ok r
  end.
(** Digits, and full stops that have a digit before and after them. *)
Fixpoint decimals_ok (s : str) : bool :=
  match s with
  | [] => true
  | 46 :: r => match r with d :: _ => is_ascii_digit d && decimals_ok r | [] => false end
  | d :: r => is_ascii_digit d && decimals_ok r
  end.
Definition number_ok (s : str) : bool := match s with d :: r => is_ascii_digit d && decimals_ok r | [] => false end.
Fixpoint item_ok (i : item) : bool := match i with Item h ms => head_ok h && forallb mark_ok ms end
with head_ok (h : head) : bool :=
  match h with
  | HSym s args => sym_ok s && forallb arg_ok args
  | HNum s => number_ok s
  | HWord l => forallb sym_ok l
  | HGroup l => forallb item_ok l
  | HFence o l c => sym_ok o && forallb item_ok l && sym_ok c
  | HEnv e args l => forallb arg_ok args && forallb item_ok l
  end
with arg_ok (a : arg) : bool :=
  match a with
  | AGroup l | ABracket l => forallb item_ok l
  | ASym s => sym_ok s
  | ALit s => lit_ok s
  | AItem i => item_ok i
  | AScripts ms l => forallb mark_ok ms && forallb item_ok l
  end
with mark_ok (m : fmark) : bool :=
  match m with
  | FSub a | FSup a => arg_ok a
  | FPrimes ps sup => match ps with [] => false | _ => true end && forallb sym_ok ps && match sup with Some a => arg_ok a | None => true end
  | FLimits s => sym_ok s
  end.
(** Formulas that can be written down. *)
Definition formula_ok (l : list item) : bool := forallb item_ok l.

(** The tokens without the blanks in front. *)
Fixpoint bare (w : list token) : list token := match w with T_Whitespace :: r => bare r | _ => w end.
(** The first token is one for scripts. *)
Definition script_ahead (w : list token) : bool :=
  match bare w with t :: _ => match unwrap_math t with T_Underscore | T_Circumflex | T_Prime _ | T_Limits _ | T_Whitespace => true | _ => false end | [] => false end.

Section Meaning.
(** The meaning of names, and the largest equation number. *)
Context (mean : str -> token) (usize_max : N).

Definition raw (s : sym) : token := match s with SChar c => char_token c | SName n => mean n | STok t => t end.
Definition tok (s : sym) : token := unwrap_math (raw s).

(** ** Tokens *)

Definition lit_tok (c : N) : token := if c =? 32 then T_Whitespace else char_token c.
Fixpoint item_toks (i : item) : list token := match i with Item h ms => head_toks h ++ flat_map mark_toks ms end
with head_toks (h : head) : list token :=
  match h with
  | HSym s args => raw s :: flat_map arg_toks args
  | HNum s => map char_token s
  | HWord l => map raw l
  | HGroup l => T_GroupBegin :: flat_map item_toks l ++ [T_GroupEnd]
  | HFence o l c => mean (lit "left") :: raw o :: flat_map item_toks l ++ [mean (lit "right"); raw c]
  | HEnv e args l => T_Begin e :: flat_map arg_toks args ++ flat_map item_toks l ++ [T_End e]
  end
with arg_toks (a : arg) : list token :=
  match a with
  | AGroup l => T_GroupBegin :: flat_map item_toks l ++ [T_GroupEnd]
  | ASym s => [raw s]
  | ABracket l => T_SquareBracketOpen :: flat_map item_toks l ++ [T_SquareBracketClose]
  | ALit s => T_GroupBegin :: map lit_tok s ++ [T_GroupEnd]
  | AItem i => item_toks i
  | AScripts ms l => T_GroupBegin :: flat_map mark_toks ms ++ flat_map item_toks l ++ [T_GroupEnd]
  end
with mark_toks (m : fmark) : list token :=
  match m with
  | FSub a => T_Underscore :: arg_toks a
  | FSup a => T_Circumflex :: arg_toks a
  | FPrimes ps sup => map raw ps ++ match sup with Some a => T_Circumflex :: arg_toks a | None => [] end
  | FLimits s => [raw s]
  end.
(** The class of the first token that has one; [c] is what comes after the tokens. *)
Definition class_ahead (l : list token) (c : class) : class :=
  match find_map token_class l with Some c' => c' | None => c end.

(** ** Context *)

(** What surrounds a formula: the style, the alphabet in force, whether the end of the formula counts as an ordinary
    atom for spacing, what the environment allows, and whether the formula is in square brackets. *)
Record ctx := mkCx {
  cx_style : style; cx_tf : option math_variant; cx_hack : bool;
  cx_cols : bool; cx_rows : bool; cx_hlines : bool; cx_bracket : bool }.
Definition with_style (st : style) (x : ctx) : ctx := mkCx st (cx_tf x) (cx_hack x) (cx_cols x) (cx_rows x) (cx_hlines x) (cx_bracket x).
Definition with_tf (t : option math_variant) (x : ctx) : ctx := mkCx (cx_style x) t (cx_hack x) (cx_cols x) (cx_rows x) (cx_hlines x) (cx_bracket x).
Definition with_hack (x : ctx) : ctx := mkCx (cx_style x) (cx_tf x) true (cx_cols x) (cx_rows x) (cx_hlines x) (cx_bracket x).
Definition in_bracket (b : bool) (x : ctx) : ctx := mkCx (cx_style x) (cx_tf x) (cx_hack x) (cx_cols x) (cx_rows x) (cx_hlines x) b.
Definition in_env (e : env) (x : ctx) : ctx :=
  mkCx (env_style e) (cx_tf x) (cx_hack x) (env_allows_columns e) (match e with EEquation | EEquationStar => false | _ => true end)
       (env_allows_hlines e) false.

(** Numbering: the last number, the labels, and what is known about the row that has been begun. *)
Record numbering := mkNu { nu_count : N; nu_labels : label_map; nu_row : option numbered_env }.
(** Meanings that depend on the numbering; [None] if there is no meaning. *)
Definition D (A : Type) : Type := numbering -> option (A * numbering).
Definition dret {A} (a : A) : D A := fun d => Some (a, d).
Definition dnone {A} : D A := fun _ => None.
Definition dbind {A B} (m : D A) (k : A -> D B) : D B := fun d => match m d with Some (a, d') => k a d' | None => None end.
Definition dopt {A} (o : option A) : D A := fun d => match o with Some a => Some (a, d) | None => None end.
Definition dguard {A} (b : bool) (m : D A) : D A := if b then m else dnone.
(** Changing what is known about the row; there must be one, or not. *)
Definition drow (f : numbered_env -> option numbered_env) : D unit :=
  fun d => match nu_row d with
           | Some r => match f r with Some r' => Some (tt, mkNu (nu_count d) (nu_labels d) (Some r')) | None => None end
           | None => None
           end.
Definition drow_if (f : numbered_env -> numbered_env) : D unit :=
  fun d => Some (tt, mkNu (nu_count d) (nu_labels d) (option_map f (nu_row d))).
Notation "'let+' x := m 'in' k" := (dbind m (fun x => k)) (at level 200, x name, m at level 100, k at level 200).

(** The row ends. *)
Definition end_row (is_last : bool) : D (option row_label_info * option N) :=
  fun d => match nu_row d with
           | None => Some ((None, None), d)
           | Some r =>
               match (if is_last then Some r else bump_rows r) with
               | None => None
               | Some r1 =>
                   match finish_row usize_max r1 (nu_count d) (nu_labels d) is_last with
                   | Some (info, r2, count, labels) => Some ((info, ne_num_rows r2), mkNu count labels (Some r2))
                   | None => None
                   end
               end
           end.
(** A formula within an environment has rows of its own. *)
Definition new_rows {A} (e : env) (m : D A) : D A :=
  fun d => match m (mkNu (nu_count d) (nu_labels d) (numbered_env_state e)) with
           | Some (a, d') => Some (a, mkNu (nu_count d') (nu_labels d') (nu_row d))
           | None => None
           end.

(** ** Single symbols *)

Definition letter (tf : option math_variant) (c : superchar) (upright : bool) : node :=
  match tf with
  | Some (MvTransform v) => IdentifierChar (transform v c upright) LDefault
  | Some MvNormal => IdentifierChar c ForcedUpright
  | None => IdentifierChar c (if upright then ForcedUpright else LDefault)
  end.
(** A symbol that stands for itself, its class, and the classes of its neighbours. Outside of sequences there is no
    spacing. *)
Definition sym_node (x : ctx) (a : parse_as) (prev next : class) (t : token) : option (class * node) :=
  let st := cx_style x in
  let seq := in_sequence a in
  match t with
  | T_Letter c _ => Some (ClDefault, letter (cx_tf x) c false)
  | T_UprightLetter c => Some (ClDefault, letter (cx_tf x) c true)
  | T_Digit d =>
      match cx_tf x, a with
      | Some (MvTransform v), _ => Some (ClDefault, IdentifierChar (transform v (sc_from_char d) false) LDefault)
      | _, PaSequence => None
      | _, _ => Some (ClDefault, Number [d])
      end
  | T_Relation r => Some (ClRelation, op_node (rel_as_op r) (relation_attrs (rel_cat r)) (relation_spacing st prev next false))
  | T_ForceRelation o => Some (ClRelation, op_node o A_EMPTY (if seq then relation_spacing st prev next true else no_spacing))
  | T_Punctuation c => Some (ClPunctuation, op_node (sc_from_char c) A_EMPTY (punctuation_spacing st next false))
  | T_ForcePunctuation o => Some (ClPunctuation, op_node o A_EMPTY (punctuation_spacing st next true))
  | T_Ord o => Some (ClDefault, ord_node None o)
  | T_ForceOrd o => Some (ClDefault, op_node o A_EMPTY zero_spacing)
  | T_BinaryOp o =>
      let s := bin_op_spacing st seq prev next false in Some (bin_class s, op_node (bin_as_op o) A_EMPTY (s, s))
  | T_ForceBinaryOp o =>
      let s := bin_op_spacing st seq prev next true in Some (bin_class s, op_node o A_EMPTY (s, s))
  | T_Inner o => Some (ClInner, op_node (op_as_op o) A_EMPTY (mathinner_spacing st prev next false))
  | T_ForceMathInner o => Some (ClInner, op_node o A_EMPTY (mathinner_spacing st prev next true))
  | T_Open o => Some (ClOpen, paren_node true o)
  | T_Close o => Some (ClDefault, paren_node false o)
  | T_ForceOpen o _ => Some (ClOpen, op_node o A_FORM_PREFIX zero_spacing)
  | T_ForceClose o _ => Some (ClClose, op_node o A_FORM_POSTFIX zero_spacing)
  | T_SquareBracketOpen => Some (ClOpen, op_node (ord_as_op SYM_LEFT_SQUARE_BRACKET) A_STRETCHY_FALSE no_spacing)
  | T_SquareBracketClose => Some (ClDefault, op_node (ord_as_op SYM_RIGHT_SQUARE_BRACKET) A_STRETCHY_FALSE no_spacing)
  | T_Space l => Some (prev, Space l)
  | T_NonBreakingSpace => Some (ClDefault, Text None None [0xA0])
  | T_UnresolvedCommand name => Some (ClDefault, UnknownCommand name)
  | T_Relax => Some (ClDefault, EMPTY_ROW)
  | T_InternalStringLiteral s =>
      match cx_tf x with
      | Some (MvTransform v) => option_map (fun s' => (ClDefault, IdentifierStr s')) (sc_string (map (fun c => transform_char v c false) s))
      | _ => Some (ClDefault, IdentifierStr s)
      end
  | T_MathChoiceInternal _ display text script scriptscript =>
      (* spaces of which the style chooses one *)
      match nth (choice_place st) [display; text; script; scriptscript] T_Relax with T_Space l => Some (prev, Space l) | _ => None end
  | _ => None
  end.
(** Only what is in a sequence sees what comes after it. *)
Definition next_as (p : parse_as) (next : class) : class := if in_sequence p then next else ClDefault.
(** For the spacing of most atoms the end of a formula may count as an ordinary atom. *)
Definition seen (x : ctx) (next : class) : class := if cx_hack x then match next with ClEnd => ClDefault | c => c end else next.
Definition delimiter (s : sym) : option stretchable_op :=
  match extract_delimiter (tok s, span_default) DmBig with Ok d => Some d | _ => None end.
(** A delimiter or a full stop. *)
Definition fence_of (s : sym) : option (option stretchable_op) :=
  if is_full_stop (tok s) then Some None else option_map Some (delimiter s).
Definition text_of (s : str) : str := map (fun c => if c =? 32 then 0xA0 else c) s.
Definition fraction_style (st : style) (a : option frac_attr) : style :=
  match a with None => style_shrink st | Some DisplayStyleFalse => StScript | Some _ => StText end.
Definition hline_of (i : item) : option line_type :=
  match i with Item (HSym s []) [] => match raw s with T_HLine l => Some l | _ => None end | _ => None end.

(** ** Scripts *)

Inductive mark_value := VSub (n : node) | VSup (n : node) | VLimits (k : limits_kind).
Definition subs (l : list mark_value) : list node := flat_map (fun m => match m with VSub n => [n] | _ => [] end) l.
Definition sups (l : list mark_value) : list node := flat_map (fun m => match m with VSup n => [n] | _ => [] end) l.
Definition lims (l : list mark_value) : list limits_kind := flat_map (fun m => match m with VLimits k => [k] | _ => [] end) l.
(** At most one subscript and at most one superscript; the last command for limits counts. *)
Definition scripts_of (l : list mark_value) : option (bounds * option limits_kind) :=
  if (length (subs l) <=? 1)%nat && (length (sups l) <=? 1)%nat
  then Some (mkBounds (hd_error (subs l)) (hd_error (sups l)), hd_error (rev (lims l))) else None.
Definition no_limits (l : list mark_value) : option bounds :=
  match scripts_of l with Some (b, None) => Some b | _ => None end.
Definition with_scripts (n : node) (b : bounds) : node :=
  match n with
  | Multiscripts base pre [] => if bounds_trivial b then n else Multiscripts base pre [bounds_pair b]
  | _ => scripted n (b_sub b) (b_sup b)
  end.
Section Values.
Context (f : fmark -> D mark_value).
Fixpoint values (l : list fmark) : D (list mark_value) :=
  match l with [] => dret [] | m :: r => let+ v := f m in let+ vs := values r in dret (v :: vs) end.
End Values.

(** ** Sequences *)

(** The letter or digit that a token adds to a word. *)
Definition word_char (tf : option math_variant) (t : token) : option superchar :=
  match tf with
  | None => None
  | Some v =>
      let tr c upright := match v with MvTransform t => transform t c upright | MvNormal => c end in
      match t with
      | T_Letter c _ => Some (tr c false)
      | T_UprightLetter c => Some (tr c true)
      | T_Digit d => match v with MvNormal => None | _ => Some (tr (sc_from_char d) false) end
      | _ => None
      end
  end.
Definition word_node (tf : option math_variant) (l : list superchar) : option node :=
  match l with
  | [] => None
  | [c] => Some (IdentifierChar c (match tf with Some MvNormal => ForcedUpright | _ => LDefault end))
  | _ => option_map IdentifierStr (sc_string l)
  end.
Fixpoint all_some {A B} (f : A -> option B) (l : list A) : option (list B) :=
  match l with
  | [] => Some []
  | a :: r => match f a, all_some f r with Some b, Some bs => Some (b :: bs) | _, _ => None end
  end.
Definition plain_digits (tf : option math_variant) : bool := match tf with Some (MvTransform _) => false | _ => true end.
(** The tokens after a number or word do not go on with it. *)
Definition number_over (l : list token) : bool :=
  match l with
  | t :: r => negb (is_digit_tok t) && negb (is_full_stop t && match r with u :: _ => is_digit_tok u | [] => false end)
  | [] => true
  end.
Definition word_over (tf : option math_variant) (l : list token) : bool :=
  match l with t :: _ => match word_char tf t with Some _ => false | None => true end | [] => true end.
Definition item_over (tf : option math_variant) (i : item) (l : list token) : bool :=
  match i with
  | Item (HNum _) ms => number_over (flat_map mark_toks ms ++ l)
  | Item (HWord _) ms => word_over tf (flat_map mark_toks ms ++ l)
  | _ => true
  end.

(** A color given by a model in brackets and a description. *)
Definition color_in (l : list item) (desc : str) : option (N * N * N) :=
  match all_some (fun i => match i with Item (HSym (SChar c) []) [] => if is_ascii_alpha c then Some c else None | _ => None end) l with
  | Some m => if str_eqb m (lit "rgb") || str_eqb m (lit "RGB") || str_eqb m (lit "HTML") then color_of m desc else None
  | None => None
  end.

Section Items.
(** The meaning of an item: its context, what it is read as, the class before it and the class after it. *)
Context (den_item : ctx -> parse_as -> class -> class -> item -> D (class * node)).

(** The nodes of a sequence: [prev] is the class of the last atom, [acc] are the nodes before, [infix] what is before an
    infix fraction command, and [after] is the class of what ends the sequence. *)
Fixpoint den_items (x : ctx) (after prev : class) (acc : list node) (infix : infix_frac) (l : list item) {struct l}
  : D (list node) :=
  match l with
  | [] => dret (infix_node infix acc)
  | i :: r =>
      let ts := flat_map item_toks r in
      let atom :=
        dguard (item_over (cx_tf x) i ts)
          (let+ cn := den_item x PaSequence prev (class_ahead ts after) i in
           den_items x after (fst cn) (acc ++ [snd cn]) infix r) in
      match i with
      | Item (HSym s args) ms =>
          match tok s, args, ms with
          | T_Relax, [], [] => den_items x after prev acc infix r
          | T_TransformSwitch v, [], [] => den_items (with_tf (Some v) x) after prev acc infix r
          | T_NoNumber, [], [] => let+ _u := drow_if numbered_notag in den_items x after prev acc infix r
          | T_Tag parens, [ALit t], [] =>
              let+ _u := drow (fun n => Some (numbered_tag (mkTag t parens) n)) in den_items x after prev acc infix r
          | T_Label, [ALit t], [] => let+ _u := drow (numbered_label t) in den_items x after prev acc infix r
          | T_InfixGenFrac with_line delim, [], [] =>
              match infix with
              | None => den_items (with_style (style_shrink (cx_style x)) x) after prev [] (Some (acc, with_line, delim)) r
              | Some _ => dnone
              end
          (* switches take the rest of the formula *)
          | T_Style st, [], [] =>
              dguard (negb (cx_bracket x))
                (let+ rest := den_items (with_style st x) after prev [] None r in
                 dret (infix_node infix (acc ++ [Row rest (mkRowAttrs None (Some st) false)])))
          | T_Color, [ALit name], [] =>
              dguard (negb (cx_bracket x))
                (let+ c := dopt (get_color name) in
                 let+ rest := den_items x after prev [] None r in
                 dret (infix_node infix (acc ++ [Row rest (mkRowAttrs (Some c) None false)])))
          | T_Color, [ABracket model; ALit desc], [] =>
              dguard (negb (cx_bracket x))
                (let+ c := dopt (color_in model desc) in
                 let+ rest := den_items x after prev [] None r in
                 dret (infix_node infix (acc ++ [Row rest (mkRowAttrs (Some c) None false)])))
          | T_NewLine, [], [] =>
              if cx_rows x then
                let+ e := end_row false in
                match r with
                | j :: r' =>
                    match hline_of j with
                    | Some lt => dguard (cx_hlines x) (den_items x after ClOpen (acc ++ [RowSeparator (fst e) (Some lt)]) infix r')
                    | None => den_items x after ClOpen (acc ++ [RowSeparator (fst e) None]) infix r
                    end
                | [] => den_items x after ClOpen (acc ++ [RowSeparator (fst e) None]) infix r
                end
              else den_items x after ClOpen (acc ++ [EMPTY_ROW]) infix r
          | T_NewColumn, [], [] =>
              dguard (cx_cols x) (den_items x after ClClose (acc ++ [ColumnSeparator]) infix r)
          | T_SquareBracketClose, _, _ => dguard (negb (cx_bracket x)) atom
          (* only at the start there is no atom that takes the script *)
          | (T_Underscore | T_Circumflex), _, _ => dguard (match acc with [] => true | _ => false end) atom
          | _, _, _ => atom
          end
      | _ => atom
      end
  end.
End Items.

(** ** Atoms and arguments *)

(** The arguments of these commands would be taken for optional ones. *)
Definition not_bracket (a : arg) : bool :=
  match a with
  | ASym s | AItem (Item (HSym s _) _) => match tok s with T_SquareBracketOpen => false | _ => true end
  | _ => true
  end.
(** A general fraction: its delimiters and its style are at most one symbol each, with or without braces. *)
Definition at_most_one (a : arg) : option (option sym) :=
  match a with
  | AGroup [] => Some None
  | AGroup [Item (HNum [d]) []] => Some (Some (SChar d))
  | AGroup [Item (HSym s []) []] | ASym s => Some (Some s)
  | _ => None
  end.
Definition genfrac_fence (a : arg) : option (option stretchable_op) :=
  match at_most_one a with
  | Some None => Some None
  | Some (Some s) => option_map Some (delimiter s)
  | None => None
  end.
Definition genfrac_line (t : str) : option length_t :=
  match trim_ascii t with
  | [] => Some length_none
  | u => match parse_length_specification u with Some (l, _, _) => Some l | None => None end
  end.
Definition genfrac_style_of (a : arg) : option (option style) :=
  match at_most_one a with
  | Some None => Some None
  | Some (Some s) => match tok s with
                     | T_Digit d => option_map (fun p => Some (snd p)) (find (fun p => fst p =? d) [(48, StDisplay); (49, StText); (50, StScript); (51, StScriptScript)])
                     | _ => None
                     end
  | None => None
  end.
Definition raised_text (len : length_set) (t : str) : node :=
  if set_eqb len set_zero then Text None None t else Padded (Text None None t) false false None None (Some len).
(** An arrow with labels. *)
Definition arrow_node (st : style) (r : rel) (prev next : class) (under : option node) (over : node) : node :=
  let label n := node_vec_to_node [LABEL_PAD; n; LABEL_PAD] false in
  let above := Over LABEL_SPACE (label over) in
  let arrow := op_node (rel_as_op r) (match rel_cat r with RcA => A_EMPTY | _ => A_STRETCHY_TRUE end)
                       (relation_spacing st prev next false) in
  Row [ARROW_SPACE;
       match under with Some u => UnderOver arrow (Under LABEL_SPACE (label u)) above | None => Over above arrow end;
       ARROW_SPACE] row_attrs_default.
(** Operators take the scripts after them, above and below or at the side. *)
Definition operator_node (x : ctx) (prev next : class) (t : token) (b : bounds) (k : option limits_kind) : option node :=
  let none := bounds_trivial b in
  let sp := mathop_spacing (cx_style x) prev next in
  let pseudo name l :=
    let (uo, attrs) := pseudo_limits k l none in wrap_bounds uo b (PseudoOp attrs (fst (sp true)) (snd (sp true)) name) in
  match t with
  | T_Op o =>
      match op_cat o with
      | PcC => None
      | _ => let (uo, attrs) := op_limits k (is_jop o) none in Some (wrap_bounds uo b (op_node (op_as_op o) attrs (sp false)))
      end
  | T_ForceLargeOp o => let (uo, attrs) := large_op_limits k none in Some (wrap_bounds uo b (op_node o attrs (sp true)))
  | T_PseudoOperator name => Some (pseudo name false)
  | T_PseudoOperatorLimits name => Some (pseudo name true)
  | _ => None
  end.
(** The operator that a token is, perhaps with a name given as its argument. *)
Definition operator_of (t : token) (args : list arg) : option token :=
  match t, args with
  | T_Op o, [] => match op_cat o with PcC => None | _ => Some t end
  | (T_ForceLargeOp _ | T_PseudoOperator _ | T_PseudoOperatorLimits _), [] => Some t
  | T_OperatorName l, [ALit name] =>
      if forallb (fun c => is_ascii_alpha c || is_ascii_digit c) name
      then Some (if l then T_PseudoOperatorLimits name else T_PseudoOperator name) else None
  | _, _ => None
  end.
(** Items that can be arguments without braces. Only operators have scripts there, and braces have what explains them:
    other scripts belong to what the argument is for. *)
Definition stands (i : item) : bool :=
  match i with
  | Item (HSym s args) ms =>
      match operator_of (tok s) args with
      | Some _ => true
      | None => match ms, tok s with
                | _, (T_Underscore | T_Circumflex) => false
                | [], _ => true
                | [FSup _], T_OverUnderBrace _ is_over => is_over
                | [FSub _], T_OverUnderBrace _ is_over => negb is_over
                | _, T_Sideset => true
                | _, _ => false
                end
      end
  | Item (HFence _ _ _) [] | Item (HEnv _ _ _) [] => true
  | _ => false
  end.
(** These would take a script that came after them. *)
Definition greedy (i : item) : bool :=
  match i with
  | Item (HSym s args) ms =>
      match operator_of (tok s) args with
      | Some _ => true
      | None => match ms, tok s with [], T_OverUnderBrace _ _ => true | _, T_Sideset => true | _, _ => false end
      end
  | _ => false
  end.
(** [\sideset]: an operator with scripts at its four corners, and perhaps more; scripts after it go above and below in
    display style. *)
Definition side_operator (a : arg) : option M_Token.op :=
  match at_most_one a with
  | Some (Some s) => match tok s with T_Op o => match op_cat o with PcC => None | _ => Some o end | _ => None end
  | _ => None
  end.
Definition corner (b : bounds) : node * node :=
  (match b_sub b with Some n => n | None => EMPTY_ROW end, match b_sup b with Some n => n | None => EMPTY_ROW end).
Definition side_node (x : ctx) (prev next : class) (before after : bounds * list node) (o : M_Token.op) (b : bounds) (k : option limits_kind) : node :=
  let base := op_node (op_as_op o) (if is_jop o then A_NO_MOVABLE_LIMITS else A_EMPTY) (mathop_spacing (cx_style x) prev next false) in
  let inner := match snd before with [] => base | l => Row (l ++ [base]) row_attrs_default end in
  let sided := Multiscripts inner [corner (fst before)] [corner (fst after)] in
  let whole := match snd after with [] => sided | l => Row (sided :: l) row_attrs_default end in
  let limits := match k with
                | Some LkAlways => true
                | Some LkNever => false
                | Some LkDisplay | None => match cx_style x with StDisplay => true | _ => false end
                end in
  wrap_bounds limits b whole.
(** Primes in a row. *)
Definition prime_nodes (ks : list prime_kind) : list node := flat_map primes_nodes (fold_left (fun l k => add_prime k l) ks []).

Fixpoint den_item (x : ctx) (p : parse_as) (prev next : class) (i : item) {struct i} : D (class * node) :=
  match i with
  | Item h ms =>
      let put vs c n := let+ b := dopt (scripts_of vs) in match snd b with None => dret (c, with_scripts n (fst b)) | Some _ => dnone end in
      let atom :=
        let+ cn := den_head x p prev (class_ahead (flat_map mark_toks ms) next) h in
        let+ vs := values (den_mark x) ms in
        put vs (fst cn) (snd cn) in
      match h with
      | HSym s args =>
          match operator_of (tok s) args with
          | Some t =>
              let+ vs := values (den_mark x) ms in
              let+ b := dopt (scripts_of vs) in
              let+ n := dopt (operator_node x prev (next_as p next) t (fst b) (snd b)) in
              dret (ClOperator, n)
          | None =>
              match tok s, args with
              | T_OverUnderBrace o is_over, [a] =>
                  let+ t := den_arg x PaArgSpace ClDefault a in
                  let base := (if is_over then OverAccent else UnderAccent) (ord_as_op o) A_EMPTY t in
                  (* the first script on the side of the brace explains it *)
                  match ms with
                  | FSup e :: rest =>
                      if is_over then
                        let+ n := den_arg x PaArg ClDefault e in
                        let+ vs := values (den_mark x) rest in put vs ClDefault (Over n base)
                      else let+ vs := values (den_mark x) ms in put vs ClDefault base
                  | FSub e :: rest =>
                      if is_over then let+ vs := values (den_mark x) ms in put vs ClDefault base
                      else
                        let+ n := den_arg x PaArg ClDefault e in
                        let+ vs := values (den_mark x) rest in put vs ClDefault (Under n base)
                  | _ => let+ vs := values (den_mark x) ms in put vs ClDefault base
                  end
              | T_Sideset, [AScripts m1 l1; AScripts m2 l2; o] =>
                  let+ vs1 := values (den_mark x) m1 in
                  let+ b1 := dopt (no_limits vs1) in
                  let+ ns1 := den_items den_item (in_bracket false x) ClEnd ClOpen [] None l1 in
                  let+ vs2 := values (den_mark x) m2 in
                  let+ b2 := dopt (no_limits vs2) in
                  let+ ns2 := den_items den_item (in_bracket false x) ClEnd ClOpen [] None l2 in
                  let+ o := dopt (side_operator o) in
                  let+ vs := values (den_mark x) ms in
                  let+ b := dopt (scripts_of vs) in
                  dret (ClDefault, side_node x prev (next_as p (class_ahead (flat_map mark_toks ms) next)) (b1, ns1) (b2, ns2) o (fst b) (snd b))
              (* scripts without a base *)
              | T_Underscore, [a] =>
                  let+ n := den_arg (with_style (style_scriptify (cx_style x)) x) PaArg ClDefault a in
                  let+ vs := values (den_mark x) ms in
                  let+ b := dopt (no_limits (VSub n :: vs)) in dret (ClDefault, wrap_subsup b EMPTY_ROW)
              | T_Circumflex, [a] =>
                  let+ n := den_arg (with_style (style_scriptify (cx_style x)) x) PaArg ClDefault a in
                  let+ vs := values (den_mark x) ms in
                  let+ b := dopt (no_limits (VSup n :: vs)) in dret (ClDefault, wrap_subsup b EMPTY_ROW)
              | _, _ => atom
              end
          end
      | _ => atom
      end
  end
with den_head (x : ctx) (p : parse_as) (prev next : class) (h : head) {struct h} : D (class * node) :=
  match h with
  | HNum s => dguard (plain_digits (cx_tf x) && number_ok s) (dret (ClDefault, Number s))
  | HWord l =>
      let+ cs := dopt (all_some (fun s => word_char (cx_tf x) (raw s)) l) in
      let+ n := dopt (word_node (cx_tf x) cs) in dret (ClDefault, n)
  | HGroup l =>
      let+ ns := den_items den_item (in_bracket false x) ClEnd ClOpen [] None l in dret (ClDefault, node_vec_to_node ns false)
  | HFence o l c =>
      match mean (lit "left"), mean (lit "right"), fence_of o, fence_of c with
      | T_Left, T_Right, Some open, Some close =>
          let+ ns := den_items den_item (in_bracket false x) ClClose ClOpen [] None l in dret (ClDefault, fenced ns open close None)
      | _, _, _, _ => dnone
      end
  | HEnv e args l =>
      let+ spec :=
        match e, args with
        | (EArray | EDArray | ESubarray), [ALit s] => dopt (option_map Some (parse_column_specification s))
        | (EArray | EDArray | ESubarray), _ => dnone
        | _, [] => dret None
        | _, _ => dnone
        end in
      let inside border l :=
        let+ r := new_rows e (let+ ns := den_items den_item (in_env e x) ClEnd ClOpen [] None l in
                              let+ info := end_row true in dret (ns, info)) in
        let sp := option_map (fun c => mkArraySpec (as_border_left c) border (match e with ESubarray => true | _ => as_is_sub c end) (as_columns c)) spec in
        let+ n := dopt (construct_node e (fst r) sp (fst (snd r)) (snd (snd r)) border) in
        dret (ClClose, n) in
      dguard (in_sequence p)
        (match l with
         | i :: rest =>
             match hline_of i with
             | Some lt => dguard (env_allows_hlines e) (inside (Some lt) rest)
             | None => inside None l
             end
         | [] => inside None []
         end)
  | HSym s args =>
      let st := cx_style x in
      match tok s, args with
      | T_Frac attr, [a; b] =>
          let y := with_style (fraction_style st attr) x in
          let+ n := den_arg y PaArg ClDefault a in
          let+ m := den_arg y PaArg ClDefault b in
          dret (ClDefault, Frac n m (len_value length_none) (len_unit length_none) attr)
      | T_Binom attr, [a; b] =>
          let y := with_style (fraction_style st attr) x in
          let+ n := den_arg y PaArg ClDefault a in
          let+ m := den_arg y PaArg ClDefault b in
          dret (ClDefault, fenced [Frac n m (len_value length_zero) (len_unit length_zero) attr] OPEN_PAREN CLOSE_PAREN None)
      | T_Sqrt, [ABracket l; a] =>
          let+ ns := den_items den_item (in_bracket true x) ClClose ClOpen [] None l in
          let+ n := den_arg x PaArg ClDefault a in
          dret (ClDefault, Root (node_vec_to_node ns true) n)
      | T_Sqrt, [a] => dguard (not_bracket a) (let+ n := den_arg x PaArg ClDefault a in dret (ClDefault, Sqrt n))
      | T_Enclose notation, [a] => let+ n := den_arg x PaArgSpace ClDefault a in dret (ClDefault, Enclose n notation)
      | T_Accent c is_over attrs, [a] =>
          let+ n := den_arg x PaArgSpace ClDefault a in
          dret (ClDefault, (if is_over then OverAccent else UnderAccent) (sc_from_char c) attrs n)
      | T_Overset, [a; b] =>
          dguard (in_sequence p)
            (let+ n := den_arg (with_style StScript x) PaArg ClDefault a in
             let+ t := den_target (with_hack x) PaContinue prev next b in
             dret (fst t, Over n (snd t)))
      | T_Underset, [a; b] =>
          dguard (in_sequence p)
            (let+ n := den_arg (with_style StScript x) PaArg ClDefault a in
             let+ t := den_target (with_hack x) PaContinue prev next b in
             dret (fst t, Under n (snd t)))
      | T_Transform v, [a] => let+ n := den_arg (with_tf (Some v) x) PaArg ClDefault a in dret (ClClose, n)
      | T_MathClass k, [a] =>
          let+ t := den_target x p prev next a in
          let (c, sp) := class_spacing k st (in_sequence p) prev (next_as p next) in
          dret (c, class_node (snd t) sp)
      | T_Overlay o, [a] =>
          let+ t := den_target x p prev next a in
          let+ n := dopt (overlay_node o (snd t)) in
          dret (fst t, n)
      | T_Phantom k, [a] =>
          let+ n := den_arg x PaArg ClDefault a in
          dret (ClDefault, match k with
                           | PkFull => Phantom n
                           | PkH => Padded (Phantom n) false true None None None
                           | PkV => Padded (Phantom n) true false None None None
                           end)
      | T_Cramped, [a] =>
          dguard (not_bracket a) (let+ n := den_arg x PaArg prev a in dret (ClDefault, Row [n] (mkRowAttrs None None true)))
      | T_Cramped, [ABracket l; a] =>
          let+ sty := dopt (match l with
                            | [] => Some None
                            | [Item (HSym s' []) []] => match tok s' with T_Style y => Some (Some y) | _ => None end
                            | _ => None
                            end) in
          let+ n := den_arg x PaArg ClDefault a in dret (ClDefault, Row [n] (mkRowAttrs None sty true))
      | T_Genfrac, [o; c; ALit t; y; a; b] =>
          let+ open := dopt (genfrac_fence o) in
          let+ close := dopt (genfrac_fence c) in
          let+ line := dopt (genfrac_line t) in
          let+ sty := dopt (genfrac_style_of y) in
          let+ n := den_arg x PaArg ClDefault a in
          let+ m := den_arg x PaArg ClDefault b in
          dret (ClDefault, fenced [Frac n m (len_value line) (len_unit line) None] open close sty)
      | T_Prescript, [a; b; c] =>
          let+ sup := den_arg x PaArg ClDefault a in
          let+ sb := den_arg x PaArg ClDefault b in
          let+ base := den_arg x PaArg ClDefault c in
          dret (ClDefault, Multiscripts base [(sb, sup)] [])
      | T_XArrow r, [ABracket l; a] =>
          let y := with_hack (with_style StScript x) in
          let+ ns := den_items den_item (in_bracket true y) ClClose ClOpen [] None l in
          let+ n := den_arg y PaArg ClDefault a in
          dret (ClRelation, arrow_node st r prev (next_as p next) (Some (node_vec_to_node ns false)) n)
      | T_XArrow r, [a] =>
          dguard (not_bracket a)
            (let+ n := den_arg (with_hack (with_style StScript x)) PaArg ClDefault a in
             dret (ClRelation, arrow_node st r prev (next_as p next) None n))
      | T_Middle, [ASym d] =>
          let+ o := dopt (delimiter d) in
          let sp := match so_spacing o with DsZero => None | _ => Some MsZero end in
          dret (ClOpen, op_node (so_op o) (middle_stretch_attrs o) (sp, sp))
      | T_Big sz pt, [ASym d] =>
          let+ o := dopt (delimiter d) in
          (* only for the middle one the next atom counts, otherwise the delimiter itself *)
          let n := match pt with Some PtMiddle => next_as p next | _ => seen x (next_as p (class_ahead [raw d] next)) end in
          let (attrs, sp) := big_spacing st prev n pt o in
          dret (big_class pt, Operator (so_op o) attrs (Some sz) (fst sp) (snd sp))
      | T_Text ts, [ALit t] => dret (ClClose, match t with [] => EMPTY_ROW | _ => Text ts None (text_of t) end)
      | T_RaiseBox, [ALit len; ALit t] =>
          match parse_length_specification len with
          | Some (l, _, false) => dret (ClClose, match t with [] => EMPTY_ROW | _ => raised_text (set_of_length l) (text_of t) end)
          | _ => dnone
          end
      | T_EqRef, [ALit l] => dret (ClDefault, EqRef l)
      | T_CustomSpace k, [ALit t] =>
          match parse_length_specification (trim_ascii t) with
          | Some (l, _, is_math) => dguard (Bool.eqb is_math (match k with UkMath => true | UkText => false end)) (dret (ClDefault, Space l))
          | None => dnone
          end
      | T_Op o, [] =>
          (* this kind does not take scripts *)
          match op_cat o with
          | PcC => let (_, attrs) := op_limits None (is_jop o) true in
                   dret (ClOperator, op_node (op_as_op o) attrs (mathop_spacing st prev (next_as p next) false))
          | _ => dnone
          end
      | T_Relax, [] => dnone (* in a sequence it is not an atom *)
      | t, [] =>
          match word_char (cx_tf x) (raw s) with
          | None => dopt (sym_node x p prev (seen x (next_as p next)) t)
          | Some _ => dnone
          end
      | _, _ => dnone
      end
  end
(** An argument: its spacing does not depend on what is around it. *)
with den_arg (x : ctx) (a : parse_as) (prev : class) (g : arg) {struct g} : D node :=
  match g with
  | AGroup l =>
      let+ ns := den_items den_item (in_bracket false x) ClEnd ClOpen [] None l in
      dret (node_vec_to_node ns (match a with PaArg => true | _ => false end))
  | ASym s => let+ cn := dopt (sym_node x a prev ClDefault (tok s)) in dret (snd cn)
  | AItem i => dguard (stands i) (let+ cn := den_item x a prev ClDefault i in dret (snd cn))
  | _ => dnone
  end
(** Something that may take part in the sequence. *)
with den_target (x : ctx) (a : parse_as) (prev next : class) (g : arg) {struct g} : D (class * node) :=
  match g with
  | AGroup l =>
      let+ ns := den_items den_item (in_bracket false x) ClEnd (match a with PaContinue => prev | _ => ClOpen end) [] None l in
      dret (ClDefault, node_vec_to_node ns (match a with PaArg => true | _ => false end))
  | ASym s => dopt (sym_node x a prev (seen x (next_as a next)) (tok s))
  | AItem i => dguard (stands i) (den_item x a prev next i)
  | _ => dnone
  end
with den_mark (x : ctx) (m : fmark) {struct m} : D mark_value :=
  let script := with_style (style_scriptify (cx_style x)) x in
  match m with
  | FSub a => let+ n := den_arg script PaArg ClDefault a in dret (VSub n)
  | FSup a => let+ n := den_arg script PaArg ClDefault a in dret (VSup n)
  | FPrimes ps sup =>
      let+ ks := dopt (all_some (fun s => match tok s with T_Prime k => Some k | _ => None end) ps) in
      dguard (match ks with [] => false | _ => true end)
        (match sup with
         | Some a => let+ n := den_arg script PaArg ClDefault a in dret (VSup (one_or_row (prime_nodes ks ++ [n])))
         | None => dret (VSup (one_or_row (prime_nodes ks)))
         end)
  | FLimits s => match tok s with T_Limits k => dret (VLimits k) | _ => dnone end
  end.

(** ** Scripts after arguments without braces *)

Section Ended.
Context {A : Type} (toks : A -> list token) (f : A -> list token -> bool).
Fixpoint all_ended (l : list A) (k : list token) : bool :=
  match l with [] => true | a :: r => f a (flat_map toks r ++ k) && all_ended r k end.
End Ended.
(** No argument without braces takes a script of something else; [k] are the tokens that come after. *)
Fixpoint item_ended (i : item) (k : list token) {struct i} : bool :=
  match i with Item h ms => head_ended h (flat_map mark_toks ms ++ k) && all_ended mark_toks mark_ended ms k end
with head_ended (h : head) (k : list token) {struct h} : bool :=
  match h with
  | HSym _ args => all_ended arg_toks arg_ended args k
  | HNum _ | HWord _ => true
  | HGroup l => all_ended item_toks item_ended l (T_GroupEnd :: k)
  | HFence _ l c => all_ended item_toks item_ended l (mean (lit "right") :: raw c :: k)
  | HEnv e args l => all_ended arg_toks arg_ended args (flat_map item_toks l ++ T_End e :: k) && all_ended item_toks item_ended l (T_End e :: k)
  end
with arg_ended (a : arg) (k : list token) {struct a} : bool :=
  match a with
  | AGroup l => all_ended item_toks item_ended l (T_GroupEnd :: k)
  | ABracket l => all_ended item_toks item_ended l (T_SquareBracketClose :: k)
  | ASym _ | ALit _ => true
  | AItem i => item_ended i k && negb (greedy i && script_ahead k)
  | AScripts ms l =>
      all_ended mark_toks mark_ended ms (flat_map item_toks l ++ T_GroupEnd :: k) && negb (script_ahead (flat_map item_toks l ++ T_GroupEnd :: k)) &&
      all_ended item_toks item_ended l (T_GroupEnd :: k)
  end
with mark_ended (m : fmark) (k : list token) {struct m} : bool :=
  match m with
  | FSub a | FSup a => arg_ended a k
  | FPrimes _ sup => match sup with Some a => arg_ended a k | None => true end
  | FLimits _ => true
  end.
Definition formula_ended (l : list item) : bool := all_ended item_toks item_ended l [].

(** The meaning of a whole formula. *)
Definition den (x : ctx) (l : list item) : D (list node) := den_items den_item x ClEnd ClOpen [] None l.
End Meaning.

(** The meaning of a name for a snippet that is about to be parsed. *)
Definition name_meaning (cfg : parser_cfg) (gs : global_state) (name : str) : token :=
  match resolve_command cfg cmds_empty (gs_cmds gs) name with Some t => t | None => T_UnresolvedCommand name end.
(** A snippet: nothing is in force but its style, and there is no environment. *)
Definition snippet_ctx (st : style) : ctx := mkCx st None false false false false false.
Definition snippet_nu (gs : global_state) : numbering := mkNu (gs_count gs) (gs_labels gs) None.
(** Unknown commands have a meaning only if they are to be ignored. *)
Definition known (t : token) : bool := match unwrap_math t with T_UnresolvedCommand _ => false | _ => true end.
(** What a snippet means: the nodes, and the numbers and labels after it. *)
Definition snippet_meaning (cfg : parser_cfg) (usize_max : N) (gs : global_state) (st : style) (l : list item) : option (list node * global_state) :=
  if (pc_ignore_unknown cfg || forallb known (flat_map (item_toks (name_meaning cfg gs)) l)) && formula_ended (name_meaning cfg gs) l then
    match den (name_meaning cfg gs) usize_max (snippet_ctx st) l (snippet_nu gs) with
    | Some (ns, d) => Some (ns, mkGs (nu_count d) (nu_labels d) (gs_cmds gs))
    | None => None
    end
  else None.
(** Formulas one after the other: the nodes of each, and the numbers and labels in the end. *)
Fixpoint session_meaning (cfg : parser_cfg) (usize_max : N) (gs : global_state) (l : list (list item * style)) : option (list (list node) * global_state) :=
  match l with
  | [] => Some ([], gs)
  | (f, st) :: r =>
      match snippet_meaning cfg usize_max gs st f with
      | Some (ns, gs1) => match session_meaning cfg usize_max gs1 r with Some (rs, gs2) => Some (ns :: rs, gs2) | None => None end
      | None => None
      end
  end.

(** ** For examples *)
Definition c1 (s : String.string) : sym := match lit s with [c] => SChar c | n => SName n end.
Definition i1 (s : String.string) : item := Item (HSym (c1 s) []) [].
Definition i2 (s : String.string) (args : list arg) : item := Item (HSym (c1 s) args) [].
Definition i3 (s : String.string) (args : list arg) (ms : list fmark) : item := Item (HSym (c1 s) args) ms.
Definition a1 (s : String.string) : arg := ASym (c1 s).
Definition num (s : String.string) : item := Item (HNum (lit s)) [].
Definition next_row : item := Item (HSym (SName [92]) []) [].
