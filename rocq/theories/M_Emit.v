(** Model of the MathML emitter: crates/mathml-renderer/src/ast.rs:275-1057 ([Emitter]),
    table.rs:86-299 ([ColumnGenerator]), fmt.rs and itoa.rs.

    The Rust code appends to one [String]; here every function returns the text it appends.
    Depths are [nat] (the code's [saturating_add] would need 2^64 nested nodes to differ). *)
From Verif Require Import Str M_SuperChar M_Length M_Spec M_Escape M_Ast.

(** ast.rs:244-273 [Indentation] *)
Inductive indentation := IndSpaces (n : nat) | IndTab.

(** What the emitter holds besides the output (ast.rs:275-283); [dtoa] is the float formatter
    of the dtoa crate. *)
Record emit_env := mkEmitEnv {
  ee_labels : str -> option str;
  ee_css_unknown : str;
  ee_indentation : indentation;
  ee_id_prefix : str;
  ee_dtoa : f32 -> str
}.

Definition q : str := [34].

(** fmt.rs:5-18 [new_line_and_indent] *)
Definition indent_unit (i : indentation) : str :=
  match i with IndSpaces n => repeat 32 n | IndTab => [9] end.
Definition nl (e : emit_env) (n : nat) : str :=
  match n with
  | O => []
  | _ => 10 :: concat (repeat (indent_unit (ee_indentation e)) n)
  end.

(** symbol.rs:47-61 [Display for MathMLOperator] *)
Fixpoint escape_op (s : str) : str :=
  match s with
  | [] => []
  | c :: r =>
      (if c =? 60 then lit "&lt;"
       else if c =? 62 then lit "&gt;"
       else if c =? 38 then lit "&amp;"
       else [c]) ++ escape_op r
  end.

(** super_char.rs:234-241 [Display for SuperChar].  [sc_chars] is total on the values the
    code can build (C32). *)
Definition sc_text (c : superchar) : str := match sc_chars c with Some t => t | None => [] end.
Definition op_text (op : superchar) : str := escape_op (sc_text op).

(** itoa.rs:3-16 [append_u8_as_hex] *)
Definition hex_u8 (b : N) : str := [hex_digit (b / 16); hex_digit (b mod 16)].

(** attribute.rs:28-71 [OpAttrs::write_to] *)
Definition op_attrs_str (a : op_attrs) : str :=
  (if has_attr a A_STRETCHY_FALSE then lit " stretchy=""false""" else []) ++
  (if has_attr a A_STRETCHY_TRUE then lit " stretchy=""true""" else []) ++
  (if has_attr a A_NO_MOVABLE_LIMITS then lit " movablelimits=""false""" else []) ++
  (if has_attr a A_FORCE_MOVABLE_LIMITS then lit " movablelimits=""true""" else []) ++
  (if has_attr a A_FORM_PREFIX then lit " form=""prefix""" else []) ++
  (if has_attr a A_FORM_INFIX then lit " form=""infix""" else []) ++
  (if has_attr a A_FORM_POSTFIX then lit " form=""postfix""" else []) ++
  (if has_attr a A_SYMMETRIC_TRUE then lit " symmetric=""true""" else []) ++
  (if has_attr a A_LARGEOP_TRUE then lit " largeop=""true""" else []).

Definition opt_str {A} (f : A -> str) (o : option A) : str := match o with Some a => f a | None => [] end.

(** ast.rs:905-935 [emit_operator_attributes] *)
Definition emit_operator_attributes (a : op_attrs) (left right : option math_spacing) : str :=
  lit "<mo" ++ op_attrs_str a ++
  opt_str (fun l => lit " lspace=""" ++ spacing_str l ++ q) left ++
  opt_str (fun r => lit " rspace=""" ++ spacing_str r ++ q) right.

(** ast.rs:383-403: the element wrapped around text *)
Definition text_style_open (t : option text_style) : str :=
  match t with
  | None => []
  | Some TsBold => lit "<b>"
  | Some TsItalic => lit "<i>"
  | Some TsBoldItalic => lit "<b><i>"
  | Some TsEmphasis => lit "<em>"
  | Some TsTypewriter => lit "<code>"
  | Some TsSmallCaps => lit "<span style=""font-variant-caps: small-caps"">"
  | Some TsSansSerif => lit "<span class=""math-core-sans-serif-font"">"
  | Some TsSerif => lit "<span class=""math-core-serif-font"">"
  | Some TsStrikethrough => lit "<s>"
  | Some TsUnderline => lit "<u>"
  end.
Definition text_style_close (t : option text_style) : str :=
  match t with
  | None => []
  | Some TsBold => lit "</b>"
  | Some TsItalic => lit "</i>"
  | Some TsBoldItalic => lit "</i></b>"
  | Some TsEmphasis => lit "</em>"
  | Some TsTypewriter => lit "</code>"
  | Some TsSmallCaps | Some TsSansSerif | Some TsSerif => lit "</span>"
  | Some TsStrikethrough => lit "</s>"
  | Some TsUnderline => lit "</u>"
  end.

(** table.rs:92-103: CSS fragments *)
Definition LEFT_ALIGN := lit "text-align: left;justify-items: start;".
Definition RIGHT_ALIGN := lit "text-align: right;justify-items: end;".
Definition PADDING_RIGHT_ZERO := lit "padding-right: 0;".
Definition PADDING_LEFT_ZERO := lit "padding-left: 0;".
Definition PADDING_TOP_BOTTOM_ZERO := lit "padding-top: 0;padding-bottom: 0;".
Definition border_right_str (l : line_type) : str :=
  match l with
  | Solid => lit "border-right: 0.05em solid currentcolor;"
  | Dashed => lit "border-right: 0.05em dashed currentcolor;"
  end.
Definition border_top_str (l : line_type) : str :=
  match l with
  | Solid => lit "border-top: 0.05em solid currentcolor;"
  | Dashed => lit "border-top: 0.05em dashed currentcolor;"
  end.
Definition border_left_str (l : line_type) : str :=
  match l with
  | Solid => lit "border-left: 0.05em solid currentcolor;"
  | Dashed => lit "border-left: 0.05em dashed currentcolor;"
  end.

(** table.rs:86-90 [AlignmentType], 105-113 [ColumnGenerator] *)
Inductive alignment_type := Predefined (a : alignment) | Custom (s : array_spec) | CgMultLine (num_rows : N).
Record col_gen := mkColGen {
  cg_typ : alignment_type;
  cg_column : nat;
  cg_row : nat;
  cg_border_top : option line_type
}.
Definition col_gen_new (t : alignment_type) : col_gen := mkColGen t 0 0 None.
(** table.rs:143-151 [reset_to_new_row] followed by [set_row_border_top] *)
Definition col_gen_new_row (g : col_gen) (bt : option line_type) : col_gen :=
  mkColGen (cg_typ g) 0 (S (cg_row g)) bt.

Definition mtd_style (s : str) : str := lit "<mtd style=""" ++ s ++ lit """>".

(** table.rs:291-299 [write_simple_mtd] *)
Definition simple_mtd (bt : str) : str :=
  match bt with [] => lit "<mtd>" | _ => mtd_style bt end.

(** table.rs:198-220: the [while let] over columns that are only a line, started at the
    current column; gives the text of the line cells, the entry found (or the default) and the
    index of the column after it. *)
Fixpoint only_lines (e : emit_env) (ind : nat) (bt : str) (is_sub : bool) (cols : list col_entry)
    (idx : nat) : str * (col_align * option line_type) * nat :=
  match cols with
  | [] => ([], (Centered, None), S idx)
  | WithContent a br :: _ => ([], (a, br), S idx)
  | OnlyLine l :: rest =>
      match only_lines e ind bt is_sub rest (S idx) with
      | (t, c, i) =>
          (mtd_style (bt ++ border_right_str l ++ (if is_sub then PADDING_TOP_BOTTOM_ZERO else []) ++
                      lit "padding-left: 0.1em;padding-right: 0.1em;") ++ lit "</mtd>" ++ nl e ind ++ t,
           c, i)
      end
  end.

(** table.rs:153-287 [write_next_mtd] *)
Definition next_mtd (e : emit_env) (g : col_gen) (ind : nat) : str * col_gen :=
  let bt := opt_str border_top_str (cg_border_top g) in
  let g1 := mkColGen (cg_typ g) (S (cg_column g)) (cg_row g) (cg_border_top g) in
  match cg_typ g with
  | Predefined a =>
      let is_even := Nat.even (cg_column g) in
      (nl e ind ++
       match a with
       | AlCases =>
           mtd_style (bt ++ LEFT_ALIGN ++ PADDING_RIGHT_ZERO ++ (if is_even then [] else lit "padding-left:1em;"))
       | AlCentered => simple_mtd bt
       | AlAlternating =>
           mtd_style (bt ++ (if is_even then RIGHT_ALIGN ++ PADDING_RIGHT_ZERO
                             else LEFT_ALIGN ++ PADDING_LEFT_ZERO))
       end, g1)
  | Custom sp =>
      match only_lines e ind bt (as_is_sub sp) (skipn (cg_column g) (as_columns sp)) (cg_column g) with
      | (t, (a, br), i) =>
          (nl e ind ++ t ++
           match a, br, as_is_sub sp with
           | Centered, None, false => simple_mtd bt
           | _, _, _ =>
               mtd_style (bt ++
                 match a with LeftJustified => LEFT_ALIGN | Centered => [] | RightJustified => RIGHT_ALIGN end ++
                 opt_str border_right_str br ++
                 (if as_is_sub sp then PADDING_TOP_BOTTOM_ZERO else []))
           end,
           mkColGen (cg_typ g) i (cg_row g) (cg_border_top g))
      end
  | CgMultLine num_rows =>
      (nl e ind ++
       (if Nat.eqb (cg_row g) 0 then mtd_style (bt ++ LEFT_ALIGN)
        else if N.of_nat (S (cg_row g)) =? num_rows then mtd_style (bt ++ RIGHT_ALIGN)
        else simple_mtd bt), g1)
  end.

(** ast.rs:937-984 [NumberColums] *)
Inductive number_columns := Narrow | Wide.
Definition dummy_column_opening (e : emit_env) (nc : number_columns) (ind : nat) : str :=
  nl e ind ++ match nc with Narrow => lit "<mtd style=""width: 7.5%" | Wide => lit "<mtd style=""width: 50%" end.
Definition initial_dummy_column (e : emit_env) (nc : number_columns) (ind : nat) : str :=
  dummy_column_opening e nc ind ++ lit """></mtd>".

(** ast.rs:986-1024 [write_equation_num] *)
Definition write_equation_num (e : emit_env) (ind2 ind3 : nat) (li : option row_label_info) (nc : number_columns) : str :=
  dummy_column_opening e nc ind2 ++
  match li with
  | Some i =>
      lit ";" ++ RIGHT_ALIGN ++ q ++
      match li_link_target i with
      | Some t => lit " id=""" ++ ee_id_prefix e ++ percent_encode t ++ lit """>"
      | None => lit ">"
      end ++
      nl e ind3 ++
      (if tag_parenthesized (li_tag i)
       then lit "<mtext>(" ++ escape_html (tag_text (li_tag i)) ++ lit ")</mtext>"
       else lit "<mtext>" ++ escape_html (tag_text (li_tag i)) ++ lit "</mtext>") ++
      nl e ind2 ++ lit "</mtd>"
  | None => lit """></mtd>"
  end.

Definition opt_num (f : number_columns -> str) (o : option number_columns) : str := opt_str f o.

(** ast.rs:774-885 [emit_table]; [emit] writes one node at a given depth. *)
Section Table.
  Variable e : emit_env.
  Variable emit : node -> nat -> str.

  (** the loop over the content, threading the column generator *)
  Fixpoint emit_cells (ind1 ind2 ind3 : nat) (nc : option number_columns) (g : col_gen)
      (content : list node) {struct content} : str :=
    match content with
    | [] => []
    | n :: rest =>
        match n with
        | ColumnSeparator =>
            match next_mtd e g ind2 with
            | (t, g') => nl e ind2 ++ lit "</mtd>" ++ t ++ emit_cells ind1 ind2 ind3 nc g' rest
            end
        | RowSeparator li bt =>
            match next_mtd e (col_gen_new_row g bt) ind2 with
            | (t, g') =>
                nl e ind2 ++ lit "</mtd>" ++
                opt_num (write_equation_num e ind2 ind3 li) nc ++
                nl e ind1 ++ lit "</mtr>" ++ nl e ind1 ++ lit "<mtr>" ++
                opt_num (fun c => initial_dummy_column e c ind2) nc ++
                t ++ emit_cells ind1 ind2 ind3 nc g' rest
            end
        | _ => emit n ind3 ++ emit_cells ind1 ind2 ind3 nc g rest
        end
    end.

  Definition emit_table (base ind1 : nat) (content : list node) (g : col_gen)
      (nc : option number_columns) (last : option row_label_info) : str :=
    let ind2 := match base with O => O | _ => S ind1 end in
    let ind3 := match base with O => O | _ => S ind2 end in
    match next_mtd e g ind2 with
    | (t, g') =>
        nl e ind1 ++ lit "<mtr>" ++ opt_num (fun c => initial_dummy_column e c ind2) nc ++ t ++
        emit_cells ind1 ind2 ind3 nc g' content ++
        nl e ind2 ++ lit "</mtd>" ++
        opt_num (write_equation_num e ind2 ind3 last) nc ++
        nl e ind1 ++ lit "</mtr>" ++ nl e base ++ lit "</mtable>"
    end.
End Table.

(** ast.rs:710-747: the names of an enclosure's notations and the extra elements *)
Definition sep_concat (sep : str) (l : list str) : str :=
  match l with [] => [] | x :: r => x ++ concat (map (app sep) r) end.
Definition notation_names (n : notation_t) : list str :=
  (if has_attr n N_BOX then [lit "box"] else []) ++
  (if has_attr n N_ACTUARIAL then [lit "actuarial"] else []) ++
  (if has_attr n N_PHASOR_ANGLE then [lit "phasorangle"] else []) ++
  (if has_attr n N_UP_DIAGONAL then [lit "updiagonalstrike"] else []) ++
  (if has_attr n N_DOWN_DIAGONAL then [lit "downdiagonalstrike"] else []).
Definition enclose_extras (e : emit_env) (ind : nat) (n : notation_t) : str :=
  (if has_attr n N_PHASOR_ANGLE then nl e ind ++ lit "<mrow class=""menclose-phasorangle""></mrow>" else []) ++
  (if has_attr n N_UP_DIAGONAL then nl e ind ++ lit "<mrow class=""menclose-updiagonalstrike""></mrow>" else []) ++
  (if has_attr n N_DOWN_DIAGONAL then nl e ind ++ lit "<mrow class=""menclose-downdiagonalstrike""></mrow>" else []).

(** ast.rs:549-566: the attributes of a row *)
Definition row_attrs_str (a : row_attrs) : str :=
  match ra_color a, ra_math_shift_compact a with
  | None, false => []
  | c, m =>
      lit " style=""" ++
      opt_str (fun rgb => match rgb with (r, g, b) => lit "color:#" ++ hex_u8 r ++ hex_u8 g ++ hex_u8 b ++ lit ";" end) c ++
      (if m then lit "math-shift:compact;" else []) ++ q
  end ++ opt_str style_str (ra_style a).

(** ast.rs:588-607: offsets of a padded box; every one after the first opens a wrapper. *)
Definition voffset_items (v : option length_set) : list length_t :=
  match v with Some s => set_items s | None => [] end.
Definition voffset_str (e : emit_env) (v : option length_set) : str :=
  match voffset_items v with
  | [] => []
  | l :: r =>
      lit " voffset=""" ++ length_text (ee_dtoa e) l ++ q ++
      concat (map (fun l => lit "><mpadded voffset=""" ++ length_text (ee_dtoa e) l ++ q) r)
  end.
(** ast.rs:608-624 *)
Definition padded_attrs_str (w0 h0 : bool) (left right : option math_spacing) : str :=
  (if w0 then lit " width=""0""" else []) ++
  (if h0 then lit " height=""0""" else []) ++
  match left, right with
  | None, None => []
  | _, _ =>
      lit " style=""" ++
      opt_str (fun l => lit "padding-left:" ++ spacing_str l ++ lit ";") left ++
      opt_str (fun r => lit "padding-right:" ++ spacing_str r ++ lit ";") right ++ q
  end.

(** ast.rs:405-425: a space *)
Definition space_str (e : emit_env) (l : length_t) : str :=
  let t := length_text (ee_dtoa e) l in
  lit "<mspace " ++
  (if length_is_negative l then lit "style=""margin-left:" ++ t ++ lit ";"
   else lit "width=""" ++ t ++
        match len_unit l with Rem => lit """ style=""width:" ++ t | _ => [] end) ++
  lit """/>".

(** ast.rs:316-343: an identifier of one combined character *)
Definition identifier_char_str (c : superchar) (a : letter_attr) : str :=
  match a, sc_try_as_char c with
  | ForcedUpright, _ => lit "<mrow><mspace/><mi mathvariant=""normal"">" ++ sc_text c ++ lit "</mi></mrow>"
  | LDefault, None => lit "<mrow><mspace/><mi>" ++ sc_text c ++ lit "</mi></mrow>"
  | LDefault, Some _ => lit "<mi>" ++ sc_text c ++ lit "</mi>"
  end.

(** ast.rs:661-680: attributes of an array *)
Definition array_attrs_str (sp : array_spec) : str :=
  match as_border_left sp, as_border_top sp with
  | None, None => []
  | l, t => lit " style=""" ++ opt_str border_left_str l ++ opt_str border_top_str t ++ q
  end.

Section Emit.
  Variable e : emit_env.

  (** ast.rs:303-772 [emit] *)
  Fixpoint emit (n : node) (base : nat) {struct n} : str :=
    let child := match base with O => O | S _ => S base end in
    let wrap2 open close a b := open ++ emit a child ++ emit b child ++ nl e base ++ close in
    nl e base ++
    match n with
    | Number s => lit "<mn>" ++ s ++ lit "</mn>"
    | IdentifierChar c a => identifier_char_str c a
    | IdentifierStr s => lit "<mrow><mspace/><mi>" ++ escape_html s ++ lit "</mi></mrow>"
    | Operator op a sz l r =>
        emit_operator_attributes a l r ++
        opt_str (fun s => lit " minsize=""" ++ size_str s ++ lit """ maxsize=""" ++ size_str s ++ q) sz ++
        lit ">" ++ op_text op ++ lit "</mo>"
    | PseudoOp a l r name => emit_operator_attributes a l r ++ lit ">" ++ name ++ lit "</mo>"
    | Space l => space_str e l
    | Sub t s => wrap2 (lit "<msub>") (lit "</msub>") t s
    | Sup t s => wrap2 (lit "<msup>") (lit "</msup>") t s
    | Over s t => wrap2 (lit "<mover>") (lit "</mover>") t s
    | Under s t => wrap2 (lit "<munder>") (lit "</munder>") t s
    | Root i r => wrap2 (lit "<mroot>") (lit "</mroot>") r i
    | SubSup t a b =>
        lit "<msubsup>" ++ emit t child ++ emit a child ++ emit b child ++ nl e base ++ lit "</msubsup>"
    | UnderOver t a b =>
        lit "<munderover>" ++ emit t child ++ emit a child ++ emit b child ++ nl e base ++ lit "</munderover>"
    | OverAccent op a t =>
        lit "<mover accent=""true"">" ++ emit t child ++ nl e child ++ lit "<mo" ++ op_attrs_str a ++
        lit ">" ++ op_text op ++ lit "</mo>" ++ nl e base ++ lit "</mover>"
    | UnderAccent op a t =>
        lit "<munder accentunder=""true"">" ++ emit t child ++ nl e child ++ lit "<mo" ++ op_attrs_str a ++
        lit ">" ++ op_text op ++ lit "</mo>" ++ nl e base ++ lit "</munder>"
    | Sqrt c => lit "<msqrt>" ++ emit c child ++ nl e base ++ lit "</msqrt>"
    | Frac num denom v u a =>
        lit "<mfrac" ++
        opt_str (fun l => lit " linethickness=""" ++ length_text (ee_dtoa e) l ++ q) (length_from_parts v u) ++
        opt_str frac_attr_str a ++ lit ">" ++
        emit num child ++ emit denom child ++ nl e base ++ lit "</mfrac>"
    | Row nodes a =>
        lit "<mrow" ++ row_attrs_str a ++ lit ">" ++
        match nodes with
        | [] => lit "</mrow>"
        | _ => concat (map (fun x => emit x child) nodes) ++ nl e base ++ lit "</mrow>"
        end
    | Padded c w0 h0 l r v =>
        lit "<mpadded" ++ voffset_str e v ++ padded_attrs_str w0 h0 l r ++ lit ">" ++
        emit c child ++ nl e base ++ lit "</mpadded>" ++
        concat (map (fun _ => lit "</mpadded>") (tl (voffset_items v)))
    | Phantom c => lit "<mphantom>" ++ emit c child ++ nl e base ++ lit "</mphantom>"
    | Text ts tsz t =>
        lit "<mtext" ++ opt_str (fun s => lit " style=""font-size:" ++ text_size_str s ++ q) tsz ++ lit ">" ++
        text_style_open ts ++ escape_html t ++ text_style_close ts ++ lit "</mtext>"
    | AHref href text =>
        lit "<mtext><a href=""" ++ escape_html href ++ lit """>" ++ escape_html text ++ lit "</a></mtext>"
    | EqRef label =>
        lit "<mtext><a href=""#" ++ ee_id_prefix e ++ percent_encode label ++ lit """>(" ++
        escape_html (match ee_labels e label with Some t => t | None => lit "??" end) ++ lit ")</a></mtext>"
    | Table al st bt content =>
        lit "<mtable" ++ opt_str (fun l => lit " style=""" ++ border_top_str l ++ q) bt ++
        opt_str style_str st ++ lit ">" ++
        emit_table e emit base child content (col_gen_new (Predefined al)) None None
    | EquationArray al last content =>
        lit "<mtable displaystyle=""true"" scriptlevel=""0"" style=""width: 100%"">" ++
        emit_table e emit base child content (col_gen_new (Predefined al)) (Some Wide) last
    | MultLine rows last content =>
        lit "<mtable displaystyle=""true"" scriptlevel=""0"" style=""width: 100%"">" ++
        emit_table e emit base child content (col_gen_new (CgMultLine rows)) (Some Narrow) last
    | ArrayN st sp content =>
        lit "<mtable" ++ array_attrs_str sp ++ opt_str style_str st ++ lit ">" ++
        emit_table e emit base child content (col_gen_new (Custom sp)) None None
    | ColumnSeparator | RowSeparator _ _ => []
    | Enclose c no =>
        lit "<menclose notation=""" ++ sep_concat (lit " ") (notation_names no) ++ lit """>" ++
        emit c child ++ enclose_extras e child no ++ nl e base ++ lit "</menclose>"
    | Multiscripts b pre post =>
        let pairs := fun l => concat (map (fun p : node * node => match p with (x, y) => emit x child ++ emit y child end) l) in
        lit "<mmultiscripts>" ++ emit b child ++ pairs post ++
        match pre with [] => [] | _ => nl e child ++ lit "<mprescripts/>" ++ pairs pre end ++
        nl e base ++ lit "</mmultiscripts>"
    | UnknownCommand name =>
        lit "<merror class=""" ++ ee_css_unknown e ++ lit """><mtext>\" ++ name ++ lit "</mtext></merror>"
    end.
End Emit.

(** ast.rs:1026-1057 [Warnings]: undefined references, unknown commands. *)
Record warnings := mkWarn { w_undefined_refs : bool; w_unknown_cmds : bool }.
Definition warn_none : warnings := mkWarn false false.
Definition warn_or (a b : warnings) : warnings :=
  mkWarn (w_undefined_refs a || w_undefined_refs b) (w_unknown_cmds a || w_unknown_cmds b).
Definition warn_has_any (w : warnings) : bool := w_undefined_refs w || w_unknown_cmds w.

(** The warnings set while [emit] runs over a node (ast.rs:755, 766): every subtree is visited
    exactly once, and no output step can fail. *)
Fixpoint node_warnings (labels : str -> option str) (n : node) {struct n} : warnings :=
  let w := node_warnings labels in
  let ws := fun l => fold_right (fun x acc => warn_or (w x) acc) warn_none l in
  match n with
  | EqRef label => match labels label with Some _ => warn_none | None => mkWarn true false end
  | UnknownCommand _ => mkWarn false true
  | Sub a b | Sup a b | Over a b | Under a b | Root a b => warn_or (w a) (w b)
  | SubSup a b c | UnderOver a b c => warn_or (w a) (warn_or (w b) (w c))
  | OverAccent _ _ a | UnderAccent _ _ a | Sqrt a | Padded a _ _ _ _ _ | Phantom a | Enclose a _ => w a
  | Frac a b _ _ _ => warn_or (w a) (w b)
  | Row l _ | Table _ _ _ l | EquationArray _ _ l | MultLine _ _ l | ArrayN _ _ l => ws l
  | Multiscripts b pre post =>
      let wp := fun l => fold_right (fun (p : node * node) acc => match p with (x, y) => warn_or (warn_or (w x) (w y)) acc end) warn_none l in
      warn_or (w b) (warn_or (wp post) (wp pre))
  | _ => warn_none
  end.
