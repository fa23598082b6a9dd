(** Model of the syntax tree (crates/mathml-renderer/src/ast.rs:33-208) and of the attribute
    types it uses (attribute.rs, table.rs). *)
From Verif Require Import Str M_SuperChar M_Length M_Spec.

(** attribute.rs:11-26 [OpAttrs]: a set of flags in a [u16]. *)
Definition op_attrs := N.
Definition A_EMPTY : op_attrs := 0.
Definition A_STRETCHY_FALSE : op_attrs := 1.
Definition A_STRETCHY_TRUE : op_attrs := 2.
Definition A_NO_MOVABLE_LIMITS : op_attrs := 4.
Definition A_FORCE_MOVABLE_LIMITS : op_attrs := 8.
Definition A_FORM_PREFIX : op_attrs := 16.
Definition A_FORM_INFIX : op_attrs := 32.
Definition A_FORM_POSTFIX : op_attrs := 64.
Definition A_SYMMETRIC_TRUE : op_attrs := 128.
Definition A_LARGEOP_TRUE : op_attrs := 256.
Definition has_attr (a f : op_attrs) : bool := N.land a f =? f.
Definition add_attr (a f : op_attrs) : op_attrs := N.lor a f.

(** attribute.rs:73-78 [LetterAttr] *)
Inductive letter_attr := LDefault | ForcedUpright.

(** attribute.rs:80-91 [Size] *)
Inductive size := Scale1 | Scale2 | Scale3 | Scale4.
Definition size_str (s : size) : str :=
  match s with
  | Scale1 => lit "1.2em" | Scale2 => lit "1.623em" | Scale3 => lit "2.047em" | Scale4 => lit "2.470em"
  end.

(** attribute.rs:93-103 [FracAttr] *)
Inductive frac_attr := DisplayStyleTrue | DisplayStyleFalse | CFracStyle.
Definition frac_attr_str (a : frac_attr) : str :=
  match a with
  | DisplayStyleTrue => lit " displaystyle=""true"""
  | DisplayStyleFalse => lit " displaystyle=""false"""
  | CFracStyle => lit " displaystyle=""true"" scriptlevel=""0"" style=""padding-top: 0.1667em"""
  end.

(** attribute.rs:105-135 [Style] *)
Inductive style := StDisplay | StText | StScript | StScriptScript.
Definition style_str (s : style) : str :=
  match s with
  | StDisplay => lit " displaystyle=""true"" scriptlevel=""0"""
  | StText => lit " displaystyle=""false"" scriptlevel=""0"""
  | StScript => lit " displaystyle=""false"" scriptlevel=""1"""
  | StScriptScript => lit " displaystyle=""false"" scriptlevel=""2"""
  end.
Definition style_shrink (s : style) : style :=
  match s with StDisplay => StText | StText => StScript | _ => StScriptScript end.
Definition style_scriptify (s : style) : style :=
  match s with StDisplay | StText => StScript | _ => StScriptScript end.

(** attribute.rs:137-152 [MathSpacing] *)
Inductive math_spacing := MsZero | ThreeMu | FourMu | FiveMu.
Definition spacing_str (s : math_spacing) : str :=
  match s with
  | MsZero => lit "0" | ThreeMu => lit "0.1667em" | FourMu => lit "0.2222em" | FiveMu => lit "0.2778em"
  end.

(** attribute.rs:154-165 [Notation]: flags in a [u8]. *)
Definition notation_t := N.
Definition N_UP_DIAGONAL : notation_t := 1.
Definition N_DOWN_DIAGONAL : notation_t := 2.
Definition N_BOX : notation_t := 4.
Definition N_ACTUARIAL : notation_t := 8.
Definition N_PHASOR_ANGLE : notation_t := 16.

(** attribute.rs:167-180 [HtmlTextStyle] *)
Inductive text_style :=
| TsBold | TsItalic | TsBoldItalic | TsEmphasis | TsTypewriter | TsSmallCaps | TsSansSerif
| TsSerif | TsStrikethrough | TsUnderline.

(** attribute.rs:182-207 [HtmlTextSize] *)
Inductive text_size :=
| Size50 | Size60 | Size70 | Size80 | Size90 | Size100 | Size120 | Size140 | Size170 | Size200 | Size250.
Definition text_size_str (s : text_size) : str :=
  match s with
  | Size50 => lit "50%" | Size60 => lit "60%" | Size70 => lit "70%" | Size80 => lit "80%"
  | Size90 => lit "90%" | Size100 => lit "100%" | Size120 => lit "120%" | Size140 => lit "140%"
  | Size170 => lit "170%" | Size200 => lit "200%" | Size250 => lit "250%"
  end.

(** attribute.rs:433-451 [RowAttrs] *)
Record row_attrs := mkRowAttrs {
  ra_color : option (N * N * N);
  ra_style : option style;
  ra_math_shift_compact : bool
}.
Definition row_attrs_default : row_attrs := mkRowAttrs None None false.

(** table.rs:54-61 [Alignment] *)
Inductive alignment := AlCentered | AlCases | AlAlternating.

(** table.rs:75-84 [EquationTag] *)
Record equation_tag := mkTag { tag_text : str; tag_parenthesized : bool }.
(** table.rs:63-73 [RowLabelInfo] *)
Record row_label_info := mkLabelInfo { li_tag : equation_tag; li_link_target : option str }.

(** ast.rs:51-208 [Node]; references into the arena become subtrees.  [MathMLOperator] is its
    [SuperChar]. *)
Inductive node :=
| Number (s : str)
| IdentifierChar (c : superchar) (a : letter_attr)
| IdentifierStr (s : str)
| Operator (op : superchar) (attrs : op_attrs) (sz : option size) (left right : option math_spacing)
| PseudoOp (attrs : op_attrs) (left right : option math_spacing) (name : str)
| Space (l : length_t)
| Sub (target symbol : node)
| Sup (target symbol : node)
| SubSup (target sub sup : node)
| OverAccent (op : superchar) (attrs : op_attrs) (target : node)
| UnderAccent (op : superchar) (attrs : op_attrs) (target : node)
| Over (symbol target : node)
| Under (symbol target : node)
| UnderOver (target under over : node)
| Sqrt (n : node)
| Root (index radicand : node)
| Frac (num denom : node) (lt_value : f32) (lt_unit : length_unit) (attr : option frac_attr)
| Row (nodes : list node) (attrs : row_attrs)
| Padded (n : node) (width_0 height_0 : bool) (left right : option math_spacing) (voffset : option length_set)
| Phantom (n : node)
| Text (ts : option text_style) (tsz : option text_size) (text : str)
| AHref (href text : str)
| EqRef (label : str)
| Table (align : alignment) (st : option style) (border_top : option line_type) (content : list node)
| EquationArray (align : alignment) (last_row_info : option row_label_info) (content : list node)
| MultLine (num_rows : N) (last_row_info : option row_label_info) (content : list node)
| ArrayN (st : option style) (spec : array_spec) (content : list node)
| ColumnSeparator
| RowSeparator (label_info : option row_label_info) (border_top : option line_type)
| Enclose (content : node) (notation : notation_t)
| Multiscripts (base : node) (pre post : list (node * node))
| UnknownCommand (name : str).

(** ast.rs:218-223 [Node::EMPTY_ROW] *)
Definition EMPTY_ROW : node := Row [] row_attrs_default.

(** crates/math-core/src/parser.rs:3324-3355 [node_vec_to_node] *)
Definition node_vec_to_node (nodes : list node) (reset_spacing : bool) : node :=
  match nodes with
  | [single] =>
      if reset_spacing then
        match single with
        | Operator op attrs _ _ _ => Operator op attrs None None None
        | _ => single
        end
      else single
  | _ => Row nodes row_attrs_default
  end.
