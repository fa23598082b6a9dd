(** What a reader of the output sees: an XML reader, and for every syntax tree the elements it stands
    for. *)
From Verif Require Import Str M_SuperChar M_Length M_Spec M_Escape M_Ast M_Emit M_Output S_Html S_SuperChar S_Node S_Store S_Emit S_Exposed.

Inductive xml :=
| XElem (name : str) (attributes : list (str * str)) (content : list xml)
| XText (s : str).

(** ** The reader: character by character, with a stack of open elements *)

(** Line breaks and indentation. *)
Definition blank (s : str) : bool :=
  match s with [] => true | c :: r => (c =? 10) && forallb (fun c => (c =? 10) || (c =? 32) || (c =? 9)) r end.
(** Character data, if there is any. *)
Definition data (s : str) : list xml := if blank s then [] else [XText s].

(** An open element: its name, its attributes, and its siblings so far. *)
Definition opened : Type := str * list (str * str) * list xml.
Inductive reader :=
| InText (open : list opened) (content : list xml) (raw : str)
| InTag (open : list opened) (content : list xml) (raw : str) (quoted : bool)
| Broken.

(** The part of [s] in front of the first character that satisfies [p], and the rest. *)
Fixpoint up_to (p : N -> bool) (s : str) : str * str :=
  match s with
  | [] => ([], [])
  | c :: r => if p c then ([], s) else let (a, b) := up_to p r in (c :: a, b)
  end.
(** [ name="value"] repeated, with a slash at the end for an empty element. *)
Fixpoint read_attributes (fuel : nat) (s : str) : option (list (str * str) * bool) :=
  match fuel with
  | O => None
  | S fuel =>
      match s with
      | [] => Some ([], false)
      | [c] => if c =? 47 then Some ([], true) else None
      | c :: s =>
          if negb (c =? 32) then None else
          let (name, r) := up_to (N.eqb 61) s in
          match r with
          | _ :: k :: r =>
              if negb (k =? 34) then None else
              let (value, r) := up_to (N.eqb 34) r in
              match r with
              | _ :: r => option_map (fun p => ((name, html_decode value) :: fst p, snd p)) (read_attributes fuel r)
              | [] => None
              end
          | _ => None
          end
      end
  end.
Definition read_tag (o : list opened) (d : list xml) (raw : str) : reader :=
  let start :=
    let (name, r) := up_to (fun c => (c =? 32) || (c =? 47)) raw in
    match read_attributes (S (length r)) r with
    | Some (a, false) => InText ((name, a, d) :: o) [] []
    | Some (a, true) => InText o (d ++ [XElem name a []]) []
    | None => Broken
    end in
  match raw with
  | [] => Broken
  | c :: name =>
      if c =? 47 then
        match o with
        | (n, a, before) :: o => if str_eqb n name then InText o (before ++ [XElem n a d]) [] else Broken
        | [] => Broken
        end
      else start
  end.
Definition read_char (r : reader) (c : N) : reader :=
  match r with
  | InText o d raw => if c =? 60 then InTag o (d ++ data (html_decode raw)) [] false else InText o d (raw ++ [c])
  | InTag o d raw quoted =>
      if c =? 60 then Broken
      else if c =? 34 then InTag o d (raw ++ [c]) (negb quoted)
      else if (c =? 62) && negb quoted then read_tag o d raw
      else InTag o d (raw ++ [c]) quoted
  | Broken => Broken
  end.
Definition read_from (r : reader) (s : str) : reader := fold_left read_char s r.
(** The elements of a text, [None] if the tags do not match. *)
Definition read_xml (s : str) : option (list xml) :=
  match read_from (InText [] [] []) s with
  | InText [] d raw => Some (d ++ data (html_decode raw))
  | _ => None
  end.

(** ** The elements of a tree *)

Definition el (name : String.string) (a : list (str * str)) (content : list xml) : xml := XElem (lit name) a content.
Definition att (name : String.string) (value : str) : str * str := (lit name, value).
Definition flags (fl : N) (l : list (N * (str * str))) : list (str * str) :=
  flat_map (fun p => if has_attr fl (fst p) then [snd p] else []) l.
Definition opt {A B} (f : A -> list B) (o : option A) : list B := match o with Some a => f a | None => [] end.
Definition hex (n : N) : N := nth (N.to_nat n) (lit "0123456789ABCDEF") 0.
Definition hex2 (n : N) : str := [hex (n / 16); hex (n mod 16)].

Definition em_of (s : math_spacing) : str :=
  match s with
  | MsZero => lit "0"
  | ThreeMu => lit "0.1667em"
  | FourMu => lit "0.2222em"
  | FiveMu => lit "0.2778em"
  end.
Definition operator_attributes (a : op_attrs) : list (str * str) :=
  flags a
    [ (A_STRETCHY_FALSE, att "stretchy" (lit "false")); (A_STRETCHY_TRUE, att "stretchy" (lit "true"));
      (A_NO_MOVABLE_LIMITS, att "movablelimits" (lit "false")); (A_FORCE_MOVABLE_LIMITS, att "movablelimits" (lit "true"));
      (A_FORM_PREFIX, att "form" (lit "prefix")); (A_FORM_INFIX, att "form" (lit "infix")); (A_FORM_POSTFIX, att "form" (lit "postfix"));
      (A_SYMMETRIC_TRUE, att "symmetric" (lit "true")); (A_LARGEOP_TRUE, att "largeop" (lit "true")) ].
Definition spaced_attributes (a : op_attrs) (l r : option math_spacing) : list (str * str) :=
  operator_attributes a ++ opt (fun s => [att "lspace" (em_of s)]) l ++ opt (fun s => [att "rspace" (em_of s)]) r.
Definition fixed_size (s : size) : list (str * str) :=
  let v := match s with Scale1 => lit "1.2em" | Scale2 => lit "1.623em" | Scale3 => lit "2.047em" | Scale4 => lit "2.470em" end in
  [att "minsize" v; att "maxsize" v].
Definition style_attributes (s : style) : list (str * str) :=
  match s with
  | StDisplay => [att "displaystyle" (lit "true"); att "scriptlevel" (lit "0")]
  | StText => [att "displaystyle" (lit "false"); att "scriptlevel" (lit "0")]
  | StScript => [att "displaystyle" (lit "false"); att "scriptlevel" (lit "1")]
  | StScriptScript => [att "displaystyle" (lit "false"); att "scriptlevel" (lit "2")]
  end.
Definition frac_attributes (a : frac_attr) : list (str * str) :=
  match a with
  | DisplayStyleTrue => [att "displaystyle" (lit "true")]
  | DisplayStyleFalse => [att "displaystyle" (lit "false")]
  | CFracStyle => [att "displaystyle" (lit "true"); att "scriptlevel" (lit "0"); att "style" (lit "padding-top: 0.1667em")]
  end.
Definition row_attributes (a : row_attrs) : list (str * str) :=
  match
    match ra_color a with Some (r, g, b) => lit "color:#" ++ hex2 r ++ hex2 g ++ hex2 b ++ lit ";" | None => [] end ++
    (if ra_math_shift_compact a then lit "math-shift:compact;" else [])
  with
  | [] => []
  | css => [att "style" css]
  end ++ opt style_attributes (ra_style a).
Definition padded_attributes (w h : bool) (l r : option math_spacing) : list (str * str) :=
  (if w then [att "width" (lit "0")] else []) ++ (if h then [att "height" (lit "0")] else []) ++
  match
    match l with Some s => lit "padding-left:" ++ em_of s ++ lit ";" | None => [] end ++
    match r with Some s => lit "padding-right:" ++ em_of s ++ lit ";" | None => [] end
  with
  | [] => []
  | css => [att "style" css]
  end.
Definition percent (s : text_size) : str :=
  match s with
  | Size50 => lit "50%" | Size60 => lit "60%" | Size70 => lit "70%" | Size80 => lit "80%"
  | Size90 => lit "90%" | Size100 => lit "100%" | Size120 => lit "120%" | Size140 => lit "140%"
  | Size170 => lit "170%" | Size200 => lit "200%" | Size250 => lit "250%"
  end.
Definition styled (s : option text_style) (c : list xml) : list xml :=
  match s with
  | None => c
  | Some TsBold => [el "b" [] c]
  | Some TsItalic => [el "i" [] c]
  | Some TsBoldItalic => [el "b" [] [el "i" [] c]]
  | Some TsEmphasis => [el "em" [] c]
  | Some TsTypewriter => [el "code" [] c]
  | Some TsSmallCaps => [el "span" [att "style" (lit "font-variant-caps: small-caps")] c]
  | Some TsSansSerif => [el "span" [att "class" (lit "math-core-sans-serif-font")] c]
  | Some TsSerif => [el "span" [att "class" (lit "math-core-serif-font")] c]
  | Some TsStrikethrough => [el "s" [] c]
  | Some TsUnderline => [el "u" [] c]
  end.

(** *** Tables *)

(** The content of a table as its separators cut it: content, the end of a cell, the end of a row. *)
Inductive table_part := Content (c : list xml) | NextCell | NextRow (info : option row_label_info) (border : option line_type).
(** Border on top of the row, its cells, the information for its number. *)
Definition xrow : Type := option line_type * list (list xml) * option row_label_info.
Fixpoint xrows (top : option line_type) (cells : list (list xml)) (cur : list xml) (last : option row_label_info)
    (l : list table_part) : list xrow :=
  match l with
  | [] => [(top, cells ++ [cur], last)]
  | Content c :: r => xrows top cells (cur ++ c) last r
  | NextCell :: r => xrows top (cells ++ [cur]) [] last r
  | NextRow i b :: r => (top, cells ++ [cur], i) :: xrows b [] [] last r
  end.

Definition border (side : String.string) (l : line_type) : str :=
  lit "border-" ++ lit side ++ lit ": 0.05em " ++ match l with Solid => lit "solid" | Dashed => lit "dashed" end ++ lit " currentcolor;".
Definition css_left : str := lit "text-align: left;justify-items: start;".
Definition css_right : str := lit "text-align: right;justify-items: end;".
Definition css_flat (sub : bool) : str := if sub then lit "padding-top: 0;padding-bottom: 0;" else [].
(** The style of the cell in row [i] and column [j]. *)
Definition cell_css (t : alignment_type) (i j : nat) : str :=
  match t with
  | Predefined AlCentered => []
  | Predefined AlCases => css_left ++ lit "padding-right: 0;" ++ (if Nat.even j then [] else lit "padding-left:1em;")
  | Predefined AlAlternating => if Nat.even j then css_right ++ lit "padding-right: 0;" else css_left ++ lit "padding-left: 0;"
  | Custom sp =>
      match snd (column_group (as_columns sp) j) with
      | (a, br) =>
          match a with LeftJustified => css_left | Centered => [] | RightJustified => css_right end ++
          match br with Some l => border "right" l | None => [] end ++ css_flat (as_is_sub sp)
      end
  | CgMultLine rows => if Nat.eqb i 0 then css_left else if N.of_nat i + 1 =? rows then css_right else []
  end.
Definition style_of (css : str) : list (str * str) := match css with [] => [] | _ => [att "style" css] end.
(** A cell, behind an empty cell for every line column in front of its own. *)
Definition xcell (t : alignment_type) (top : option line_type) (i j : nat) (c : list xml) : list xml :=
  let top := match top with Some l => border "top" l | None => [] end in
  match t with
  | Custom sp =>
      map (fun l => el "mtd" [att "style" (top ++ border "right" l ++ css_flat (as_is_sub sp) ++ lit "padding-left: 0.1em;padding-right: 0.1em;")] [])
        (fst (column_group (as_columns sp) j))
  | _ => []
  end ++ [el "mtd" (style_of (top ++ cell_css t i j)) c].

Section Tree.
  Variable e : emit_env.
  Let measure : length_t -> str := length_text (ee_dtoa e).

  (** The columns for equation numbers: an empty one on the left, the number on the right. *)
  Definition width (nc : number_columns) : str := match nc with Narrow => lit "width: 7.5%" | Wide => lit "width: 50%" end.
  Definition xnumber (nc : number_columns) (i : option row_label_info) : xml :=
    match i with
    | None => el "mtd" [att "style" (width nc)] []
    | Some i =>
        let t := tag_text (li_tag i) in
        el "mtd" (att "style" (width nc ++ lit ";" ++ css_right) ::
                  opt (fun l => [att "id" (ee_id_prefix e ++ percent_encode l)]) (li_link_target i))
          [el "mtext" [] (data (if tag_parenthesized (li_tag i) then lit "(" ++ t ++ lit ")" else t))]
    end.
  Definition xtable (t : alignment_type) (nc : option number_columns) (a : list (str * str)) (rows : list xrow) : xml :=
    el "mtable" a
      (mapi (fun i (r : xrow) =>
         match r with
         | (top, cells, info) =>
             el "mtr" []
               (opt (fun nc => [el "mtd" [att "style" (width nc)] []]) nc ++
                concat (mapi (fun j c => xcell t top i j c) 0 cells) ++
                opt (fun nc => [xnumber nc info]) nc)
         end) 0 rows).

  Fixpoint xpadded (offsets : list length_t) (a : list (str * str)) (c : list xml) : xml :=
    match offsets with
    | [] => el "mpadded" a c
    | [l] => el "mpadded" (att "voffset" (measure l) :: a) c
    | l :: r => el "mpadded" [att "voffset" (measure l)] [xpadded r a c]
    end.

  (** One character, or several under the control of accents. *)
  Definition lone (s : str) : bool := match s with [_] => true | _ => false end.

  Fixpoint mathml (n : node) : list xml :=
    let parts := map (fun n =>
      match n with ColumnSeparator => NextCell | RowSeparator i b => NextRow i b | _ => Content (mathml n) end) in
    let table t nc a last l := [xtable t nc a (xrows None [] [] last (parts l))] in
    match n with
    | Number s => [el "mn" [] (data s)]
    | IdentifierChar c a =>
        match a with
        | ForcedUpright => [el "mrow" [] [el "mspace" [] []; el "mi" [att "mathvariant" (lit "normal")] (data (sc_text c))]]
        | LDefault =>
            if lone (sc_text c) then [el "mi" [] (data (sc_text c))]
            else [el "mrow" [] [el "mspace" [] []; el "mi" [] (data (sc_text c))]]
        end
    | IdentifierStr s => [el "mrow" [] [el "mspace" [] []; el "mi" [] (data s)]]
    | Operator op a sz l r => [el "mo" (spaced_attributes a l r ++ opt fixed_size sz) (data (sc_text op))]
    | PseudoOp a l r s => [el "mo" (spaced_attributes a l r) (data s)]
    | Space l =>
        if length_is_negative l then [el "mspace" [att "style" (lit "margin-left:" ++ measure l ++ lit ";")] []]
        else [el "mspace" (att "width" (measure l) :: match len_unit l with Rem => [att "style" (lit "width:" ++ measure l)] | _ => [] end) []]
    | Sub t s => [el "msub" [] (mathml t ++ mathml s)]
    | Sup t s => [el "msup" [] (mathml t ++ mathml s)]
    | SubSup t a b => [el "msubsup" [] (mathml t ++ mathml a ++ mathml b)]
    | OverAccent op a t => [el "mover" [att "accent" (lit "true")] (mathml t ++ [el "mo" (operator_attributes a) (data (sc_text op))])]
    | UnderAccent op a t => [el "munder" [att "accentunder" (lit "true")] (mathml t ++ [el "mo" (operator_attributes a) (data (sc_text op))])]
    | Over s t => [el "mover" [] (mathml t ++ mathml s)]
    | Under s t => [el "munder" [] (mathml t ++ mathml s)]
    | UnderOver t a b => [el "munderover" [] (mathml t ++ mathml a ++ mathml b)]
    | Sqrt t => [el "msqrt" [] (mathml t)]
    | Root i r => [el "mroot" [] (mathml r ++ mathml i)]
    | Frac a b v u s =>
        [el "mfrac" (opt (fun l => [att "linethickness" (measure l)]) (length_from_parts v u) ++ opt frac_attributes s) (mathml a ++ mathml b)]
    | Row l a => [el "mrow" (row_attributes a) (flat_map mathml l)]
    | Padded t w h l r v => [xpadded (match v with Some s => set_items s | None => [] end) (padded_attributes w h l r) (mathml t)]
    | Phantom t => [el "mphantom" [] (mathml t)]
    | Text s z t => [el "mtext" (opt (fun z => [att "style" (lit "font-size:" ++ percent z)]) z) (styled s (data t))]
    | AHref h t => [el "mtext" [] [el "a" [att "href" h] (data t)]]
    | EqRef l =>
        [el "mtext" [] [el "a" [att "href" (lit "#" ++ ee_id_prefix e ++ percent_encode l)]
           (data (lit "(" ++ match ee_labels e l with Some t => t | None => lit "??" end ++ lit ")"))]]
    | Table al st bt l =>
        table (Predefined al) None (opt (fun b => [att "style" (border "top" b)]) bt ++ opt style_attributes st) None l
    | EquationArray al last l =>
        table (Predefined al) (Some Wide) [att "displaystyle" (lit "true"); att "scriptlevel" (lit "0"); att "style" (lit "width: 100%")] last l
    | MultLine rows last l =>
        table (CgMultLine rows) (Some Narrow) [att "displaystyle" (lit "true"); att "scriptlevel" (lit "0"); att "style" (lit "width: 100%")] last l
    | ArrayN st sp l =>
        table (Custom sp) None
          (style_of (match as_border_left sp with Some b => border "left" b | None => [] end ++
                     match as_border_top sp with Some b => border "top" b | None => [] end) ++ opt style_attributes st) None l
    | ColumnSeparator | RowSeparator _ _ => []
    | Enclose t no =>
        let on f := has_attr no f in
        [el "menclose"
           [att "notation" (sep_concat (lit " ")
              ((if on N_BOX then [lit "box"] else []) ++ (if on N_ACTUARIAL then [lit "actuarial"] else []) ++
               (if on N_PHASOR_ANGLE then [lit "phasorangle"] else []) ++
               (if on N_UP_DIAGONAL then [lit "updiagonalstrike"] else []) ++
               (if on N_DOWN_DIAGONAL then [lit "downdiagonalstrike"] else [])))]
           (mathml t ++
            (if on N_PHASOR_ANGLE then [el "mrow" [att "class" (lit "menclose-phasorangle")] []] else []) ++
            (if on N_UP_DIAGONAL then [el "mrow" [att "class" (lit "menclose-updiagonalstrike")] []] else []) ++
            (if on N_DOWN_DIAGONAL then [el "mrow" [att "class" (lit "menclose-downdiagonalstrike")] []] else []))]
    | Multiscripts b pre post =>
        let pairs := flat_map (fun p : node * node => match p with (x, y) => mathml x ++ mathml y end) in
        [el "mmultiscripts" []
           (mathml b ++ pairs post ++ match pre with [] => [] | _ => el "mprescripts" [] [] :: pairs pre end)]
    | UnknownCommand s => [el "merror" [att "class" (html_decode (ee_css_unknown e))] [el "mtext" [] (data (lit "\" ++ s))]]
    end.
End Tree.

(** The whole document. *)
Definition document_xml (c : emitter_cfg) (labels : str -> option str) (ast : list node) (latex : str) (d : math_display) : xml :=
  let tree := mathml (env_of c labels) in
  el "math"
    ((if ec_xml_namespace c then [att "xmlns" (lit "http://www.w3.org/1998/Math/MathML")] else []) ++
     match d with Block => [att "display" (lit "block")] | Inline => [] end)
    (if ec_annotation c then
       [el "semantics" []
          (match ast with [n] => tree n | _ => [el "mrow" [] (flat_map tree ast)] end ++
           [el "annotation" [att "encoding" (lit "application/x-tex")] (data latex)])]
     else flat_map tree ast).

(** The strings a node copies as they are have no markup character. *)
Definition leaf_readable (n : node) : Prop :=
  match n with
  | Number s | PseudoOp _ _ _ s | UnknownCommand s => ~ has_markup s
  | IdentifierChar c _ => ~ has_markup (sc_text c) /\ sc_valid c = true
  | EqRef l => label_ok l
  | Row _ a => color_ok a
  | EquationArray _ li _ | MultLine _ li _ | RowSeparator li _ => info_ok li
  | _ => True
  end.
Definition readable : node -> Prop := node_all leaf_readable.
