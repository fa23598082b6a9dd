(** Specifications for the emitter: which trees are free of markup in verbatim strings, how
    pretty printing may differ from compact printing, what a table looks like, and which parts
    of a tree are user text. *)
From Verif Require Import Str M_SuperChar M_Length M_Spec M_Escape M_Ast M_Emit M_Output S_Html S_Xml S_Node.

(** ** Strings without any markup character *)
Definition plain_char (c : N) : bool := negb ((c =? 34) || (c =? 60) || (c =? 62) || (c =? 38)).
Definition plain (s : str) : Prop := forallb plain_char s = true.

(** Labels: scalar values, no ['&'] (the percent encoder leaves that character alone). *)
Definition label_ok (l : str) : Prop := Forall (fun c => is_scalar c = true) l /\ ~ In 38 l.
Definition info_ok (i : option row_label_info) : Prop :=
  match i with Some x => match li_link_target x with Some l => label_ok l | None => True end | None => True end.

(** Color channels are bytes. *)
Definition color_ok (a : row_attrs) : Prop :=
  match ra_color a with Some (r, g, b) => r < 256 /\ g < 256 /\ b < 256 | None => True end.

(** The strings a node copies without escaping. *)
Definition leaf_clean (n : node) : Prop :=
  match n with
  | Number s => content_safe s
  | IdentifierChar c _ => content_safe (sc_text c)
  | PseudoOp _ _ _ s => content_safe s
  | UnknownCommand s => content_safe s
  | EqRef l => label_ok l
  | Row _ a => color_ok a
  | EquationArray _ li _ | MultLine _ li _ | RowSeparator li _ => info_ok li
  | _ => True
  end.
Definition clean : node -> Prop := node_all leaf_clean.

(** The configured strings, and the float formatter, write no markup characters. *)
Definition env_ok (e : emit_env) : Prop :=
  value_safe (ee_css_unknown e) /\ plain (ee_id_prefix e) /\ forall x, plain (ee_dtoa e x).

(** ** Pretty printing: [layout u p s] if [p] is [s] with line breaks, each followed by some
    copies of the indentation unit [u], inserted in front of ['<'] characters. *)
Inductive layout (u : str) : str -> str -> Prop :=
| lay_nil : layout u [] []
| lay_char c p s : layout u p s -> layout u (c :: p) (c :: s)
| lay_ins d p s : layout u p (60 :: s) -> layout u (10 :: concat (repeat u d) ++ p) (60 :: s).

(** ** Tables *)

(** One row: its top border, its cells, the information for its number. *)
Record table_row := mkRow { tr_top : option line_type; tr_cells : list (list node); tr_info : option row_label_info }.

(** Rows and cells of a table's content, separators being the only structure. *)
Fixpoint table_rows_from (last : option row_label_info) (l : list node)
    : list node * list (list node) * option row_label_info * list table_row :=
  match l with
  | [] => ([], [], last, [])
  | n :: r =>
      match n with
      | ColumnSeparator =>
          match table_rows_from last r with (c, cs, i, rows) => ([], c :: cs, i, rows) end
      | RowSeparator li bt =>
          match table_rows_from last r with (c, cs, i, rows) => ([], [], li, mkRow bt (c :: cs) i :: rows) end
      | _ => match table_rows_from last r with (c, cs, i, rows) => (n :: c, cs, i, rows) end
      end
  end.
Definition table_rows (last : option row_label_info) (l : list node) : list table_row :=
  match table_rows_from last l with (c, cs, i, rows) => mkRow None (c :: cs) i :: rows end.

(** Separators. *)
Definition is_row_sep (n : node) : bool := match n with RowSeparator _ _ => true | _ => false end.
Definition is_sep (n : node) : bool := match n with RowSeparator _ _ | ColumnSeparator => true | _ => false end.

(** Columns of a specification: for each content column, the line columns in front of it; the
    last entry stands for the first cell after the specified ones. *)
Fixpoint column_groups (cols : list col_entry) : list (list line_type * (col_align * option line_type)) :=
  match cols with
  | [] => [([], (Centered, None))]
  | WithContent a b :: r => ([], (a, b)) :: column_groups r
  | OnlyLine l :: r =>
      match column_groups r with
      | (ls, c) :: gs => (l :: ls, c) :: gs
      | [] => []
      end
  end.
Definition column_group (cols : list col_entry) (j : nat) :=
  nth j (column_groups cols) ([], (Centered, None)).

(** Style of the cell in row [i], column [j], whose row has top border style [bt]. *)
Definition cell_style (t : alignment_type) (bt : str) (i j : nat) : str :=
  bt ++
  match t with
  | Predefined AlCases => LEFT_ALIGN ++ PADDING_RIGHT_ZERO ++ (if Nat.even j then [] else lit "padding-left:1em;")
  | Predefined AlCentered => []
  | Predefined AlAlternating =>
      if Nat.even j then RIGHT_ALIGN ++ PADDING_RIGHT_ZERO else LEFT_ALIGN ++ PADDING_LEFT_ZERO
  | Custom sp =>
      let '(a, br) := snd (column_group (as_columns sp) j) in
      match a with LeftJustified => LEFT_ALIGN | Centered => [] | RightJustified => RIGHT_ALIGN end ++
      opt_str border_right_str br ++ (if as_is_sub sp then PADDING_TOP_BOTTOM_ZERO else [])
  | CgMultLine rows =>
      if Nat.eqb i 0 then LEFT_ALIGN else if N.of_nat (S i) =? rows then RIGHT_ALIGN else []
  end.
(** Styles of the empty cells drawn for line columns in front of column [j]. *)
Definition cell_lines (t : alignment_type) (bt : str) (j : nat) : list str :=
  match t with
  | Custom sp =>
      map (fun l => bt ++ border_right_str l ++ (if as_is_sub sp then PADDING_TOP_BOTTOM_ZERO else []) ++
                    lit "padding-left: 0.1em;padding-right: 0.1em;")
        (fst (column_group (as_columns sp) j))
  | _ => []
  end.

Definition mtd (st body : str) : str :=
  elem (lit "mtd") (match st with [] => [] | _ => lit " style=""" ++ st ++ q end) body.

Fixpoint mapi {A B} (f : nat -> A -> B) (i : nat) (l : list A) : list B :=
  match l with [] => [] | x :: r => f i x :: mapi f (S i) r end.

(** One [<mtr>] per row, one content [<mtd>] per cell. *)
Definition cell_text (e : emit_env) (em : node -> nat -> str) (t : alignment_type) (ind2 ind3 i : nat) (bt : str)
    (j : nat) (cell : list node) : str :=
  nl e ind2 ++ concat (map (fun st => mtd st [] ++ nl e ind2) (cell_lines t bt j)) ++
  mtd (cell_style t bt i j) (concat (map (fun n => em n ind3) cell) ++ nl e ind2).
Definition row_text (e : emit_env) (em : node -> nat -> str) (t : alignment_type) (nc : option number_columns)
    (ind1 ind2 ind3 i : nat) (r : table_row) : str :=
  nl e ind1 ++ elem (lit "mtr") []
   (opt_num (fun c => initial_dummy_column e c ind2) nc ++
    concat (mapi (cell_text e em t ind2 ind3 i (opt_str border_top_str (tr_top r))) 0 (tr_cells r)) ++
    opt_num (write_equation_num e ind2 ind3 (tr_info r)) nc ++ nl e ind1).
Definition table_text (e : emit_env) (em : node -> nat -> str) (t : alignment_type) (nc : option number_columns)
    (base ind1 ind2 ind3 : nat) (rows : list table_row) : str :=
  concat (mapi (row_text e em t nc ind1 ind2 ind3) 0 rows) ++ nl e base ++ lit "</mtable>".

(** ** User text: everything in a tree that came from the input as text rather than structure *)
Definition erase_info (i : option row_label_info) : option row_label_info :=
  option_map (fun x => mkLabelInfo (mkTag [] (tag_parenthesized (li_tag x))) (li_link_target x)) i.
Fixpoint erase (n : node) : node :=
  match n with
  | Number _ => Number []
  | IdentifierStr _ => IdentifierStr []
  | PseudoOp a l r _ => PseudoOp a l r []
  | Sub a b => Sub (erase a) (erase b)
  | Sup a b => Sup (erase a) (erase b)
  | SubSup a b c => SubSup (erase a) (erase b) (erase c)
  | OverAccent o a x => OverAccent o a (erase x)
  | UnderAccent o a x => UnderAccent o a (erase x)
  | Over a b => Over (erase a) (erase b)
  | Under a b => Under (erase a) (erase b)
  | UnderOver a b c => UnderOver (erase a) (erase b) (erase c)
  | Sqrt a => Sqrt (erase a)
  | Root a b => Root (erase a) (erase b)
  | Frac a b v u f => Frac (erase a) (erase b) v u f
  | Row l a => Row (map erase l) a
  | Padded a w h l r v => Padded (erase a) w h l r v
  | Phantom a => Phantom (erase a)
  | Text s z _ => Text s z []
  | AHref h _ => AHref h []
  | Table al st bt l => Table al st bt (map erase l)
  | EquationArray al li l => EquationArray al (erase_info li) (map erase l)
  | MultLine k li l => MultLine k (erase_info li) (map erase l)
  | ArrayN st sp l => ArrayN st sp (map erase l)
  | RowSeparator li bt => RowSeparator (erase_info li) bt
  | Enclose a no => Enclose (erase a) no
  | Multiscripts b pre post =>
      Multiscripts (erase b) (map (fun p => match p with (x, y) => (erase x, erase y) end) pre)
        (map (fun p => match p with (x, y) => (erase x, erase y) end) post)
  | UnknownCommand _ => UnknownCommand []
  | _ => n
  end.
Definition erase_env (e : emit_env) : emit_env :=
  mkEmitEnv (fun _ => Some []) (ee_css_unknown e) (ee_indentation e) (ee_id_prefix e) (ee_dtoa e).

(** ** Documents *)

(** The configured strings write no markup characters. *)
Definition cfg_ok (c : emitter_cfg) : Prop :=
  value_safe (ec_css_unknown c) /\ plain (ec_id_prefix c) /\ forall x, plain (ec_dtoa c x).

(** The same configuration without pretty printing. *)
Definition compact (c : emitter_cfg) : emitter_cfg :=
  mkEmitterCfg PpNever (ec_xml_namespace c) (ec_annotation c) (ec_css_unknown c) (ec_indentation c) (ec_id_prefix c) (ec_dtoa c).

(** The warnings a node causes itself. *)
Definition own_warning (labels : str -> option str) (n : node) : warnings :=
  match n with
  | EqRef l => match labels l with Some _ => warn_none | None => mkWarn true false end
  | UnknownCommand _ => mkWarn false true
  | _ => warn_none
  end.

(** Reading [rrggbb] (upper case digits only). *)
Definition upper_hex (d : N) : bool := ((48 <=? d) && (d <=? 57)) || ((65 <=? d) && (d <=? 70)).
Definition read_rgb (s : str) : option (N * N * N) :=
  match s with
  | [a; b; c; d; e; f] =>
      if forallb upper_hex s then
        match unhex a, unhex b, unhex c, unhex d, unhex e, unhex f with
        | Some a, Some b, Some c, Some d, Some e, Some f => Some (16 * a + b, 16 * c + d, 16 * e + f)
        | _, _, _, _, _, _ => None
        end
      else None
  | _ => None
  end.
