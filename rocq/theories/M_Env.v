(** Model of crates/math-core/src/environments.rs and of the delimiters in
    crates/math-core/src/character_class.rs. *)
From Verif Require Import Str M_SuperChar M_Length M_Spec M_Ast M_Token M_Symbols.

(** ** character_class.rs: stretchable operators *)

(** character_class.rs:51-62 [Stretchy] *)
Inductive stretchy := SyAlways | SyPrePostfix | SyNever | SyAlwaysAsymmetric.
(** character_class.rs:64-75 [DelimiterSpacing] *)
Inductive delimiter_spacing := DsZero | DsInfixRelation | DsRelation | DsOther.
(** character_class.rs:82-87 [StretchableOp] *)
Record stretchable_op := mkStretchable { so_op : superchar; so_stretchy : stretchy; so_spacing : delimiter_spacing }.

(** character_class.rs:95-121 [StretchableOp::from_ord] *)
Definition stretchable_from_ord (o : ord_like) : option stretchable_op :=
  match ord_cat o with
  | OcF | OcG | OcFG => Some (mkStretchable (ord_as_op o) SyAlways DsZero)
  | OcFGandForceDefault => Some (mkStretchable (ord_as_op o) SyPrePostfix DsInfixRelation)
  | OcK => Some (mkStretchable (ord_as_op o) SyNever DsZero)
  | OcKButUsedToBeB => Some (mkStretchable (ord_as_op o) SyNever DsOther)
  | OcD | OcE | OcDE | OcI | OcIK => None
  end.
(** character_class.rs:123-134 [StretchableOp::from_rel] *)
Definition stretchable_from_rel (r : rel) : option stretchable_op :=
  match rel_cat r with
  | RcA => Some (mkStretchable (rel_as_op r) SyAlwaysAsymmetric DsRelation)
  | RcDefault | RcDandForceDefault => None
  end.
(** character_class.rs:136-152 [StretchableOp::from_force_stretchy] *)
Definition stretchable_from_force (o : superchar) (s : force_stretchy) : option stretchable_op :=
  match s with
  | FsYes => Some (mkStretchable o SyNever DsZero)
  | FsPretend => Some (mkStretchable o SyAlways DsZero)
  | FsNo => None
  end.

(** character_class.rs:164-197, the inner [to_operator] of [fenced] *)
Definition fence_operator (delim : option stretchable_op) : node :=
  match delim with
  | Some o =>
      let attrs := match so_stretchy o with SyNever => A_STRETCHY_TRUE | _ => A_EMPTY end in
      let sp := match so_spacing o with DsRelation | DsOther => Some MsZero | _ => None end in
      Operator (so_op o) attrs None sp sp
  | None => Operator (ord_as_op SYM_INVISIBLE_SEPARATOR) A_EMPTY None None None
  end.
(** character_class.rs:155-209 [fenced] *)
Definition fenced (content : list node) (open close : option stretchable_op) (st : option style) : node :=
  Row (fence_operator open :: content ++ [fence_operator close]) (mkRowAttrs None st false).

(** ** environments.rs *)

(** environments.rs:16-39 [ENVIRONMENTS] *)
Definition ENVIRONMENTS : list (str * env) :=
  [ (lit "array", EArray); (lit "subarray", ESubarray); (lit "align", EAlign); (lit "align*", EAlignStar);
    (lit "aligned", EAligned); (lit "darray", EDArray); (lit "equation", EEquation);
    (lit "equation*", EEquationStar); (lit "gather", EGather); (lit "gather*", EGatherStar);
    (lit "gathered", EGathered); (lit "multline", EMultLine); (lit "bmatrix", EBMatrix);
    (lit "Bmatrix", EBmatrix); (lit "cases", ECases); (lit "rcases", ERCases); (lit "dcases", EDCases);
    (lit "drcases", EDRCases); (lit "matrix", EMatrix); (lit "pmatrix", EPMatrix);
    (lit "vmatrix", EVMatrix); (lit "Vmatrix", EVmatrix) ].

(** derived [PartialEq] on [Env] *)
Definition env_eqb (a b : env) : bool :=
  match a, b with
  | EArray, EArray | EDArray, EDArray | ESubarray, ESubarray | EAlign, EAlign | EAlignStar, EAlignStar
  | EAligned, EAligned | EEquation, EEquation | EEquationStar, EEquationStar | EGather, EGather
  | EGatherStar, EGatherStar | EGathered, EGathered | EMultLine, EMultLine | ECases, ECases
  | ERCases, ERCases | EDCases, EDCases | EDRCases, EDRCases | EMatrix, EMatrix | EBMatrix, EBMatrix
  | EBmatrix, EBmatrix | EPMatrix, EPMatrix | EVMatrix, EVMatrix | EVmatrix, EVmatrix => true
  | _, _ => false
  end.

(** environments.rs:77-79 [Env::from_str] *)
Definition env_from_str (s : str) : option env := assoc_str s ENVIRONMENTS.
(** environments.rs:81-86 [Env::as_str] *)
Definition env_as_str (e : env) : str :=
  match find_map (fun kv => if env_eqb (snd kv) e then Some (fst kv) else None) ENVIRONMENTS with
  | Some s => s
  | None => lit "unknown"
  end.

(** environments.rs:88-99 [allows_columns] *)
Definition env_allows_columns (e : env) : bool :=
  match e with
  | EEquation | EEquationStar | EGather | EGatherStar | EGathered | EMultLine => false
  | _ => true
  end.
(** environments.rs:101-117 [allows_hlines] *)
Definition env_allows_hlines (e : env) : bool :=
  match e with
  | EArray | EDArray | ESubarray | EMatrix | EPMatrix | EBMatrix | EBmatrix | EVMatrix | EVmatrix => true
  | _ => false
  end.

(** environments.rs:328-334 [NumberingMode] *)
Inductive numbering_mode := NoneByDefault | AllByDefault | OnlyLast.
(** environments.rs:336-344 [NumberedEnvState]; [num_rows] is a [NonZeroU16] *)
Record numbered_env := mkNumbered {
  ne_mode : numbering_mode;
  ne_suppress : bool;
  ne_custom_tag : option equation_tag;
  ne_label : option str;
  ne_num_rows : option N
}.
(** environments.rs:316-326 [EnvState] *)
Record env_state := mkEnvState {
  es_allow_columns : bool;
  es_meaningful_newlines : bool;
  es_allow_hlines : bool;
  es_numbered : option numbered_env
}.
Definition env_state_default : env_state := mkEnvState false false false None.

(** environments.rs:119-147 [get_numbered_env_state] *)
Definition numbered_env_state (e : env) : option numbered_env :=
  match e with
  | EAlign | EEquation | EGather => Some (mkNumbered AllByDefault false None None None)
  | EMultLine => Some (mkNumbered OnlyLast false None None (Some 1))
  | EAlignStar | EEquationStar | EGatherStar => Some (mkNumbered NoneByDefault false None None None)
  | _ => None
  end.
(** environments.rs:149-156 [new_state] *)
Definition env_new_state (e : env) : env_state :=
  mkEnvState (env_allows_columns e)
             (match e with EEquation | EEquationStar => false | _ => true end)
             (env_allows_hlines e) (numbered_env_state e).
(** environments.rs:158-168 [style] *)
Definition env_style (e : env) : style :=
  match e with
  | EDArray | EAlign | EAlignStar | EAligned | EEquation | EEquationStar | EGather | EGatherStar
  | EGathered | EMultLine | EDCases | EDRCases => StDisplay
  | EArray | ECases | ERCases | EMatrix | EBMatrix | EBmatrix | EPMatrix | EVMatrix | EVmatrix => StText
  | ESubarray => StScript
  end.

(** environments.rs:66-74: delimiters ([from_ord(..).unwrap()] is evaluated at compile time) *)
Definition OPEN_PAREN := stretchable_from_ord SYM_LEFT_PARENTHESIS.
Definition CLOSE_PAREN := stretchable_from_ord SYM_RIGHT_PARENTHESIS.
Definition OPEN_BRACKET := stretchable_from_ord SYM_LEFT_SQUARE_BRACKET.
Definition CLOSE_BRACKET := stretchable_from_ord SYM_RIGHT_SQUARE_BRACKET.
Definition OPEN_BRACE := stretchable_from_ord SYM_LEFT_CURLY_BRACKET.
Definition CLOSE_BRACE := stretchable_from_ord SYM_RIGHT_CURLY_BRACKET.

(** environments.rs:170-313 [construct_node].  [None] stands for the undefined behaviour of
    [unwrap_unchecked] on a missing column specification. *)
Definition construct_node (e : env) (content : list node) (spec : option array_spec)
    (last_row_info : option row_label_info) (num_rows : option N) (border_top : option line_type)
  : option node :=
  let cases st open close := Some (fenced [Table AlCases (Some st) None content] open close None) in
  let array st := match spec with Some a => Some (ArrayN (Some st) a content) | None => None end in
  let matrix open close := Some (fenced [Table AlCentered (Some StText) border_top content] open close None) in
  match e with
  | EAlign | EAlignStar => Some (EquationArray AlAlternating last_row_info content)
  | EAligned => Some (Table AlAlternating (Some StDisplay) None content)
  | EEquation | EEquationStar | EGather | EGatherStar => Some (EquationArray AlCentered last_row_info content)
  | EGathered => Some (Table AlCentered (Some StDisplay) None content)
  | EMatrix => Some (Table AlCentered (Some StText) border_top content)
  | EMultLine => Some (MultLine (match num_rows with Some n => n | None => 1 end) last_row_info content)
  | ECases => cases StText OPEN_BRACE None
  | ERCases => cases StText None CLOSE_BRACE
  | EDCases => cases StDisplay OPEN_BRACE None
  | EDRCases => cases StDisplay None CLOSE_BRACE
  | EArray => array StText
  | EDArray => array StDisplay
  | ESubarray => array StScript
  | EPMatrix => matrix OPEN_PAREN CLOSE_PAREN
  | EBMatrix => matrix OPEN_BRACKET CLOSE_BRACKET
  | EBmatrix => matrix OPEN_BRACE CLOSE_BRACE
  | EVMatrix => let l := stretchable_from_ord SYM_VERTICAL_LINE in matrix l l
  | EVmatrix => let l := stretchable_from_ord SYM_DOUBLE_VERTICAL_LINE in matrix l l
  end.

(** environments.rs:346-377 [next_equation_tag]: the result is [None] for the overflow error of
    the counter, a [usize] whose largest value is [usize_max], and otherwise the tag of the row,
    the new state and the new counter. *)
Definition next_equation_tag (usize_max : N) (ne : numbered_env) (counter : N) (is_last : bool)
  : option (option equation_tag * numbered_env * N) :=
  let skip := match ne_mode ne with OnlyLast => negb is_last | _ => false end in
  if skip then Some (None, ne, counter)
  else
    match ne_custom_tag ne with
    | Some t => Some (Some t, mkNumbered (ne_mode ne) (ne_suppress ne) None (ne_label ne) (ne_num_rows ne), counter)
    | None =>
        if ne_suppress ne || match ne_mode ne with NoneByDefault => true | _ => false end then
          Some (None, mkNumbered (ne_mode ne) false None (ne_label ne) (ne_num_rows ne), counter)
        else if counter + 1 <=? usize_max then
          Some (Some (mkTag (dec (counter + 1)) true), ne, counter + 1)
        else None
    end.

(** ** parser.rs: rows of numbered environments *)

(** global_state.rs:11 [label_map]: a hash map as an association list, the newest entry first *)
Definition label_map := list (str * str).
(** [HashMap::insert] (a shadowed older entry is never found again) *)
Definition label_insert (k v : str) (m : label_map) : label_map := (k, v) :: m.

(** parser.rs:361-366 [\notag] *)
Definition numbered_notag (ne : numbered_env) : numbered_env :=
  mkNumbered (ne_mode ne) true (ne_custom_tag ne) (ne_label ne) (ne_num_rows ne).
(** parser.rs:369-374 [\tag] *)
Definition numbered_tag (t : equation_tag) (ne : numbered_env) : numbered_env :=
  mkNumbered (ne_mode ne) (ne_suppress ne) (Some t) (ne_label ne) (ne_num_rows ne).
(** parser.rs:391-397 [\label]; [None]: more than one label *)
Definition numbered_label (l : str) (ne : numbered_env) : option numbered_env :=
  match ne_label ne with
  | Some _ => None
  | None => Some (mkNumbered (ne_mode ne) (ne_suppress ne) (ne_custom_tag ne) (Some l) (ne_num_rows ne))
  end.
Definition numbered_clear_label (ne : numbered_env) : numbered_env :=
  mkNumbered (ne_mode ne) (ne_suppress ne) (ne_custom_tag ne) None (ne_num_rows ne).

(** largest value of [NonZeroU16] *)
Definition U16_MAX : N := 65535.

(** parser.rs:1739-1751: counting the rows of [multline]; [None]: too many rows *)
Definition bump_rows (ne : numbered_env) : option numbered_env :=
  match ne_num_rows ne with
  | None => Some ne
  | Some n =>
      if n + 1 <=? U16_MAX
      then Some (mkNumbered (ne_mode ne) (ne_suppress ne) (ne_custom_tag ne) (ne_label ne) (Some (n + 1)))
      else None
  end.

(** parser.rs:1516-1537 (at [\end]) and 1752-1774 (at [\\]): the number and label of a finished
    row; [None]: the equation counter overflows *)
Definition finish_row (usize_max : N) (ne : numbered_env) (counter : N) (labels : label_map) (is_last : bool)
  : option (option row_label_info * numbered_env * N * label_map) :=
  match next_equation_tag usize_max ne counter is_last with
  | None => None
  | Some (tag, ne', counter') =>
      let target := ne_label ne' in
      match tag with
      | Some t =>
          let labels' := match target with Some l => label_insert l (tag_text t) labels | None => labels end in
          Some (Some (mkLabelInfo t target), numbered_clear_label ne', counter', labels')
      | None => Some (None, numbered_clear_label ne', counter', labels)
      end
  end.
