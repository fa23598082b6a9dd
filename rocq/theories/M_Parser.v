(** Model of the recursive parser in crates/math-core/src/parser.rs.

    The parser is a program over primitive operations ([op]) and recursive calls ([call]).
    [exec] gives the meaning of the operations, [body] the program behind each call, and [run]
    executes a program; the depth of calls is limited by its fuel. *)
From Verif Require Import Str M_SuperChar M_Transform M_Length M_Spec M_Ast M_Token M_Symbols M_Commands M_Env
  M_LatexError M_Lexer M_CustomCmds M_Queue M_Spacing M_Leaf M_TextParser.

(** ** State *)

(** parser.rs:54-74 [ParserState] without the buffer for arguments *)
Record pview := mkPv {
  pv_transform : option math_variant; pv_hack : bool; pv_env : env_state; pv_style : style;
  pv_vld : option vertical_line_def; pv_left : nat }.
(** parser.rs:46-51 [Parser] *)
Record pstate := mkPs { ps_queue : queue; ps_view : pview }.

Definition pv_set_transform (t : option math_variant) (v : pview) : pview :=
  mkPv t (pv_hack v) (pv_env v) (pv_style v) (pv_vld v) (pv_left v).
Definition pv_set_hack (h : bool) (v : pview) : pview :=
  mkPv (pv_transform v) h (pv_env v) (pv_style v) (pv_vld v) (pv_left v).
Definition pv_set_env (e : env_state) (v : pview) : pview :=
  mkPv (pv_transform v) (pv_hack v) e (pv_style v) (pv_vld v) (pv_left v).
Definition pv_set_style (s : style) (v : pview) : pview :=
  mkPv (pv_transform v) (pv_hack v) (pv_env v) s (pv_vld v) (pv_left v).
Definition pv_set_vld (d : option vertical_line_def) (v : pview) : pview :=
  mkPv (pv_transform v) (pv_hack v) (pv_env v) (pv_style v) d (pv_left v).
Definition pv_set_left (n : nat) (v : pview) : pview :=
  mkPv (pv_transform v) (pv_hack v) (pv_env v) (pv_style v) (pv_vld v) n.
Definition es_set_numbered (n : option numbered_env) (e : env_state) : env_state :=
  mkEnvState (es_allow_columns e) (es_meaningful_newlines e) (es_allow_hlines e) n.

(** parser.rs:76-95 [SequenceEnd] *)
Inductive seq_end := SeqEnd (e : end_token) | SeqAny.
Definition seq_end_matches (e : seq_end) (t : token) : bool :=
  match e with
  | SeqEnd e => end_matches e t
  | SeqAny => match t with T_Eoi | T_GroupEnd | T_End _ | T_Right => true | _ => false end
  end.
(** parser.rs:97-118 [ParseAs] *)
Inductive parse_as := PaSequence | PaContinue | PaArg | PaArgSpace.
Definition in_sequence (a : parse_as) : bool := match a with PaSequence | PaContinue => true | _ => false end.

(** ** Operations *)

Inductive op : Type -> Type :=
| ONext : op tokspan                                     (* [next_token] *)
| OPeek : op tokspan                                     (* [tokens.peek] *)
| OPeekClass (in_seq : bool) : op class                  (* [peek_class_token] *)
| OView : op pview                                       (* reading the fields of [self.state] *)
| OSetTransform (t : option math_variant) : op unit      (* and writing them *)
| OSetHack (h : bool) : op unit
| OSetStyle (s : style) : op unit
| OSetEnv (e : env_state) : op unit
| OSetVld (d : option vertical_line_def) : op unit
| OLetters : op (option node)                            (* [merge_and_transform_letters] *)
| ODigits (first : N) : op str                           (* the digits of a number *)
| OPrimes (k : prime_kind) : op (list (prime_direction * nat) * bool)
| OPrimeCaret : op unit                                  (* the [^] after primes *)
| OLiteral : op (str * span)                             (* [parse_string_literal] *)
| OArgument : op macro_argument                          (* [read_argument(false)] *)
| OKern (k : unit_kind) (stop : nat) : op node           (* [parse_kern_or_skip] *)
| OColor (sp : span) : op (N * N * N)
| OText (st : option text_style) (vo : option length_set) (text_mode : bool) : op (list snippet)
| ODefine (m : define_mode) : op unit                    (* [define_command] *)
| ODef (is_global : bool) : op unit                      (* [def_command] *)
| OLet (is_global : bool) : op unit                      (* [let_command] *)
| OGlobal : op unit                                      (* [global_prefix] *)
| OExpand (num_args : nat) (body : list token) (sp : span) : op unit   (* a builtin macro *)
| OExpandRef (src : cmd_source) (num_args start stop : nat) (sp : span) : op unit
| ODots (centered : bool) : op unit                      (* [\dots] *)
| OChoice (sp : span) : op unit                          (* [\mathchoice] *)
| OChosen (t : tokspan) : op unit                        (* a predefined choice *)
| ORow (sp : span) : op node                             (* the end of a row *)
| OEnvEnd (sp : span) (ne : option numbered_env) : op (option row_label_info * option N).

Section Exec.
Context (cfg : parser_cfg) (usize_max : N).
Let M (A : Type) : Type := St pstate A.

Definition on_queue {A} (m : St queue A) : M A :=
  fun s => let (r, q) := m (ps_queue s) in (r, mkPs q (ps_view s)).
Definition on_view (f : pview -> pview) : M unit := fun s => (Ok tt, mkPs (ps_queue s) (f (ps_view s))).
Definition view : M pview := sget ps_view.
Definition on_queue_pure (f : queue -> queue) : M unit := on_queue (fun q => (Ok tt, f q)).

(** [TokSpan] of a queued token *)
Definition next_tok : M tokspan := let* t := on_queue (q_next cfg) in sret (qt_tokspan t).

(** parser.rs:3184-3209 [peek_class_token] *)
Definition peek_class (in_seq : bool) : M class :=
  if in_seq then
    let* '(idx, c) := on_queue (q_peek_class cfg) in
    let* v := view in
    let* q := sget ps_queue in
    match pv_vld v, option_map qt_tok (nth_error (q_toks q) idx) with
    | Some vld, Some (T_MathOrTextMode (T_Ord o) ch) =>
        if is_vertical_line o && (ch =? 124) then
          sret match vld with VldRelSpacing => ClDefault | _ => ClClose end
        else sret c
    | _, _ => sret c
    end
  else sret ClDefault.

(** parser.rs:2653-2662 [count_expansion] *)
Definition count_expansion (sp : span) : M unit :=
  let* v := view in
  match pv_left v with
  | O => sfail sp E_TooManyExpansions
  | S n => on_view (pv_set_left n)
  end.

(** parser.rs:2272-2278: a builtin macro *)
Definition expand (num_args : nat) (body : list token) (sp : span) : M unit :=
  count_expansion sp ;*
  let* args := on_queue (read_cmd_args cfg num_args) in
  on_queue_pure (queue_body body args sp).
(** parser.rs:2279-2292: a stored macro *)
Definition expand_ref (src : cmd_source) (num_args start stop : nat) (sp : span) : M unit :=
  count_expansion sp ;*
  let* args := on_queue (read_cmd_args cfg num_args) in
  let* found := on_queue (fun q => let (b, q') := queue_stored_body cfg src start stop args sp q in (Ok b, q')) in
  if (found : bool) then sret tt else sfail sp E_Internal.

(** parser.rs:2313-2326: [\mathchoice] *)
Definition style_index (s : style) : nat :=
  match s with StDisplay => 0 | StText => 1 | StScript => 2 | StScriptScript => 3 end.
Definition math_choice (sp : span) : M unit :=
  let* v := view in
  let* args := on_queue (read_cmd_args cfg 4) in
  on_queue_pure (queue_arg (args_get args (style_index (pv_style v))) sp).

(** parser.rs:1514-1540 and 1754-1784: numbers and labels of a finished row are recorded in the global
    state *)
Definition record_row (ne : numbered_env) (is_last : bool) (sp : span) : M (option row_label_info * numbered_env) :=
  let* q := sget ps_queue in
  let gs := q_gs q in
  match finish_row usize_max ne (gs_count gs) (gs_labels gs) is_last with
  | None => sfail sp E_HardLimitExceeded
  | Some (info, ne', count, labels) =>
      on_queue_pure (fun q => q_set_stores q (q_local q) (mkGs count labels (gs_cmds gs))) ;* sret (info, ne')
  end.
(** parser.rs:1717-1787: [\\] *)
Definition new_row (sp : span) : M node :=
  let* v := view in
  if es_meaningful_newlines (pv_env v) then
    let* border :=
      (if es_allow_hlines (pv_env v) then
         let* t := on_queue (sget q_peek) in
         match qt_tok t with
         | T_HLine l => next_tok ;* sret (Some l)
         | _ => sret None
         end
       else sret None) in
    match es_numbered (pv_env v) with
    | None => sret (RowSeparator None border)
    | Some ne =>
        match bump_rows ne with
        | None => sfail sp E_HardLimitExceeded
        | Some ne1 =>
            let* '(info, ne2) := record_row ne1 false sp in
            on_view (fun v => pv_set_env (es_set_numbered (Some ne2) (pv_env v)) v) ;*
            sret (RowSeparator info border)
        end
    end
  else sret EMPTY_ROW.
(** parser.rs:1514-1546: the last row *)
Definition env_end (sp : span) (ne : option numbered_env) : M (option row_label_info * option N) :=
  match ne with
  | None => sret (None, None)
  | Some n => let* '(info, n') := record_row n true sp in sret (info, ne_num_rows n')
  end.

Definition exec {A} (o : op A) : M A :=
  match o in op A return M A with
  | ONext => next_tok
  | OPeek => let* t := on_queue (sget q_peek) in sret (qt_tokspan t)
  | OPeekClass b => peek_class b
  | OView => view
  | OSetTransform t => on_view (pv_set_transform t)
  | OSetHack h => on_view (pv_set_hack h)
  | OSetStyle x => on_view (pv_set_style x)
  | OSetEnv e => on_view (pv_set_env e)
  | OSetVld d => on_view (pv_set_vld d)
  | OLetters => let* v := view in on_queue (merge_letters cfg (pv_transform v))
  | ODigits d => on_queue (read_digits cfg d)
  | OPrimes k => on_queue (read_primes cfg k)
  | OPrimeCaret => on_queue (q_next_any cfg) ;* sret tt
  | OLiteral => on_queue (parse_string_literal cfg)
  | OArgument => on_queue (read_argument cfg false)
  | OKern k stop => on_queue (parse_kern_or_skip cfg k stop)
  | OColor sp => on_queue (parse_color cfg sp)
  | OText st vo m => on_queue (extract_text cfg m st vo)
  | ODefine m => on_queue (define_command cfg m)
  | ODef g => on_queue (def_command cfg g)
  | OLet g => on_queue (let_command cfg g)
  | OGlobal => on_queue (global_prefix cfg)
  | OExpand n b sp => expand n b sp
  | OExpandRef src n a b sp => expand_ref src n a b sp
  | ODots c => on_queue_pure (queue_in_front (map qt_of_token (if c then PRE_CDOTS else PRE_DOTS)))
  | OChoice sp => math_choice sp
  | OChosen t => on_queue_pure (queue_in_front [qt_of t])
  | ORow sp => new_row sp
  | OEnvEnd sp ne => env_end sp ne
  end.
End Exec.

(** ** Programs *)

(** What is left of a fraction command such as [\over] before it: the numerator. *)
Definition infix_frac : Type := option (list node * bool * option infix_delim).

Inductive call : Type -> Type :=
| CSeq (e : seq_end) (prev : class) (keep_end : bool) : call (list node)
| CLoop (e : seq_end) (prev : class) (nodes : list node) (infix : infix_frac) : call (list node * infix_frac)
| CTok (t : tokspan) (a : parse_as) (prev : class) : call (class * node)
| CBounds (first : option tokspan) (acc : bounds_limits) : call bounds_limits.

Inductive prog (B : Type) : Type :=
| Ret (b : B)
| Fail (e : latex_error)
| Stop (c : crash)
| Do {A} (o : op A) (k : A -> prog B)
| Call {A} (c : call A) (k : A -> prog B).
Arguments Ret {B} b.
Arguments Fail {B} e.
Arguments Stop {B} c.
Arguments Do {B A} o k.
Arguments Call {B A} c k.

Fixpoint pbind {A B} (p : prog A) (f : A -> prog B) : prog B :=
  match p with
  | Ret a => f a
  | Fail e => Fail e
  | Stop c => Stop c
  | Do o k => Do o (fun x => pbind (k x) f)
  | Call c k => Call c (fun x => pbind (k x) f)
  end.
Definition fail {B} (sp : span) (k : err_kind) : prog B := Fail (mkErr sp k).
Definition pres {B} (r : res B) : prog B :=
  match r with Ok b => Ret b | Err e => Fail e | Crash c => Stop c end.

Notation "'do' x := o 'in' k" := (Do o (fun x => k)) (at level 200, x name, o at level 100, k at level 200).
Notation "'do' '( x , y ) := o 'in' k" := (Do o (fun p => let (x, y) := p in k))
  (at level 200, x name, y name, o at level 100, k at level 200).
Notation "'do_' o 'in' k" := (Do o (fun _ => k)) (at level 200, o at level 100, k at level 200).
Notation "'rec' x := c 'in' k" := (Call c (fun x => k)) (at level 200, x name, c at level 100, k at level 200).
Notation "'rec' '( x , y ) := c 'in' k" := (Call c (fun p => let (x, y) := p in k))
  (at level 200, x name, y name, c at level 100, k at level 200).
Notation "'sub' x := p 'in' k" := (pbind p (fun x => k)) (at level 200, x name, p at level 100, k at level 200).
Notation "'sub' '( x , y ) := p 'in' k" := (pbind p (fun xy => let (x, y) := xy in k))
  (at level 200, x name, y name, p at level 100, k at level 200).

(** parser.rs:2696-2700 [parse_next] *)
Definition parse_next (a : parse_as) : prog node :=
  do t := ONext in rec r := CTok t a ClDefault in Ret (snd r).
(** parser.rs:182-194 [parse_sequence_if_in_sequence] *)
Definition seq_if_in_sequence (a : parse_as) (sp : span) (e : seq_end) (prev : class) (keep : bool) : prog (list node) :=
  if in_sequence a then rec l := CSeq e prev keep in Ret l else fail sp E_CannotBeUsedAsArgument.
(** parser.rs:2936-2974 [mathop_spacing] *)
Definition parse_mathop_spacing (a : parse_as) (prev : class) (explicit : bool) : prog spacing_pair :=
  do next := OPeekClass (in_sequence a) in
  do v := OView in
  Ret (mathop_spacing (pv_style v) prev next explicit).
Definition get_bounds (first : option tokspan) : prog bounds_limits :=
  rec b := CBounds first bl_none in Ret b.

(** parser.rs:265-298: the fraction of a sequence with an infix command *)
Definition infix_node (infix : infix_frac) (nodes : list node) : list node :=
  match infix with
  | None => nodes
  | Some (numerator, with_line, delim) =>
      let lt := if with_line then length_none else length_zero in
      let frac := Frac (node_vec_to_node numerator false) (node_vec_to_node nodes false) (len_value lt) (len_unit lt) None in
      [ match delim with
        | None => frac
        | Some IdParen => fenced [frac] OPEN_PAREN CLOSE_PAREN None
        | Some IdBrace => fenced [frac] OPEN_BRACE CLOSE_BRACE None
        | Some IdBrack => fenced [frac] OPEN_BRACKET CLOSE_BRACKET None
        end ]
  end.

(** parser.rs:201-302 [parse_sequence] *)
Definition seq_body (e : seq_end) (prev : class) (keep_end : bool) : prog (list node) :=
  do v := OView in
  rec '(nodes, infix) := CLoop e prev [] None in
  let nodes := infix_node infix nodes in
  let finish :=
    do_ OSetTransform (pv_transform v) in
    do_ OSetStyle (pv_style v) in
    Ret nodes in
  if keep_end then finish else do_ ONext in finish.

(** parser.rs:243-262: the bounds after an atom *)
Definition attach_bounds (target : node) (b : bounds) : node :=
  match target with
  | Multiscripts base pre [] => if bounds_trivial b then target else Multiscripts base pre [bounds_pair b]
  | _ => wrap_subsup b target
  end.

(** parser.rs:219-263: the loop of [parse_sequence], with [handle_tokens_without_output] (305-416) *)
Definition loop_body (e : seq_end) (prev : class) (nodes : list node) (infix : infix_frac)
  : prog (list node * infix_frac) :=
  do t0 := OPeek in
  if seq_end_matches e (fst t0) then Ret (nodes, infix)
  else
    let after (c : class) (target : node) :=
      sub bl := get_bounds None in
      sub b := pres (ensure_no_limits bl) in
      rec r := CLoop e c (nodes ++ [attach_bounds target b]) infix in Ret r in
    let again := rec r := CLoop e prev nodes infix in Ret r in
    do letters := OLetters in
    match letters with
    | Some n => after ClDefault n
    | None =>
        do t := ONext in
        let sp := snd t in
        let process := rec '(c, n) := CTok t PaSequence prev in after c n in
        match fst t with
        | T_Eoi => match e with SeqEnd en => fail sp (E_UnclosedGroup en) | SeqAny => process end
        | T_InfixGenFrac with_line delim =>
            match infix with
            | None =>
                do v := OView in
                do_ OSetStyle (style_shrink (pv_style v)) in
                rec r := CLoop e prev [] (Some (nodes, with_line, delim)) in Ret r
            | Some _ => fail sp E_MoreThanOneInfixCmd
            end
        | T_Relax => again
        | T_TransformSwitch tf => do_ OSetTransform (Some tf) in again
        | T_NewCommand m => do_ ODefine m in again
        | T_Let => do_ OLet false in again
        | T_Def g => do_ ODef g in again
        | T_Global => do_ OGlobal in again
        | T_VerticalLineDef d => do_ OSetVld d in again
        | T_NoNumber =>
            do v := OView in
            match es_numbered (pv_env v) with
            | Some ne => do_ OSetEnv (es_set_numbered (Some (numbered_notag ne)) (pv_env v)) in again
            | None => again
            end
        | T_Tag parenthesized =>
            do '(name, _sp) := OLiteral in
            do v := OView in
            match es_numbered (pv_env v) with
            | Some ne =>
                do_ OSetEnv (es_set_numbered (Some (numbered_tag (mkTag name parenthesized) ne)) (pv_env v)) in again
            | None => fail sp (E_CannotBeUsedHere (if parenthesized then LtTag else LtTagStar) NumberedEnv)
            end
        | T_Label =>
            do '(name, _sp) := OLiteral in
            do v := OView in
            match es_numbered (pv_env v) with
            | Some ne =>
                match numbered_label name ne with
                | Some ne' => do_ OSetEnv (es_set_numbered (Some ne') (pv_env v)) in again
                | None => fail sp E_MoreThanOneLabel
                end
            | None => fail sp (E_CannotBeUsedHere LtLabel NumberedEnv)
            end
        | _ => process
        end
    end.

(** parser.rs:2820-2933 [get_sub_or_sup]: after [_] or [^] *)
Definition script_node : prog node :=
  do t := ONext in
  match fst t with
  | T_Underscore | T_Circumflex | T_Prime _ => fail (snd t) E_BoundFollowedByBound
  | T_Eoi => fail (snd t) E_ExpectedArgumentGotEOI
  | _ =>
      do v := OView in
      do_ OSetStyle (style_scriptify (pv_style v)) in
      rec r := CTok t PaArg ClDefault in
      do_ OSetStyle (pv_style v) in
      Ret (snd r)
  end.
Definition one_or_row (l : list node) : node := match l with [n] => n | _ => Row l row_attrs_default end.
(** ... and after a prime *)
Definition prime_script (k : prime_kind) : prog node :=
  do '(primes, caret) := OPrimes k in
  let nodes := flat_map primes_nodes primes in
  if caret then
    do_ OPrimeCaret in
    sub n := script_node in Ret (one_or_row (nodes ++ [n]))
  else Ret (one_or_row nodes).

(** parser.rs:2707-2762 [get_bounds]: one round of the loop *)
Definition bounds_body (first : option tokspan) (acc : bounds_limits) : prog bounds_limits :=
  sub t := match first with Some t => Ret t | None => do t := OPeek in Ret t end in
  let tok := unwrap_math (fst t) in
  let b := bl_bounds acc in
  let consume {B} (k : prog B) : prog B := match first with Some _ => k | None => do_ ONext in k end in
  let again acc' := rec r := CBounds None acc' in Ret r in
  let sup n :=
    match b_sup b with
    | Some _ => fail (snd t) E_DuplicateSubOrSup
    | None => again (mkBl (mkBounds (b_sub b) (Some n)) (bl_limits acc))
    end in
  match tok with
  | T_Circumflex => consume (sub n := script_node in sup n)
  | T_Prime k => consume (sub n := prime_script k in sup n)
  | T_Underscore =>
      consume (sub n := script_node in
               match b_sub b with
               | Some _ => fail (snd t) E_DuplicateSubOrSup
               | None => again (mkBl (mkBounds (Some n) (b_sup b)) (bl_limits acc))
               end)
  | T_Limits k => consume (again (mkBl b (Some (k, snd t))))
  | _ => Ret acc
  end.

(** parser.rs:2768-2816 [get_bounds_arg] *)
Definition get_bounds_arg : prog (bounds_limits * list node) :=
  do t := OPeek in
  match unwrap_math (fst t) with
  | T_Prime k => do_ ONext in Ret (mkBl (mkBounds None (Some (prime_node k))) None, [])
  | T_GroupBegin =>
      do_ ONext in
      sub b := get_bounds None in
      rec l := CSeq (SeqEnd EtGroupClose) ClOpen false in
      Ret (b, l)
  | T_Limits k => do_ ONext in Ret (mkBl bounds_none (Some (k, snd t)), [])
  | _ => sub n := parse_next PaArg in Ret (bl_none, [n])
  end.

(** parser.rs:923-933 [get_delimiter] *)
Definition genfrac_delimiter : prog (option stretchable_op) :=
  do a := OArgument in
  sub t := pres (into_one_or_none a) in
  match t with
  | inl t => sub d := pres (extract_delimiter t DmGenfrac) in Ret (Some d)
  | inr _ => Ret None
  end.
(** parser.rs:1343-1348 and 1354-1359: a delimiter after [\left] or [\right], [.] for none *)
Definition fence_delimiter (m : delimiter_modifier) : prog (option stretchable_op) :=
  do t := ONext in
  if is_full_stop (fst t) then Ret None
  else sub d := pres (extract_delimiter t m) in Ret (Some d).

(** parser.rs:1606-1629 and 1660-1683: text nodes, raised if asked for *)
Definition text_node (s : snippet) : node :=
  let n := Text (sn_style s) (sn_size s) (sn_text s) in
  match sn_voffset s with
  | Some vo => if set_eqb vo set_zero then n else Padded n false false None None (Some vo)
  | None => n
  end.
(** parser.rs:1630-1633 and 1684-1687: the node of all snippets *)
Definition text_nodes (l : list snippet) : node := node_vec_to_node (map text_node l) false.

Definition frac_node (num denom : node) (lt : length_t) (attr : option frac_attr) : node :=
  Frac num denom (len_value lt) (len_unit lt) attr.
Definition LABEL_PAD : node := Space (length_with_unit UEm (S754_finite false 14381430 (-25))).
Definition LABEL_SPACE : node := Space (length_with_unit UEm (S754_finite false 14680064 (-22))).
Definition ARROW_SPACE : node := Space (length_with_unit UMu (S754_finite false 10485760 (-21))).

(** parser.rs:719-760: the spacing and the class given by [\mathbin] and the like *)
Definition class_spacing (k : math_class_kind) (st : style) (in_seq : bool) (prev next : class) : class * spacing_pair :=
  match k with
  | MkOrd => (ClDefault, zero_spacing)
  | MkOp => (ClOperator, mathop_spacing st prev next true)
  | MkBin => let s := bin_op_spacing st in_seq prev next true in (ClBinaryOp, (s, s))
  | MkRel => (ClRelation, relation_spacing st prev next true)
  | MkOpen => (ClOpen, zero_spacing)
  | MkClose => (ClClose, zero_spacing)
  | MkPunct => (ClPunctuation, punctuation_spacing st next true)
  | MkInner => (ClInner, mathinner_spacing st prev next true)
  end.
(** parser.rs:761-797: the node with this spacing *)
Definition class_node (n : node) (sp : spacing_pair) : node :=
  match n with
  | Operator o attrs sz _ _ => Operator o (add_attr attrs A_STRETCHY_FALSE) sz (fst sp) (snd sp)
  | Row [] (mkRowAttrs None None false) => op_node (ord_as_op SYM_INVISIBLE_SEPARATOR) A_EMPTY sp
  | _ => Padded n false false (fst sp) (snd sp) None
  end.

(** super_char.rs:86-100 [OverlayChar] as a combining character *)
Definition overlay_char (o : overlay) : N := match o with Solidus => 0x338 | VerticalLine => 0x20D2 end.
(** parser.rs:1165-1214: the node with the overlay *)
Definition overlay_node (o : overlay) (n : node) : option node :=
  match n with
  | Operator c attrs sz l r => Some (Operator (sc_with_overlay c o) attrs sz l r)
  | IdentifierChar c a => Some (IdentifierChar (sc_with_overlay c o) a)
  | PseudoOp attrs l r name => Some (PseudoOp attrs l r (overlay_insert (overlay_char o) name))
  | IdentifierStr s => Some (IdentifierStr (overlay_insert (overlay_char o) s))
  | _ => None
  end.

(** parser.rs:950-974: the style argument of [\genfrac] *)
Definition genfrac_style (t : tokspan + span) : res (option style) :=
  match t with
  | inr _ => Ok None
  | inl (T_Digit d, sp) =>
      if d =? 48 then Ok (Some StDisplay) else if d =? 49 then Ok (Some StText)
      else if d =? 50 then Ok (Some StScript) else if d =? 51 then Ok (Some StScriptScript)
      else Err (mkErr sp E_ExpectedArgumentGotEOI)
  | inl (_, sp) => Err (mkErr sp E_ExpectedArgumentGotEOI)
  end.
Definition is_jop (o : M_Token.op) : bool := match op_cat o with PcJ => true | _ => false end.
Definition letter_node (v : pview) (c : superchar) (upright : bool) : node :=
  match pv_transform v with
  | Some (MvTransform tf) => IdentifierChar (transform tf c upright) LDefault
  | Some MvNormal => IdentifierChar c ForcedUpright
  | None => IdentifierChar c (if upright then ForcedUpright else LDefault)
  end.
Definition end_token_of (t : token) : end_token :=
  match t with T_GroupEnd => EtGroupClose | T_Right => EtRight | _ => EtEnd end.
Definition limited_of_line (l : line_type) : limited_token := match l with Solid => LtHLine | Dashed => LtHDashLine end.

(** parser.rs:450-2348 [parse_one_token] and the loop around it (434-447 [parse_token]) *)
Definition tok_body (t : tokspan) (a : parse_as) (prev : class) : prog (class * node) :=
  let sp := snd t in
  let seq := in_sequence a in
  do next0 := OPeekClass seq in
  do v := OView in
  let next := if pv_hack v then match next0 with ClEnd => ClDefault | c => c end else next0 in
  let st := pv_style v in
  let ret c n := Ret (c, n) in
  let expanded := do t' := ONext in rec r := CTok t' a prev in Ret r in
  match fst t with
  | T_Digit d =>
      match pv_transform v with
      | Some (MvTransform tf) => ret ClDefault (IdentifierChar (transform tf (sc_from_char d) false) LDefault)
      | _ =>
          match a with
          | PaSequence => do s := ODigits d in ret ClDefault (Number s)
          | _ => ret ClDefault (Number [d])
          end
      end
  | T_Letter c _ => ret ClDefault (letter_node v c false)
  | T_UprightLetter c => ret ClDefault (letter_node v c true)
  | T_Relation r => ret ClRelation (op_node (rel_as_op r) (relation_attrs (rel_cat r)) (relation_spacing st prev next false))
  | T_Punctuation c => ret ClPunctuation (op_node (sc_from_char c) A_EMPTY (punctuation_spacing st next false))
  | T_ForcePunctuation o => ret ClPunctuation (op_node o A_EMPTY (punctuation_spacing st next true))
  | T_ForceLargeOp o =>
      sub bl := get_bounds None in
      sub spc := parse_mathop_spacing a prev true in
      let (underover, attrs) := large_op_limits (bl_kind bl) (bounds_trivial (bl_bounds bl)) in
      ret ClOperator (wrap_bounds underover (bl_bounds bl) (op_node o attrs spc))
  | T_Ord o => ret ClDefault (ord_node (pv_vld v) o)
  | T_ForceOrd o => ret ClDefault (op_node o A_EMPTY zero_spacing)
  | T_BinaryOp o =>
      let s := bin_op_spacing st seq prev next false in
      ret (bin_class s) (op_node (bin_as_op o) A_EMPTY (s, s))
  | T_ForceBinaryOp o =>
      let s := bin_op_spacing st seq prev next true in
      ret (bin_class s) (op_node o A_EMPTY (s, s))
  | T_MathClass k =>
      do t' := ONext in
      rec '(_c, n) := CTok t' a prev in
      do next' := OPeekClass seq in
      do v' := OView in
      let (c, spc) := class_spacing k (pv_style v') seq prev next' in
      ret c (class_node n spc)
  | T_Inner o => ret ClInner (op_node (op_as_op o) A_EMPTY (mathinner_spacing st prev next false))
  | T_ForceMathInner o => ret ClInner (op_node o A_EMPTY (mathinner_spacing st prev next true))
  | T_Enclose notation => sub n := parse_next PaArgSpace in ret ClDefault (Enclose n notation)
  | T_Space l => ret prev (Space l)
  | T_CustomSpace k =>
      do '(s, sp') := OLiteral in
      match parse_length_specification (trim_ascii s) with
      | Some (l, unit, is_math) =>
          let expected := match k with UkMath => true | UkText => false end in
          if Bool.eqb is_math expected then ret ClDefault (Space l) else fail sp' (E_IllegalUnit unit expected)
      | None => fail sp' (E_ExpectedLength s)
      end
  | T_KernOrSkip k => do n := OKern k (sp_end sp) in ret prev n
  | T_NonBreakingSpace => ret ClDefault (Text None None [0xA0])
  | T_Sqrt =>
      do t' := ONext in
      match fst t' with
      | T_SquareBracketOpen =>
          rec degree := CSeq (SeqEnd EtSquareBracketClose) ClOpen false in
          sub n := parse_next PaArg in
          ret ClDefault (Root (node_vec_to_node degree true) n)
      | _ => rec '(_c, n) := CTok t' PaArg ClDefault in ret ClDefault (Sqrt n)
      end
  | T_Frac attr =>
      do_ OSetStyle (match attr with
                     | None => style_shrink st
                     | Some DisplayStyleFalse => StScript
                     | Some _ => StText
                     end) in
      sub num := parse_next PaArg in
      sub denom := parse_next PaArg in
      do_ OSetStyle st in
      ret ClDefault (frac_node num denom length_none attr)
  | T_Binom attr =>
      do_ OSetStyle (match attr with
                     | None => style_shrink st
                     | Some DisplayStyleFalse => StScript
                     | Some _ => StText
                     end) in
      sub num := parse_next PaArg in
      sub denom := parse_next PaArg in
      do_ OSetStyle st in
      ret ClDefault (fenced [frac_node num denom length_zero attr] OPEN_PAREN CLOSE_PAREN None)
  | T_Genfrac =>
      sub open := genfrac_delimiter in
      sub close := genfrac_delimiter in
      do '(s, sp') := OLiteral in
      sub lt := match trim_ascii s with
                | [] => Ret length_none
                | dec =>
                    match parse_length_specification dec with
                    | Some (l, _, _) => Ret l
                    | None => fail sp' (E_ExpectedLength dec)
                    end
                end in
      do sarg := OArgument in
      sub sone := pres (into_one_or_none sarg) in
      sub gst := pres (genfrac_style sone) in
      sub num := parse_next PaArg in
      sub denom := parse_next PaArg in
      ret ClDefault (fenced [frac_node num denom lt None] open close gst)
  | T_Accent c is_over attrs =>
      sub n := parse_next PaArgSpace in
      ret ClDefault ((if is_over then OverAccent else UnderAccent) (sc_from_char c) attrs n)
  | T_Overset | T_Underset =>
      do_ OSetStyle StScript in
      sub symbol := parse_next PaArg in
      do_ OSetStyle st in
      do t' := ONext in
      do_ OSetHack true in
      rec '(c, target) := CTok t' PaContinue prev in
      do_ OSetHack (pv_hack v) in
      ret c (match fst t with T_Overset => Over symbol target | _ => Under symbol target end)
  | T_OverUnderBrace o is_over =>
      sub target := parse_next PaArgSpace in
      let base := (if is_over then OverAccent else UnderAccent) (ord_as_op o) A_EMPTY target in
      do p := OPeek in
      if match fst p with T_Circumflex => is_over | T_Underscore => negb is_over | _ => false end then
        do_ ONext in
        sub expl := parse_next PaArg in
        ret ClDefault (if is_over then Over expl base else Under expl base)
      else ret ClDefault base
  | T_Op o =>
      sub bl := match op_cat o with PcC => Ret bl_none | _ => get_bounds None end in
      sub spc := parse_mathop_spacing a prev false in
      let (underover, attrs) := op_limits (bl_kind bl) (is_jop o) (bounds_trivial (bl_bounds bl)) in
      ret ClOperator (wrap_bounds underover (bl_bounds bl) (op_node (op_as_op o) attrs spc))
  | T_PseudoOperator name | T_PseudoOperatorLimits name =>
      sub bl := get_bounds None in
      let (underover, attrs) :=
        pseudo_limits (bl_kind bl) (match fst t with T_PseudoOperatorLimits _ => true | _ => false end)
                      (bounds_trivial (bl_bounds bl)) in
      sub spc := parse_mathop_spacing a prev true in
      ret ClOperator (wrap_bounds underover (bl_bounds bl) (PseudoOp attrs (fst spc) (snd spc) name))
  | T_Overlay o =>
      do t' := ONext in
      rec '(c, n) := CTok t' a prev in
      match overlay_node o n with
      | Some n' => ret c n'
      | None => fail (snd t') E_ExpectedRelation
      end
  | T_Transform tf =>
      do_ OSetTransform (Some tf) in
      sub n := parse_next PaArg in
      do_ OSetTransform (pv_transform v) in
      ret ClClose n
  | T_TransformSwitch _ | T_NoNumber | T_Tag _ | T_Label | T_NewCommand _ | T_Let | T_Def _ | T_Global
  | T_InfixGenFrac _ _ => fail sp E_CannotBeUsedAsArgument
  | T_ForceRelation o =>
      ret ClRelation (op_node o A_EMPTY (if seq then relation_spacing st prev next true else no_spacing))
  | T_ForceOpen o _ => ret ClOpen (op_node o A_FORM_PREFIX zero_spacing)
  | T_ForceClose o _ => ret ClClose (op_node o A_FORM_POSTFIX zero_spacing)
  | T_GroupBegin =>
      rec l := CSeq (SeqEnd EtGroupClose) (match a with PaContinue => prev | _ => ClOpen end) false in
      ret ClDefault (node_vec_to_node l (match a with PaArg => true | _ => false end))
  | T_Open o => ret ClOpen (paren_node true o)
  | T_Close o => ret ClDefault (paren_node false o)
  | T_SquareBracketOpen => ret ClOpen (op_node (ord_as_op SYM_LEFT_SQUARE_BRACKET) A_STRETCHY_FALSE no_spacing)
  | T_SquareBracketClose => ret ClDefault (op_node (ord_as_op SYM_RIGHT_SQUARE_BRACKET) A_STRETCHY_FALSE no_spacing)
  | T_Left =>
      sub open := fence_delimiter DmLeft in
      rec content := CSeq (SeqEnd EtRight) ClOpen false in
      sub close := fence_delimiter DmRight in
      ret ClDefault (fenced content open close None)
  | T_Middle =>
      do t' := ONext in
      sub o := pres (extract_delimiter t' DmMiddle) in
      let s := match so_spacing o with DsZero => None | _ => Some MsZero end in
      ret ClOpen (op_node (so_op o) (middle_stretch_attrs o) (s, s))
  | T_Big sz pt =>
      do t' := ONext in
      sub p := pres (extract_delimiter t' DmBig) in
      sub next' := match pt with Some PtMiddle => do c := OPeekClass seq in Ret c | _ => Ret next end in
      let (attrs, spc) := big_spacing st prev next' pt p in
      ret (big_class pt) (Operator (so_op p) attrs (Some sz) (fst spc) (snd spc))
  | T_Begin e =>
      sub spec := match e with
                  | EArray | EDArray | ESubarray =>
                      do '(s, sp') := OLiteral in
                      match parse_column_specification s with
                      | Some c => Ret (Some c)
                      | None => fail sp' (E_ExpectedColSpec s)
                      end
                  | _ => Ret None
                  end in
      sub border := (if env_allows_hlines e then
                       do p := OPeek in
                       match fst p with T_HLine l => do_ ONext in Ret (Some l) | _ => Ret None end
                     else Ret None) in
      let array_spec :=
        option_map (fun c => mkArraySpec (as_border_left c) border (match e with ESubarray => true | _ => as_is_sub c end)
                                         (as_columns c)) spec in
      do_ OSetStyle (env_style e) in
      do_ OSetEnv (env_new_state e) in
      sub content := seq_if_in_sequence a sp (SeqEnd EtEnd) ClOpen true in
      do_ OSetStyle st in
      do v' := OView in
      do_ OSetEnv (pv_env v) in
      do t' := ONext in
      match fst t' with
      | T_End e' =>
          if env_eqb e' e then
            do '(info, rows) := OEnvEnd sp (es_numbered (pv_env v')) in
            match construct_node e content array_spec info rows border with
            | Some n => ret ClClose n
            | None => Stop Undefined
            end
          else fail (snd t') (E_MismatchedEnvironment e e')
      | _ => fail (snd t') E_Internal
      end
  | T_OperatorName with_limits =>
      do snips := OText None None false in
      sub bl := get_bounds None in
      let (underover, attrs) := pseudo_limits (bl_kind bl) with_limits (bounds_trivial (bl_bounds bl)) in
      sub spc := parse_mathop_spacing a prev true in
      ret ClOperator (wrap_bounds underover (bl_bounds bl)
                        (PseudoOp attrs (fst spc) (snd spc) (flat_map sn_text snips)))
  | T_Text ts => do snips := OText ts None true in ret ClClose (text_nodes snips)
  | T_RaiseBox =>
      do '(s, sp') := OLiteral in
      sub vo := pres (raise_length s sp') in
      do snips := OText None (Some vo) true in
      ret ClClose (text_nodes snips)
  | T_NewColumn =>
      if es_allow_columns (pv_env v) then ret ClClose ColumnSeparator
      else fail sp (E_CannotBeUsedHere LtAmpersand TableEnv)
  | T_HLine l => fail sp (E_CannotBeUsedHere (limited_of_line l) ArrayRowStart)
  | T_NewLine => do n := ORow sp in ret ClOpen n
  | T_EqRef => do '(s, _sp) := OLiteral in ret ClDefault (EqRef s)
  | T_Cramped =>
      do t' := ONext in
      match fst t' with
      | T_SquareBracketOpen =>
          do t2 := ONext in
          sub style :=
            match fst t2 with
            | T_Style s =>
                do t3 := ONext in
                match fst t3 with
                | T_SquareBracketClose => Ret (Some s)
                | _ => fail (snd t3) E_ExpectedAtMostOneToken
                end
            | T_SquareBracketClose => Ret None
            | _ => fail (snd t2) E_ExpectedStyle
            end in
          sub n := parse_next PaArg in
          ret ClDefault (Row [n] (mkRowAttrs None style true))
      | _ => rec '(_c, n) := CTok t' PaArg prev in ret ClDefault (Row [n] (mkRowAttrs None None true))
      end
  | T_Color =>
      do color := OColor sp in
      sub content := seq_if_in_sequence a sp SeqAny prev true in
      ret ClDefault (Row content (mkRowAttrs (Some color) None false))
  | T_Phantom k =>
      sub n := parse_next PaArg in
      ret ClDefault (match k with
                     | PkFull => Phantom n
                     | PkH => Padded (Phantom n) false true None None None
                     | PkV => Padded (Phantom n) true false None None None
                     end)
  | T_Style s =>
      do_ OSetStyle s in
      sub content := seq_if_in_sequence a sp SeqAny prev true in
      do_ OSetStyle st in
      ret ClDefault (Row content (mkRowAttrs None (Some s) false))
  | T_Underscore | T_Circumflex | T_Prime _ =>
      sub bl := get_bounds (Some t) in
      sub b := pres (ensure_no_limits bl) in
      if bounds_trivial b then Stop Undefined else ret ClDefault (wrap_subsup b EMPTY_ROW)
  | T_Dots => do_ ODots (match next with ClBinaryOp | ClRelation => true | _ => false end) in expanded
  | T_Prescript =>
      sub sup := parse_next PaArg in
      sub sb := parse_next PaArg in
      sub base := parse_next PaArg in
      ret ClDefault (Multiscripts base [(sb, sup)] [])
  | T_Sideset =>
      sub '(pre, after_pre) := get_bounds_arg in
      sub pre_bounds := pres (ensure_no_limits pre) in
      sub '(post, after_post) := get_bounds_arg in
      sub post_bounds := pres (ensure_no_limits post) in
      do arg := OArgument in
      sub base := pres (into_one arg) in
      sub o := match fst base with
               | T_Op o => match op_cat o with PcC => fail (snd base) E_ExpectedLargeOp | _ => Ret o end
               | _ => fail (snd base) E_ExpectedLargeOp
               end in
      sub spc := parse_mathop_spacing a prev false in
      let op_n := op_node (op_as_op o) (if is_jop o then A_NO_MOVABLE_LIMITS else A_EMPTY) spc in
      let inner := match after_pre with [] => op_n | _ => Row (after_pre ++ [op_n]) row_attrs_default end in
      let sided := Multiscripts inner [bounds_pair pre_bounds] [bounds_pair post_bounds] in
      let whole := match after_post with [] => sided | _ => Row (sided :: after_post) row_attrs_default end in
      sub trailing := get_bounds None in
      do v' := OView in
      let underover := match bl_kind trailing, pv_style v' with
                       | Some LkAlways, _ => true
                       | None, StDisplay | Some LkDisplay, StDisplay => true
                       | _, _ => false
                       end in
      ret ClDefault (wrap_bounds underover (bl_bounds trailing) whole)
  | T_Limits k => fail sp (E_CannotBeUsedHere (limited_from_limits k) AfterBigOp)
  | T_Eoi => fail sp E_ExpectedArgumentGotEOI
  | T_End _ | T_Right | T_GroupEnd =>
      if seq then fail sp (E_UnmatchedClose (end_token_of (fst t))) else fail sp E_ExpectedArgumentGotClose
  | T_Whitespace | T_MathOrTextMode _ _ | T_VerticalLineDef _ | T_CustomCmdArg _ => fail sp E_Internal
  | T_TextMode _ => fail sp E_NotValidInMathMode
  | T_XArrow r =>
      do_ OSetStyle StScript in
      do_ OSetHack true in
      do t' := ONext in
      sub '(under, over) :=
        match fst t' with
        | T_SquareBracketOpen =>
            rec l := CSeq (SeqEnd EtSquareBracketClose) ClOpen false in
            sub n := parse_next PaArg in
            Ret (Some (node_vec_to_node l false), n)
        | _ => rec '(_c, n) := CTok t' PaArg ClDefault in Ret (None, n)
        end in
      do_ OSetStyle st in
      do_ OSetHack (pv_hack v) in
      do next' := OPeekClass seq in
      let label x := node_vec_to_node [LABEL_PAD; x; LABEL_PAD] false in
      let over_label := Over LABEL_SPACE (label over) in
      let arrow := op_node (rel_as_op r) (match rel_cat r with RcA => A_EMPTY | _ => A_STRETCHY_TRUE end)
                           (relation_spacing st prev next' false) in
      let center := match under with
                    | Some u => UnderOver arrow (Under LABEL_SPACE (label u)) over_label
                    | None => Over over_label arrow
                    end in
      ret ClRelation (Row [ARROW_SPACE; center; ARROW_SPACE] row_attrs_default)
  | T_CustomCmd num_args body => do_ OExpand num_args body sp in expanded
  | T_CustomCmdRef src num_args _ start stop => do_ OExpandRef src num_args start stop sp in expanded
  | T_CustomCmdArgInput _ => fail sp E_MacroParameterOutsideCustomCommand
  | T_Dollar => fail sp E_UnexpectedDollar
  | T_Relax => ret ClDefault EMPTY_ROW
  | T_UnresolvedCommand name => ret ClDefault (UnknownCommand name)
  | T_MathChoice => do_ OChoice sp in expanded
  | T_MathChoiceInternal _ d tx s ss =>
      do_ OChosen (match st with StDisplay => d | StText => tx | StScript => s | StScriptScript => ss end, sp) in
      expanded
  | T_InternalStringLiteral s =>
      match pv_transform v with
      | Some (MvTransform tf) =>
          match sc_string (map (fun c => transform_char tf c false) s) with
          | Some s' => ret ClDefault (IdentifierStr s')
          | None => Stop Undefined
          end
      | _ => ret ClDefault (IdentifierStr s)
      end
  end.

Definition body {A} (c : call A) : prog A :=
  match c with
  | CSeq e prev keep => seq_body e prev keep
  | CLoop e prev nodes infix => loop_body e prev nodes infix
  | CTok t a prev => tok_body t a prev
  | CBounds first acc => bounds_body first acc
  end.

Section Run.
Context (cfg : parser_cfg) (usize_max : N).

Fixpoint run (fuel : nat) {A} (p : prog A) {struct fuel} : St pstate A :=
  (fix go (p : prog A) (s : pstate) {struct p} : res A * pstate :=
     match p with
     | Ret a => (Ok a, s)
     | Fail e => (Err e, s)
     | Stop c => (Crash c, s)
     | Do o k =>
         match exec cfg usize_max o s with
         | (Ok a, s') => go (k a) s'
         | (Err e, s') => (Err e, s')
         | (Crash c, s') => (Crash c, s')
         end
     | Call c k =>
         match fuel with
         | O => (Crash OutOfFuel, s)
         | S f =>
             match run f (body c) s with
             | (Ok a, s') => go (k a) s'
             | (Err e, s') => (Err e, s')
             | (Crash c, s') => (Crash c, s')
             end
         end
     end) p.

(** parser.rs:143-166 [Parser::new]; an error is one of the lexer *)
Definition parser_new (gs : global_state) (input : str) (st : style) : res unit * pstate :=
  let (r, q) := queue_new cfg (lexer_new input) gs in
  (r, mkPs q (mkPv None false env_state_default st None (pc_max_expansions cfg))).
(** parser.rs:174-176 [parse] *)
Definition parse_all (fuel : nat) : St pstate (list node) := run fuel (body (CSeq (SeqEnd EtEoi) ClOpen true)).
(** lib.rs:502-517 [parse]: the nodes of a snippet and what becomes of the global state *)
Definition parse_snippet (fuel : nat) (gs : global_state) (input : str) (st : style) : res (list node) * global_state :=
  match parser_new gs input st with
  | (Ok _, s) => let (r, s') := parse_all fuel s in (r, q_gs (ps_queue s'))
  | (Err e, s) => (Err e, q_gs (ps_queue s))
  | (Crash c, s) => (Crash c, q_gs (ps_queue s))
  end.
End Run.
