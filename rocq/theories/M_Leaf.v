(** Model of the parts of crates/math-core/src/parser.rs which only read tokens and define
    commands, without parsing anything recursively. *)
From Verif Require Import Str M_SuperChar M_Transform M_Length M_Spec M_Ast M_Token M_Symbols M_Commands M_Env
  M_LatexError M_Lexer M_CustomCmds M_Queue M_Spacing M_Colors.

(** Computations with a state and errors (Rust's [Result] and [?] with [&mut self]). *)
Definition St (S A : Type) : Type := S -> res A * S.
Definition sret {S A} (a : A) : St S A := fun s => (Ok a, s).
Definition sfail {S A} (sp : span) (k : err_kind) : St S A := fun s => (Err (mkErr sp k), s).
Definition scrash {S A} (c : crash) : St S A := fun s => (Crash c, s).
Definition sres {S A} (r : res A) : St S A := fun s => (r, s).
Definition sget {S A} (f : S -> A) : St S A := fun s => (Ok (f s), s).
Definition sbind {S A B} (m : St S A) (k : A -> St S B) : St S B :=
  fun s => match m s with
           | (Ok a, s') => k a s'
           | (Err e, s') => (Err e, s')
           | (Crash c, s') => (Crash c, s')
           end.
Notation "'let*' x := m 'in' k" := (sbind m (fun x => k)) (at level 200, x name, m at level 100, k at level 200).
Notation "'let*' '( x , y ) := m 'in' k" := (sbind m (fun p => let (x, y) := p in k))
  (at level 200, x name, y name, m at level 100, k at level 200).
Notation "m ;* k" := (sbind m (fun _ => k)) (at level 199, right associativity).
(** Fields of the state which must be there. *)
Definition sopt {S A} (o : option A) : St S A :=
  match o with Some a => sret a | None => scrash Undefined end.

(** parser.rs:44 [FULL_STOP_TOKEN] *)
Definition is_full_stop (t : token) : bool :=
  match t with T_Letter c MMathOrText => (c =? sc_from_char 46) | _ => false end.
Definition is_digit_tok (t : token) : bool := match t with T_Digit _ => true | _ => false end.

(** [f32 as u8]: truncation towards zero, saturating *)
Definition f32_as_u8 (x : f32) : N :=
  match x with
  | S754_finite false m e => N.min 255 (Z.to_N (Z.shiftl (Zpos m) e))
  | S754_infinity false => 255
  | _ => 0
  end.

(** [char::is_whitespace] (std), and [str::trim] *)
Definition is_white_space (c : N) : bool :=
  ((9 <=? c) && (c <=? 13)) || (c =? 32) || (c =? 0x85) || (c =? 0xA0) || (c =? 0x1680)
  || ((0x2000 <=? c) && (c <=? 0x200A)) || (c =? 0x2028) || (c =? 0x2029) || (c =? 0x202F) || (c =? 0x205F)
  || (c =? 0x3000).
Fixpoint trim_start_by (f : N -> bool) (s : str) : str :=
  match s with c :: r => if f c then trim_start_by f r else s | [] => [] end.
Definition trim_by (f : N -> bool) (s : str) : str := rev (trim_start_by f (rev (trim_start_by f s))).
Definition trim (s : str) : str := trim_by is_white_space s.
(** [str::trim_ascii] *)
Definition trim_ascii (s : str) : str := trim_by is_ascii_ws s.

(** split_on_ascii.rs:1-7, for an ASCII separator *)
Fixpoint split_on (c : N) (s : str) : list str :=
  match s with
  | [] => [[]]
  | x :: r => if x =? c then [] :: split_on c r
              else match split_on c r with h :: t => (x :: h) :: t | [] => [[x]] end
  end.

(** parser.rs:1923-1930 [hex] *)
Definition hex_value (h : N) : N :=
  if (48 <=? h) && (h <=? 57) then h - 48
  else if (97 <=? h) && (h <=? 102) then h - 97 + 10
  else if (65 <=? h) && (h <=? 70) then h - 65 + 10
  else 0.

Definition is_ascii_letter_tok (t : token) : option N :=
  match t with
  | T_Letter ch _ => match sc_try_as_char ch with Some c => if is_ascii_alpha c then Some c else None | None => None end
  | _ => None
  end.

Section Leaf.
Context (cfg : parser_cfg).
Let Q (A : Type) : Type := St queue A.
Let next : Q qtok := q_next cfg.
Let next_any : Q qtok := q_next_any cfg.

(** ** Strings and numbers *)

(** parser.rs:3168-3180: the characters of the tokens of a string *)
Fixpoint ascii_of (l : list tokspan) : res str :=
  match l with
  | [] => Ok []
  | t :: r =>
      match recover_limited_ascii (fst t) with
      | Some c => match ascii_of r with Ok s => Ok (c :: s) | e => e end
      | None => Err (mkErr (snd t) E_ExpectedAscii)
      end
  end.
(** parser.rs:3154-3182 [parse_string_literal] *)
Definition parse_string_literal : Q (str * span) :=
  let* a := read_argument cfg true in
  match a with
  | MaToken (T_InternalStringLiteral content, sp) => sret (content, sp)
  | MaToken t => let* s := sres (ascii_of [t]) in sret (s, snd t)
  | MaGroup l sp => let* s := sres (ascii_of l) in sret (s, sp)
  end.

(** parser.rs:477-500: the rest of a number *)
Fixpoint digits_loop (fuel : nat) (acc : str) : Q str :=
  match fuel with
  | O => scrash OutOfFuel
  | S f =>
      let* t := sget q_peek in
      match qt_tok t with
      | T_Digit d => next ;* digits_loop f (acc ++ [d])
      | tok =>
          if is_full_stop tok then
            let* t2 := q_peek_second cfg in
            if is_digit_tok (qt_tok t2) then next ;* digits_loop f (acc ++ [46]) else sret acc
          else sret acc
      end
  end.
Definition read_digits (first : N) : Q str := fun q => digits_loop (S (q_size q)) [first] q.

(** parser.rs:2994-3013: the letters and digits of one transformed word *)
Fixpoint letters_loop (tf : math_variant) (fuel : nat) (acc : list superchar) : Q (list superchar) :=
  match fuel with
  | O => scrash OutOfFuel
  | S f =>
      let* t := sget q_peek in
      let add c upright :=
        next ;* letters_loop tf f (acc ++ [match tf with MvTransform v => transform v c upright | MvNormal => c end]) in
      match qt_tok t with
      | T_Letter c _ => add c false
      | T_UprightLetter c => add c true
      | T_Digit d => match tf with MvNormal => sret acc | _ => add (sc_from_char d) false end
      | _ => sret acc
      end
  end.
Fixpoint sc_string (l : list superchar) : option str :=
  match l with
  | [] => Some []
  | c :: r => match sc_chars c, sc_string r with Some a, Some b => Some (a ++ b) | _, _ => None end
  end.
(** parser.rs:2977-3035 [merge_and_transform_letters] *)
Definition merge_letters (tf : option math_variant) : Q (option node) :=
  fun q =>
  match tf with
  | None => (Ok None, q)
  | Some v =>
      (let* l := letters_loop v (S (q_size q)) [] in
       match l with
       | [] => sret None
       | [c] => sret (Some (IdentifierChar c (match v with MvNormal => ForcedUpright | _ => LDefault end)))
       | _ => let* s := sopt (sc_string l) in sret (Some (IdentifierStr s))
       end) q
  end.

(** parser.rs:2833-2852: the run of primes, and whether a circumflex follows *)
Fixpoint primes_loop (fuel : nat) (acc : list (prime_direction * nat)) : Q (list (prime_direction * nat) * bool) :=
  match fuel with
  | O => scrash OutOfFuel
  | S f =>
      let* t := sget q_peek_any in
      match unwrap_math (qt_tok t) with
      | T_Prime k => next_any ;* primes_loop f (add_prime k acc)
      | T_Circumflex => sret (acc, true)
      | _ => sret (acc, false)
      end
  end.
Definition read_primes (k : prime_kind) : Q (list (prime_direction * nat) * bool) :=
  fun q => primes_loop (S (q_size q)) [(prime_dir k, prime_count k)] q.

(** ** Dimensions *)

Definition or_else {A} (o : option A) (d : A) : A := match o with Some a => a | None => d end.
(** parser.rs:3066-3086: the digits; the result is the text, the start and the end *)
Fixpoint kern_digits (fuel : nat) (in_number : bool) (acc : str) (start : option nat) (stop : nat)
  : Q (str * (option nat * nat)) :=
  match fuel with
  | O => scrash OutOfFuel
  | S f =>
      let* t := sget (if in_number then q_peek_any else q_peek) in
      let add c :=
        let* u := next in
        kern_digits f true (acc ++ [c]) (Some (or_else start (sp_start (qt_span u)))) (sp_end (qt_span u)) in
      match qt_tok t with
      | T_Digit d => add d
      | T_MathOrTextMode _ c => if c =? 44 then add 46 else sret (acc, (start, stop))
      | tok => if is_full_stop tok then add 46 else sret (acc, (start, stop))
      end
  end.
(** parser.rs:3045-3152 [parse_kern_or_skip] *)
Definition parse_kern_or_skip (kind : unit_kind) (span_end : nat) : Q node :=
  let* t := sget q_peek in
  let sign := match qt_tok t with
              | T_MathOrTextMode _ c => if c =? 43 then Some false else if c =? 45 then Some true else None
              | _ => None
              end in
  let* '(start, stop) :=
     match sign with
     | Some _ => let* u := next in sret (Some (sp_start (qt_span u)), sp_end (qt_span u))
     | None => sret (None, span_end)
     end in
  let* '(value, se) := (fun q => kern_digits (S (q_size q)) false [] start stop q) in
  let (start, stop) := se : option nat * nat in
  match value with
  | [] => sfail (mkSpan (or_else start span_end) stop) (E_ExpectedLength [])
  | _ =>
      let* t1 := sget q_peek in
      match is_ascii_letter_tok (qt_tok t1) with
      | None => sfail (span_zero_width (sp_start (qt_span t1))) (E_InvalidUnit [])
      | Some c1 =>
          let* u1 := next in
          let* t2 := sget q_peek_any in
          match is_ascii_letter_tok (qt_tok t2) with
          | None => sfail (mkSpan (sp_start (qt_span u1)) (sp_start (qt_span t2))) (E_InvalidUnit [c1])
          | Some c2 =>
              let* u2 := next in
              let stop := sp_end (qt_span u2) in
              let unit_span := mkSpan (sp_start (qt_span u1)) stop in
              let unit := [c1; c2] in
              match latex_unit_try_from unit with
              | None => sfail unit_span (E_InvalidUnit unit)
              | Some u =>
                  let expected := match kind with UkMath => true | UkText => false end in
                  if negb (Bool.eqb (is_math_unit u) expected) then sfail unit_span (E_IllegalUnit unit expected)
                  else
                    match limited_float_parse value with
                    | None => sfail (mkSpan (or_else start span_end) stop) (E_ExpectedLength (value ++ unit))
                    | Some v =>
                        sret (Space (length_with_unit u (match sign with Some true => SFopp v | _ => v end)))
                    end
              end
          end
      end
  end.

(** ** Colors *)

(** Errors swallowed ([let Ok(..) = .. else]). *)
Definition stry {S A} (m : St S A) : St S (option A) :=
  fun s => match m s with
           | (Ok a, s') => (Ok (Some a), s')
           | (Err _, s') => (Ok None, s')
           | (Crash c, s') => (Crash c, s')
           end.
(** parser.rs:1840-1858: the name of the color model *)
Fixpoint color_type_loop (fuel : nat) (sp : span) (acc : str) : Q str :=
  match fuel with
  | O => scrash OutOfFuel
  | S f =>
      let* t := stry next in
      match option_map qt_tok t with
      | Some (T_Letter c _) => let* s := sopt (sc_chars c) in color_type_loop f sp (acc ++ s)
      | Some T_SquareBracketClose => sret acc
      | _ => sfail sp (E_UnknownColor acc)
      end
  end.
Definition three_floats (s : str) : option (f32 * f32 * f32) :=
  match split_on 44 s with
  | r :: g :: b :: _ =>
      match limited_float_parse (trim r), limited_float_parse (trim g), limited_float_parse (trim b) with
      | Some r, Some g, Some b => Some (r, g, b)
      | _, _, _ => None
      end
  | _ => None
  end.
Definition F32_255 : f32 := S754_finite false 16711680 (-16).
Definition F32_HALF : f32 := S754_finite false 8388608 (-24).
Definition unit_as_u8 (x : f32) : N := f32_as_u8 (f32_add (f32_mul x F32_255) F32_HALF).
(** parser.rs:1865-1953: a color description by its model *)
Definition color_of (type_name desc : str) : option (N * N * N) :=
  if str_eqb type_name (lit "rgb") then
    match three_floats desc with
    | Some (r, g, b) => Some (unit_as_u8 r, unit_as_u8 g, unit_as_u8 b)
    | None => None
    end
  else if str_eqb type_name (lit "RGB") then
    match three_floats desc with
    | Some (r, g, b) => Some (f32_as_u8 r, f32_as_u8 g, f32_as_u8 b)
    | None => None
    end
  else
    match utf8 desc with
    | [r1; r2; g1; g2; b1; b2] =>
        Some (hex_value r1 * 16 + hex_value r2, hex_value g1 * 16 + hex_value g2, hex_value b1 * 16 + hex_value b2)
    | _ => None
    end.
(** parser.rs:1837-1963: the color of [\color] *)
Definition parse_color (sp : span) : Q (N * N * N) :=
  let* t := sget q_peek in
  match qt_tok t with
  | T_SquareBracketOpen =>
      next ;*
      let* type_name := (fun q => color_type_loop (S (q_size q)) sp [] q) in
      let* d := stry parse_string_literal in
      match d with
      | None => sfail sp E_ExpectedArgumentGotEOI
      | Some (desc, sp') =>
          if str_eqb type_name (lit "rgb") || str_eqb type_name (lit "RGB") || str_eqb type_name (lit "HTML") then
            match color_of type_name desc with
            | Some c => sret c
            | None => sfail sp' (E_UnknownColor desc)
            end
          else sfail sp' (E_UnknownColor type_name)
      end
  | _ =>
      let* '(name, sp') := parse_string_literal in
      match get_color name with
      | Some c => sret c
      | None => sfail sp' (E_UnknownColor name)
      end
  end.

(** ** Definitions *)

Definition is_group_begin (t : token) : bool := match t with T_GroupBegin => true | _ => false end.
Definition is_sq_open (t : token) : bool := match t with T_SquareBracketOpen => true | _ => false end.

(** parser.rs:2376-2414: what [\newcommand] and the like define: the name and whether it replaces an
    older meaning; [None] for [\providecommand] of a name which is taken *)
Definition definition_target (mode : define_mode) (t : qtok) : res (option (str * bool)) :=
  match qt_tok t, mode with
  | T_UnresolvedCommand _, DmRenew => Err (mkErr (qt_span t) E_CommandNotDefined)
  | T_UnresolvedCommand name, _ => Ok (Some (name, false))
  | _, _ =>
      match qt_name t with
      | None => Err (mkErr (qt_span t) E_ExpectedCommandName)
      | Some name =>
          match mode with
          | DmNew => Err (mkErr (qt_span t) E_CommandAlreadyDefined)
          | DmProvide => Ok None
          | DmRenew => Ok (Some (name, true))
          end
      end
  end.
(** parser.rs:2425-2451: the number of arguments in brackets *)
Definition read_num_args : Q nat :=
  let* t := sget q_peek in
  if is_sq_open (qt_tok t) then
    next ;*
    let* d := next in
    match qt_tok d with
    | T_Digit c =>
        let* close := next in
        match qt_tok close with
        | T_SquareBracketClose => sret (if is_ascii_digit c then N.to_nat (c - 48) else O)
        | _ => sfail (qt_span close) E_InvalidParameterNumber
        end
    | _ => sfail (qt_span d) E_InvalidParameterNumber
    end
  else sret O.
(** parser.rs:2453-2474: the body, a group or one token *)
Definition read_definition_body : Q (list qtok) :=
  let* t := sget q_peek in
  if is_group_begin (qt_tok t) then
    let* l := record_macro_body cfg in
    next ;* sret l
  else
    let* u := next in
    if is_eoi (qt_tok u) then sfail (qt_span u) E_ExpectedArgumentGotEOI else sret [u].
(** parser.rs:2365-2492 [define_command] *)
Definition define_command (mode : define_mode) : Q unit :=
  let* t := sget q_peek in
  let braced := is_group_begin (qt_tok t) in
  (if braced then next ;* sret tt else sret tt) ;*
  let* name := q_next_unres cfg in
  let* target := sres (definition_target mode name) in
  (if braced then
     let* c := next in
     match qt_tok c with T_GroupEnd => sret tt | _ => sfail (qt_span c) E_ExpectedExactlyOneToken end
   else sret tt) ;*
  let* num_args := read_num_args in
  let* l := read_definition_body in
  let* '(body, first) := sres (map_recorded_tokens l num_args) in
  match target with
  | None => sret tt
  | Some (n, replace) =>
      let* ok := q_define cfg n num_args body first replace false in
      if (ok : bool) then sret tt else sfail (qt_span name) E_Internal
  end.

(** parser.rs:2512-2515 *)
Fixpoint skip_spaces (fuel : nat) : Q unit :=
  match fuel with
  | O => scrash OutOfFuel
  | S f =>
      let* t := sget q_peek_any in
      if is_ws (qt_tok t) then next_any ;* skip_spaces f else sret tt
  end.
(** parser.rs:2517-2549: the parameter text *)
Fixpoint param_loop (fuel num_args : nat) : Q nat :=
  match fuel with
  | O => scrash OutOfFuel
  | S f =>
      let* t := sget q_peek_any in
      match qt_tok t with
      | T_GroupBegin => sret num_args
      | T_CustomCmdArgInput n =>
          if (n =? num_args)%nat then next_any ;* param_loop f (S num_args)
          else sfail (qt_span t) (E_UnexpectedParameterNumber (S num_args) (S n))
      | T_Eoi => sfail (qt_span t) E_ExpectedArgumentGotEOI
      | _ => sfail (qt_span t) E_DelimitedParameters
      end
  end.
(** parser.rs:2507-2564 [def_command] *)
Definition def_command (is_global : bool) : Q unit :=
  let* name := read_definition_name cfg in
  (fun q => skip_spaces (S (q_size q)) q) ;*
  let* num_args := (fun q => param_loop (S (q_size q)) 0 q) in
  let* l := record_macro_body cfg in
  next ;*
  let* '(body, first) := sres (map_recorded_tokens l num_args) in
  q_define cfg name num_args body first true is_global ;* sret tt.

(** parser.rs:2607-2646 [let_command] *)
Definition is_equals (t : token) : bool :=
  match t with
  | T_Relation r =>
      (rel_char r =? rel_char SYM_EQUALS_SIGN) && Bool.eqb (rel_vs1 r) (rel_vs1 SYM_EQUALS_SIGN)
      && match rel_cat r, rel_cat SYM_EQUALS_SIGN with
         | RcDefault, RcDefault | RcA, RcA | RcDandForceDefault, RcDandForceDefault => true
         | _, _ => false
         end
  | _ => false
  end.
Definition let_command (is_global : bool) : Q unit :=
  let* name := read_definition_name cfg in
  let* t := sget q_peek in
  (if is_equals (unwrap_math (qt_tok t)) then next ;* sret tt else sret tt) ;*
  let* src := next in
  match qt_tok src with
  | T_Eoi => sfail (qt_span src) E_ExpectedArgumentGotEOI
  | T_UnresolvedCommand n => sfail (qt_span src) (E_UnknownCommand n)
  | tok => q_define cfg name 0 [RTok tok] (token_class tok) true is_global ;* sret tt
  end.

(** parser.rs:2571-2596 [global_prefix] *)
Fixpoint global_loop (fuel : nat) : Q unit :=
  match fuel with
  | O => scrash OutOfFuel
  | S f =>
      let* t := next in
      match qt_tok t with
      | T_Let => let_command true
      | T_Def _ => def_command true
      | T_Global => global_loop f
      | T_Eoi => sfail (qt_span t) E_ExpectedArgumentGotEOI
      | _ => sfail (qt_span t) (E_CannotBeUsedHere LtGlobal BeforeDefinition)
      end
  end.
Definition global_prefix : Q unit := fun q => global_loop (S (q_size q)) q.
End Leaf.
