(** Texts that read as a formula: there may be blanks between the tokens, and macros in place of what they stand for. *)
From Verif Require Import Str M_SuperChar M_Length M_Spec M_Ast M_Token M_Symbols M_Commands M_Env M_LatexError M_Lexer M_CustomCmds M_Queue M_Parser M_Api
  S_Lexer S_Queue S_Scripts S_Formula S_Api.
Local Open Scope nat_scope.

(** The tokens [l], perhaps with blanks before each of them, and then [k]. *)
Fixpoint spells (w l k : list token) : Prop :=
  match l with
  | [] => w = k
  | t :: l => exists w1, bare w = t :: w1 /\ spells w1 l k
  end.

(** The tokens of a text, with the meanings of the names; [None] if there is an error in it. *)
Definition text_tokens (mean : str -> token) (input : str) : option (list token) :=
  match tokenize (S (length input)) (lexer_new input) with
  | Some (ts, LexEoi _) => Some (map (fun o => match o with LexTok t => fst t | LexCmd name _ => mean name end) ts)
  | _ => None
  end.

(** ** Macros *)

(** The inside of a group: every brace has its partner. *)
Fixpoint level (d : nat) (l : list token) : option nat :=
  match l with
  | [] => Some d
  | T_GroupBegin :: r => level (S d) r
  | T_GroupEnd :: r => match d with O => None | S d' => level d' r end
  | _ :: r => level d r
  end.
(** One argument of a macro, and what is left. *)
Inductive grabs : list token -> list token -> list token -> Prop :=
| grabs_token w t r : bare w = t :: r -> unwrap_math t <> T_GroupBegin -> unwrap_math t <> T_GroupEnd -> unwrap_math t <> T_Eoi -> grabs w [unwrap_math t] r
| grabs_group w inner r : bare w = T_GroupBegin :: inner ++ T_GroupEnd :: r -> level 0 inner = Some 0 -> grabs w inner r.
Inductive grabs_all : list token -> list (list token) -> list token -> Prop :=
| grabs_none w : grabs_all w [] w
| grabs_more w a w1 args k : grabs w a w1 -> grabs_all w1 args k -> grabs_all w (a :: args) k.

(** A body that a definition can have: it has at most nine parameters, and none but those. *)
Definition body_ok (n : nat) (body : list recorded) : Prop := n <= 9 /\ params_below n body /\ Forall not_means_eoi body.
(** The definition behind a token. *)
Definition macro_def (body_of : cmd_source -> nat -> nat -> option (list recorded)) (t : token) : option (nat * list recorded) :=
  match t with
  | T_CustomCmd n toks => Some (n, map RTok toks)
  | T_CustomCmdRef src n _ start stop => option_map (pair n) (body_of src start stop)
  | _ => None
  end.

Section Reading.
(** The meaning of names, the bodies of macros, and whether unknown commands are passed over. *)
Context (mean : str -> token) (body_of : cmd_source -> nat -> nat -> option (list recorded)) (ignore : bool).

(** The body with the arguments put in. *)
Definition put_in (args : list (list token)) (r : recorded) : list token :=
  match r with
  | RTok (T_CustomCmdArg i) => match nth i args [] with [] => [T_GroupBegin; T_GroupEnd] | arg => arg end
  | RTok t => [t]
  | RName name => [mean name]
  end.
Definition unfolded (args : list (list token)) (body : list recorded) : list token :=
  match body with [] => [T_Relax] | _ => flat_map (put_in args) body end.

(** What can come first in what a macro stands for. *)
Definition acts (t : token) : bool := match unwrap_math t with T_HLine _ => false | u => negb (silent u) end.

(** Three dots are centered before a relation or a binary operator. *)
Definition centered (r : list token) : bool := match class_ahead r ClEnd with ClBinaryOp | ClRelation => true | _ => false end.

(** The first token is [t], after at most [n] uses of macros; [n'] are left and [r] comes after it. A macro must show
    the spacing class of what it stands for. Arguments ([sq] is [false]) do not see what comes after them. *)
Inductive leads (sq : bool) : nat -> list token -> nat -> token -> list token -> Prop :=
| leads_here n w t r : bare w = t :: r -> leads sq n w n t r
| leads_dots n w u r : bare w = u :: r -> unwrap_math u = T_Dots -> sq = true \/ centered r = false ->
    leads sq n w n (T_Inner (if centered r then SYM_MIDDLE_DOT else SYM_FULL_STOP)) (tl (if centered r then PRE_CDOTS else PRE_DOTS) ++ r)
| leads_use n w u r m body args r' n' t k : bare w = u :: r -> macro_def body_of (unwrap_math u) = Some (m, body) -> body_ok m body ->
    grabs_all r args r' -> length args = m ->
    (ignore = true \/ Forall (fun t => known t = true) (unfolded args body)) ->
    find_map token_class w = find_map token_class (unfolded args body ++ r') ->
    acts t = true -> leads sq n (unfolded args body ++ r') n' t k -> leads sq (S n) w n' t k.

(** ** Formulas *)

(** Arguments that are not read as formulas stand there as they are, without blanks in front. *)
Definition as_is (t : token) (args : list arg) : list bool :=
  match t with
  | T_Genfrac => [true; true; false; true]
  | T_Cramped | T_Color => match args with ABracket _ :: _ => [true] | _ => [] end
  | T_Big _ _ | T_Middle | T_Text _ | T_OperatorName _ => [true]
  | T_RaiseBox => [false; true]
  | T_Sideset => [false; false; true]
  | _ => []
  end.
Fixpoint marked (bs : list bool) (args : list arg) : list (bool * arg) :=
  match args, bs with
  | [], _ => []
  | a :: args, b :: bs => (b, a) :: marked bs args
  | a :: args, [] => (false, a) :: marked [] args
  end.

(** The tokens [w] read as a part of a formula and then [k] is left; of [n] uses of macros [n'] are left. An atom in an
    argument ([sq] is [false]) does not see what comes after it. *)
Inductive reads_items : nat -> list token -> list item -> nat -> list token -> Prop :=
| ri_nil n w : reads_items n w [] n w
| ri_cons n w h n1 w1 ms n2 w2 l n' k : reads_head true n w h n1 w1 -> reads_marks n1 w1 ms n2 w2 -> reads_items n2 w2 l n' k ->
    reads_items n w (Item h ms :: l) n' k
with reads_head : bool -> nat -> list token -> head -> nat -> list token -> Prop :=
| rh_sym sq n w s n1 w1 args n' k : leads sq n w n1 (raw mean s) w1 -> reads_args n1 w1 (marked (as_is (tok mean s) args) args) n' k ->
    reads_head sq n w (HSym s args) n' k
| rh_num sq n w c n1 w1 s k : leads sq n w n1 (char_token c) w1 -> spells w1 (map char_token s) k -> reads_head sq n w (HNum (c :: s)) n1 k
| rh_word sq n w l k : spells w (map (raw mean) l) k -> reads_head sq n w (HWord l) n k
| rh_group sq n w n1 w1 l n' w2 k : leads sq n w n1 T_GroupBegin w1 -> reads_items n1 w1 l n' w2 -> bare w2 = T_GroupEnd :: k ->
    reads_head sq n w (HGroup l) n' k
| rh_fence sq n w n1 w1 o w2 l n' w3 w4 c k : leads sq n w n1 (mean (lit "left")) w1 -> bare w1 = raw mean o :: w2 -> reads_items n1 w2 l n' w3 ->
    bare w3 = mean (lit "right") :: w4 -> bare w4 = raw mean c :: k -> reads_head sq n w (HFence o l c) n' k
| rh_env sq n w n1 w1 e args n2 w2 l n' w3 k : leads sq n w n1 (T_Begin e) w1 -> reads_args n1 w1 (marked [] args) n2 w2 -> reads_items n2 w2 l n' w3 ->
    bare w3 = T_End e :: k -> reads_head sq n w (HEnv e args l) n' k
with reads_args : nat -> list token -> list (bool * arg) -> nat -> list token -> Prop :=
| ras_nil n w : reads_args n w [] n w
| ras_cons n w b a n1 w1 args n' k : reads_arg b n w a n1 w1 -> reads_args n1 w1 args n' k -> reads_args n w ((b, a) :: args) n' k
with reads_arg : bool -> nat -> list token -> arg -> nat -> list token -> Prop :=
| ra_as_is n a k : (forall s, a = ALit s -> lit_ok s = true) -> reads_arg true n (arg_toks mean a ++ k) a n k
| ra_group n w n1 w1 l n' w2 k : leads false n w n1 T_GroupBegin w1 -> reads_items n1 w1 l n' w2 -> bare w2 = T_GroupEnd :: k ->
    reads_arg false n w (AGroup l) n' k
| ra_sym n w s n' k : leads false n w n' (raw mean s) k -> reads_arg false n w (ASym s) n' k
| ra_bracket n w w1 l n' w2 k : bare w = T_SquareBracketOpen :: w1 -> reads_items n w1 l n' w2 -> bare w2 = T_SquareBracketClose :: k ->
    reads_arg false n w (ABracket l) n' k
| ra_lit n w s k : lit_ok s = true -> bare w = T_GroupBegin :: map lit_tok s ++ T_GroupEnd :: k -> reads_arg false n w (ALit s) n k
| ra_item n w h n1 w1 ms n' k : reads_head false n w h n1 w1 -> reads_marks n1 w1 ms n' k -> (greedy mean (Item h ms) = true -> script_ahead k = false) ->
    reads_arg false n w (AItem (Item h ms)) n' k
| ra_scripts n w w1 ms n1 w2 l n' w3 k : bare w = T_GroupBegin :: w1 -> reads_marks n w1 ms n1 w2 -> script_ahead w2 = false -> reads_items n1 w2 l n' w3 ->
    bare w3 = T_GroupEnd :: k -> reads_arg false n w (AScripts ms l) n' k
with reads_marks : nat -> list token -> list fmark -> nat -> list token -> Prop :=
| rms_nil n w : reads_marks n w [] n w
| rms_cons n w m n1 w1 ms n' k : reads_mark n w m n1 w1 -> reads_marks n1 w1 ms n' k -> reads_marks n w (m :: ms) n' k
with reads_mark : nat -> list token -> fmark -> nat -> list token -> Prop :=
| rm_sub n w w1 a n' k : bare w = T_Underscore :: w1 -> reads_arg false n w1 a n' k -> reads_mark n w (FSub a) n' k
| rm_sup n w w1 a n' k : bare w = T_Circumflex :: w1 -> reads_arg false n w1 a n' k -> reads_mark n w (FSup a) n' k
| rm_primes n w p ps k : bare w = raw mean p :: map (raw mean) ps ++ k -> reads_mark n w (FPrimes (p :: ps) None) n k
| rm_primes_sup n w p ps w1 a n' k : bare w = raw mean p :: map (raw mean) ps ++ T_Circumflex :: w1 -> reads_arg false n w1 a n' k ->
    reads_mark n w (FPrimes (p :: ps) (Some a)) n' k
| rm_limits n w s k : bare w = raw mean s :: k -> reads_mark n w (FLimits s) n k.

(** ** Blanks *)

(** Formulas between whose tokens blanks do not count: no argument stands there as it is. *)
Fixpoint loose_item (i : item) : bool := match i with Item h ms => loose_head h && forallb loose_mark ms end
with loose_head (h : head) : bool :=
  match h with
  | HSym s args => forallb (fun p => negb (fst p)) (marked (as_is (tok mean s) args) args) && forallb loose_arg args
  | HNum s => match s with [] => false | _ => true end
  | HWord l => true
  | HGroup l => forallb loose_item l
  | HFence o l c => forallb loose_item l
  | HEnv e args l => forallb loose_arg args && forallb loose_item l
  end
with loose_arg (a : arg) : bool :=
  match a with
  | AGroup l | ABracket l => forallb loose_item l
  | ASym s => true
  | ALit s => false
  | AItem i => loose_item i
  | AScripts ms l => forallb loose_mark ms && forallb loose_item l
  end
with loose_mark (m : fmark) : bool :=
  match m with
  | FSub a | FSup a => loose_arg a
  | FPrimes [_] None => true
  | FPrimes _ _ => false
  | FLimits _ => true
  end.
Definition solid (t : token) : bool := negb (is_ws t).

(** ** One macro *)

(** In [w'] one use of a macro is replaced by what it stands for. *)
Definition replaced (w w' : list token) : Prop :=
  exists p u r m body args r', w = p ++ u :: r /\ macro_def body_of (unwrap_math u) = Some (m, body) /\ body_ok m body /\
  grabs_all r args r' /\ length args = m /\ w' = p ++ unfolded args body ++ r'.
End Reading.

(** ** Snippets *)

(** Where the bodies of the macros are at the start of a snippet. *)
Definition macro_source (cfg : parser_cfg) (gs : global_state) (src : cmd_source) (start stop : nat) : option (list recorded) :=
  cmds_body (match src with SrcConfig => pc_custom cfg | SrcDocument => gs_cmds gs | SrcLocal => cmds_empty end) start stop.
(** The text reads as the formula, and there may be blanks at its end. *)
Definition text_reads (cfg : parser_cfg) (gs : global_state) (input : str) (l : list item) : Prop :=
  exists w n k, text_tokens (name_meaning cfg gs) input = Some w /\ (pc_ignore_unknown cfg = true \/ Forall (fun t => known t = true) w) /\
  reads_items (name_meaning cfg gs) (macro_source cfg gs) (pc_ignore_unknown cfg) (pc_max_expansions cfg) w l n k /\ bare k = [].
(** What the formula means there. *)
Definition reading_meaning (cfg : parser_cfg) (usize_max : N) (gs : global_state) (st : style) (l : list item) : option (list node * global_state) :=
  match den (name_meaning cfg gs) usize_max (snippet_ctx st) l (snippet_nu gs) with
  | Some (ns, d) => Some (ns, mkGs (nu_count d) (nu_labels d) (gs_cmds gs))
  | None => None
  end.

(** Three dots, as a formula. *)
Definition dots_items (high : bool) : list item := map (fun t => Item (HSym (STok t) []) []) (if high then PRE_CDOTS else PRE_DOTS).

(** ** For examples *)
Definition macro_cfg (macros : list (String.string * String.string)) : parser_cfg := cv_parser (plain_converter (map (fun p => (lit (fst p), lit (snd p))) macros)).
(** The first text has a macro where the second has what it stands for, and they give different trees. *)
Definition opaque (macros : list (String.string * String.string)) (i1 i2 : String.string) : Prop :=
  let cfg := macro_cfg macros in
  let nodes i := fst (parse_snippet cfg 1000 200 gs_default (lit i) StText) in
  (exists w1 w2, text_tokens (name_meaning cfg gs_default) (lit i1) = Some w1 /\ text_tokens (name_meaning cfg gs_default) (lit i2) = Some w2 /\
     replaced (name_meaning cfg gs_default) (macro_source cfg gs_default) w1 w2) /\
  (forall c, nodes i1 <> Crash c) /\ (exists ns, nodes i2 = Ok ns) /\ nodes i1 <> nodes i2.
