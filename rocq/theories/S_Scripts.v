(** Specification vocabulary for subscripts, superscripts and primes. *)
From Verif Require Import Str M_SuperChar M_Transform M_Length M_Spec M_Ast M_Token M_Symbols M_Commands M_Env
  M_LatexError M_Lexer M_CustomCmds M_Queue M_Spacing M_Leaf M_TextParser M_Parser S_Lexer S_Queue.

(** ** Results of programs without fuel *)

Section Ends.
Context (cfg : parser_cfg) (usize_max : N).
(** The program [p] started in [s] ends with the result [r] in the state [s']. *)
Definition ends {A} (p : prog A) (s : pstate) (r : res A) (s' : pstate) : Prop :=
  exists f, run cfg usize_max f p s = (r, s') /\ r <> Crash OutOfFuel.
(** The next token. *)
Definition next_is (s : pstate) (t : token) (sp : span) : Prop :=
  unwrap_math (qt_tok (q_peek (ps_queue s))) = t /\ qt_span (q_peek (ps_queue s)) = sp.

(** ** Marks *)

(** What may follow an atom: a subscript, a superscript, or a command that says where they go. *)
Inductive mark := MSub (n : node) | MSup (n : node) | MLimits (l : limits_kind) (sp : span).
(** How a mark is read after the token that introduces it. *)
Definition mark_reader (t : token) (sp : span) : option (prog mark) :=
  match t with
  | T_Underscore => Some (sub n := script_node in Ret (MSub n))
  | T_Circumflex => Some (sub n := script_node in Ret (MSup n))
  | T_Prime k => Some (sub n := prime_script k in Ret (MSup n))
  | T_Limits l => Some (Ret (MLimits l sp))
  | _ => None
  end.
Definition no_mark_ahead (s : pstate) : Prop := forall t sp, next_is s t sp -> mark_reader t sp = None.
(** Reading a mark; its place is that of the introducing token. *)
Definition reads_mark (s : pstate) (sp : span) (r : res mark) (s' : pstate) : Prop :=
  exists t p, next_is s t sp /\ mark_reader t sp = Some p /\ ends (do_ ONext in p) s r s'.
Inductive reads_marks : pstate -> list mark -> pstate -> Prop :=
| marks_none s : reads_marks s [] s
| marks_some s sp m s1 l s' : reads_mark s sp (Ok m) s1 -> reads_marks s1 l s' -> reads_marks s (m :: l) s'.

Definition subs_of (l : list mark) : list node := flat_map (fun m => match m with MSub n => [n] | _ => [] end) l.
Definition sups_of (l : list mark) : list node := flat_map (fun m => match m with MSup n => [n] | _ => [] end) l.
Definition last_limits (l : list mark) : option (limits_kind * span) :=
  fold_left (fun a m => match m with MLimits k sp => Some (k, sp) | _ => a end) l None.
(** At most one of each kind. *)
Definition single (l : list mark) : Prop := (length (subs_of l) <= 1)%nat /\ (length (sups_of l) <= 1)%nat.
(** The marks, when there is at most one of each kind. *)
Definition summary (l : list mark) : bounds_limits :=
  mkBl (mkBounds (hd_error (subs_of l)) (hd_error (sups_of l))) (last_limits l).
End Ends.

(** ** Primes *)

Definition strokes (k : prime_kind) : list prime_direction := repeat (prime_dir k) (prime_count k).
(** The single strokes of runs of equal strokes. *)
Definition run_strokes (l : list (prime_direction * nat)) : list prime_direction := flat_map (fun p => repeat (fst p) (snd p)) l.
Fixpoint alternating (l : list (prime_direction * nat)) : bool :=
  match l with
  | a :: (b :: _) as r => negb (dir_eqb (fst a) (fst b)) && alternating r
  | _ => true
  end.
(** The strokes that a node shows: the characters are those that Unicode has for primes. *)
Definition char_strokes (c : N) : list prime_direction :=
  match c with
  | 0x2032 => repeat Forward 1 | 0x2033 => repeat Forward 2 | 0x2034 => repeat Forward 3 | 0x2057 => repeat Forward 4
  | 0x2035 => repeat Reversed 1 | 0x2036 => repeat Reversed 2 | 0x2037 => repeat Reversed 3
  | _ => []
  end%N.
Definition node_strokes (n : node) : list prime_direction :=
  match n with
  | Operator o _ _ _ _ => match sc_chars o with Some s => flat_map char_strokes s | None => [] end
  | _ => []
  end.
(** Only primes and the spaces between them. *)
Definition prime_like (n : node) : Prop := n = PRIME_SPACE \/ exists k, n = prime_node k.
(** The kind of prime that a token is. *)
Definition prime_tok (t : qtok) : option prime_kind := match unwrap_math (qt_tok t) with T_Prime k => Some k | _ => None end.
Definition is_caret (t : qtok) : bool := match unwrap_math (qt_tok t) with T_Circumflex => true | _ => false end.
(** The tokens [ts] are the primes [ks]. *)
Definition prime_toks (ts : list qtok) (ks : list prime_kind) : Prop := map prime_tok ts = map Some ks.

(** ** Atoms *)

(** Tokens that do something to the rest of a sequence but are no atoms. *)
Definition silent (t : token) : bool :=
  match t with
  | T_Eoi | T_InfixGenFrac _ _ | T_Relax | T_TransformSwitch _ | T_NewCommand _ | T_Let | T_Def _ | T_Global | T_VerticalLineDef _
  | T_NoNumber | T_Tag _ | T_Label => true
  | _ => false
  end.
(** In the state [s] a sequence has an atom next: it is [n], with the class [c] and the state [s'] after it. *)
Inductive atom_read (cfg : parser_cfg) (usize_max : N) (prev : class) (s : pstate) : class -> node -> pstate -> Prop :=
| atom_letters n s' : exec cfg usize_max OLetters s = (Ok (Some n), s') -> atom_read cfg usize_max prev s ClDefault n s'
| atom_token s1 t s2 c n s' : exec cfg usize_max OLetters s = (Ok None, s1) -> exec cfg usize_max ONext s1 = (Ok t, s2) -> silent (fst t) = false ->
    ends cfg usize_max (body (CTok t PaSequence prev)) s2 (Ok (c, n)) s' -> atom_read cfg usize_max prev s c n s'.
(** An atom with a subscript and a superscript. *)
Definition scripted (n : node) (sub_ sup_ : option node) : node :=
  match sub_, sup_ with
  | None, None => n
  | Some a, None => Sub n a
  | None, Some b => Sup n b
  | Some a, Some b => SubSup n a b
  end.
(** The parts before an atom that [\prescript] and [\sideset] make; their scripts have a place already. *)
Definition open_prescript (n : node) : bool := match n with Multiscripts _ _ [] => true | _ => false end.
