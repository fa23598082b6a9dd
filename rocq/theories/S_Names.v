(** Specification vocabulary for the names that are defined. *)
From Verif Require Import Str M_SuperChar M_Transform M_Length M_Spec M_Ast M_Token M_Symbols M_Commands M_Env
  M_LatexError M_Lexer M_CustomCmds M_Queue M_Spacing M_Colors M_Leaf M_TextParser M_Parser S_Lexer S_Queue S_Store S_Run.

Section Names.
Context (cfg : parser_cfg).

(** Whether a name has a meaning. *)
Definition has_meaning (q : queue) (n : str) : bool := match q_resolve cfg q n with Some _ => true | None => false end.
(** A token as it is, or as it is in math mode. *)
Fixpoint in_math (m t : token) : Prop := t = m \/ match m with T_MathOrTextMode u _ => in_math u t | _ => False end.
(** A token which is the name [n], with the meaning that [n] has now. *)
Definition names (q : queue) (t : qtok) (n : str) : Prop :=
  in_math (q_meaning cfg q n) (qt_tok t) /\ (has_meaning q n = true -> qt_name t = Some n).

(** The names that were typed have the meanings that they have now. *)
Definition faithful_tok (q : queue) (t : qtok) : Prop :=
  match qt_name t with
  | Some n => in_math (q_meaning cfg q n) (qt_tok t)
  | None => True
  end.
Definition faithful (q : queue) : Prop := Forall (faithful_tok q) (q_toks q).

(** The name that [\newcommand] and the like define, which may be in braces. *)
Definition reads_name (q : queue) (braced : bool) (t : qtok) (q' : queue) : Prop :=
  braced = is_group_begin (qt_tok (q_peek q)) /\
  exists q0, (if braced then exists u, q_next cfg q = (Ok u, q0) else q0 = q) /\ q_next_unres cfg q0 = (Ok t, q').
(** The name is there as it was typed, and does not come from the body of a macro. *)
Definition typed_name (q : queue) : Prop := forall braced t q', reads_name q braced t q' -> qt_name t <> None.
(** What follows the name: the number of arguments, the body and its class. *)
Definition definition_rest (braced : bool) : St queue (nat * (list recorded * option class)) :=
  (if braced then
     let* c := q_next cfg in
     match qt_tok c with T_GroupEnd => sret tt | _ => sfail (qt_span c) E_ExpectedExactlyOneToken end
   else sret tt) ;*
  let* num_args := read_num_args cfg in
  let* l := read_definition_body cfg in
  let* b := sres (map_recorded_tokens l num_args) in
  sret (num_args, b).
(** What follows the name after [\def]. *)
Definition def_rest : St queue (nat * (list recorded * option class)) :=
  (fun q => skip_spaces cfg (S (q_size q)) q) ;*
  let* num_args := (fun q => param_loop cfg (S (q_size q)) 0 q) in
  let* l := record_macro_body cfg in
  q_next cfg ;*
  let* b := sres (map_recorded_tokens l num_args) in
  sret (num_args, b).

(** The definition [d] is made. *)
Definition made (q : queue) (d : defn) (q' : queue) : Prop :=
  defn_ok cfg q d /\
  q_define cfg (df_name d) (df_args d) (df_body d) (df_class d) (df_replace d) (df_global d) q = (Ok true, q').
(** [m] succeeds in [q] and then the definition of [n] is made. *)
Definition then_defined (m : St queue (nat * (list recorded * option class))) (n : str) (replace is_global : bool) (q : queue)
  (r : res unit * queue) : Prop :=
  match m q with
  | (Ok (args, (body, cl)), q1) => exists q2, made q1 (mkDefn n args body cl replace is_global) q2 /\ r = (Ok tt, q2)
  | (Err e, q1) => r = (Err e, q1)
  | (Crash _, _) => False
  end.
(** [m] succeeds in [q] and nothing is defined. *)
Definition then_kept (m : St queue (nat * (list recorded * option class))) (q : queue) (r : res unit * queue) : Prop :=
  match m q with
  | (Ok _, q1) => r = (Ok tt, q1) /\ q_local q1 = q_local q /\ q_gs q1 = q_gs q
  | (Err e, q1) => r = (Err e, q1)
  | (Crash _, _) => False
  end.
(** What [\newcommand], [\renewcommand] and [\providecommand] do about the name [n]. *)
Definition define_outcome (m : define_mode) (q : queue) (n : str) (braced : bool) (t : qtok) (q1 : queue) (r : res unit * queue) : Prop :=
  if has_meaning q n then
    match m with
    | DmNew => r = (Err (mkErr (qt_span t) E_CommandAlreadyDefined), q1)
    | DmRenew => then_defined (definition_rest braced) n true false q1 r
    | DmProvide => then_kept (definition_rest braced) q1 r
    end
  else
    match m with
    | DmRenew => r = (Err (mkErr (qt_span t) E_CommandNotDefined), q1)
    | _ => then_defined (definition_rest braced) n false false q1 r
    end.

(** After [\let] and the name there may be an equals sign. *)
Definition after_equals (q q' : queue) : Prop :=
  let eq := T_Relation SYM_EQUALS_SIGN in
  (unwrap_math (qt_tok (q_peek q)) = eq /\ exists u, q_next cfg q = (Ok u, q')) \/
  (unwrap_math (qt_tok (q_peek q)) <> eq /\ q' = q).
(** What [\let] does about the name [n], when the token after it is [src]: the token itself is stored. *)
Definition let_outcome (is_global : bool) (n : str) (src : qtok) (q : queue) (r : res unit * queue) : Prop :=
  match qt_tok src with
  | T_Eoi => r = (Err (mkErr (qt_span src) E_ExpectedArgumentGotEOI), q)
  | T_UnresolvedCommand u => r = (Err (mkErr (qt_span src) (E_UnknownCommand u)), q)
  | tok => exists q', made q (mkDefn n 0 [RTok tok] (token_class tok) true is_global) q' /\ r = (Ok tt, q')
  end.

(** The token after any number of [\global]. *)
Inductive after_globals : queue -> qtok -> queue -> Prop :=
| AgHere : forall q t q', q_next cfg q = (Ok t, q') -> qt_tok t <> T_Global -> after_globals q t q'
| AgMore : forall q u q1 t q', q_next cfg q = (Ok u, q1) -> qt_tok u = T_Global -> after_globals q1 t q' -> after_globals q t q'.

(** The operations that define a command with a name in this way, and all others. *)
Definition typed_define (p : performed) : Prop :=
  match p with Performed o s _ _ => match o with ODefine _ => typed_name (ps_queue s) | _ => True end end.
Definition queue_before (p : performed) : queue := match p with Performed _ s _ _ => ps_queue s end.
End Names.
