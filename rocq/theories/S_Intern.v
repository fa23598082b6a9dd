(** The internal error of the parser (C66): a parser that gives another error where a token stands that no
    atom begins with. *)
From Verif Require Import Str M_SuperChar M_Transform M_Length M_Spec M_Ast M_Token M_Symbols M_Commands M_Env
  M_LatexError M_Lexer M_CustomCmds M_Queue M_Spacing M_Colors M_Leaf M_TextParser M_Parser S_Run S_Names.

Definition internal (e : latex_error) : bool := match err_kind_of e with E_Internal => true | _ => false end.

(** An atom is to be read, and the token changes what the vertical line stands for (it is part of the bodies of
    [\set], [\Set] and [\Braket]). *)
Definition misplaced {A} (c : call A) : bool :=
  match c with CTok t _ _ => match fst t with T_VerticalLineDef _ => true | _ => false end | _ => false end.

Section Other.
Context (cfg : parser_cfg) (usize_max : N) (k : err_kind).

(** A program with the error [k] where it raises the internal error. *)
Fixpoint relabel {A} (p : prog A) : prog A :=
  match p with
  | Fail e => Fail (if internal e then mkErr (err_span e) k else e)
  | Do o n => Do o (fun a => relabel (n a))
  | Call c n => Call c (fun a => relabel (n a))
  | _ => p
  end.
(** As [body], but with the error [k] for a misplaced token. *)
Definition body_with {A} (c : call A) : prog A := if misplaced c then relabel (body c) else body c.
(** As [run], with these programs. *)
Fixpoint run_with (fuel : nat) {A} (p : prog A) {struct fuel} : St pstate A :=
  (fix go (p : prog A) (s : pstate) {struct p} : res A * pstate :=
     match p with
     | Ret a => (Ok a, s)
     | Fail e => (Err e, s)
     | Stop c => (Crash c, s)
     | Do o k =>
         match exec cfg usize_max o s with
         | (Ok a, s') => go (k a) s'
         | (Err e, s') => (Err e, s')
         | (Crash c, s') => (Crash c, s')
         end
     | Call c k =>
         match fuel with
         | O => (Crash OutOfFuel, s)
         | S f =>
             match run_with f (body_with c) s with
             | (Ok a, s') => go (k a) s'
             | (Err e, s') => (Err e, s')
             | (Crash c, s') => (Crash c, s')
             end
         end
     end) p.
Definition parse_snippet_with (fuel : nat) (gs : global_state) (input : str) (st : style) : res (list node) * global_state :=
  match parser_new cfg gs input st with
  | (Ok _, s) => let (r, s') := run_with fuel (body (CSeq (SeqEnd EtEoi) ClOpen true)) s in (r, q_gs (ps_queue s'))
  | (Err e, s) => (Err e, q_gs (ps_queue s))
  | (Crash c, s) => (Crash c, q_gs (ps_queue s))
  end.
End Other.

(** The last operation was a definition with [\newcommand] or [\providecommand] and failed with this error. The name was
    without a meaning when it was read, and has one now. *)
Definition definition_failed (cfg : parser_cfg) (e : latex_error) (l : list performed) : Prop :=
  exists l1 m b a, l = l1 ++ [Performed (ODefine m) b (Err e) a] /\
    exists braced t q1 n, reads_name cfg (ps_queue b) braced t q1 /\ qt_tok t = T_UnresolvedCommand n /\ has_meaning cfg (ps_queue b) n = true.
