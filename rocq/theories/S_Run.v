(** The operations performed by a run of the parser. *)
From Verif Require Import Str M_SuperChar M_Transform M_Length M_Spec M_Ast M_Token M_Symbols M_Commands M_Env
  M_LatexError M_Lexer M_CustomCmds M_Queue M_Spacing M_Leaf M_TextParser M_Parser.

(** An operation, the state before it, and what came of it. *)
Inductive performed := | Performed {A : Type} (o : op A) (before : pstate) (r : res A) (after : pstate).

Section Run.
Context (cfg : parser_cfg) (usize_max : N).

(** [run] with the list of operations performed. *)
Fixpoint trun (fuel : nat) {A} (p : prog A) {struct fuel} : pstate -> list performed * (res A * pstate) :=
  (fix go (p : prog A) (s : pstate) {struct p} : list performed * (res A * pstate) :=
     match p with
     | Ret a => ([], (Ok a, s))
     | Fail e => ([], (Err e, s))
     | Stop c => ([], (Crash c, s))
     | Do o k =>
         match exec cfg usize_max o s with
         | (Ok a, s') => let (l, r) := go (k a) s' in (Performed o s (Ok a) s' :: l, r)
         | (Err e, s') => ([Performed o s (Err e) s'], (Err e, s'))
         | (Crash c, s') => ([Performed o s (Crash c) s'], (Crash c, s'))
         end
     | Call c k =>
         match fuel with
         | O => ([], (Crash OutOfFuel, s))
         | S f =>
             match trun f (body c) s with
             | (l1, (Ok a, s')) => let (l2, r) := go (k a) s' in (l1 ++ l2, r)
             | (l1, (Err e, s')) => (l1, (Err e, s'))
             | (l1, (Crash c, s')) => (l1, (Crash c, s'))
             end
         end
     end) p.
End Run.
