(** Specification vocabulary for the string pool and splitting. *)
From Verif Require Import Str M_Pool.

(** The pool after storing the strings [l] in order. *)
Fixpoint intern_all (p : pool) (l : list str) : pool :=
  match l with [] => p | s :: r => intern_all (snd (intern p s)) r end.

(** Joining pieces with a separator. *)
Fixpoint join (c : N) (l : list str) : str :=
  match l with
  | [] => []
  | p :: r => match r with [] => p | _ => p ++ c :: join c r end
  end.
