(** Strings that the renderer copies without escaping. *)
From Verif Require Import Str M_Spec M_Ast M_Env S_Node S_Store.

Definition has_markup (s : str) : Prop := existsb markup_char s = true.
(** The name of an operator or of an unknown command with one of ['<'], ['>'], ['&'] in it. *)
Definition exposed (n : node) : Prop :=
  match n with
  | PseudoOp _ _ _ s | UnknownCommand s => has_markup s
  | _ => False
  end.
(** No such string in any of the trees. *)
Definition unexposed (ast : list node) : Prop := forall n m, In n ast -> below m n -> ~ exposed m.
