(** The arguments of [\mathchoice]. *)
From Verif Require Import Str M_Ast.

(** Which of the four arguments, counted from zero, belongs to a style. *)
Definition choice_place (st : style) : nat :=
  match st with StDisplay => 0 | StText => 1 | StScript => 2 | StScriptScript => 3 end.
