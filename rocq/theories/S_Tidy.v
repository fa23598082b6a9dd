(** Formulas in which the separators of cells and rows are where a table can see them. *)
From Verif Require Import Str M_Token M_Symbols M_Commands M_Env M_Leaf S_Formula.

Section Tidy.
Context (mean : str -> token).

Definition head_token (i : item) : option token :=
  match i with Item (HSym s _) _ => Some (tok mean s) | _ => None end.
(** [&], and [\\] where it ends rows. *)
Definition separator (rows : bool) (i : item) : bool :=
  match head_token i with Some T_NewColumn => true | Some T_NewLine => rows | _ => false end.
(** What takes the rest of the formula into a row of its own. *)
Definition switch (i : item) : bool :=
  match head_token i with Some (T_Style _) | Some T_Color => true | _ => false end.
Definition infix_command (i : item) : bool :=
  match head_token i with Some (T_InfixGenFrac _ _) => true | _ => false end.
(** Separators are allowed up to the first switch. *)
Fixpoint placed (rows allowed : bool) (l : list item) : bool :=
  match l with
  | [] => true
  | i :: r => (negb (separator rows i) || allowed) && placed rows (allowed && negb (switch i)) r
  end.
(** Only the formula of an environment itself has separators, and not if it is a fraction. *)
Definition list_tidy (item_tidy : item -> bool) (rows in_table : bool) (l : list item) : bool :=
  placed rows (in_table && negb (existsb infix_command l)) l && forallb item_tidy l.
Definition has_rows (e : env) : bool := match e with EEquation | EEquationStar => false | _ => true end.
Fixpoint item_tidy (rows : bool) (i : item) : bool :=
  match i with Item h ms => head_tidy rows h && forallb (mark_tidy rows) ms end
with head_tidy (rows : bool) (h : head) : bool :=
  match h with
  | HSym _ args => forallb (arg_tidy rows) args
  | HNum _ | HWord _ => true
  | HGroup l | HFence _ l _ => list_tidy (item_tidy rows) rows false l
  | HEnv e _ l => list_tidy (item_tidy (has_rows e)) (has_rows e) true l
  end
with arg_tidy (rows : bool) (a : arg) : bool :=
  match a with
  | AGroup l | ABracket l => list_tidy (item_tidy rows) rows false l
  | ASym _ | ALit _ => true
  | AItem i => item_tidy rows i
  | AScripts ms l => forallb (mark_tidy rows) ms && list_tidy (item_tidy rows) rows false l
  end
with mark_tidy (rows : bool) (m : fmark) : bool :=
  match m with
  | FSub a | FSup a => arg_tidy rows a
  | FPrimes _ (Some a) => arg_tidy rows a
  | FPrimes _ None | FLimits _ => true
  end.
(** A whole formula: [\\] ends no row here, and [&] has no place at all. *)
Definition formula_tidy (l : list item) : bool := list_tidy (item_tidy false) false false l.
End Tidy.
