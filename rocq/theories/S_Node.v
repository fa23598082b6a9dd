(** Children of a node, and properties that hold of a node and everything below it. *)
From Verif Require Import Str M_Ast.

Definition children (n : node) : list node :=
  match n with
  | Sub a b | Sup a b | Over a b | Under a b | Root a b => [a; b]
  | SubSup a b c | UnderOver a b c => [a; b; c]
  | OverAccent _ _ a | UnderAccent _ _ a | Sqrt a | Padded a _ _ _ _ _ | Phantom a | Enclose a _ => [a]
  | Frac a b _ _ _ => [a; b]
  | Row l _ | Table _ _ _ l | EquationArray _ _ l | MultLine _ _ l | ArrayN _ _ l => l
  | Multiscripts b pre post => b :: flat_map (fun p => [fst p; snd p]) (post ++ pre)
  | _ => []
  end.

Inductive node_all (P : node -> Prop) : node -> Prop :=
| NA n : P n -> (forall c, In c (children n) -> node_all P c) -> node_all P n.

(** [below m n]: [m] is [n] or lies inside it. *)
Inductive below (m : node) : node -> Prop :=
| below_refl : below m m
| below_child c n : In c (children n) -> below m c -> below m n.
