(** Specification of the spacing between atoms: the rules of TeX (The TeXbook, chapter 18 and rules 5
    and 6 of appendix G). *)
From Verif Require Import Str M_SuperChar M_Length M_Spec M_Ast M_Token M_Env M_Spacing M_Parser.

Inductive atom := AOrd | AOp | ABin | ARel | AOpen | AClose | APunct | AInner.

(** A binary operator is an ordinary symbol where it has nothing to combine on one side. *)
Definition nothing_before (p : option atom) : bool :=
  match p with None | Some ABin | Some AOp | Some ARel | Some AOpen | Some APunct => true | _ => false end.
Definition nothing_after (n : option atom) : bool :=
  match n with None | Some ARel | Some AClose | Some APunct => true | _ => false end.
Definition tex_atom (p : option atom) (a : atom) (n : option atom) : atom :=
  match a with ABin => if nothing_before p || nothing_after n then AOrd else ABin | _ => a end.
Fixpoint tex_atoms (p : option atom) (l : list atom) : list atom :=
  match l with
  | [] => []
  | a :: r => let a' := tex_atom p a (hd_error r) in a' :: tex_atoms (Some a') r
  end.
(** The table: thin, medium and thick spaces in mu, those in parentheses not in scripts. *)
Definition unless_script (st : style) (mu : N) : N := if is_script st then 0 else mu.
Definition tex_gap (st : style) (a b : atom) : N :=
  match a, b with
  | AOrd, AOp | AOp, AOrd | AOp, AOp | AClose, AOp | AInner, AOp => 3
  | AOrd, AInner | AOp, AInner | AClose, AInner | AInner, AOrd | AInner, AOpen | AInner, APunct | AInner, AInner => unless_script st 3
  | APunct, (AOrd | AOp | ARel | AOpen | AClose | APunct | AInner) => unless_script st 3
  | AOrd, ABin | AClose, ABin | AInner, ABin | ABin, AOrd | ABin, AOp | ABin, AOpen | ABin, AInner => unless_script st 4
  | AOrd, ARel | AOp, ARel | AClose, ARel | AInner, ARel | ARel, AOrd | ARel, AOp | ARel, AOpen | ARel, AInner => unless_script st 5
  | _, _ => 0
  end.
Fixpoint tex_gaps (st : style) (l : list atom) : list N :=
  match l with
  | a :: ((b :: _) as r) => tex_gap st a b :: tex_gaps st r
  | _ => []
  end.
Definition tex_spacing (st : style) (l : list atom) : list N := tex_gaps st (tex_atoms None l).

(** ** What the code does with a sequence of atoms *)
Definition class_of_atom (a : atom) : class :=
  match a with
  | AOrd => ClDefault | AOp => ClOperator | ABin => ClBinaryOp | ARel => ClRelation | AOpen => ClOpen | AClose => ClClose
  | APunct => ClPunctuation | AInner => ClInner
  end.
Definition next_class (n : option atom) : class := match n with Some a => class_of_atom a | None => ClEnd end.
Definition mu_of (s : option math_spacing) (default : N) : N :=
  match s with None => default | Some MsZero => 0 | Some ThreeMu => 3 | Some FourMu => 4 | Some FiveMu => 5 end.
Definition mu_pair (s : spacing_pair) (left right : N) : N * N := (mu_of (fst s) left, mu_of (snd s) right).
(** The spaces left and right of an atom and the class it leaves for the next one; [force] tells
    whether the spacing is always written out or left to the operator dictionary if that is the same. *)
Definition code_atom (force : bool) (st : style) (prev next : class) (a : atom) : N * N * class :=
  match a with
  | AOrd => (0, 0, ClDefault)
  | AOpen => (0, 0, ClOpen)
  | AClose => (0, 0, ClDefault)
  | AOp => (mu_pair (mathop_spacing st prev next force) 3 3, ClOperator)
  | ABin => let s := bin_op_spacing st true prev next force in (mu_pair (s, s) 4 4, bin_class s)
  | ARel => (mu_pair (relation_spacing st prev next force) 5 5, ClRelation)
  | APunct => (mu_pair (punctuation_spacing st next force) 0 3, ClPunctuation)
  | AInner => (mu_pair (mathinner_spacing st prev next force) 3 3, ClInner)
  end.
Fixpoint code_atoms (force : bool) (st : style) (prev : class) (l : list atom) : list (N * N) :=
  match l with
  | [] => []
  | a :: r => let (sp, c) := code_atom force st prev (next_class (hd_error r)) a in sp :: code_atoms force st c r
  end.
Fixpoint gaps (l : list (N * N)) : list N :=
  match l with
  | x :: ((y :: _) as r) => snd x + fst y :: gaps r
  | _ => []
  end.
(** A sequence starts as after an opening symbol. *)
Definition code_spacing (force : bool) (st : style) (l : list atom) : list N := gaps (code_atoms force st ClOpen l).

(** The sequences where the code differs from TeX: two inner atoms in a row, an inner atom before a
    binary operator that becomes ordinary for the sake of what follows it, and, in scripts, a binary
    operator before a large operator. *)
Fixpoint exceptional (st : style) (p : option atom) (l : list atom) : bool :=
  match l with
  | [] => false
  | a :: r =>
      (match p, a with
       | Some AInner, AInner => negb (is_script st)
       | Some AInner, ABin => negb (is_script st) && nothing_after (hd_error r)
       | Some ABin, AOp => is_script st
       | _, _ => false
       end) || exceptional st (Some (tex_atom p a (hd_error r))) r
  end.

(** Symbols whose spacing depends on their neighbours, and whether it is always written out. *)
Definition spaced_token (t : token) : option (atom * bool) :=
  match t with
  | T_Relation _ => Some (ARel, false)
  | T_ForceRelation _ => Some (ARel, true)
  | T_BinaryOp _ => Some (ABin, false)
  | T_ForceBinaryOp _ => Some (ABin, true)
  | T_Punctuation _ => Some (APunct, false)
  | T_ForcePunctuation _ => Some (APunct, true)
  | T_Inner _ => Some (AInner, false)
  | T_ForceMathInner _ => Some (AInner, true)
  | _ => None
  end.
(** The spaces of the operator dictionary. *)
Definition dictionary (a : atom) : N * N :=
  match a with ARel => (5, 5) | ABin => (4, 4) | APunct => (0, 3) | AInner | AOp => (3, 3) | _ => (0, 0) end.
