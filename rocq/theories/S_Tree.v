(** The trees the parser builds. *)
From Verif Require Import Str M_SuperChar M_Spec M_Ast M_Token M_Env S_SuperChar S_Store S_Node S_Emit.

(** Characters of identifiers, which are written without escaping. *)
Definition sc_plain (c : superchar) : bool := sc_valid c && negb (markup_char (cc_base (sc_unpack c))).
Definition digit_or_dot (c : N) : bool := is_ascii_digit c || (c =? 46).
Definition info_scalars (i : option row_label_info) : Prop :=
  match i with
  | Some x => forallb is_scalar (tag_text (li_tag x)) = true /\
      match li_link_target x with Some l => forallb typed_char l = true | None => True end
  | None => True
  end.

(** What the characters, strings and colors of a node are. *)
Definition leaf_ok (n : node) : Prop :=
  match n with
  | Number s => s <> [] /\ forallb digit_or_dot s = true
  | IdentifierChar c _ => sc_plain c = true
  | Operator c a _ _ _ | OverAccent c a _ | UnderAccent c a _ => sc_valid c = true /\ attrs_ok a = true
  | PseudoOp a _ _ s => forallb is_scalar s = true /\ attrs_ok a = true
  | IdentifierStr s | Text _ _ s | UnknownCommand s => forallb is_scalar s = true
  | EqRef s => forallb typed_char s = true
  | Row _ a => color_ok a
  | EquationArray _ i _ | MultLine _ i _ | RowSeparator i _ => info_scalars i
  | AHref _ _ => False
  | _ => True
  end.
Definition tree_ok : node -> Prop := node_all leaf_ok.
