(** What MathML prescribes: the children of each element, and that no element has an attribute twice. *)
From Verif Require Import Str M_SuperChar M_Length M_Spec M_Ast M_Emit M_Output S_Node S_Emit S_Tree S_MathML.
Local Open Scope nat_scope.

(** ** Children *)

Inductive content_model :=
| Characters            (* text only *)
| NoContent
| Phrasing              (* text, perhaps within elements of HTML *)
| Exactly (n : nat)     (* this many expressions *)
| Any                   (* expressions *)
| Rows | Cells          (* rows only, cells only *)
| Scripts               (* a base and pairs of scripts *)
| Annotated.            (* one expression and its annotation *)
Definition models : list (str * content_model) :=
  [ (lit "mi", Characters); (lit "mn", Characters); (lit "mo", Characters); (lit "annotation", Characters);
    (lit "mspace", NoContent); (lit "mprescripts", NoContent);
    (lit "mtext", Phrasing); (lit "b", Phrasing); (lit "i", Phrasing); (lit "em", Phrasing); (lit "code", Phrasing);
    (lit "span", Phrasing); (lit "s", Phrasing); (lit "u", Phrasing); (lit "a", Phrasing);
    (lit "mfrac", Exactly 2); (lit "mroot", Exactly 2); (lit "msub", Exactly 2); (lit "msup", Exactly 2);
    (lit "munder", Exactly 2); (lit "mover", Exactly 2); (lit "msubsup", Exactly 3); (lit "munderover", Exactly 3);
    (lit "math", Any); (lit "mrow", Any); (lit "msqrt", Any); (lit "merror", Any); (lit "mpadded", Any); (lit "mphantom", Any);
    (lit "menclose", Any); (lit "mtd", Any);
    (lit "mtable", Rows); (lit "mtr", Cells); (lit "mmultiscripts", Scripts); (lit "semantics", Annotated) ].
(** The elements which are expressions by themselves. *)
Definition expressions : list str :=
  map lit ["mi"; "mn"; "mo"; "mspace"; "mtext"; "mfrac"; "mroot"; "msub"; "msup"; "munder"; "mover"; "msubsup"; "munderover";
           "mrow"; "msqrt"; "merror"; "mpadded"; "mphantom"; "menclose"; "mtable"; "mmultiscripts"; "semantics"]%string.
Definition named (names : list str) (x : xml) : bool :=
  match x with XElem n _ _ => existsb (str_eqb n) names | XText _ => false end.
Definition expression (x : xml) : bool := named expressions x.
Definition html_names : list str := map lit ["b"; "i"; "em"; "code"; "span"; "s"; "u"; "a"]%string.
Definition phrase (x : xml) : bool := match x with XText _ => true | XElem _ _ _ => named html_names x end.
(** Pairs of scripts, and then perhaps a marker and pairs of scripts in front of the base. *)
Fixpoint script_pairs (marker : bool) (l : list xml) : bool :=
  match l with
  | [] => true
  | a :: r =>
      if named [lit "mprescripts"] a then marker && script_pairs false r
      else match r with b :: r => expression a && expression b && script_pairs marker r | [] => false end
  end.
Definition fits (m : content_model) (l : list xml) : bool :=
  match m with
  | Characters => forallb (fun x => match x with XText _ => true | XElem _ _ _ => false end) l
  | NoContent => match l with [] => true | _ => false end
  | Phrasing => forallb phrase l
  | Exactly n => (length l =? n) && forallb expression l
  | Any => forallb expression l
  | Rows => forallb (named [lit "mtr"]) l
  | Cells => forallb (named [lit "mtd"]) l
  | Scripts => match l with b :: r => expression b && script_pairs true r | [] => false end
  | Annotated => match l with [a; b] => expression a && named [lit "annotation"] b | _ => false end
  end.
(** The children of an element and of all elements in it are as they should be. *)
Fixpoint valid (x : xml) : bool :=
  match x with
  | XText _ => true
  | XElem n _ l =>
      match M_Spec.assoc_str n models with Some m => fits m l | None => false end && forallb valid l
  end.

(** The separators of cells and rows are in the content of tables and nowhere else. *)
Definition separated_here (n : node) : Prop :=
  match n with
  | Table _ _ _ _ | EquationArray _ _ _ | MultLine _ _ _ | ArrayN _ _ _ => True
  | _ => Forall (fun c => is_sep c = false) (children n)
  end.
Definition separated : node -> Prop := node_all separated_here.
Definition all_separated (l : list node) : Prop := Forall (fun n => is_sep n = false /\ separated n) l.

(** ** Attributes *)

Fixpoint distinct (l : list str) : bool :=
  match l with [] => true | x :: r => negb (existsb (str_eqb x) r) && distinct r end.
(** [stretchy] comes first, and the others are distinct. *)
Definition stretchy_twice (l : list str) : bool :=
  match l with k :: r => str_eqb k (lit "stretchy") && distinct r | [] => false end.
(** No element has an attribute twice, or none but [stretchy]. *)
Fixpoint attributes_once (but_stretchy : bool) (x : xml) : bool :=
  match x with
  | XText _ => true
  | XElem _ a l => (distinct (map fst a) || (but_stretchy && stretchy_twice (map fst a))) && forallb (attributes_once but_stretchy) l
  end.
(** An operator that is told to stretch and not to stretch. *)
Definition torn_attrs (a : op_attrs) : bool := has_attr a A_STRETCHY_FALSE && has_attr a A_STRETCHY_TRUE.
Definition torn (n : node) : bool :=
  match n with Operator _ a _ _ _ | PseudoOp a _ _ _ | OverAccent _ a _ | UnderAccent _ a _ => torn_attrs a | _ => false end.
Definition untorn (l : list node) : Prop := forall n m, In n l -> below m n -> torn m = false.
