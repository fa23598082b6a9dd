(** The numbers of equations that a reader of the output sees. *)
From Verif Require Import Str M_Escape M_Ast M_Emit S_MathML S_Tagged.

(** The tags of a tree that are shown, in the order in which they are: a separator of rows counts in a table with numbers only. *)
Fixpoint shown (n : node) : list row_label_info :=
  let pairs := flat_map (fun p : node * node => let (c, d) := p in shown c ++ shown d) in
  let rows := flat_map (fun n => match n with RowSeparator i _ => one_tag i | _ => shown n end) in
  match n with
  | Sub a b | Sup a b | Frac a b _ _ _ => shown a ++ shown b
  | Over a b | Under a b | Root a b => shown b ++ shown a
  | SubSup a b c | UnderOver a b c => shown a ++ shown b ++ shown c
  | OverAccent _ _ a | UnderAccent _ _ a | Sqrt a | Padded a _ _ _ _ _ | Phantom a | Enclose a _ => shown a
  | Row l _ | Table _ _ _ l | ArrayN _ _ l => flat_map shown l
  | EquationArray _ i l | MultLine _ i l => rows l ++ one_tag i
  | Multiscripts b pre post => shown b ++ pairs post ++ pairs pre
  | _ => []
  end.

(** ** The markup *)

(** A cell for a number is known by its style. *)
Definition number_css : list str := map (fun nc => width nc ++ lit ";" ++ css_right) [Narrow; Wide].
Definition number_attribute (a : str * str) : bool := str_eqb (fst a) (lit "style") && existsb (str_eqb (snd a)) number_css.
(** The numbers of an element: the other attributes and the content of the cells. *)
Fixpoint numbers (x : xml) : list (list (str * str) * list xml) :=
  match x with
  | XElem n (a :: r) c => (if str_eqb n (lit "mtd") && number_attribute a then [(r, c)] else []) ++ flat_map numbers c
  | XElem _ [] c => flat_map numbers c
  | XText _ => []
  end.
(** What there is to see of a tag: the place that references lead to, and the number with parentheses around it. *)
Definition number_of (prefix : str) (i : row_label_info) : list (str * str) * list xml :=
  let t := tag_text (li_tag i) in
  (opt (fun l => [att "id" (prefix ++ percent_encode l)]) (li_link_target i),
   [el "mtext" [] (data (if tag_parenthesized (li_tag i) then lit "(" ++ t ++ lit ")" else t))]).
