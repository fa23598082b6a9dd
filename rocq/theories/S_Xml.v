(** Specification of well-formed markup: an XML grammar restricted to the elements and
    attributes the renderer is meant to use. *)
From Verif Require Import Str S_Html.

Definition element_names : list str := map lit
  [ "math"; "semantics"; "annotation"; "mn"; "mi"; "mo"; "mrow"; "mspace"; "mtext"; "msub"; "msup";
    "msubsup"; "mover"; "munder"; "munderover"; "mmultiscripts"; "mprescripts"; "msqrt"; "mroot";
    "mfrac"; "mpadded"; "mphantom"; "mtable"; "mtr"; "mtd"; "menclose"; "merror";
    "a"; "b"; "i"; "em"; "code"; "span"; "s"; "u" ]%string.
Definition attribute_names : list str := map lit
  [ "xmlns"; "display"; "encoding"; "mathvariant"; "stretchy"; "movablelimits"; "form"; "symmetric";
    "largeop"; "lspace"; "rspace"; "minsize"; "maxsize"; "style"; "width"; "height"; "voffset";
    "linethickness"; "displaystyle"; "scriptlevel"; "accent"; "accentunder"; "class"; "href"; "id";
    "notation" ]%string.

(** A double quoted attribute value. *)
Definition value_safe (v : str) : Prop := ~ In 34 v /\ ~ In 60 v /\ ~ In 62 v /\ every_amp_is_entity v.

(** [ name="value"] repeated *)
Inductive attrs : str -> Prop :=
| attrs_nil : attrs []
| attrs_cons nm v r : In nm attribute_names -> value_safe v -> attrs r ->
    attrs (32 :: nm ++ [61; 34] ++ v ++ [34] ++ r).

(** An element with its content. *)
Definition elem (nm a body : str) : str := [60] ++ nm ++ a ++ [62] ++ body ++ [60; 47] ++ nm ++ [62].
(** An element closed at once. *)
Definition elem0 (nm a : str) : str := [60] ++ nm ++ a ++ [47; 62].

Inductive markup : str -> Prop :=
| mk_nil : markup []
| mk_text t : content_safe t -> markup t
| mk_elem nm a body : In nm element_names -> attrs a -> markup body -> markup (elem nm a body)
| mk_elem0 nm a : In nm element_names -> attrs a -> markup (elem0 nm a)
| mk_app x y : markup x -> markup y -> markup (x ++ y).

(** The tags of a text: everything between ['<'] and the next ['>']. *)
Fixpoint tags_go (cur : option str) (s : str) : list str :=
  match s with
  | [] => []
  | c :: r =>
      match cur with
      | None => if c =? 60 then tags_go (Some []) r else tags_go None r
      | Some acc => if c =? 62 then acc :: tags_go None r else tags_go (Some (acc ++ [c])) r
      end
  end.
Definition tags (s : str) : list str := tags_go None s.
