(** The numbered rows of formulas, and the tags in trees. *)
From Verif Require Import Str M_Ast M_Token M_Symbols M_Commands M_Env S_Env S_Formula.

(** ** Trees *)

Definition one_tag (i : option row_label_info) : list row_label_info := match i with Some i => [i] | None => [] end.
(** The tags that are in a tree, in the order of the rows. *)
Fixpoint tags (n : node) : list row_label_info :=
  match n with
  | Sub a b | Sup a b | Over a b | Under a b | Root a b | Frac a b _ _ _ => tags a ++ tags b
  | SubSup a b c | UnderOver a b c => tags a ++ tags b ++ tags c
  | OverAccent _ _ a | UnderAccent _ _ a | Sqrt a | Padded a _ _ _ _ _ | Phantom a | Enclose a _ => tags a
  | Row l _ | Table _ _ _ l | ArrayN _ _ l => flat_map tags l
  | EquationArray _ i l | MultLine _ i l => flat_map tags l ++ one_tag i
  | RowSeparator i _ => one_tag i
  | Multiscripts b pre post =>
      tags b ++ flat_map (fun p : node * node => let (c, d) := p in tags c ++ tags d) post ++ flat_map (fun p : node * node => let (c, d) := p in tags c ++ tags d) pre
  | _ => []
  end.

(** ** Formulas *)

Section Tagged.
Context (mean : str -> token).

Definition numbered (e : env) : bool := match numbered_env_state e with Some _ => true | None => false end.
(** No numbered environment inside. *)
Fixpoint item_plain (i : item) : bool := match i with Item h ms => head_plain h && forallb mark_plain ms end
with head_plain (h : head) : bool :=
  match h with
  | HSym _ args => forallb arg_plain args
  | HNum _ | HWord _ => true
  | HGroup l | HFence _ l _ => forallb item_plain l
  | HEnv e args l => negb (numbered e) && forallb arg_plain args && forallb item_plain l
  end
with arg_plain (a : arg) : bool :=
  match a with AGroup l | ABracket l => forallb item_plain l | ASym _ | ALit _ => true | AItem i => item_plain i | AScripts ms l => forallb mark_plain ms && forallb item_plain l end
with mark_plain (m : fmark) : bool :=
  match m with FSub a | FSup a => arg_plain a | FPrimes _ sup => match sup with Some a => arg_plain a | None => true end | FLimits _ => true end.

(** The commands for the number of the row, wherever they are in it. Environments that are not numbered have no say. *)
Fixpoint item_cmds (i : item) : list row_cmd := match i with Item h ms => head_cmds h ++ flat_map mark_cmds ms end
with head_cmds (h : head) : list row_cmd :=
  match h with
  | HSym s args =>
      match tok mean s, args with
      | T_NoNumber, [] => [RowNotag]
      | T_Tag parens, [ALit t] => [RowTag (mkTag t parens)]
      | T_Label, [ALit t] => [RowLabel t]
      | _, _ => flat_map arg_cmds args
      end
  | HNum _ | HWord _ | HEnv _ _ _ => []
  | HGroup l | HFence _ l _ => flat_map item_cmds l
  end
with arg_cmds (a : arg) : list row_cmd :=
  match a with AGroup l | ABracket l => flat_map item_cmds l | ASym _ | ALit _ => [] | AItem i => item_cmds i | AScripts ms l => flat_map mark_cmds ms ++ flat_map item_cmds l end
with mark_cmds (m : fmark) : list row_cmd :=
  match m with FSub a | FSup a => arg_cmds a | FPrimes _ sup => match sup with Some a => arg_cmds a | None => [] end | FLimits _ => [] end.

Definition ends_row (i : item) : bool :=
  match i with Item (HSym s []) [] => match tok mean s with T_NewLine => true | _ => false end | _ => false end.
(** The rows of an environment: the first one and the others. *)
Fixpoint rows_of (rows : bool) (l : list item) : list row_cmd * list (list row_cmd) :=
  match l with
  | [] => ([], [])
  | i :: r =>
      let (first, rest) := rows_of rows r in
      if rows && ends_row i then ([], first :: rest) else (item_cmds i ++ first, rest)
  end.
Definition env_rows (e : env) (l : list item) : list row_cmd * list (list row_cmd) :=
  rows_of (match e with EEquation | EEquationStar => false | _ => true end) l.

(** The numbered environments of a formula are not in other things, and not in each other. *)
Definition on_top (i : item) : bool :=
  match i with
  | Item (HEnv e args l) ms => if numbered e then forallb arg_plain args && forallb item_plain l && forallb mark_plain ms else item_plain i
  | _ => item_plain i
  end.
Definition all_on_top (l : list item) : bool := forallb on_top l.
Definition environments (l : list item) : list (env * (list row_cmd * list (list row_cmd))) :=
  flat_map (fun i => match i with Item (HEnv e args l) _ => if numbered e then [(e, env_rows e l)] else [] | _ => [] end) l.
End Tagged.

(** The environments of several formulas. *)
Definition session_environments (mean : str -> token) (l : list (list item * style)) : list (env * (list row_cmd * list (list row_cmd))) :=
  flat_map (fun s => environments mean (fst s)) l.
Definition tag_texts (l : list row_label_info) : list str := map (fun i => tag_text (li_tag i)) l.
(** No row has a tag of its own. *)
Definition no_tags (l : list (env * (list row_cmd * list (list row_cmd)))) : Prop := Forall (fun p => Forall (fun r => row_tag r = None) (all_rows (snd p))) l.
(** What the rows of environments ask for. *)
Fixpoint intended_envs (c : N) (l : list (env * (list row_cmd * list (list row_cmd)))) : list (option row_label_info) * N :=
  match l with
  | [] => ([], c)
  | (e, rows) :: r =>
      let (is1, c1) := intended_rows (starred e) c (all_rows rows) in
      let (is2, c2) := intended_envs c1 r in (is1 ++ is2, c2)
  end.
