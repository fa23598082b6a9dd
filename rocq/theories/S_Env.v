(** Specification of equation numbering: rows as lists of the commands typed in them. *)
From Verif Require Import Str M_Ast M_Token M_Env.

Inductive row_cmd := RowNotag | RowTag (t : equation_tag) | RowLabel (l : str).

(** ** Running the code on an environment: [\begin], rows separated by [\\], [\end] *)

Fixpoint run_cmds (ne : numbered_env) (r : list row_cmd) : option numbered_env :=
  match r with
  | [] => Some ne
  | RowNotag :: r' => run_cmds (numbered_notag ne) r'
  | RowTag t :: r' => run_cmds (numbered_tag t ne) r'
  | RowLabel l :: r' => match numbered_label l ne with Some ne' => run_cmds ne' r' | None => None end
  end.

Fixpoint run_rows (umax : N) (ne : numbered_env) (counter : N) (labels : label_map)
    (r : list row_cmd) (rest : list (list row_cmd))
  : option (list (option row_label_info) * option N * N * label_map) :=
  match run_cmds ne r with
  | None => None
  | Some ne1 =>
      match rest with
      | [] => match finish_row umax ne1 counter labels true with
              | Some (i, ne2, c, ls) => Some ([i], ne_num_rows ne2, c, ls)
              | None => None
              end
      | r2 :: rest' =>
          match bump_rows ne1 with
          | None => None
          | Some ne2 =>
              match finish_row umax ne2 counter labels false with
              | None => None
              | Some (i, ne3, c, ls) =>
                  match run_rows umax ne3 c ls r2 rest' with
                  | Some (is', n, c', ls') => Some (i :: is', n, c', ls')
                  | None => None
                  end
              end
          end
      end
  end.

Definition run_env (umax : N) (e : env) (counter : N) (labels : label_map) (rows : list row_cmd * list (list row_cmd))
  : option (list (option row_label_info) * option N * N * label_map) :=
  match numbered_env_state e with
  | Some ne => run_rows umax ne counter labels (fst rows) (snd rows)
  | None => None
  end.

(** A document: one environment after another. *)
Fixpoint run_envs (umax : N) (counter : N) (labels : label_map) (l : list (env * (list row_cmd * list (list row_cmd))))
  : option (list (list (option row_label_info)) * N * label_map) :=
  match l with
  | [] => Some ([], counter, labels)
  | (e, rows) :: l' =>
      match run_env umax e counter labels rows with
      | None => None
      | Some (i, _, c, ls) =>
          match run_envs umax c ls l' with
          | Some (is', c', ls') => Some (i :: is', c', ls')
          | None => None
          end
      end
  end.

(** ** What the rows ask for *)

Fixpoint row_tag (r : list row_cmd) : option equation_tag :=
  match r with
  | [] => None
  | RowTag t :: r' => match row_tag r' with Some t' => Some t' | None => Some t end
  | _ :: r' => row_tag r'
  end.
Fixpoint row_notag (r : list row_cmd) : bool :=
  match r with [] => false | RowNotag :: _ => true | _ :: r' => row_notag r' end.
Fixpoint row_label (r : list row_cmd) : option str :=
  match r with [] => None | RowLabel l :: _ => Some l | _ :: r' => row_label r' end.
Fixpoint row_label_count (r : list row_cmd) : nat :=
  match r with [] => O | RowLabel _ :: r' => S (row_label_count r') | _ :: r' => row_label_count r' end.

Definition starred (e : env) : bool := match e with EAlignStar | EEquationStar | EGatherStar => true | _ => false end.
Definition is_multline (e : env) : bool := match e with EMultLine => true | _ => false end.

(** The intended number of a row: its own [\tag], nothing after [\notag] or in a starred
    environment, the next number otherwise. *)
Definition intended_row (star : bool) (counter : N) (r : list row_cmd) : option row_label_info * N :=
  match row_tag r with
  | Some t => (Some (mkLabelInfo t (row_label r)), counter)
  | None =>
      if star || row_notag r then (None, counter)
      else (Some (mkLabelInfo (mkTag (dec (counter + 1)) true) (row_label r)), counter + 1)
  end.
Fixpoint intended_rows (star : bool) (counter : N) (rows : list (list row_cmd)) : list (option row_label_info) * N :=
  match rows with
  | [] => ([], counter)
  | r :: rest =>
      let (i, c) := intended_row star counter r in
      let (is', c') := intended_rows star c rest in (i :: is', c')
  end.

(** The rows that are offered a number: every row, except that [multline] is numbered as a whole
    at its last row. *)
Definition all_rows (rows : list row_cmd * list (list row_cmd)) : list (list row_cmd) := fst rows :: snd rows.
Definition lines (e : env) (rows : list row_cmd * list (list row_cmd)) : list (list row_cmd) :=
  if is_multline e then [concat (all_rows rows)] else all_rows rows.
Definition offered (e : env) {A} (infos : list (option A)) : list (option A) :=
  if is_multline e then [last infos None] else infos.

(** The automatic numbers among the rows' tags. *)
Fixpoint automatic (rows : list (list row_cmd)) (infos : list (option row_label_info)) : list str :=
  match rows, infos with
  | r :: rows', Some i :: infos' =>
      match row_tag r with
      | None => tag_text (li_tag i) :: automatic rows' infos'
      | Some _ => automatic rows' infos'
      end
  | _ :: rows', None :: infos' => automatic rows' infos'
  | _, _ => []
  end.
Fixpoint automatic_envs (l : list (env * (list row_cmd * list (list row_cmd)))) (infos : list (list (option row_label_info)))
  : list str :=
  match l, infos with
  | (e, rows) :: l', i :: infos' => automatic (lines e rows) (offered e i) ++ automatic_envs l' infos'
  | _, _ => []
  end.
Fixpoint numbers_from (c : N) (n : nat) : list str :=
  match n with O => [] | S n' => dec (c + 1) :: numbers_from (c + 1) n' end.

(** No row carries both [\tag] and [\notag]. *)
Definition unmixed (r : list row_cmd) : Prop := row_tag r = None \/ row_notag r = false.

(** The newest tag given to label [l], if any. *)
Fixpoint newest_tag (l : str) (infos : list (option row_label_info)) : option str :=
  match infos with
  | [] => None
  | i :: infos' =>
      match newest_tag l infos' with
      | Some t => Some t
      | None => match i with
                | Some (mkLabelInfo t (Some l')) => if str_eqb l l' then Some (tag_text t) else None
                | _ => None
                end
      end
  end.
