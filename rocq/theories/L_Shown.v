(** The numbers in the markup of a tree are its shown tags. *)
From Verif Require Import Str M_SuperChar M_Length M_Spec M_Escape M_Ast M_Emit M_Output S_Html S_Node S_Emit S_MathML S_Tagged S_Shown L_Node.

Lemma numbers_data s : flat_map numbers (data s) = [].
Proof. unfold data. now destruct (blank s). Qed.
Lemma numbers_styled s c : flat_map numbers (styled s c) = flat_map numbers c.
Proof. destruct s as [[]|]; cbn [styled flat_map numbers el]; rewrite ?app_nil_r; try reflexivity. Qed.
Lemma numbers_el name a c : str_eqb (lit name) (lit "mtd") = false -> numbers (el name a c) = flat_map numbers c.
Proof. intros E. unfold el. cbn [numbers]. destruct a; [reflexivity|]. rewrite E. reflexivity. Qed.

(** The styles of other cells do not start like the style of a number. *)
Definition other (s : str) : bool := match s with c :: _ => negb (c =? 119) | [] => true end.
Lemma other_app a b : other a = true -> other b = true -> other (a ++ b) = true.
Proof. destruct a; [intros _ H; exact H|intros H _; exact H]. Qed.
Lemma other_attribute k s : other s = true -> number_attribute (k, s) = false.
Proof.
  intros H. unfold number_attribute. cbn [fst snd]. destruct (str_eqb k _); [|reflexivity]. destruct s as [|c s]; [reflexivity|]. cbn [other] in H. apply negb_true_iff in H.
  unfold number_css. cbn [map existsb]. cbn [width]. change (lit "width: 7.5%") with (119 :: lit "idth: 7.5%"). change (lit "width: 50%") with (119 :: lit "idth: 50%"). cbn [app str_eqb]. rewrite H. reflexivity.
Qed.
Lemma other_border side l : other (border side l) = true.
Proof. reflexivity. Qed.
Lemma other_cell t i j : other (cell_css t i j) = true.
Proof.
  destruct t as [[]|sp|r]; cbn [cell_css]; try reflexivity; try (now destruct (Nat.even j)).
  - destruct (column_group _ _) as [x [a br]]. cbn [snd]. apply other_app; [now destruct a|]. apply other_app; [now destruct br|]. unfold css_flat. now destruct (as_is_sub sp).
  - destruct (Nat.eqb i 0); [reflexivity|]. now destruct (_ =? r).
Qed.
Lemma numbers_td s c : other s = true -> numbers (el "mtd" (style_of s) c) = flat_map numbers c.
Proof. intros H. unfold el, style_of. destruct s as [|k s]; [reflexivity|]. cbn [numbers]. unfold att. rewrite (other_attribute _ _ H), andb_false_r. reflexivity. Qed.
Lemma numbers_cell t top i j c : flat_map numbers (xcell t top i j c) = flat_map numbers c.
Proof.
  unfold xcell. rewrite flat_map_app. cbn [flat_map]. rewrite numbers_td; [|apply other_app; [now destruct top|apply other_cell]]. rewrite app_nil_r.
  destruct t as [|spec|]; try reflexivity. assert (Z : forall l, flat_map numbers (map (fun l => el "mtd" [att "style" (match top with Some l0 => border "top" l0 | None => [] end ++ border "right" l ++ css_flat (as_is_sub spec) ++ lit "padding-left: 0.1em;padding-right: 0.1em;")] []) l) = []).
  { induction l as [|k l IH]; [reflexivity|]. cbn [map flat_map]. rewrite IH, app_nil_r. unfold el. cbn [numbers flat_map]. unfold att. rewrite other_attribute; [now rewrite andb_false_r|]. apply other_app; [now destruct top|reflexivity]. }
  rewrite Z. reflexivity.
Qed.
Lemma numbers_cells t top i cells : forall j, flat_map numbers (concat (mapi (fun j c => xcell t top i j c) j cells)) = flat_map (flat_map numbers) cells.
Proof. induction cells as [|c cells IH]; intros j; [reflexivity|]. cbn [mapi concat flat_map]. now rewrite flat_map_app, numbers_cell, IH. Qed.
Section Tree.
Variable e : emit_env.
Notation num := (number_of (ee_id_prefix e)).
Lemma numbers_number nc i : numbers (xnumber e nc i) = map num (one_tag i).
Proof.
  destruct i as [i|]; cbn [xnumber one_tag map].
  - assert (N : number_attribute (att "style" (width nc ++ lit ";" ++ css_right)) = true) by (destruct nc; reflexivity).
    set (at_ := att "style" _) in *. unfold el at 1. cbn [numbers]. rewrite N. change (str_eqb (lit "mtd") (lit "mtd")) with true. cbn [andb flat_map].
    rewrite numbers_el by reflexivity. rewrite numbers_data. reflexivity.
  - unfold el. cbn [numbers flat_map]. unfold att. replace (number_attribute (lit "style", width nc)) with false by (destruct nc; reflexivity). now rewrite andb_false_r.
Qed.
Definition part_numbers (nc : bool) (p : table_part) :=
  match p with Content c => flat_map numbers c | NextCell => [] | NextRow i _ => if nc then map num (one_tag i) else [] end.
Definition has {A} (o : option A) : bool := match o with Some _ => true | None => false end.
Lemma numbers_row t nc top cells info i : flat_map numbers (opt (fun nc => [el "mtd" [att "style" (width nc)] []]) nc ++ concat (mapi (fun j c => xcell t top i j c) 0 cells) ++ opt (fun nc => [xnumber e nc info]) nc) =
  flat_map (flat_map numbers) cells ++ (if has nc then map num (one_tag info) else []).
Proof.
  rewrite !flat_map_app, numbers_cells. destruct nc as [nc|]; cbn [opt flat_map has]; [|reflexivity]. rewrite numbers_number, !app_nil_r.
  replace (numbers (el "mtd" [att "style" (width nc)] [])) with (@nil (list (str * str) * list xml)); [reflexivity|]. unfold el. cbn [numbers flat_map]. unfold att. replace (number_attribute (lit "style", width nc)) with false by (destruct nc; reflexivity). now rewrite andb_false_r.
Qed.
Lemma numbers_rows t nc last ps : forall i top cells cur,
  flat_map numbers (mapi (fun i (r : xrow) => match r with (top, cells, info) => el "mtr" [] (opt (fun nc => [el "mtd" [att "style" (width nc)] []]) nc ++ concat (mapi (fun j c => xcell t top i j c) 0 cells) ++ opt (fun nc => [xnumber e nc info]) nc) end) i (xrows top cells cur last ps)) =
  flat_map (flat_map numbers) cells ++ flat_map numbers cur ++ flat_map (part_numbers (has nc)) ps ++ (if has nc then map num (one_tag last) else []).
Proof.
  induction ps as [|[c| |info b] ps IH]; intros i top cells cur; cbn [xrows].
  - cbn [mapi flat_map]. rewrite numbers_el by reflexivity. rewrite numbers_row, flat_map_app. cbn [flat_map app]. now rewrite !app_nil_r, <- !app_assoc.
  - rewrite IH, flat_map_app. cbn [flat_map part_numbers]. now rewrite <- !app_assoc.
  - rewrite IH, flat_map_app. cbn [flat_map part_numbers]. rewrite app_nil_r. now rewrite <- !app_assoc.
  - cbn [mapi flat_map part_numbers]. rewrite numbers_el by reflexivity. rewrite numbers_row, IH, flat_map_app. cbn [flat_map app]. rewrite app_nil_r. now rewrite <- !app_assoc.
Qed.
Lemma numbers_table t nc a last ps : flat_map numbers [xtable e t nc a (xrows None [] [] last ps)] = flat_map (part_numbers (has nc)) ps ++ (if has nc then map num (one_tag last) else []).
Proof. cbn [flat_map]. rewrite app_nil_r. unfold xtable. rewrite numbers_el by reflexivity. now rewrite numbers_rows. Qed.

Lemma numbers_padded l a c : numbers (xpadded e l a c) = flat_map numbers c.
Proof.
  revert a c. induction l as [|k l IH]; intros a c; cbn [xpadded]; [now rewrite numbers_el|]. destruct l as [|k2 l]; [now rewrite numbers_el by reflexivity|]. rewrite numbers_el by reflexivity. cbn [flat_map]. rewrite app_nil_r. apply IH.
Qed.
Lemma flat_map_same {A B} (f g : A -> list B) l : (forall x, In x l -> f x = g x) -> flat_map f l = flat_map g l.
Proof. induction l as [|x l IH]; intros H; [reflexivity|]. cbn [flat_map]. rewrite (H x (or_introl eq_refl)), IH; [reflexivity|]. intros y Hy. apply H. now right. Qed.
Lemma flat_map_map {A B C} (f : B -> list C) (g : A -> B) l : flat_map f (map g l) = flat_map (fun x => f (g x)) l.
Proof. induction l as [|x l IH]; [reflexivity|]. cbn [map flat_map]. now rewrite IH. Qed.
Lemma map_flat_map {A B C} (f : B -> C) (g : A -> list B) l : map f (flat_map g l) = flat_map (fun x => map f (g x)) l.
Proof. induction l as [|x l IH]; [reflexivity|]. cbn [flat_map]. now rewrite map_app, IH. Qed.
Lemma flat_flat {A B C} (f : B -> list C) (g : A -> list B) l : flat_map f (flat_map g l) = flat_map (fun x => flat_map f (g x)) l.
Proof. induction l as [|x l IH]; [reflexivity|]. cbn [flat_map]. now rewrite flat_map_app, IH. Qed.

Theorem numbers_tree n : flat_map numbers (mathml e n) = map num (shown n).
Proof.
  induction n as [n IH] using node_ind'.
  assert (L : forall l, (forall c, In c l -> In c (children n)) -> flat_map numbers (flat_map (mathml e) l) = map num (flat_map shown l)).
  { intros l S. rewrite flat_flat, map_flat_map. apply flat_map_same. intros c Hc. apply IH. auto. }
  assert (P : forall l, (forall c, In c (flat_map (fun p : node * node => [fst p; snd p]) l) -> In c (children n)) ->
     flat_map numbers (flat_map (fun p : node * node => match p with (x, y) => mathml e x ++ mathml e y end) l) = map num (flat_map (fun p : node * node => let (c, d) := p in shown c ++ shown d) l)).
  { induction l as [|[x y] l IHl]; intros S; [reflexivity|]. cbn [flat_map fst snd app] in *. rewrite !flat_map_app, !map_app, IHl by (intros c Hc; apply S; right; right; exact Hc). rewrite !IH; [reflexivity|apply S; right; now left|apply S; now left]. }
  assert (T : forall l t nc a last, (forall c, In c l -> In c (children n)) ->
     flat_map numbers [xtable e t nc a (xrows None [] [] last (map (fun n => match n with ColumnSeparator => NextCell | RowSeparator i b => NextRow i b | _ => Content (mathml e n) end) l))] =
     map num (flat_map (fun n => match n with RowSeparator i _ => if has nc then one_tag i else [] | _ => shown n end) l ++ (if has nc then one_tag last else []))).
  { intros l t nc a last S. rewrite numbers_table, flat_map_map, map_app, map_flat_map. f_equal; [|now destruct (has nc)]. apply flat_map_same. intros c Hc.
    assert (K := IH c (S c Hc)). destruct c; cbn [part_numbers]; try exact K. now destruct (has nc). }
  destruct n; cbn [mathml shown]; cbn [children] in IH, L, P, T.
  all: try (cbn [flat_map]; rewrite ?app_nil_r; rewrite numbers_el by reflexivity; rewrite ?flat_map_app, ?numbers_data, ?numbers_styled, ?numbers_data; rewrite ?map_app, ?IH by (cbn [In]; tauto); reflexivity).
  all: try (rewrite T by auto; cbn [has]; rewrite ?app_nil_r; first [reflexivity | f_equal; apply flat_map_same; intros c _; now destruct c]).
  all: try (repeat match goal with |- context [match ?x with LDefault => _ | ForcedUpright => _ end] => destruct x | |- context [if length_is_negative ?x then _ else _] => destruct (length_is_negative x) | |- context [if lone ?x then _ else _] => destruct (lone x) | |- context [if has_attr ?x ?y then [el _ _ _] else _] => destruct (has_attr x y) end;
    cbn [flat_map]; repeat first [rewrite numbers_el by reflexivity | rewrite numbers_padded | rewrite flat_map_app | rewrite numbers_data | progress cbn [flat_map] | rewrite app_nil_r | rewrite (L nodes) by auto]; rewrite ?IH by (cbn [In]; tauto); reflexivity).
  cbn [flat_map]. rewrite numbers_el by reflexivity. rewrite app_nil_r, !flat_map_app, !map_app, (IH n) by now left. f_equal. rewrite (P post); [|intros c Hc; right; rewrite flat_map_app; apply in_or_app; now left]. f_equal.
  rewrite <- (P pre); [|intros c Hc; right; rewrite flat_map_app; apply in_or_app; now right]. destruct pre; [reflexivity|]. cbn [flat_map]. rewrite numbers_el by reflexivity. reflexivity.
Qed.
End Tree.
Lemma numbers_document c labels ast latex d : numbers (document_xml c labels ast latex d) = map (number_of (ec_id_prefix c)) (flat_map shown ast).
Proof.
  assert (L : flat_map numbers (flat_map (mathml (env_of c labels)) ast) = map (number_of (ec_id_prefix c)) (flat_map shown ast)).
  { rewrite flat_flat, map_flat_map. apply flat_map_same. intros n _. exact (numbers_tree (env_of c labels) n). }
  unfold document_xml. rewrite numbers_el by reflexivity. destruct (ec_annotation c); [|exact L]. cbn [flat_map]. rewrite numbers_el by reflexivity. rewrite app_nil_r, flat_map_app. cbn [flat_map]. rewrite numbers_el by reflexivity. rewrite numbers_data, !app_nil_r.
  destruct ast as [|n [|m l]]; [|cbn [flat_map] in L; rewrite !app_nil_r in L; cbn [flat_map]; rewrite app_nil_r; exact L|]; (cbn [flat_map]; rewrite numbers_el by reflexivity; rewrite app_nil_r; exact L).
Qed.
