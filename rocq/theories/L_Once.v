(** No element has an attribute twice (C55). *)
From Verif Require Import Str M_SuperChar M_Length M_Spec M_Escape M_Ast M_Emit M_Output
  S_SuperChar S_Html S_Node S_Store S_Emit S_Tree S_MathML S_Valid L_Node.
Local Open Scope nat_scope.

(** ** Operators *)

Definition both (f : bool -> bool) : bool := f true && f false.
Lemma both_all f : both f = true -> forall b : bool, f b = true.
Proof. intros H. apply andb_prop in H as [H1 H2]. now intros []. Qed.
Definition when (b : bool) (name : String.string) : list str := if b then [lit name] else [].
Definition op_names (s1 s2 m1 m2 f1 f2 f3 sy lo : bool) : list str :=
  when s1 "stretchy" ++ when s2 "stretchy" ++ when m1 "movablelimits" ++ when m2 "movablelimits" ++
  when f1 "form" ++ when f2 "form" ++ when f3 "form" ++ when sy "symmetric" ++ when lo "largeop".
Definition all_names (s1 s2 m1 m2 f1 f2 f3 sy lo l r sz : bool) : list str :=
  op_names s1 s2 m1 m2 f1 f2 f3 sy lo ++ (when l "lspace" ++ when r "rspace") ++ when sz "minsize" ++ when sz "maxsize".
Definition names_fine (l : list str) : bool := distinct l || stretchy_twice l.
Definition names_check (s1 s2 m1 m2 f1 f2 f3 sy lo l r sz : bool) : bool :=
  negb (negb (m1 && m2) && negb (f1 && (f2 || f3)) && negb (f2 && f3)) ||
  (names_fine (all_names s1 s2 m1 m2 f1 f2 f3 sy lo l r sz) && ((s1 && s2) || distinct (all_names s1 s2 m1 m2 f1 f2 f3 sy lo l r sz))).
Lemma names_checked : forall s1 s2 m1 m2 f1 f2 f3 sy lo l r sz, names_check s1 s2 m1 m2 f1 f2 f3 sy lo l r sz = true.
Proof.
  assert (H : both (fun s1 => both (fun s2 => both (fun m1 => both (fun m2 => both (fun f1 => both (fun f2 => both (fun f3 => both (fun sy => both (fun lo =>
    both (fun l => both (fun r => both (fun sz => names_check s1 s2 m1 m2 f1 f2 f3 sy lo l r sz)))))))))))) = true) by (vm_compute; reflexivity).
  intros s1 s2 m1 m2 f1 f2 f3 sy lo l r sz.
  refine (both_all _ (both_all _ (both_all _ (both_all _ (both_all _ (both_all _ (both_all _ (both_all _ (both_all _ (both_all _ (both_all _ (both_all _ H s1) s2) m1) m2) f1) f2) f3) sy) lo) l) r) sz).
Qed.
Lemma map_if {A B} (f : A -> B) (b : bool) (x : A) : map f (if b then [x] else []) = if b then [f x] else [].
Proof. now destruct b. Qed.
Lemma op_names_of a : map fst (operator_attributes a) =
  op_names (has_attr a A_STRETCHY_FALSE) (has_attr a A_STRETCHY_TRUE) (has_attr a A_NO_MOVABLE_LIMITS) (has_attr a A_FORCE_MOVABLE_LIMITS)
    (has_attr a A_FORM_PREFIX) (has_attr a A_FORM_INFIX) (has_attr a A_FORM_POSTFIX) (has_attr a A_SYMMETRIC_TRUE) (has_attr a A_LARGEOP_TRUE).
Proof. unfold operator_attributes, flags. cbn [flat_map fst snd]. rewrite !map_app, !map_if. cbn [map]. rewrite app_nil_r. reflexivity. Qed.
Definition is_some {A} (o : option A) : bool := match o with Some _ => true | None => false end.
Lemma spaced_names_of a l r sz : map fst (spaced_attributes a l r ++ opt fixed_size sz) =
  all_names (has_attr a A_STRETCHY_FALSE) (has_attr a A_STRETCHY_TRUE) (has_attr a A_NO_MOVABLE_LIMITS) (has_attr a A_FORCE_MOVABLE_LIMITS)
    (has_attr a A_FORM_PREFIX) (has_attr a A_FORM_INFIX) (has_attr a A_FORM_POSTFIX) (has_attr a A_SYMMETRIC_TRUE) (has_attr a A_LARGEOP_TRUE)
    (is_some l) (is_some r) (is_some sz).
Proof. unfold spaced_attributes, all_names. rewrite !map_app, op_names_of, <- !app_assoc. f_equal. destruct l, r, sz as [[]|]; reflexivity. Qed.
Lemma spaced_once b a l r sz : attrs_ok a = true -> b = true \/ torn_attrs a = false ->
  distinct (map fst (spaced_attributes a l r ++ opt fixed_size sz)) || (b && stretchy_twice (map fst (spaced_attributes a l r ++ opt fixed_size sz))) = true.
Proof.
  intros A T. rewrite spaced_names_of. pose proof (names_checked (has_attr a A_STRETCHY_FALSE) (has_attr a A_STRETCHY_TRUE) (has_attr a A_NO_MOVABLE_LIMITS) (has_attr a A_FORCE_MOVABLE_LIMITS)
    (has_attr a A_FORM_PREFIX) (has_attr a A_FORM_INFIX) (has_attr a A_FORM_POSTFIX) (has_attr a A_SYMMETRIC_TRUE) (has_attr a A_LARGEOP_TRUE) (is_some l) (is_some r) (is_some sz)) as H.
  unfold names_check in H. unfold attrs_ok in A. rewrite A in H. cbn [negb orb] in H. apply andb_prop in H as [H1 H2].
  destruct T as [-> |T]; [exact H1|]. unfold torn_attrs in T. rewrite T in H2. cbn [orb] in H2. now rewrite H2.
Qed.
Lemma operator_once b a : attrs_ok a = true -> b = true \/ torn_attrs a = false ->
  distinct (map fst (operator_attributes a)) || (b && stretchy_twice (map fst (operator_attributes a))) = true.
Proof.
  intros A T. pose proof (spaced_once b a None None None A T) as H. unfold spaced_attributes in H. cbn [opt] in H. now rewrite !app_nil_r in H.
Qed.

(** ** Elements *)

Section Once.
Context (b : bool).
Notation once := (attributes_once b).
Lemma el_once n a l : distinct (map fst a) = true -> forallb once l = true -> once (XElem n a l) = true.
Proof. intros H K. cbn [attributes_once]. now rewrite H, K. Qed.
Lemma data_once s : forallb once (data s) = true.
Proof. unfold data. now destruct (blank s). Qed.
Ltac els := repeat first [apply el_once; [reflexivity|] | cbn [forallb]; rewrite andb_true_r | rewrite data_once; reflexivity | apply data_once].

Definition part_once (p : table_part) : Prop := match p with Content c => forallb once c = true | _ => True end.
Definition row_once (r : xrow) : Prop := Forall (fun c => forallb once c = true) (snd (fst r)).
Lemma xrows_once last l : forall top cells cur, Forall part_once l -> Forall (fun c => forallb once c = true) cells -> forallb once cur = true ->
  Forall row_once (xrows top cells cur last l).
Proof.
  induction l as [|p l IH]; intros top cells cur P C U; cbn [xrows].
  - constructor; [|constructor]. unfold row_once. cbn [fst snd]. apply Forall_app. split; [exact C|now constructor].
  - inversion P as [|? ? P1 P2]; subst. destruct p as [c| |i bd].
    + apply IH; [exact P2|exact C|]. rewrite forallb_app, U. exact P1.
    + apply IH; [exact P2| |reflexivity]. apply Forall_app. split; [exact C|now constructor].
    + constructor; [|apply IH; [exact P2|constructor|reflexivity]]. unfold row_once. cbn [fst snd]. apply Forall_app. split; [exact C|now constructor].
Qed.
Lemma style_distinct css : distinct (map fst (style_of css)) = true.
Proof. now destruct css. Qed.
Lemma xcell_once t top i j c : forallb once c = true -> forallb once (xcell t top i j c) = true.
Proof.
  intros H. unfold xcell. rewrite forallb_app. apply andb_true_intro. split.
  - destruct t; try reflexivity. apply forallb_forall. intros x Hx. apply in_map_iff in Hx as (l & <- & _). now apply el_once.
  - cbn [forallb]. rewrite andb_true_r. apply el_once; [apply style_distinct|exact H].
Qed.
Lemma mapi_once {A} (f : nat -> A -> xml) (P : A -> Prop) l : (forall i x, P x -> once (f i x) = true) -> forall i, Forall P l -> forallb once (mapi f i l) = true.
Proof. intros H. induction l as [|x l IH]; intros i F; cbn [mapi]; [reflexivity|]. inversion F; subst. cbn [forallb]. now rewrite H, IH. Qed.
Lemma mapi_lists {A} (f : nat -> A -> list xml) (P : A -> Prop) l : (forall i x, P x -> forallb once (f i x) = true) -> forall i, Forall P l -> forallb once (concat (mapi f i l)) = true.
Proof. intros H. induction l as [|x l IH]; intros i F; cbn [mapi concat]; [reflexivity|]. inversion F; subst. rewrite forallb_app. now rewrite H, IH. Qed.
Lemma xnumber_once e nc i : once (xnumber e nc i) = true.
Proof.
  unfold xnumber. destruct i as [i|]; apply el_once; try reflexivity; [destruct (li_link_target i); reflexivity|]. els.
Qed.
Lemma xtable_once e t nc a rows : distinct (map fst a) = true -> Forall row_once rows -> once (xtable e t nc a rows) = true.
Proof.
  intros D F. unfold xtable. apply el_once; [exact D|]. apply (mapi_once _ row_once); [|exact F].
  intros i [[top cells] info] C. unfold row_once in C. cbn [fst snd] in C. apply el_once; [reflexivity|]. rewrite !forallb_app. apply andb_true_intro. split; [|apply andb_true_intro; split].
  - destruct nc; reflexivity.
  - apply (mapi_lists _ (fun c => forallb once c = true)); [|exact C]. intros j c. apply xcell_once.
  - destruct nc; [|reflexivity]. cbn [opt forallb]. now rewrite xnumber_once.
Qed.
Lemma styled_once s l : forallb once l = true -> forallb once (styled s l) = true.
Proof.
  intros H. unfold styled. destruct s as [[]|]; try exact H; cbn [forallb]; rewrite andb_true_r; unfold el; repeat (apply el_once; [reflexivity|]; try exact H; cbn [forallb]; rewrite andb_true_r).
Qed.

(** ** Trees *)

Section Tree.
Context (e : emit_env).
Lemma padded_once o : forall a c, distinct (lit "voffset" :: map fst a) = true -> forallb once c = true -> once (xpadded e o a c) = true.
Proof.
  induction o as [|l o IH]; intros a c D G; cbn [xpadded]; [apply el_once; [|exact G]; cbn [distinct] in D; now apply andb_prop in D as [_ D]|].
  destruct o as [|l' o]; [now apply el_once|]. apply el_once; [reflexivity|]. cbn [forallb]. now rewrite IH.
Qed.
Definition tree_once (n : node) : Prop := forallb once (mathml e n) = true.
Lemma parts_once l : Forall tree_once l ->
  Forall part_once (map (fun n => match n with ColumnSeparator => NextCell | RowSeparator i b => NextRow i b | _ => Content (mathml e n) end) l).
Proof. induction 1 as [|n l H F IH]; [constructor|]. cbn [map]. constructor; [|exact IH]. destruct n; exact I || exact H. Qed.
Lemma list_once l : Forall tree_once l -> forallb once (flat_map (mathml e) l) = true.
Proof. induction 1 as [|n l H F IH]; [reflexivity|]. cbn [flat_map]. now rewrite forallb_app, H, IH. Qed.
Lemma frac_distinct (v : option length_t) s : distinct (map fst (opt (fun l => [att "linethickness" (length_text (ee_dtoa e) l)]) v ++ opt frac_attributes s)) = true.
Proof. destruct v, s as [[]|]; reflexivity. Qed.
Lemma row_distinct a : distinct (map fst (row_attributes a)) = true.
Proof. destruct a as [c s k]. unfold row_attributes. cbn [ra_color ra_style ra_math_shift_compact]. match goal with |- context [match ?q with [] => [] | _ :: _ => [att "style" _] end] => destruct q end; destruct s as [[]|]; reflexivity. Qed.
Lemma padded_distinct w h l r : distinct (lit "voffset" :: map fst (padded_attributes w h l r)) = true.
Proof. unfold padded_attributes. match goal with |- context [match ?q with [] => [] | _ :: _ => [att "style" _] end] => destruct q end; destruct w, h; reflexivity. Qed.
Lemma pairs_once (l : list (node * node)) : Forall tree_once (flat_map (fun p => [fst p; snd p]) l) ->
  forallb once (flat_map (fun p : node * node => match p with (x, y) => mathml e x ++ mathml e y end) l) = true.
Proof.
  induction l as [|[x y] l IH]; [reflexivity|]. cbn [flat_map app fst snd]. intros H. inversion H as [|? ? H1 H2]; subst. inversion H2 as [|? ? H3 H4]; subst.
  now rewrite !forallb_app, H1, H3, IH.
Qed.
(** What is known about the operators. *)
Definition op_fine (n : node) : Prop :=
  match n with
  | Operator _ a _ _ _ | PseudoOp a _ _ _ | OverAccent _ a _ | UnderAccent _ a _ => attrs_ok a = true /\ (b = true \/ torn_attrs a = false)
  | _ => True
  end.
Lemma node_once n : node_all op_fine n -> tree_once n.
Proof.
  induction n as [n IH] using node_ind'. intros H. apply node_all_inv in H as [H1 H2].
  assert (K : forall c, In c (children n) -> tree_once c) by (intros c Hc; exact (IH c Hc (H2 c Hc))). clear IH H2.
  assert (F : Forall tree_once (children n)) by now apply Forall_forall. clear K. unfold tree_once.
  destruct n; cbn [children op_fine] in *; cbn [mathml];
    repeat match goal with H : Forall _ (_ :: _) |- _ => inversion H; clear H; subst end; unfold tree_once in *;
    try (cbn [forallb]; rewrite ?andb_true_r; unfold el;
         repeat first [ reflexivity | apply data_once | apply el_once; [first [reflexivity | apply frac_distinct | apply row_distinct]|] | rewrite forallb_app
                      | match goal with H : forallb _ (mathml _ _) = true |- _ => rewrite H; clear H; cbn [andb] end
                      | cbn [forallb]; rewrite ?andb_true_r ]; fail).
  - (* IdentifierChar *) destruct a; [destruct (lone _)|]; cbn [forallb]; rewrite andb_true_r; els; (apply andb_true_intro; split; [reflexivity|]; els).
  - (* Operator *) destruct H1 as [A T]. cbn [forallb el attributes_once]. now rewrite spaced_once, data_once.
  - (* PseudoOp *) destruct H1 as [A T]. pose proof (spaced_once b attrs left right None A T) as S. cbn [opt] in S. rewrite app_nil_r in S. cbn [forallb el attributes_once]. now rewrite S, data_once.
  - (* Space *) destruct (length_is_negative l); [reflexivity|]. destruct (len_unit l); reflexivity.
  - (* OverAccent *) destruct H1 as [A T]. cbn [forallb]. rewrite andb_true_r. apply el_once; [reflexivity|]. rewrite forallb_app. apply andb_true_intro. split; [assumption|]. cbn [forallb el attributes_once]. now rewrite operator_once, data_once.
  - (* UnderAccent *) destruct H1 as [A T]. cbn [forallb]. rewrite andb_true_r. apply el_once; [reflexivity|]. rewrite forallb_app. apply andb_true_intro. split; [assumption|]. cbn [forallb el attributes_once]. now rewrite operator_once, data_once.
  - (* Row *) cbn [forallb]. rewrite andb_true_r. apply el_once; [apply row_distinct|now apply list_once].
  - (* Padded *) cbn [forallb]. rewrite andb_true_r. apply padded_once; [apply padded_distinct|assumption].
  - (* Text *) cbn [forallb]. rewrite andb_true_r. apply el_once; [now destruct tsz|]. apply styled_once, data_once.
  - (* Table *) cbn [forallb]. rewrite andb_true_r. apply xtable_once; [destruct border_top, st as [[]|]; reflexivity|]. apply xrows_once; [now apply parts_once|constructor|reflexivity].
  - (* EquationArray *) cbn [forallb]. rewrite andb_true_r. apply xtable_once; [reflexivity|]. apply xrows_once; [now apply parts_once|constructor|reflexivity].
  - (* MultLine *) cbn [forallb]. rewrite andb_true_r. apply xtable_once; [reflexivity|]. apply xrows_once; [now apply parts_once|constructor|reflexivity].
  - (* ArrayN *) cbn [forallb]. rewrite andb_true_r. apply xtable_once; [unfold style_of; match goal with |- context [match ?q with [] => [] | _ :: _ => [att "style" _] end] => destruct q end; destruct st as [[]|]; reflexivity|]. apply xrows_once; [now apply parts_once|constructor|reflexivity].
  - (* Enclose *) cbn [forallb]. rewrite andb_true_r. apply el_once; [reflexivity|]. rewrite !forallb_app. apply andb_true_intro. split; [assumption|].
    now destruct (has_attr _ N_PHASOR_ANGLE), (has_attr _ N_UP_DIAGONAL), (has_attr _ N_DOWN_DIAGONAL).
  - (* Multiscripts *) rewrite flat_map_app in *. match goal with H : Forall _ (_ ++ _) |- _ => apply Forall_app in H as [F1 F2] end.
    cbn [forallb]. rewrite andb_true_r. apply el_once; [reflexivity|]. rewrite !forallb_app. apply andb_true_intro. split; [assumption|]. apply andb_true_intro. split; [now apply pairs_once|].
    destruct pre; [reflexivity|]. cbn [forallb]. apply andb_true_intro. split; [reflexivity|now apply pairs_once].
Qed.
End Tree.

Lemma document_once c labels ast latex d : Forall (node_all op_fine) ast -> once (document_xml c labels ast latex d) = true.
Proof.
  intros F. unfold document_xml. set (e := env_of c labels).
  assert (G : forallb once (flat_map (mathml e) ast) = true) by (apply list_once; eapply Forall_impl; [|exact F]; apply node_once).
  apply el_once; [destruct (ec_xml_namespace c), d; reflexivity|]. destruct (ec_annotation c); [|exact G]. els. rewrite forallb_app. apply andb_true_intro. split; [|els].
  assert (R : forallb once [el "mrow" [] (flat_map (mathml e) ast)] = true) by (els; exact G).
  destruct ast as [|n [|m r]]; try exact R. cbn [flat_map] in G. now rewrite app_nil_r in G.
Qed.
End Once.

(** The trees the parser builds. *)
Lemma node_all_below (P : node -> Prop) n : (forall m, below m n -> P m) -> node_all P n.
Proof.
  induction n as [n IH] using node_ind'. intros H. constructor; [apply H, below_refl|]. intros c Hc. apply IH; [exact Hc|]. intros m Hm. apply H. now apply (below_child m c).
Qed.
Lemma below_all (P : node -> Prop) n m : node_all P n -> below m n -> P m.
Proof. intros H B. induction B as [|c n I B IH]; apply node_all_inv in H as [H1 H2]; [exact H1|]. apply IH, H2, I. Qed.
Lemma trees_once c labels ast latex d : Forall tree_ok ast ->
  attributes_once true (document_xml c labels ast latex d) = true /\ (untorn ast -> attributes_once false (document_xml c labels ast latex d) = true).
Proof.
  intros F. rewrite Forall_forall in F. split; [|intros U]; apply document_once, Forall_forall; intros n I; apply node_all_below; intros m B; pose proof (below_all _ _ _ (F n I) B) as L.
  - destruct m; try exact Logic.I; destruct L as [L1 L2]; now split; try assumption; left.
  - pose proof (U n m I B) as T. destruct m; try exact Logic.I; destruct L as [L1 L2]; split; try assumption; now right.
Qed.
