(** The trees built by the parser's constructions. *)
From Verif Require Import Str M_SuperChar M_Transform M_Length M_Spec M_Ast M_Token M_Symbols M_Commands M_Env
  M_LatexError M_Lexer M_CustomCmds M_Queue M_Spacing M_Colors M_Leaf M_TextParser M_Parser
  S_SuperChar S_Transform S_Lexer S_Queue S_Store S_Node S_Emit S_Tree L_SuperChar L_Transform L_Store L_Sound L_Leaf L_Text.
Local Open Scope nat_scope.
Notation trees l := (Forall tree_ok l).

Lemma tree_node n : leaf_ok n -> trees (children n) -> tree_ok n.
Proof. intros H F. constructor; [exact H|]. intros c I. rewrite Forall_forall in F. now apply F. Qed.
Lemma tree_inv n : tree_ok n -> leaf_ok n /\ trees (children n).
Proof. intros [m H F]. split; [exact H|]. now apply Forall_forall. Qed.
Lemma tree_leaf n : leaf_ok n -> children n = [] -> tree_ok n.
Proof. intros H E. apply tree_node; [exact H|]. rewrite E. constructor. Qed.

Lemma unstretched_ok a : attrs_ok (add_attr a A_STRETCHY_FALSE) = attrs_ok a.
Proof.
  assert (H : forall f, N.land A_STRETCHY_FALSE f = 0%N -> has_attr (add_attr a A_STRETCHY_FALSE) f = has_attr a f).
  { intros f E. unfold has_attr, add_attr. now rewrite N.land_lor_distr_l, E, N.lor_0_r. }
  unfold attrs_ok. now rewrite !H by reflexivity.
Qed.
Lemma op_tree c attrs sz l r : sc_valid c = true -> attrs_ok attrs = true -> tree_ok (Operator c attrs sz l r).
Proof. intros H A. now apply tree_leaf. Qed.
Lemma op_node_tree c attrs s : sc_valid c = true -> attrs_ok attrs = true -> tree_ok (op_node c attrs s).
Proof. apply op_tree. Qed.
Lemma ident_tree c a : sc_plain c = true -> tree_ok (IdentifierChar c a).
Proof. intros H. now apply tree_leaf. Qed.
Lemma row_tree l a : trees l -> color_ok a -> tree_ok (Row l a).
Proof. intros H C. now apply tree_node. Qed.
Lemma empty_row_tree : tree_ok EMPTY_ROW.
Proof. apply row_tree; [constructor|exact I]. Qed.
Lemma space_tree l : tree_ok (Space l).
Proof. now apply tree_leaf. Qed.
Lemma one_tree n : tree_ok n -> trees [n].
Proof. intros H. now constructor. Qed.
Lemma vec_tree l b : trees l -> tree_ok (node_vec_to_node l b).
Proof.
  intros F. unfold node_vec_to_node. destruct l as [|n [|m l]]; try (apply row_tree; [exact F|exact I]).
  assert (H : tree_ok n) by now inversion F. destruct b; [|exact H]. destruct n; try exact H. apply tree_inv in H as [[H A] _]. now apply op_tree.
Qed.
Lemma one_or_row_tree l : trees l -> tree_ok (one_or_row l).
Proof. intros F. destruct l as [|n [|m l]]; try (apply row_tree; [exact F|exact I]). now inversion F. Qed.
Lemma letter_tree v c up : sc_plain c = true -> tree_ok (letter_node v c up).
Proof. intros H. unfold letter_node. destruct (pv_transform v) as [[|tf]|]; apply ident_tree; try exact H. now apply transform_plain. Qed.
Lemma ord_tree vld o : sc_valid (ord_as_op o) = true -> tree_ok (ord_node vld o).
Proof. intros H. unfold ord_node. destruct (is_vertical_line o); [destruct vld as [[]|]|]; apply op_node_tree; try exact H; try reflexivity; now destruct (stretches_by_itself _). Qed.
Lemma paren_tree b o : sc_valid (ord_as_op o) = true -> tree_ok (paren_node b o).
Proof. intros H. apply op_node_tree; [exact H|]. destruct (ord_cat o), b; reflexivity. Qed.
Lemma prime_tree k : tree_ok (prime_node k).
Proof. destruct k; apply op_node_tree; vm_compute; reflexivity. Qed.
Lemma primes_tree p : trees (primes_nodes p).
Proof.
  destruct p as [d n]. unfold primes_nodes. cbn [fst snd].
  assert (V : forall o, In o (primes_of d) -> tree_ok (prime_symbol o)).
  { intros o I. apply op_node_tree; [|reflexivity]. destruct d; cbn [primes_of In] in I; repeat (destruct I as [<-|I]; [vm_compute; reflexivity|]); destruct I. }
  destruct (nth_error (primes_of d) (n - 1)) eqn:E; [apply one_tree, V; exact (nth_error_In _ _ E)|].
  assert (H : tree_ok (prime_symbol (hd SYM_PRIME (primes_of d)))) by (apply V; destruct d; left; reflexivity).
  constructor; [exact H|]. generalize (n - 1) as k. intros k. induction k as [|k IH]; [constructor|]. cbn [repeat concat app]. constructor; [apply space_tree|]. now constructor.
Qed.
Lemma primes_trees l : trees (flat_map primes_nodes l).
Proof. apply Forall_flat_map. apply Forall_forall. intros p _. apply primes_tree. Qed.

Definition delim_ok (d : option stretchable_op) : Prop := match d with Some o => sc_valid (so_op o) = true | None => True end.
Lemma fence_tree d : delim_ok d -> tree_ok (fence_operator d).
Proof. destruct d as [o|]; intros H; apply op_tree; [exact H|now destruct (so_stretchy o)|vm_compute; reflexivity|reflexivity]. Qed.
Lemma fenced_tree l o c st : trees l -> delim_ok o -> delim_ok c -> tree_ok (fenced l o c st).
Proof.
  intros F Ho Hc. apply row_tree; [|exact I]. constructor; [now apply fence_tree|]. apply Forall_app. split; [exact F|]. now apply one_tree, fence_tree.
Qed.
Lemma paren_delims : delim_ok OPEN_PAREN /\ delim_ok CLOSE_PAREN /\ delim_ok OPEN_BRACKET /\ delim_ok CLOSE_BRACKET /\ delim_ok OPEN_BRACE /\ delim_ok CLOSE_BRACE.
Proof. vm_compute. repeat split. Qed.
Lemma extract_delim P t m d : tok_ok P (fst t) -> extract_delimiter t m = Ok d -> sc_valid (so_op d) = true.
Proof.
  intros T. apply chars_valid in T. unfold extract_delimiter. destruct (fst t); try discriminate; cbn [tok_superchars] in T; try apply one_valid in T.
  all: try (unfold stretchable_from_ord; destruct (ord_cat _)); try (unfold stretchable_from_rel; destruct (rel_cat _));
    try (unfold stretchable_from_force; match goal with s : force_stretchy |- _ => destruct s end);
    try discriminate; try (intros H; injection H as <-; exact T); intros H; injection H as <-; vm_compute; reflexivity.
Qed.

Definition bounds_ok (b : bounds) : Prop :=
  match b_sub b with Some n => tree_ok n | None => True end /\ match b_sup b with Some n => tree_ok n | None => True end.
Lemma subsup_tree b n : bounds_ok b -> tree_ok n -> tree_ok (wrap_subsup b n).
Proof.
  intros [H1 H2] H. unfold wrap_subsup. destruct (b_sub b), (b_sup b); try exact H; apply tree_node; try exact I; cbn [children]; repeat (constructor; try assumption).
Qed.
Lemma underover_tree b n : bounds_ok b -> tree_ok n -> tree_ok (wrap_underover b n).
Proof.
  intros [H1 H2] H. unfold wrap_underover. destruct (b_sub b), (b_sup b); try exact H; apply tree_node; try exact I; cbn [children]; repeat (constructor; try assumption).
Qed.
Lemma wrap_tree u b n : bounds_ok b -> tree_ok n -> tree_ok (wrap_bounds u b n).
Proof. destruct u; [apply underover_tree|apply subsup_tree]. Qed.
Lemma pair_trees b : bounds_ok b -> tree_ok (fst (bounds_pair b)) /\ tree_ok (snd (bounds_pair b)).
Proof. intros [H1 H2]. unfold bounds_pair. cbn [fst snd]. destruct (b_sub b), (b_sup b); split; auto using empty_row_tree. Qed.
Lemma multi_tree base pre post : tree_ok base -> Forall (fun p => tree_ok (fst p) /\ tree_ok (snd p)) (post ++ pre) -> tree_ok (Multiscripts base pre post).
Proof.
  intros H F. apply tree_node; [exact I|]. cbn [children]. constructor; [exact H|]. apply Forall_flat_map. revert F. apply Forall_impl. intros p [H1 H2]. repeat (constructor; try assumption).
Qed.
Lemma attach_tree n b : tree_ok n -> bounds_ok b -> tree_ok (attach_bounds n b).
Proof.
  intros H B. assert (D : tree_ok (wrap_subsup b n)) by now apply subsup_tree. unfold attach_bounds. destruct n; try exact D. destruct post; [|exact D].
  destruct (bounds_trivial b); [exact H|]. apply tree_inv in H as [_ F]. cbn [children app] in F. inversion F as [|? ? F1 F2]; subst.
  apply multi_tree; [exact F1|]. cbn [app]. constructor; [now apply pair_trees|]. apply Forall_flat_map in F2. revert F2. apply Forall_impl. intros p F2. inversion F2 as [|? ? X Y]; subst. inversion Y; subst. now split.
Qed.
Lemma frac_tree a b lt attr : tree_ok a -> tree_ok b -> tree_ok (frac_node a b lt attr).
Proof. intros H1 H2. apply tree_node; [exact I|]. repeat (constructor; try assumption). Qed.

Definition infix_ok (i : infix_frac) : Prop := match i with Some (l, _, _) => trees l | None => True end.
Lemma infix_tree i l : infix_ok i -> trees l -> trees (infix_node i l).
Proof.
  intros Hi F. unfold infix_node. destruct i as [[[num wl] d]|]; [|exact F]. cbn [infix_ok] in Hi. destruct paren_delims as (D1 & D2 & D3 & D4 & D5 & D6).
  assert (X : tree_ok (Frac (node_vec_to_node num false) (node_vec_to_node l false) (len_value (if wl then length_none else length_zero)) (len_unit (if wl then length_none else length_zero)) None)).
  { apply tree_node; [exact I|]. cbn [children]. repeat (constructor; try now apply vec_tree). }
  apply one_tree. destruct d as [[]|]; [..|exact X]; apply fenced_tree; auto using one_tree.
Qed.
Lemma text_tree s : snip_ok s -> tree_ok (text_node s).
Proof.
  intros H. assert (T : tree_ok (Text (sn_style s) (sn_size s) (sn_text s))) by now apply tree_leaf. unfold text_node. destruct (sn_voffset s); [|exact T].
  destruct (set_eqb _ _); [exact T|]. apply tree_node; [exact I|]. now apply one_tree.
Qed.
Lemma texts_tree l : Forall snip_ok l -> tree_ok (text_nodes l).
Proof. intros F. apply vec_tree. rewrite Forall_map. revert F. apply Forall_impl. apply text_tree. Qed.
Lemma texts_scalars l : Forall snip_ok l -> scalars (flat_map sn_text l).
Proof. induction 1 as [|s l H F IH]; [reflexivity|]. cbn [flat_map]. now apply scalars_app. Qed.
Lemma class_tree n s : tree_ok n -> tree_ok (class_node n s).
Proof.
  intros H. assert (D : tree_ok (Padded n false false (fst s) (snd s) None)) by (apply tree_node; [exact I|now apply one_tree]).
  unfold class_node. destruct n; try exact D.
  - apply tree_inv in H as [[H A] _]. apply op_tree; [exact H|]. now rewrite unstretched_ok.
  - destruct nodes; [|exact D]. destruct attrs as [[c|] [st|] []]; try exact D. apply op_node_tree; vm_compute; reflexivity.
Qed.

Lemma overlay_valid c o : sc_valid c = true -> sc_valid (sc_with_overlay c o) = true.
Proof.
  intros V. apply sc_valid_inv in V as (x & V & ->). destruct o.
  - rewrite add_solidus_pack by exact V. apply sc_valid_pack. now apply add_solidus_valid.
  - rewrite add_vline_pack by exact V. apply sc_valid_pack. exact V.
Qed.
Lemma solidus_targets : forallb (fun e => negb (markup_char (snd e))) solidus_sorted = true.
Proof. vm_compute. reflexivity. Qed.
Lemma overlay_plain c o : sc_plain c = true -> sc_plain (sc_with_overlay c o) = true.
Proof.
  unfold sc_plain. intros H. apply andb_prop in H as [V H]. rewrite (overlay_valid c o V). cbn [andb].
  apply sc_valid_inv in V as (x & V & ->). rewrite unpack_pack in H by exact V. destruct o.
  - rewrite add_solidus_pack, unpack_pack by (exact V || now apply add_solidus_valid). unfold cc_add_solidus.
    destruct (cc_vs x =? 0)%N; [|exact H]. destruct (S_SuperChar.assoc_n (cc_base x) solidus_sorted) as [p|] eqn:E; [|exact H]. cbn [cc_base].
    apply assoc_in in E. pose proof solidus_targets as T. rewrite forallb_forall in T. exact (T _ E).
  - rewrite add_vline_pack, unpack_pack by exact V. exact H.
Qed.
Lemma insert_scalars o s : scalars s -> scalars (overlay_insert (overlay_char o) s).
Proof.
  assert (C : is_scalar (overlay_char o) = true) by (destruct o; reflexivity).
  intros H. unfold overlay_insert. destruct s as [|a [|v r]]; cbn [forallb] in *; rewrite ?C; [reflexivity| |].
  - rewrite andb_true_r in *. now rewrite H.
  - apply andb_prop in H as [H1 H2]. apply andb_prop in H2 as [H2 H3]. destruct (_ && _)%bool; cbn [forallb]; now rewrite ?C, ?H1, ?H2, ?H3.
Qed.
Lemma overlay_tree o n n' : tree_ok n -> overlay_node o n = Some n' -> tree_ok n'.
Proof.
  intros H. apply tree_inv in H as [H _]. destruct n; cbn [overlay_node]; try discriminate; intros E; injection E as <-; apply tree_leaf; try reflexivity; cbn [leaf_ok] in *.
  - now apply overlay_plain.
  - now apply insert_scalars.
  - split; [now apply overlay_valid|apply H].
  - split; [now apply insert_scalars|apply H].
Qed.
Lemma construct_tree e l spec info rows bt n : trees l -> info_scalars info -> construct_node e l spec info rows bt = Some n -> tree_ok n.
Proof.
  intros F Hi. destruct paren_delims as (D1 & D2 & D3 & D4 & D5 & D6).
  assert (T : forall a st b, tree_ok (Table a st b l)) by (intros; now apply tree_node).
  unfold construct_node. destruct e; try (intros E; injection E as <-); try apply T; try (now apply tree_node); try (apply fenced_tree; auto using one_tree; exact I).
  all: try (apply fenced_tree; auto using one_tree; vm_compute; reflexivity).
  all: destruct spec; [|discriminate]; intros E; injection E as <-; now apply tree_node.
Qed.
