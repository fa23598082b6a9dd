(** Proofs about the operator dictionary. *)
From Verif Require Import Str M_SuperChar M_Length M_Spec M_Ast M_Token M_Symbols M_Commands M_Env M_LatexError M_Lexer M_CustomCmds M_Queue
  M_Spacing M_Leaf M_Parser M_Emit S_Html S_Store S_Emit S_MathML S_Spacing S_Queue S_Scripts S_Formula S_Dictionary.

Lemma drawn_op rd e o attrs sp t : blank (sc_text o) = false -> entries (rd_version rd) (sc_text o) = t ->
  exists x, mathml e (op_node o attrs sp) = [x] /\ core x = x /\ drawn rd x = Some (draw rd t (spaced_attributes attrs (fst sp) (snd sp))).
Proof.
  intros B E. eexists. split; [reflexivity|]. unfold data. cbn [opt]. rewrite app_nil_r, B. split; [reflexivity|]. unfold el. cbn [drawn]. change (str_eqb (lit "mo") (lit "mo")) with true. cbv iota. now rewrite E.
Qed.

Lemma relation_flags st prev next : exists zl zr, forall f, relation_spacing st prev next f = (zero_or zl f FiveMu, zero_or zr f FiveMu).
Proof. do 2 eexists. intros f. reflexivity. Qed.
Lemma mathop_flags st prev next : exists zl zr, forall f, mathop_spacing st prev next f = (zero_or zl f ThreeMu, zero_or zr f ThreeMu).
Proof. do 2 eexists. intros f. reflexivity. Qed.
Lemma inner_flags st prev next : exists zl zr, forall f, mathinner_spacing st prev next f = (zero_or zl f ThreeMu, zero_or zr f ThreeMu).
Proof. do 2 eexists. intros f. reflexivity. Qed.
Lemma punct_flags st next : exists zr, forall f : bool, punctuation_spacing st next f = (if f then Some MsZero else None, zero_or zr f ThreeMu).
Proof. eexists. intros f. reflexivity. Qed.
Lemma bin_flags st prev next : exists z : bool, (starts_operand prev = true -> z = true) /\ forall f, bin_op_spacing st true prev next f = zero_or z f FourMu.
Proof.
  eexists. split; [|intros f; reflexivity]. intros H. unfold starts_operand in H. destruct prev; try discriminate; reflexivity.
Qed.

Lemma has_entries_out v o l : has_entries v o l = true -> blank (sc_text o) = false /\ In (entries v (sc_text o)) l.
Proof.
  unfold has_entries. intros H. apply andb_prop in H as [B H]. split; [now destruct (blank _)|]. apply existsb_exists in H as (t & I & E). now destruct (triple_eq _ t) as [->|].
Qed.
Lemma quiet_out p v s : quiet_text p v s = true -> blank s = false /\
  forall f c, at_form (entries v s) f = Some c -> p (of_category c) = false.
Proof.
  unfold quiet_text. intros H. apply andb_prop in H as [B H]. split; [now destruct (blank _)|]. destruct (entries v s) as [[a b] c]. cbn [forallb at_form] in *.
  apply andb_prop in H as [Ha H]. apply andb_prop in H as [Hb H]. apply andb_prop in H as [Hc _]. intros f k E. destruct f; subst; now apply negb_true_iff.
Qed.
(** A property that neither the entries nor the default have. *)
Lemma quiet_category (p : drawing -> bool) rd g t : p (of_category CatDefault) = false ->
  (forall f c, at_form t f = Some c -> p (of_category c) = false) -> p (of_category (category_of rd g t)) = false.
Proof.
  intros D H. assert (F : forall l, p (of_category (first_entry t l)) = false).
  { intros l. unfold first_entry. induction l as [|f l IH]; [exact D|]. cbn [flat_map]. destruct (at_form t f) as [c|] eqn:E; [exact (H f c E)|exact IH]. }
  unfold category_of. destruct g; apply F.
Qed.

(** Symbols whose spaces are written out. *)
Lemma explicit_drawn rd e o attrs l r : quiet d_stretchy (rd_version rd) o = true -> In attrs [A_EMPTY; A_FORM_PREFIX; A_FORM_POSTFIX] ->
  exists x d, mathml e (op_node o attrs (Some l, Some r)) = [x] /\ core x = x /\ drawn rd x = Some d /\
    d_left d = mu_of (Some l) 0 /\ d_right d = mu_of (Some r) 0 /\ d_stretchy d = false.
Proof.
  intros Q I. apply quiet_out in Q as [B Q]. destruct (drawn_op rd e o attrs (Some l, Some r) _ B eq_refl) as (x & E & C & D). exists x, (draw rd (entries (rd_version rd) (sc_text o)) (spaced_attributes attrs (Some l) (Some r))).
  split; [exact E|]. split; [exact C|]. split; [exact D|].
  assert (S : forall g, d_stretchy (of_category (category_of rd g (entries (rd_version rd) (sc_text o)))) = false) by (intros g; now apply quiet_category).
  unfold draw. cbn [d_left d_right d_stretchy].
  destruct I as [<-|[<-|[<-|[]]]]; (split; [destruct l; reflexivity|split; [destruct l, r; reflexivity|]]); destruct l, r; apply S.
Qed.

(** Symbols whose spaces may be left to the dictionary. *)
Lemma implicit_drawn rd e o attrs sp l (P : drawing -> Prop) : has_entries (rd_version rd) o l = true ->
  (forall t, In t l -> P (draw rd t (spaced_attributes attrs (fst sp) (snd sp)))) ->
  exists x d, mathml e (op_node o attrs sp) = [x] /\ core x = x /\ drawn rd x = Some d /\ P d.
Proof.
  intros H K. apply has_entries_out in H as [B I]. destruct (drawn_op rd e o attrs sp _ B eq_refl) as (x & E & C & D).
  exists x. eexists. split; [exact E|]. split; [exact C|]. split; [exact D|]. apply K. exact I.
Qed.
Ltac renderers rd := let f := fresh "f" in let v := fresh "v" in let p := fresh "p" in let q := fresh "q" in
  destruct rd as [f v p q]; cbn [rd_form rd_version rd_postfix_first rd_lenient] in *; destruct f, p, q.
Ltac of_list H := repeat (destruct H as [<-|H]; [|]); try contradiction.
Definition plain_drawing (l r : N) (d : drawing) : Prop := d_left d = l /\ d_right d = r /\ d_stretchy d = false.
Ltac plainly := split; [|split]; reflexivity.
Lemma some_pair {A B} (a c : A) (b d : B) : Some (a, b) = Some (c, d) -> d = b.
Proof. congruence. Qed.
Lemma sym_drawn rd e x prev next t a c n : atom_of t = Some a -> fits (rd_version rd) t = true ->
  (sign t = true -> rd_form rd = Prefix -> starts_operand prev = true) -> sym_node x PaSequence prev next t = Some (c, n) ->
  exists y d, mathml e n = [y] /\ core y = y /\ drawn rd y = Some d /\
    plain_drawing (fst (fst (code_atom true (cx_style x) prev next a))) (snd (fst (code_atom true (cx_style x) prev next a))) d.
Proof.
  intros A F G N. destruct t; try discriminate A; injection A as <-; cbn [sym_node in_sequence] in N; cbv zeta in N; apply some_pair in N; subst n; cbn [fits code_atom fst snd mu_pair] in *.
  - apply (implicit_drawn rd e _ A_STRETCHY_FALSE no_spacing (ord_entries OcF)); [destruct (rd_version rd) as [[] []]; vm_compute; reflexivity|]. intros t I. cbn in I. of_list I. renderers rd; plainly.
  - apply (implicit_drawn rd e _ A_STRETCHY_FALSE no_spacing (ord_entries OcG)); [destruct (rd_version rd) as [[] []]; vm_compute; reflexivity|]. intros t I. cbn in I. of_list I. renderers rd; plainly.
  - assert (E : ord_node None o = op_node (ord_as_op o) (if stretches_by_itself (ord_cat o) then A_STRETCHY_FALSE else A_EMPTY)
              (match ord_cat o with OcKButUsedToBeB | OcFGandForceDefault => zero_spacing | _ => no_spacing end)) by (unfold ord_node; now destruct (is_vertical_line o)).
    rewrite E. apply andb_prop in F as [F H]. apply (implicit_drawn rd e _ _ _ _ _ F). intros t I. destruct (ord_cat o); cbn [ord_entries stretches_by_itself] in *; try discriminate H; of_list I; renderers rd; plainly.
  - destruct (bin_flags (cx_style x) prev next) as (z & Z & Q). rewrite !Q. cbn [sign] in G. apply (implicit_drawn rd e _ _ _ _ _ F). intros t I. cbn [fst snd].
    destruct (bin_cat b); cbn [bin_entries] in *; of_list I.
    + destruct z; renderers rd; plainly.
    + destruct z; [renderers rd; plainly|]. renderers rd; try plainly; specialize (Z (G eq_refl eq_refl)); discriminate Z.
  - destruct (relation_flags (cx_style x) prev next) as (zl & zr & Q). rewrite !Q. apply (implicit_drawn rd e _ _ _ _ _ F). intros t I. cbn [fst snd].
    destruct (rel_cat r); cbn [rel_entries relation_attrs] in *; of_list I; destruct zl, zr; renderers rd; plainly.
  - apply andb_prop in F as [F H]. unfold paren_node. apply (implicit_drawn rd e _ _ _ _ _ F). intros t I. cbn [fst snd].
    destruct (ord_cat o); cbn [ord_entries stretches_by_itself] in *; try discriminate H; of_list I; renderers rd; plainly.
  - apply andb_prop in F as [F H]. unfold paren_node. apply (implicit_drawn rd e _ _ _ _ _ F). intros t I. cbn [fst snd].
    destruct (ord_cat o); cbn [ord_entries stretches_by_itself] in *; try discriminate H; of_list I; renderers rd; plainly.
  - destruct (punct_flags (cx_style x) next) as (zr & Q). rewrite !Q. apply (implicit_drawn rd e _ _ _ _ _ F). intros t I. cbn [fst snd].
    of_list I; destruct zr; renderers rd; plainly.
  - destruct (inner_flags (cx_style x) prev next) as (zl & zr & Q). rewrite !Q. apply (implicit_drawn rd e _ _ _ _ _ F). intros t I. cbn [fst snd].
    destruct (op_cat o); cbn [op_entries] in *; of_list I; destruct zl, zr; renderers rd; try plainly.
  - destruct (explicit_drawn rd e o A_EMPTY MsZero MsZero F) as (y & d & E & C & D & L & R & S); [now left|]. exists y, d. now repeat (split; [eassumption|]).
  - destruct (bin_flags (cx_style x) prev next) as (z & _ & Q). rewrite !Q.
    destruct (explicit_drawn rd e o A_EMPTY (if z then MsZero else FourMu) (if z then MsZero else FourMu) F) as (y & d & E & C & D & L & R & S); [now left|]. exists y, d. destruct z; now repeat (split; [eassumption|]).
  - destruct (relation_flags (cx_style x) prev next) as (zl & zr & Q). rewrite !Q.
    destruct (explicit_drawn rd e o A_EMPTY (if zl then MsZero else FiveMu) (if zr then MsZero else FiveMu) F) as (y & d & E & C & D & L & R & S); [now left|]. exists y, d. destruct zl, zr; now repeat (split; [eassumption|]).
  - destruct (explicit_drawn rd e o A_FORM_PREFIX MsZero MsZero F) as (y & d & E & C & D & L & R & S); [now right; left|]. exists y, d. now repeat (split; [eassumption|]).
  - destruct (explicit_drawn rd e o A_FORM_POSTFIX MsZero MsZero F) as (y & d & E & C & D & L & R & S); [now right; right; left|]. exists y, d. now repeat (split; [eassumption|]).
  - destruct (punct_flags (cx_style x) next) as (zr & Q). rewrite !Q.
    destruct (explicit_drawn rd e o A_EMPTY MsZero (if zr then MsZero else ThreeMu) F) as (y & d & E & C & D & L & R & S); [now left|]. exists y, d. destruct zr; now repeat (split; [eassumption|]).
  - destruct (inner_flags (cx_style x) prev next) as (zl & zr & Q). rewrite !Q.
    destruct (explicit_drawn rd e o A_EMPTY (if zl then MsZero else ThreeMu) (if zr then MsZero else ThreeMu) F) as (y & d & E & C & D & L & R & S); [now left|]. exists y, d. destruct zl, zr; now repeat (split; [eassumption|]).
Qed.

(** The tables. *)
Definition versions : list version := [mkVersion true true; mkVersion true false; mkVersion false true; mkVersion false false].
Lemma every_version v : In v versions.
Proof. destruct v as [[] []]; cbn; tauto. Qed.
Lemma commands_fit : forallb (fun v => forallb (fun p => existsb (str_eqb (fst p)) [lit "frown"; lit "smile"] || forallb (fits v) (parts (snd p))) COMMANDS) versions = true.
Proof. vm_compute. reflexivity. Qed.
Lemma unicode_fit : forallb (fun v => forallb (fun p => existsb (N.eqb (fst p)) [0x2322; 0x2323; 0x2a1d; 0x2a1e] || forallb (fits v) (parts (snd p))) UNICODE_OPERATORS) versions = true.
Proof. vm_compute. reflexivity. Qed.
Lemma ascii_fit : forallb (fun v => forallb (fun c => forallb (fits v) (parts (char_token (N.of_nat c)))) (seq 0 127)) versions = true.
Proof. vm_compute. reflexivity. Qed.
Lemma assoc_n_in {A} k (m : list (N * A)) t : assoc_n k m = Some t -> In (k, t) m.
Proof. induction m as [|[k' t'] m IH]; [discriminate|]. cbn [assoc_n]. destruct (k =? k') eqn:E; [apply N.eqb_eq in E; intros [= ->]; subst; now left|intros H; right; now apply IH]. Qed.
Lemma char_fits v c u : existsb (N.eqb c) [0x2322; 0x2323; 0x2a1d; 0x2a1e] = false -> In u (parts (char_token c)) -> fits v u = true.
Proof.
  intros H I. destruct (N.lt_ge_cases c 127) as [L|G].
  - pose proof ascii_fit as F. rewrite forallb_forall in F. specialize (F v (every_version v)). rewrite forallb_forall in F.
    specialize (F (N.to_nat c)). rewrite N2Nat.id in F. rewrite forallb_forall in F. apply F; [|exact I]. apply in_seq. lia.
  - unfold char_token in I. repeat match type of I with context [c =? ?k] => replace (c =? k) with false in I by (symmetry; apply N.eqb_neq; lia) end.
    replace (is_ascii_digit c) with false in I by (symmetry; unfold is_ascii_digit; destruct (48 <=? c); [|reflexivity]; cbn; apply N.leb_gt; lia).
    replace (is_ascii_alpha c) with false in I.
    2: { symmetry. unfold is_ascii_alpha, is_ascii_upper, is_ascii_lower. replace (c <=? 90) with false by (symmetry; apply N.leb_gt; lia). replace (c <=? 122) with false by (symmetry; apply N.leb_gt; lia). now rewrite !andb_false_r. }
    unfold get_operator_from_unicode in I. destruct (assoc_n c UNICODE_OPERATORS) as [t|] eqn:E.
    + apply assoc_n_in in E. pose proof unicode_fit as F. rewrite forallb_forall in F. specialize (F v (every_version v)). rewrite forallb_forall in F.
      specialize (F _ E). cbn [fst snd] in F. rewrite H in F. cbn [orb] in F. rewrite forallb_forall in F. cbn [parts] in I. destruct I as [<-|I]; [reflexivity|]. now apply F.
    + cbn [parts In] in I. now destruct I as [<-|[]].
Qed.
Lemma command_fits v name t u : In (name, t) COMMANDS -> existsb (str_eqb name) [lit "frown"; lit "smile"] = false -> In u (parts t) -> fits v u = true.
Proof.
  intros I H J. pose proof commands_fit as F. rewrite forallb_forall in F. specialize (F v (every_version v)). rewrite forallb_forall in F.
  specialize (F _ I). cbn [fst snd] in F. rewrite H in F. cbn [orb] in F. rewrite forallb_forall in F. now apply F.
Qed.

(** Operators with limits. *)
Lemma drawn_pseudo rd e s attrs l r t : blank s = false -> entries (rd_version rd) s = t ->
  exists x, mathml e (PseudoOp attrs l r s) = [x] /\ core x = x /\ drawn rd x = Some (draw rd t (spaced_attributes attrs l r)).
Proof.
  intros B E. eexists. split; [reflexivity|]. unfold data. rewrite B. split; [reflexivity|]. unfold el. cbn [drawn]. change (str_eqb (lit "mo") (lit "mo")) with true. cbv iota. now rewrite E.
Qed.
Definition base_of (t : token) (b : bounds) (k : option limits_kind) (sp : bool -> spacing_pair) : bool * node :=
  let none := bounds_trivial b in
  match t with
  | T_Op o => let (uo, attrs) := op_limits k (is_jop o) none in (uo, op_node (op_as_op o) attrs (sp false))
  | T_ForceLargeOp o => let (uo, attrs) := large_op_limits k none in (uo, op_node o attrs (sp true))
  | T_PseudoOperator name => let (uo, attrs) := pseudo_limits k false none in (uo, PseudoOp attrs (fst (sp true)) (snd (sp true)) name)
  | T_PseudoOperatorLimits name => let (uo, attrs) := pseudo_limits k true none in (uo, PseudoOp attrs (fst (sp true)) (snd (sp true)) name)
  | _ => (false, EMPTY_ROW)
  end.
Lemma operator_node_base x prev next t b k n : operator_node x prev next t b k = Some n ->
  n = wrap_bounds (fst (base_of t b k (mathop_spacing (cx_style x) prev next))) b (snd (base_of t b k (mathop_spacing (cx_style x) prev next))).
Proof.
  unfold operator_node, base_of. cbv zeta. destruct t; try discriminate.
  - destruct (op_limits k (is_jop o) (bounds_trivial b)). destruct (op_cat o); intros [= <-]; reflexivity.
  - destruct (large_op_limits k (bounds_trivial b)). intros [= <-]; reflexivity.
  - destruct (pseudo_limits k false (bounds_trivial b)). intros [= <-]; reflexivity.
  - destruct (pseudo_limits k true (bounds_trivial b)). intros [= <-]; reflexivity.
Qed.
Definition op_drawing (t : token) (l r : N) (d : drawing) : Prop :=
  d_left d = l /\ d_right d = r /\ d_stretchy d = false /\ d_large d = is_large t.
Lemma base_drawn rd e t b k st prev next : is_operator t = true -> fits (rd_version rd) t = true ->
  exists y d, mathml e (snd (base_of t b k (mathop_spacing st prev next))) = [y] /\ core y = y /\ drawn rd y = Some d /\
    op_drawing t (fst (fst (code_atom true st prev next AOp))) (snd (fst (code_atom true st prev next AOp))) d /\
    (bounds_trivial b = false -> forall display,
       (if fst (base_of t b k (mathop_spacing st prev next)) then if d_movable d && negb display then Beside else AboveAndBelow else Beside) =
       tex_place display (takes_limits t) k).
Proof.
  intros O F. destruct (mathop_flags st prev next) as (zl & zr & Q). cbn [code_atom fst snd mu_pair]. rewrite Q. unfold base_of. rewrite !Q.
  destruct t; try discriminate O; cbn [fits takes_limits is_operator op_drawing is_large] in *.
  - set (tr := bounds_trivial b). clearbody tr.
    destruct (implicit_drawn rd e (op_as_op o) (snd (op_limits k (is_jop o) tr)) (zero_or zl false ThreeMu, zero_or zr false ThreeMu) _
      (fun d => op_drawing (T_Op o) (mu_of (zero_or zl true ThreeMu) 3) (mu_of (zero_or zr true ThreeMu) 3) d /\
        (tr = false -> forall display : bool, (if fst (op_limits k (is_jop o) tr) then if d_movable d && negb display then Beside else AboveAndBelow else Beside) = tex_place display (is_jop o) k)) F) as (y & d & E & C & D & P1 & P2).
    + intros t I. cbn [fst snd]. unfold is_jop. destruct (op_cat o); try discriminate O; cbn [op_entries] in I; of_list I; destruct zl, zr, tr, k as [[]|]; renderers rd; (split; [repeat split; reflexivity|]); try (intros H; discriminate H); intros _ []; reflexivity.
    + exists y, d. destruct (op_limits k (is_jop o) tr) as [uo attrs]. cbn [fst snd] in *. split; [exact E|]. split; [exact C|]. split; [exact D|]. split; [exact P1|exact P2].
  - apply andb_prop in F as [M F]. apply quiet_out in F as [B S]. apply quiet_out in M as [_ M].
    destruct (large_op_limits k (bounds_trivial b)) as [uo attrs] eqn:L. cbn [fst snd].
    destruct (drawn_op rd e o attrs (zero_or zl true ThreeMu, zero_or zr true ThreeMu) _ B eq_refl) as (x & E & C & D).
    exists x. eexists. split; [exact E|]. split; [exact C|]. split; [exact D|].
    assert (S' : forall g, d_stretchy (of_category (category_of rd g (entries (rd_version rd) (sc_text o)))) = false) by (intros g; now apply quiet_category).
    assert (M' : forall g, d_movable (of_category (category_of rd g (entries (rd_version rd) (sc_text o)))) = false) by (intros g; now apply quiet_category).
    set (tr := bounds_trivial b) in *. clearbody tr.
    unfold draw. cbn [fst snd]. destruct tr, k as [[]|], zl, zr; vm_compute in L; injection L as <- <-;
      (split; [split; [reflexivity|split; [reflexivity|split; [apply S'|reflexivity]]]|]); try (intros H; discriminate H); intros _ []; cbn [d_movable]; try reflexivity;
      match goal with |- context [flag_value ?x ?y] => change (flag_value x y) with x end; now rewrite M'.
  - apply andb_prop in F as [F La]. apply andb_prop in F as [M S]. apply quiet_out in S as [B S]. apply quiet_out in M as [_ M]. apply quiet_out in La as [_ La].
    destruct (pseudo_limits k false (bounds_trivial b)) as [uo attrs] eqn:L. cbn [fst snd].
    destruct (drawn_pseudo rd e s attrs (zero_or zl true ThreeMu) (zero_or zr true ThreeMu) _ B eq_refl) as (x & E & C & D).
    exists x. eexists. split; [exact E|]. split; [exact C|]. split; [exact D|].
    assert (S' : forall g, d_stretchy (of_category (category_of rd g (entries (rd_version rd) s))) = false) by (intros g; now apply quiet_category).
    assert (M' : forall g, d_movable (of_category (category_of rd g (entries (rd_version rd) s))) = false) by (intros g; now apply quiet_category).
    assert (L' : forall g, d_large (of_category (category_of rd g (entries (rd_version rd) s))) = false) by (intros g; now apply quiet_category).
    set (tr := bounds_trivial b) in *. clearbody tr.
    unfold draw. destruct tr, k as [[]|], zl, zr; vm_compute in L; injection L as <- <-;
      (split; [split; [reflexivity|split; [reflexivity|split; [apply S'|apply L']]]|]); try (intros H; discriminate H); intros _ []; cbn [d_movable]; try reflexivity;
      match goal with |- context [flag_value ?x ?y] => change (flag_value x y) with x end; now rewrite M'.
  - apply andb_prop in F as [F La]. apply andb_prop in F as [M S]. apply quiet_out in S as [B S]. apply quiet_out in M as [_ M]. apply quiet_out in La as [_ La].
    destruct (pseudo_limits k true (bounds_trivial b)) as [uo attrs] eqn:L. cbn [fst snd].
    destruct (drawn_pseudo rd e s attrs (zero_or zl true ThreeMu) (zero_or zr true ThreeMu) _ B eq_refl) as (x & E & C & D).
    exists x. eexists. split; [exact E|]. split; [exact C|]. split; [exact D|].
    assert (S' : forall g, d_stretchy (of_category (category_of rd g (entries (rd_version rd) s))) = false) by (intros g; now apply quiet_category).
    assert (M' : forall g, d_movable (of_category (category_of rd g (entries (rd_version rd) s))) = false) by (intros g; now apply quiet_category).
    assert (L' : forall g, d_large (of_category (category_of rd g (entries (rd_version rd) s))) = false) by (intros g; now apply quiet_category).
    set (tr := bounds_trivial b) in *. clearbody tr.
    unfold draw. destruct tr, k as [[]|], zl, zr; vm_compute in L; injection L as <- <-;
      (split; [split; [reflexivity|split; [reflexivity|split; [apply S'|apply L']]]|]); try (intros H; discriminate H); intros _ []; cbn [d_movable]; try reflexivity;
      match goal with |- context [flag_value ?x ?y] => change (flag_value x y) with x end; now rewrite M'.
Qed.
Lemma operator_token x prev next t b k n : operator_node x prev next t b k = Some n -> is_operator t = true.
Proof. unfold operator_node. cbv zeta. destruct t; try discriminate; try reflexivity. cbn [is_operator]. now destruct (op_cat o). Qed.
Lemma operator_drawn rd e x prev next t b k n : operator_node x prev next t b k = Some n -> fits (rd_version rd) t = true ->
  exists y d, mathml e n = [y] /\ drawn rd (core y) = Some d /\
    op_drawing t (fst (fst (code_atom true (cx_style x) prev next AOp))) (snd (fst (code_atom true (cx_style x) prev next AOp))) d /\
    (bounds_trivial b = false -> forall display, scripts_place display rd y = Some (tex_place display (takes_limits t) k)).
Proof.
  intros E F. pose proof (operator_token _ _ _ _ _ _ _ E) as O. apply operator_node_base in E. subst n.
  destruct (base_drawn rd e t b k (cx_style x) prev next O F) as (y & d & E & C & D & P & Q).
  destruct (base_of t b k _) as [uo n]. cbn [fst snd] in *. unfold wrap_bounds, wrap_underover, wrap_subsup. destruct b as [[u|] [v|]]; cbn [b_sub b_sup bounds_trivial] in *.
  4: { exists y, d. split; [destruct uo; exact E|]. split; [now rewrite C|]. split; [exact P|]. intros H; discriminate H. }
  all: destruct uo; cbn [mathml]; rewrite E; eexists; exists d; (split; [reflexivity|]); cbn [app]; (split; [cbn [core el]; change (core (XElem _ _ (y :: _))) with (core y); rewrite C; exact D|]); (split; [exact P|]);
    intros H display; specialize (Q H display); cbn [scripts_place el].
  all: match goal with |- context [existsb (str_eqb ?n) ?l] => change (existsb (str_eqb n) l) with true || change (existsb (str_eqb n) l) with false end; cbv iota; try (now rewrite <- Q).
  all: match goal with |- context [existsb (str_eqb ?n) ?l] => change (existsb (str_eqb n) l) with true end; cbv iota; rewrite D; cbn [option_map]; now rewrite <- Q.
Qed.

(** Delimiters. *)
Lemma drawn_sized rd e o attrs sz l r t : blank (sc_text o) = false -> entries (rd_version rd) (sc_text o) = t ->
  exists x, mathml e (Operator o attrs sz l r) = [x] /\ core x = x /\ drawn rd x = Some (draw rd t (spaced_attributes attrs l r ++ opt fixed_size sz)).
Proof.
  intros B E. eexists. split; [reflexivity|]. unfold data. rewrite B. split; [reflexivity|]. unfold el. cbn [drawn]. change (str_eqb (lit "mo") (lit "mo")) with true. cbv iota. now rewrite E.
Qed.
Lemma find_sized (f : str * str -> bool) a sz : (forall v, f (lit "minsize", v) = false /\ f (lit "maxsize", v) = false) -> find f (a ++ opt fixed_size sz) = find f a.
Proof.
  intros H. induction a as [|p a IH]; [|cbn [find app]; destruct (f p); [reflexivity|exact IH]]. cbn [app]. destruct sz as [sz|]; [|reflexivity]. unfold opt, fixed_size, att. cbn [find]. cbv zeta.
  now rewrite (proj1 (H _)), (proj2 (H _)).
Qed.
Lemma draw_sized rd t a sz : draw rd t (a ++ opt fixed_size sz) = draw rd t a.
Proof. unfold draw, value. now rewrite !find_sized by (intros v; split; reflexivity). Qed.
(** The symbols that are delimiters, with the entries they have. *)
Lemma delimiter_cases rd t sp loc d : extract_delimiter (t, sp) loc = Ok d -> fits (rd_version rd) t = true ->
  blank (sc_text (so_op d)) = false /\
  ((forced t = false /\ pretended t = false /\
    exists l, In (entries (rd_version rd) (sc_text (so_op d))) l /\
      In (so_stretchy d, so_spacing d, l)
        [(SyAlways, DsZero, [(Some CatF, None, None); (None, None, Some CatG); (Some CatF, None, Some CatG)]);
         (SyPrePostfix, DsInfixRelation, ord_entries OcFGandForceDefault); (SyNever, DsZero, ord_entries OcK);
         (SyNever, DsOther, ord_entries OcKButUsedToBeB); (SyAlwaysAsymmetric, DsRelation, rel_entries RcA)]) \/
   (forced t = true /\ so_spacing d = DsZero /\ so_stretchy d = (if pretended t then SyAlways else SyNever) /\
    forall f c, at_form (entries (rd_version rd) (sc_text (so_op d))) f = Some c -> d_stretchy (of_category c) = false)).
Proof.
  assert (O : forall o l, stretchable_from_ord o = Some d -> has_entries (rd_version rd) (ord_as_op o) l = true -> l = ord_entries (ord_cat o) ->
    blank (sc_text (so_op d)) = false /\ exists l, In (entries (rd_version rd) (sc_text (so_op d))) l /\
      In (so_stretchy d, so_spacing d, l)
        [(SyAlways, DsZero, [(Some CatF, None, None); (None, None, Some CatG); (Some CatF, None, Some CatG)]);
         (SyPrePostfix, DsInfixRelation, ord_entries OcFGandForceDefault); (SyNever, DsZero, ord_entries OcK);
         (SyNever, DsOther, ord_entries OcKButUsedToBeB); (SyAlwaysAsymmetric, DsRelation, rel_entries RcA)]).
  { intros o l S H ->. apply has_entries_out in H as [B H]. unfold stretchable_from_ord in S. destruct (ord_cat o) eqn:C; try discriminate S; injection S as <-; cbn [so_op so_stretchy so_spacing ord_entries] in *; (split; [exact B|]).
    1-3: eexists; (split; [|left; reflexivity]); destruct H as [<-|[]]; cbn; tauto.
    - eexists. split; [exact H|]. right. left. reflexivity.
    - eexists. split; [exact H|]. right. right. left. reflexivity.
    - eexists. split; [exact H|]. right. right. right. left. reflexivity. }
  intros E F. unfold extract_delimiter in E. cbn [fst snd] in E. destruct t; try discriminate E; cbn [fits forced pretended] in *.
  - change OPEN_BRACKET with (stretchable_from_ord SYM_LEFT_SQUARE_BRACKET) in E. destruct (stretchable_from_ord SYM_LEFT_SQUARE_BRACKET) as [d'|] eqn:S; [|discriminate E]. injection E as ->.
    destruct (O _ _ S F eq_refl) as [B K]. split; [exact B|]. left. split; [reflexivity|]. split; [reflexivity|exact K].
  - change CLOSE_BRACKET with (stretchable_from_ord SYM_RIGHT_SQUARE_BRACKET) in E. destruct (stretchable_from_ord SYM_RIGHT_SQUARE_BRACKET) as [d'|] eqn:S; [|discriminate E]. injection E as ->.
    destruct (O _ _ S F eq_refl) as [B K]. split; [exact B|]. left. split; [reflexivity|]. split; [reflexivity|exact K].
  - apply andb_prop in F as [F _]. destruct (stretchable_from_ord o) as [d'|] eqn:S; [|discriminate E]. injection E as ->.
    destruct (O _ _ S F eq_refl) as [B K]. split; [exact B|]. left. split; [reflexivity|]. split; [reflexivity|exact K].
  - destruct (stretchable_from_rel r) as [d'|] eqn:S; [|discriminate E]. injection E as ->. apply has_entries_out in F as [B H].
    unfold stretchable_from_rel in S. destruct (rel_cat r); try discriminate S. injection S as <-. cbn [so_op so_stretchy so_spacing]. split; [exact B|]. left. split; [reflexivity|]. split; [reflexivity|].
    eexists. split; [exact H|]. right. right. right. right. left. reflexivity.
  - apply andb_prop in F as [F _]. destruct (stretchable_from_ord o) as [d'|] eqn:S; [|discriminate E]. injection E as ->.
    destruct (O _ _ S F eq_refl) as [B K]. split; [exact B|]. left. split; [reflexivity|]. split; [reflexivity|exact K].
  - apply andb_prop in F as [F _]. destruct (stretchable_from_ord o) as [d'|] eqn:S; [|discriminate E]. injection E as ->.
    destruct (O _ _ S F eq_refl) as [B K]. split; [exact B|]. left. split; [reflexivity|]. split; [reflexivity|exact K].
  - apply quiet_out in F as [B Q]. match goal with s : force_stretchy |- _ => destruct s end; try discriminate E; injection E as <-; (split; [exact B|]); right; repeat (split; [reflexivity|]); exact Q.
  - apply quiet_out in F as [B Q]. match goal with s : force_stretchy |- _ => destruct s end; try discriminate E; injection E as <-; (split; [exact B|]); right; repeat (split; [reflexivity|]); exact Q.
Qed.
Lemma fence_drawn rd e t sp loc d : extract_delimiter (t, sp) loc = Ok d -> fits (rd_version rd) t = true -> rd_form rd <> Infix ->
  exists y dr, mathml e (fence_operator (Some d)) = [y] /\ drawn rd y = Some dr /\ delimiter_drawing t dr.
Proof.
  intros E F I. destruct (delimiter_cases rd t sp loc d E F) as [B K]. unfold fence_operator.
  match goal with |- context [Operator ?o ?a ?s ?l ?r] => destruct (drawn_sized rd e o a s l r _ B eq_refl) as (y & M & _ & D) end.
  exists y. eexists. split; [exact M|]. split; [exact D|]. clear M D. unfold delimiter_drawing.
  destruct K as [(-> & -> & l & J & K)|(-> & S & T & Q)].
  - repeat (destruct K as [[= <- <- <-]|K]; [cbn in J; of_list J; renderers rd; try (exfalso; now apply I); (split; [reflexivity|]; intros _; split; reflexivity)|]). contradiction.
  - split; [|intros H; discriminate H]. rewrite S, T.
    assert (Z : forall g, d_stretchy (of_category (category_of rd g (entries (rd_version rd) (sc_text (so_op d))))) = false) by (intros g; now apply quiet_category).
    destruct (pretended t); [apply Z|reflexivity].
Qed.
Lemma middle_drawn rd e t sp loc d : extract_delimiter (t, sp) loc = Ok d -> fits (rd_version rd) t = true ->
  exists y dr, mathml e (op_node (so_op d) (middle_stretch_attrs d)
                 (match so_spacing d with DsZero => None | _ => Some MsZero end, match so_spacing d with DsZero => None | _ => Some MsZero end)) = [y] /\
    drawn rd y = Some dr /\ delimiter_drawing t dr.
Proof.
  intros E F. destruct (delimiter_cases rd t sp loc d E F) as [B K]. unfold op_node, middle_stretch_attrs.
  match goal with |- context [Operator ?o ?a ?s ?l ?r] => destruct (drawn_sized rd e o a s l r _ B eq_refl) as (y & M & _ & D) end.
  exists y. eexists. split; [exact M|]. split; [exact D|]. clear M D. unfold delimiter_drawing.
  destruct K as [(-> & -> & l & J & K)|(-> & S & T & Q)].
  - repeat (destruct K as [[= <- <- <-]|K]; [cbn in J; of_list J; renderers rd; (split; [reflexivity|]; intros _; split; reflexivity)|]). contradiction.
  - split; [|intros H; discriminate H]. rewrite S, T.
    assert (Z : forall g, d_stretchy (of_category (category_of rd g (entries (rd_version rd) (sc_text (so_op d))))) = false) by (intros g; now apply quiet_category).
    destruct (pretended t); [apply Z|reflexivity].
Qed.
Lemma big_drawn rd e t sp loc d sz st prev next pt : extract_delimiter (t, sp) loc = Ok d -> fits (rd_version rd) t = true ->
  (at_form (entries (rd_version rd) (sc_text (so_op d))) Infix = None -> so_spacing d = DsInfixRelation -> rd_lenient rd = false) ->
  exists y dr, mathml e (Operator (so_op d) (fst (big_spacing st prev next pt d)) (Some sz) (fst (snd (big_spacing st prev next pt d))) (snd (snd (big_spacing st prev next pt d)))) = [y] /\
    drawn rd y = Some dr /\ d_stretchy dr = negb (pretended t) /\ (pretended t = false -> d_symmetric dr = true) /\
    match pt with
    | Some PtMiddle => d_left dr = fst (fst (code_atom true st prev next ARel)) /\ d_right dr = snd (fst (code_atom true st prev next ARel))
    | _ => forced t = false -> d_left dr = 0 /\ d_right dr = 0
    end.
Proof.
  intros E F L. destruct (delimiter_cases rd t sp loc d E F) as [B K]. unfold big_spacing, big_attrs. cbn [code_atom fst snd mu_pair].
  destruct (relation_flags st prev next) as (zl & zr & Q). rewrite !Q.
  match goal with |- context [Operator ?o ?a ?s ?l ?r] => destruct (drawn_sized rd e o a s l r _ B eq_refl) as (y & M & _ & D) end.
  exists y. eexists. split; [exact M|]. split; [exact D|]. clear M D. rewrite draw_sized. revert L.
  destruct K as [(-> & -> & l & J & K)|(-> & S & T & Z)].
  - repeat (destruct K as [[= <- <- <-]|K]; [cbn in J; of_list J; destruct pt as [[]|]; try destruct zl, zr; renderers rd; intros L; try (discriminate (L eq_refl eq_refl));
      (split; [reflexivity|]; split; [intros _; reflexivity|]; try (intros _); split; reflexivity)|]). contradiction.
  - intros _. rewrite S, T.
    assert (Y : forall g, d_stretchy (of_category (category_of rd g (entries (rd_version rd) (sc_text (so_op d))))) = false) by (intros g; now apply quiet_category).
    destruct (pretended t), pt as [[]|]; try destruct zl, zr; (split; [try apply Y; reflexivity|]);
      (split; [intros H; try discriminate H; reflexivity|]); try (intros H; discriminate H); split; reflexivity.
Qed.
Lemma arrow_drawn rd e r st prev next : fits (rd_version rd) (T_XArrow r) = true ->
  exists y d, mathml e (op_node (rel_as_op r) (match rel_cat r with RcA => A_EMPTY | _ => A_STRETCHY_TRUE end) (relation_spacing st prev next false)) = [y] /\ core y = y /\
    drawn rd y = Some d /\ d_stretchy d = true /\ (rd_form rd = Infix -> (d_left d, d_right d) = fst (code_atom true st prev next ARel)).
Proof.
  cbn [fits code_atom fst]. intros F. destruct (relation_flags st prev next) as (zl & zr & Q). rewrite !Q.
  apply (implicit_drawn rd e _ _ _ _ (fun d => d_stretchy d = true /\ (rd_form rd = Infix -> (d_left d, d_right d) = mu_pair (zero_or zl true FiveMu, zero_or zr true FiveMu) 5 5)) F). intros t I.
  destruct (rel_cat r); cbn [rel_entries] in I; of_list I; destruct zl, zr; renderers rd; (split; [reflexivity|]); intros H; try discriminate H; reflexivity.
Qed.
