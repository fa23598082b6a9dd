(** Formulas that have a meaning: sizes, first tokens, and what is to be shown about each kind of part. *)
From Verif Require Import Str M_SuperChar M_Transform M_Length M_Spec M_Ast M_Token M_Symbols M_Commands M_Env
  M_LatexError M_Lexer M_CustomCmds M_Queue M_Spacing M_Colors M_Leaf M_TextParser M_Parser
  S_Lexer S_Queue S_Scripts S_Formula S_Reading L_Queue L_Args L_Reads L_Wp L_Ends L_Wins L_WinLeaf L_Expand L_FormEq.
Local Open Scope nat_scope.

(** ** Sizes *)

Fixpoint item_size (i : item) : nat := match i with Item h ms => S (head_size h + list_sum (map mark_size ms)) end
with head_size (h : head) : nat :=
  match h with
  | HSym _ args => S (list_sum (map arg_size args))
  | HNum _ | HWord _ => 1
  | HGroup l => S (list_sum (map item_size l))
  | HFence _ l _ => S (list_sum (map item_size l))
  | HEnv _ args l => S (list_sum (map arg_size args) + list_sum (map item_size l))
  end
with arg_size (a : arg) : nat :=
  match a with AGroup l | ABracket l => S (list_sum (map item_size l)) | ASym _ | ALit _ => 1 | AItem i => S (item_size i)
             | AScripts ms l => S (list_sum (map mark_size ms) + list_sum (map item_size l)) end
with mark_size (m : fmark) : nat :=
  match m with
  | FSub a | FSup a => S (arg_size a)
  | FPrimes _ (Some a) => S (arg_size a)
  | FPrimes _ None | FLimits _ => 1
  end.
Definition items_size (l : list item) : nat := list_sum (map item_size l).
Definition args_size (l : list arg) : nat := list_sum (map arg_size l).
Definition marks_size (l : list fmark) : nat := list_sum (map mark_size l).
Lemma item_size_pos i : 1 <= item_size i.
Proof. destruct i. cbn [item_size]. lia. Qed.

(** ** First tokens *)

(** Tokens, without the wrapper, that an item may begin with, and that may follow an item. *)
Definition starts (t : token) : bool :=
  match t with
  | T_Eoi | T_GroupEnd | T_End _ | T_Right | T_Underscore | T_Circumflex | T_Prime _ | T_Limits _ | T_Whitespace | T_HLine _
  | T_MathOrTextMode _ _ => false
  | _ => true
  end.
(** A sequence may begin with a script. *)
Definition may_begin (t : token) : bool := match t with T_Underscore | T_Circumflex => true | _ => starts t end.
Lemma starts_may_begin t : starts t = true -> may_begin t = true.
Proof. now destruct t. Qed.
Definition stops (t : token) : bool :=
  match t with T_Underscore | T_Circumflex | T_Prime _ | T_Limits _ | T_Whitespace => false | _ => true end.
Definition stop_ahead (ts : list token) : Prop := stops (unwrap_math (hd T_Eoi (bare ts))) = true.
Lemma starts_stops t : starts t = true -> stops t = true.
Proof. now destruct t. Qed.
Lemma starts_readable t : starts (unwrap_math t) = true -> readable t.
Proof. intros H. unfold readable. destruct t; try reflexivity; discriminate. Qed.

Definition begins (ts : list token) : Prop := exists t0 r, ts = t0 :: r /\ starts (unwrap_math t0) = true.
Lemma begins_app a b : begins a -> begins (a ++ b).
Proof. intros (t & r & -> & H). now exists t, (r ++ b). Qed.

(** A macro may begin an item, and it goes on with nothing. *)
Lemma macro_starts t : macro_tok t = true -> starts (unwrap_math t) = true /\ unwrap_math t <> T_SquareBracketClose /\ unwrap_math t <> T_SquareBracketOpen /\ silent (unwrap_math t) = false.
Proof. unfold macro_tok. destruct (unwrap_math t); try discriminate; intros _; (split; [reflexivity|]); (split; [discriminate|]); split; (discriminate || reflexivity). Qed.
Lemma macro_plain t : macro_tok t = true -> is_digit_tok t = false /\ is_full_stop t = false /\ forall tf, word_char tf t = None.
Proof. unfold macro_tok. destruct t; try discriminate; intros _; (split; [reflexivity|]); (split; [reflexivity|]); now intros [[|]|]. Qed.

(** ** Classes ahead *)

Lemma class_bare w : find_map token_class (bare w) = find_map token_class w.
Proof. induction w as [|t w IH]; [reflexivity|]. now destruct t. Qed.
Lemma class_ahead_bare w c : class_ahead (bare w) c = class_ahead w c.
Proof. unfold class_ahead. now rewrite class_bare. Qed.
Lemma find_map_app {A B} (f : A -> option B) a b b' : find_map f b = find_map f b' -> find_map f (a ++ b) = find_map f (a ++ b').
Proof. intros H. induction a as [|x a IH]; [exact H|]. cbn [app find_map]. now destruct (f x). Qed.

(** ** Ends of sequences *)

Inductive closer : seq_end -> bool -> list token -> class -> Prop :=
| cl_eoi : closer (SeqEnd EtEoi) false [] ClEnd
| cl_group ts : closer (SeqEnd EtGroupClose) false (T_GroupEnd :: ts) ClEnd
| cl_right ts : closer (SeqEnd EtRight) false (T_Right :: ts) ClClose
| cl_end e ts : closer (SeqEnd EtEnd) false (T_End e :: ts) ClEnd
| cl_bracket ts : closer (SeqEnd EtSquareBracketClose) true (T_SquareBracketClose :: ts) ClClose
| cl_any e k c : closer e false k c -> closer SeqAny false k c.
Lemma closer_matches e b k c : closer e b k c -> seq_end_matches e (hd T_Eoi k) = true.
Proof.
  intros H. destruct H as [| | | | |e k c H]; try reflexivity. remember false as b. induction H; reflexivity || discriminate || auto.
Qed.
Lemma closer_class e b k c : closer e b k c -> class_ahead k ClEnd = c.
Proof. induction 1; reflexivity || assumption. Qed.
Lemma closer_stop e b k c : closer e b (bare k) c -> stop_ahead k.
Proof. unfold stop_ahead. induction 1; reflexivity || assumption. Qed.
Lemma closer_plain e b k c : closer e b k c ->
  is_digit_tok (hd T_Eoi k) = false /\ is_full_stop (hd T_Eoi k) = false /\ (forall tf, word_char tf (hd T_Eoi k) = None) /\ (forall l, hd T_Eoi k <> T_HLine l).
Proof. induction 1; try assumption; repeat split; try discriminate; now intros [[|]|]. Qed.
(** A token with which an item begins does not end the sequence. *)
Lemma goes_on e b k c t0 : closer e b k c -> may_begin (unwrap_math t0) = true -> (b = true -> unwrap_math t0 <> T_SquareBracketClose) -> seq_end_matches e t0 = false.
Proof.
  intros H S0 B. destruct H; try (clear B; destruct t0; try reflexivity; discriminate S0).
  specialize (B eq_refl). destruct t0; try reflexivity. now destruct B.
Qed.

Lemma dbind_some {A B} (m : D A) (k : A -> D B) d r : dbind m k d = Some r -> exists a d1, m d = Some (a, d1) /\ k a d1 = Some r.
Proof. unfold dbind. destruct (m d) as [[a d1]|]; [|discriminate]. eauto. Qed.
Lemma dopt_some {A} (o : option A) d a d1 : dopt o d = Some (a, d1) -> o = Some a /\ d1 = d.
Proof. unfold dopt. destruct o; [|discriminate]. now intros [= -> ->]. Qed.
Lemma dguard_some {A} (b : bool) (m : D A) d r : dguard b m d = Some r -> b = true /\ m d = Some r.
Proof. destruct b; [auto|discriminate]. Qed.

Section Form.
Context (mean : str -> token) (usize_max : N).
Notation tok := (tok mean).
Notation raw := (raw mean).
Notation item_toks := (item_toks mean).
Notation head_toks := (head_toks mean).
Notation arg_toks := (arg_toks mean).
Notation mark_toks := (mark_toks mean).
Notation den_item := (den_item mean usize_max).
Notation den_head := (den_head mean usize_max).
Notation den_arg := (den_arg mean usize_max).
Notation den_target := (den_target mean usize_max).
Notation den_mark := (den_mark mean usize_max).
Notation den_items := (den_items mean usize_max den_item).

Lemma sym_node_starts x a prev next t r : sym_node x a prev next t = Some r -> starts t = true.
Proof. now destruct t. Qed.
Lemma word_starts tf t c : word_char tf t = Some c -> starts (unwrap_math t) = true /\ unwrap_math t <> T_SquareBracketClose.
Proof. destruct tf; [|discriminate]. destruct t; try discriminate; split; (reflexivity || discriminate). Qed.
(** The first token of an atom is its symbol, or certainly no bracket. *)
Lemma head_starts x pa prev next h d r : den_head x pa prev next h d = Some r ->
  exists t0 ts, head_toks h = t0 :: ts /\ starts (unwrap_math t0) = true /\ match h with HSym s _ => t0 = raw s | _ => unwrap_math t0 <> T_SquareBracketClose end.
Proof.
  destruct h as [s args|s|l|l|o l c|e args l]; intros H.
  - exists (raw s), (flat_map arg_toks args). split; [reflexivity|]. fold (tok s). split; [|reflexivity]. rewrite den_sym_eq in H. cbv zeta in H.
    destruct (tok s) eqn:Et; try reflexivity; exfalso; (destruct args as [|a args]; [|discriminate H]); destruct (word_char (cx_tf x) (raw s)); discriminate H.
  - rewrite den_num_eq in H. apply dguard_some in H as [H _]. apply andb_true_iff in H as [_ H]. destruct s as [|c s]; [discriminate|]. cbn [number_ok] in H. apply andb_true_iff in H as [H _].
    exists (char_token c), (map char_token s). split; [reflexivity|]. rewrite (digit_token c H). split; [reflexivity|discriminate].
  - rewrite den_word_eq in H. apply dbind_some in H as (cs & d1 & H1 & H). apply dopt_some in H1 as [H1 ->]. apply dbind_some in H as (n & d2 & H2 & _). apply dopt_some in H2 as [H2 ->].
    destruct l as [|s l]; [injection H1 as <-; discriminate|]. exists (raw s), (map raw l). split; [reflexivity|]. cbn [all_some] in H1.
    destruct (word_char (cx_tf x) (raw s)) eqn:Ew; [|discriminate]. exact (word_starts _ _ _ Ew).
  - eexists _, _. split; [reflexivity|]. split; [reflexivity|discriminate].
  - rewrite den_fence_eq in H. eexists _, _. split; [reflexivity|]. destruct (mean (lit "left")); try discriminate H. split; [reflexivity|discriminate].
  - eexists _, _. split; [reflexivity|]. split; [reflexivity|discriminate].
Qed.
Lemma operator_starts t args t' : operator_of t args = Some t' -> starts t = true.
Proof. now destruct t. Qed.
Lemma item_starts x pa prev next i d r : den_item x pa prev next i d = Some r ->
  exists t0 ts, item_toks i = t0 :: ts /\ may_begin (unwrap_math t0) = true /\ (starts (unwrap_math t0) = false -> exists s a ms, i = Item (HSym s [a]) ms /\ (tok s = T_Underscore \/ tok s = T_Circumflex)) /\
    match i with Item (HSym s _) _ => t0 = raw s | _ => unwrap_math t0 <> T_SquareBracketClose end.
Proof.
  destruct i as [h ms]. intros H.
  assert (K : (exists q, den_head x pa prev (class_ahead (flat_map mark_toks ms) next) h d = Some q) \/
    exists s args, h = HSym s args /\ may_begin (tok s) = true /\ (starts (tok s) = false -> exists a, args = [a] /\ (tok s = T_Underscore \/ tok s = T_Circumflex))).
  { rewrite den_item_eq in H. cbv zeta in H. destruct h as [s args|s|l|l|o l c|e args l]; try (left; apply dbind_some in H as (q0 & d1 & H & _); eauto).
    destruct (operator_of (tok s) args) as [t|] eqn:Eo; [right; exists s, args; split; [reflexivity|]; pose proof (operator_starts _ _ _ Eo) as So; rewrite So; split; [now apply starts_may_begin|discriminate]|].
    destruct (tok s) eqn:Et; try (left; apply dbind_some in H as (q0 & d1 & H & _); eauto; fail);
      try (right; exists s, args; rewrite Et; split; [reflexivity|]; split; [reflexivity|discriminate]).
    all: destruct args as [|a [|? ?]]; try (left; apply dbind_some in H as (q0 & d1 & H & _); eauto; fail).
    all: right; exists s, [a]; rewrite Et; split; [reflexivity|]; split; [reflexivity|]; intros _; exists a; auto. }
  destruct K as [(q & K)|(s & args & -> & K & K')].
  - destruct (head_starts _ _ _ _ _ _ _ K) as (t0 & ts & E & S0 & B). exists t0, (ts ++ flat_map mark_toks ms). split; [change (item_toks (Item h ms)) with (head_toks h ++ flat_map mark_toks ms); now rewrite E|]. split; [now apply starts_may_begin|]. split; [congruence|]. now destruct h.
  - eexists _, _. split; [reflexivity|]. split; [exact K|]. split; [|reflexivity]. intros S0. destruct (K' S0) as (a & -> & Sc). exists s, a, ms. now split.
Qed.
(** The items of a sequence begin with a token that does not end it, and only at its start with a script. *)
Lemma items_start x after prev acc infix l d r : den_items x after prev acc infix l d = Some r ->
  l = [] \/ exists t0 ts, flat_map item_toks l = t0 :: ts /\ may_begin (unwrap_math t0) = true /\ (acc <> [] -> starts (unwrap_math t0) = true) /\ (cx_bracket x = true -> unwrap_math t0 <> T_SquareBracketClose).
Proof.
  destruct l as [|i l]; [auto|]. intros H. right.
  assert (K : (exists a b c, den_item x PaSequence a b i d = Some c /\ match i with Item (HSym s _) _ => (cx_bracket x = true -> tok s <> T_SquareBracketClose) /\ (acc <> [] -> tok s <> T_Underscore /\ tok s <> T_Circumflex) | _ => True end) \/
    exists s args ms, i = Item (HSym s args) ms /\ starts (tok s) = true /\ tok s <> T_SquareBracketClose).
  { cbn [S_Formula.den_items] in H. cbv zeta in H. destruct i as [h ms].
    assert (At : forall k, dguard (item_over mean (cx_tf x) (Item h ms) (flat_map item_toks l)) (dbind (den_item x PaSequence prev (class_ahead (flat_map item_toks l) after) (Item h ms)) k) d = Some r ->
      exists a b c, den_item x PaSequence a b (Item h ms) d = Some c).
    { intros k Hk. apply dguard_some in Hk as [_ Hk]. apply dbind_some in Hk as (a & d1 & Hk & _). eauto. }
    destruct h as [s args|s|l0|l0|o l0 c|e args l0]; try (left; destruct (At _ H) as (a & b & c0 & E); eauto; fail).
    destruct (tok s) eqn:Et;
      try (left; destruct (At _ H) as (a0 & b0 & c0 & E); exists a0, b0, c0; split; [exact E|]; rewrite ?Et; split; [intros _; discriminate|intros _; split; discriminate]);
      try (right; exists s, args, ms; split; [reflexivity|]; rewrite Et; split; [reflexivity|discriminate]).
    all: left; apply dguard_some in H as [Hb H]; destruct (At _ H) as (a & b & c0 & E); exists a, b, c0; split; [exact E|]; rewrite ?Et.
    all: split; try (intros _; discriminate); try (intros _; split; discriminate); try (intros Hx; clear - Hx Hb; now rewrite Hx in Hb).
    all: intros Hx; destruct acc; [now destruct Hx|discriminate Hb]. }
  destruct K as [(a & b & c & E & B)|(s & args & ms & -> & S0 & B)].
  - destruct (item_starts _ _ _ _ _ _ _ E) as (t0 & ts & E1 & S0 & S1 & B0). exists t0, (ts ++ flat_map item_toks l). split; [cbn [flat_map]; now rewrite E1|]. split; [exact S0|]. split.
    + intros Ha. destruct (starts (unwrap_math t0)) eqn:Es; [reflexivity|]. destruct (S1 eq_refl) as (s & a0 & ms & -> & Sc). destruct (proj2 B Ha) as [N1 N2]. destruct Sc; [now destruct N1|now destruct N2].
    + intros Hx. destruct i as [[s args|s|l0|l0|o l0 c0|e args l0] ms]; try exact B0. subst t0. exact (proj1 B Hx).
  - eexists _, _. split; [reflexivity|]. split; [now apply starts_may_begin|]. split; [intros _; exact S0|]. intros _. exact B.
Qed.

End Form.

(** ** Reading *)

Scheme items_read := Minimality for reads_items Sort Prop
with head_read := Minimality for reads_head Sort Prop
with args_read := Minimality for reads_args Sort Prop
with arg_read := Minimality for reads_arg Sort Prop
with marks_read := Minimality for reads_marks Sort Prop
with mark_read := Minimality for reads_mark Sort Prop.
Combined Scheme reading_ind from items_read, head_read, args_read, arg_read, marks_read, mark_read.

Lemma marked_args bs args : map snd (marked bs args) = args.
Proof. revert bs. induction args as [|a args IH]; intros [|b bs]; cbn [marked map snd]; now rewrite ?IH. Qed.

Section Form.
Context {Ft : fate} (usize_max : N) (cfg : parser_cfg) (local cmds : custom_cmds).
Notation mean := (the_mean cfg local cmds).
Notation tok := (tok mean).
Notation raw := (raw mean).
Notation item_toks := (item_toks mean).
Notation head_toks := (head_toks mean).
Notation arg_toks := (arg_toks mean).
Notation mark_toks := (mark_toks mean).
Notation den_item := (den_item mean usize_max).
Notation den_head := (den_head mean usize_max).
Notation den_arg := (den_arg mean usize_max).
Notation den_target := (den_target mean usize_max).
Notation den_mark := (den_mark mean usize_max).
Notation den_items := (den_items mean usize_max den_item).
Notation leads := (leads mean (the_body cfg local cmds) (pc_ignore_unknown cfg)).
Notation reads_items := (reads_items mean (the_body cfg local cmds) (pc_ignore_unknown cfg)).
Notation reads_head := (reads_head mean (the_body cfg local cmds) (pc_ignore_unknown cfg)).
Notation reads_args := (reads_args mean (the_body cfg local cmds) (pc_ignore_unknown cfg)).
Notation reads_arg := (reads_arg mean (the_body cfg local cmds) (pc_ignore_unknown cfg)).
Notation reads_marks := (reads_marks mean (the_body cfg local cmds) (pc_ignore_unknown cfg)).
Notation reads_mark := (reads_mark mean (the_body cfg local cmds) (pc_ignore_unknown cfg)).

(** The spacing class that shows is that of the formula. *)
Notation cls := (find_map token_class).
Lemma leads_class sq n w n' t r : leads sq n w n' t r -> cls w = cls (t :: r).
Proof. induction 1 as [n w t r B|n w u r B Eu Sc|n w u r m bd args r' n' t k B Hm Ok Gr La Kb Cl Ac Ld IH]; [now rewrite <- class_bare, B|rewrite <- class_bare, B; assert (token_class u = Some ClInner) as Ec by (destruct u; try discriminate Eu; cbn in Eu |- *; now rewrite ?Eu); cbn [find_map]; rewrite Ec; now destruct (centered r)|]. now rewrite Cl, IH. Qed.
Lemma first_class w t r l : bare w = t :: r -> cls r = cls l -> cls w = cls (t :: l).
Proof. intros B E. rewrite <- class_bare, B. exact (find_map_app token_class [t] _ _ E). Qed.
Lemma leads_class_with sq n w n' t r l : leads sq n w n' t r -> cls r = cls l -> cls w = cls (t :: l).
Proof. intros H E. rewrite (leads_class _ _ _ _ _ _ H). exact (find_map_app token_class [t] _ _ E). Qed.
Lemma spells_class w l k : spells w l k -> cls w = cls (l ++ k).
Proof. revert w. induction l as [|t l IH]; intros w; cbn [spells app]; [now intros ->|]. intros (w1 & B & S1). now apply (first_class w t w1), IH. Qed.
Lemma reading_class :
  (forall n w l n' k, reads_items n w l n' k -> cls w = cls (flat_map item_toks l ++ k)) /\
  (forall sq n w h n' k, reads_head sq n w h n' k -> cls w = cls (head_toks h ++ k)) /\
  (forall n w l n' k, reads_args n w l n' k -> cls w = cls (flat_map arg_toks (map snd l) ++ k)) /\
  (forall b n w a n' k, reads_arg b n w a n' k -> cls w = cls (arg_toks a ++ k)) /\
  (forall n w l n' k, reads_marks n w l n' k -> cls w = cls (flat_map mark_toks l ++ k)) /\
  (forall n w m n' k, reads_mark n w m n' k -> cls w = cls (mark_toks m ++ k)).
Proof.
  apply (reading_ind mean (the_body cfg local cmds) (pc_ignore_unknown cfg) (fun n w l n' k => cls w = cls (flat_map item_toks l ++ k)) (fun sq n w h n' k => cls w = cls (head_toks h ++ k))
    (fun n w l n' k => cls w = cls (flat_map arg_toks (map snd l) ++ k)) (fun b n w a n' k => cls w = cls (arg_toks a ++ k))
    (fun n w l n' k => cls w = cls (flat_map mark_toks l ++ k)) (fun n w m n' k => cls w = cls (mark_toks m ++ k))).
  - reflexivity.
  - intros n w h n1 w1 ms n2 w2 l n' k _ Hh _ Hm _ Hl. change (flat_map item_toks (Item h ms :: l)) with ((head_toks h ++ flat_map mark_toks ms) ++ flat_map item_toks l).
    rewrite <- !app_assoc, Hh. apply find_map_app. rewrite Hm. now apply find_map_app.
  - intros sq n w s n1 w1 args n' k Hs _ Ha. rewrite marked_args in Ha. exact (leads_class_with _ _ _ _ _ _ _ Hs Ha).
  - intros sq n w c n1 w1 s k Hc Hs. exact (leads_class_with _ _ _ _ _ _ _ Hc (spells_class _ _ _ Hs)).
  - intros sq n w l k Hs. exact (spells_class _ _ _ Hs).
  - intros sq n w n1 w1 l n' w2 k Hb _ Hl Be. change (head_toks (HGroup l)) with (T_GroupBegin :: flat_map item_toks l ++ [T_GroupEnd]). cbn [app]. rewrite <- app_assoc.
    apply (leads_class_with _ _ _ _ _ _ _ Hb). rewrite Hl. apply find_map_app. now rewrite <- class_bare, Be.
  - intros sq n w n1 w1 o w2 l n' w3 w4 c k Hb Bo _ Hl Br Bc.
    change (head_toks (HFence o l c)) with (mean (lit "left") :: raw o :: flat_map item_toks l ++ [mean (lit "right"); raw c]). cbn [app]. rewrite <- app_assoc. cbn [app].
    apply (leads_class_with _ _ _ _ _ _ _ Hb). apply (first_class _ _ _ _ Bo). rewrite Hl. apply find_map_app. apply (first_class _ _ _ _ Br). now apply (first_class _ _ _ _ Bc).
  - intros sq n w n1 w1 e args n2 w2 l n' w3 k Hb _ Ha _ Hl Be. rewrite marked_args in Ha.
    change (head_toks (HEnv e args l)) with (T_Begin e :: flat_map arg_toks args ++ flat_map item_toks l ++ [T_End e]). cbn [app]. rewrite <- !app_assoc.
    apply (leads_class_with _ _ _ _ _ _ _ Hb). rewrite Ha. apply find_map_app. rewrite Hl. apply find_map_app. now rewrite <- class_bare, Be.
  - reflexivity.
  - intros n w b a n1 w1 args n' k _ Ha _ Has. cbn [map snd flat_map]. rewrite <- app_assoc, Ha. now apply find_map_app.
  - reflexivity.
  - intros n w n1 w1 l n' w2 k Hb _ Hl Be. change (arg_toks (AGroup l)) with (T_GroupBegin :: flat_map item_toks l ++ [T_GroupEnd]). cbn [app]. rewrite <- app_assoc.
    apply (leads_class_with _ _ _ _ _ _ _ Hb). rewrite Hl. apply find_map_app. now rewrite <- class_bare, Be.
  - intros n w s n' k Hs. exact (leads_class _ _ _ _ _ _ Hs).
  - intros n w w1 l n' w2 k Bb _ Hl Be. change (arg_toks (ABracket l)) with (T_SquareBracketOpen :: flat_map item_toks l ++ [T_SquareBracketClose]). cbn [app]. rewrite <- app_assoc.
    apply (first_class _ _ _ _ Bb). rewrite Hl. apply find_map_app. now rewrite <- class_bare, Be.
  - intros n w s k _ Bb. change (arg_toks (ALit s)) with (T_GroupBegin :: map lit_tok s ++ [T_GroupEnd]). cbn [app]. rewrite <- app_assoc. now apply (first_class _ _ _ _ Bb).
  - intros n w h n1 w1 ms n' k _ Hh _ Hm _. change (arg_toks (AItem (Item h ms))) with (head_toks h ++ flat_map mark_toks ms). rewrite <- app_assoc, Hh. now apply find_map_app.
  - intros n w w1 ms n1 w2 l n' w3 k Bb _ Hm _ _ Hl Be. change (arg_toks (AScripts ms l)) with (T_GroupBegin :: flat_map mark_toks ms ++ flat_map item_toks l ++ [T_GroupEnd]). cbn [app]. rewrite <- !app_assoc.
    apply (first_class _ _ _ _ Bb). rewrite Hm. apply find_map_app. rewrite Hl. apply find_map_app. now rewrite <- class_bare, Be.
  - reflexivity.
  - intros n w m n1 w1 ms n' k _ Hm _ Hms. cbn [flat_map]. rewrite <- app_assoc, Hm. now apply find_map_app.
  - intros n w w1 a n' k Bb _ Ha. exact (first_class _ _ _ _ Bb Ha).
  - intros n w w1 a n' k Bb _ Ha. exact (first_class _ _ _ _ Bb Ha).
  - intros n w p ps k Bb. change (mark_toks (FPrimes (p :: ps) None)) with (raw p :: map raw ps ++ []). cbn [app]. rewrite app_nil_r. now apply (first_class _ _ _ _ Bb).
  - intros n w p ps w1 a n' k Bb _ Ha. change (mark_toks (FPrimes (p :: ps) (Some a))) with (raw p :: map raw ps ++ T_Circumflex :: arg_toks a). cbn [app]. rewrite <- app_assoc.
    apply (first_class _ _ _ _ Bb). apply find_map_app. exact (find_map_app token_class [T_Circumflex] _ _ Ha).
  - intros n w s k Bb. now apply (first_class _ _ _ _ Bb).
Qed.
Lemma items_class n w l n' k c : reads_items n w l n' k -> class_ahead w c = class_ahead (flat_map item_toks l) (class_ahead k c).
Proof. intros H. rewrite <- class_ahead_app. unfold class_ahead. now rewrite (proj1 reading_class _ _ _ _ _ H). Qed.
Lemma marks_class n w l n' k c : reads_marks n w l n' k -> class_ahead w c = class_ahead (flat_map mark_toks l) (class_ahead k c).
Proof. intros H. rewrite <- class_ahead_app. unfold class_ahead. now rewrite (proj1 (proj2 (proj2 (proj2 (proj2 reading_class)))) _ _ _ _ _ H). Qed.
Lemma arg_class b n w a n' k c : reads_arg b n w a n' k -> class_ahead w c = class_ahead (arg_toks a) (class_ahead k c).
Proof. intros H. rewrite <- class_ahead_app. unfold class_ahead. now rewrite (proj1 (proj2 (proj2 (proj2 reading_class))) _ _ _ _ _ _ H). Qed.

(** The first token is that of the formula, or a macro. *)
Definition fronts (w u : list token) : Prop := macro_tok (hd T_Eoi (bare w)) = true \/ hd T_Eoi (bare w) = hd T_Eoi u.
Lemma leads_first sq n w n' t r : leads sq n w n' t r -> exists t0 r0, bare w = t0 :: r0 /\ (t0 = t /\ r0 = r /\ n' = n \/ macro_tok t0 = true /\ acts t = true).
Proof. intros H. destruct (leads_wins cfg usize_max local cmds _ _ _ _ _ _ H) as (t0 & r0 & B & K & _). eauto. Qed.
Lemma leads_fronts sq n w n' t r u : leads sq n w n' t r -> fronts w (t :: u).
Proof. intros H. destruct (leads_first _ _ _ _ _ _ H) as (t0 & r0 & B & [(-> & _)|(M & _)]); unfold fronts; rewrite B; auto. Qed.
Lemma leads_silent sq n w n' t r : leads sq n w n' t r -> acts t = false -> bare w = t :: r /\ n' = n.
Proof. intros H E. destruct (leads_first _ _ _ _ _ _ H) as (t0 & r0 & B & [(-> & -> & ->)|(_ & M)]); [auto|congruence]. Qed.
Lemma head_fronts sq n w h n' k u : reads_head sq n w h n' k -> head_toks h <> [] -> fronts w (head_toks h ++ u).
Proof.
  intros H Ne. destruct H as [sq n w s n1 w1 args n' k Hs _|sq n w c n1 w1 s k Hc _|sq n w l k Hs|sq n w n1 w1 l n' w2 k Hb _ _|sq n w n1 w1 o w2 l n' w3 w4 c k Hb _ _ _ _|sq n w n1 w1 e args n2 w2 l n' w3 k Hb _ _ _];
    try (eapply leads_fronts; eassumption).
  destruct l as [|s l]; [now destruct Ne|]. destruct Hs as (w1 & B & _). unfold fronts. rewrite B. now right.
Qed.
Lemma mark_front n w m n' k : reads_mark n w m n' k -> exists t r, bare w = t :: r /\ hd T_Eoi (mark_toks m) = t /\ mark_toks m <> [].
Proof.
  intros H. destruct H as [n w w1 a n' k B _|n w w1 a n' k B _|n w p ps k B|n w p ps w1 a n' k B _|n w s k B]; eexists _, _; (split; [exact B|]); (split; [reflexivity|discriminate]).
Qed.
Lemma marks_front n w ms n' k u : reads_marks n w ms n' k -> (ms = [] /\ w = k /\ n' = n) \/ hd T_Eoi (bare w) = hd T_Eoi (flat_map mark_toks ms ++ u).
Proof.
  intros H. destruct H as [n w|n w m n1 w1 ms n' k Hm _]; [now left|]. right. destruct (mark_front _ _ _ _ _ Hm) as (t & r & B & E & Ne). rewrite B. cbn [flat_map].
  destruct (mark_toks m); [now destruct Ne|]. now rewrite <- E.
Qed.

(** ** Parts of readings *)

Lemma args_parts n w l n' k : reads_args n w l n' k ->
  match l with
  | [] => n' = n /\ k = w
  | (b, a) :: args => exists n1 w1, reads_arg b n w a n1 w1 /\ reads_args n1 w1 args n' k
  end.
Proof. destruct 1; eauto. Qed.
Lemma as_is_parts n w a n' k : reads_arg true n w a n' k -> w = arg_toks a ++ k /\ n' = n /\ forall s, a = ALit s -> lit_ok s = true.
Proof. inversion 1; subst. auto. Qed.
Lemma lit_parts n w s n' k : reads_arg false n w (ALit s) n' k -> n' = n /\ lit_ok s = true /\ bare w = T_GroupBegin :: map lit_tok s ++ T_GroupEnd :: k.
Proof. inversion 1; subst. auto. Qed.
Lemma bracket_parts n w l n' k : reads_arg false n w (ABracket l) n' k ->
  exists w1 w2, bare w = T_SquareBracketOpen :: w1 /\ reads_items n w1 l n' w2 /\ bare w2 = T_SquareBracketClose :: k.
Proof. inversion 1; subst. eauto. Qed.
Lemma group_parts n w l n' k : reads_arg false n w (AGroup l) n' k ->
  exists n1 w1 w2, leads false n w n1 T_GroupBegin w1 /\ reads_items n1 w1 l n' w2 /\ bare w2 = T_GroupEnd :: k.
Proof. inversion 1; subst. eauto 8. Qed.
Lemma scripts_parts n w ms l n' k : reads_arg false n w (AScripts ms l) n' k ->
  exists w1 n1 w2 w3, bare w = T_GroupBegin :: w1 /\ reads_marks n w1 ms n1 w2 /\ script_ahead w2 = false /\ reads_items n1 w2 l n' w3 /\ bare w3 = T_GroupEnd :: k.
Proof. inversion 1; subst. eauto 10. Qed.
Lemma symbol_parts n w s n' k : reads_arg false n w (ASym s) n' k -> leads false n w n' (raw s) k.
Proof. inversion 1; subst. assumption. Qed.
Lemma argument_parts n w h ms n' k : reads_arg false n w (AItem (Item h ms)) n' k ->
  exists n1 w1, reads_head false n w h n1 w1 /\ reads_marks n1 w1 ms n' k /\ (greedy mean (Item h ms) = true -> script_ahead k = false).
Proof. inversion 1; subst. eauto. Qed.
Lemma item_parts n w h ms l n' k : reads_items n w (Item h ms :: l) n' k ->
  exists n1 w1 n2 w2, reads_head true n w h n1 w1 /\ reads_marks n1 w1 ms n2 w2 /\ reads_items n2 w2 l n' k.
Proof. inversion 1; subst. eauto 9. Qed.
Lemma no_items n w n' k : reads_items n w [] n' k -> n' = n /\ k = w.
Proof. inversion 1; subst. auto. Qed.
Lemma no_marks n w n' k : reads_marks n w [] n' k -> n' = n /\ k = w.
Proof. inversion 1; subst. auto. Qed.
Lemma marks_parts n w m ms n' k : reads_marks n w (m :: ms) n' k -> exists n1 w1, reads_mark n w m n1 w1 /\ reads_marks n1 w1 ms n' k.
Proof. inversion 1; subst. eauto. Qed.
Lemma mark_parts n w m n' k : reads_mark n w m n' k ->
  match m with
  | FSub a => exists w1, bare w = T_Underscore :: w1 /\ reads_arg false n w1 a n' k
  | FSup a => exists w1, bare w = T_Circumflex :: w1 /\ reads_arg false n w1 a n' k
  | FPrimes ps None => exists p qs, ps = p :: qs /\ bare w = raw p :: map raw qs ++ k /\ n' = n
  | FPrimes ps (Some a) => exists p qs w1, ps = p :: qs /\ bare w = raw p :: map raw qs ++ T_Circumflex :: w1 /\ reads_arg false n w1 a n' k
  | FLimits s => bare w = raw s :: k /\ n' = n
  end.
Proof. destruct 1; eauto 9. Qed.
Lemma head_parts sq n w h n' k : reads_head sq n w h n' k ->
  match h with
  | HSym s args => exists n1 w1, leads sq n w n1 (raw s) w1 /\ reads_args n1 w1 (marked (as_is (tok s) args) args) n' k
  | HNum s => exists c r w1, s = c :: r /\ leads sq n w n' (char_token c) w1 /\ spells w1 (map char_token r) k
  | HWord l => n' = n /\ spells w (map raw l) k
  | HGroup l => exists n1 w1 w2, leads sq n w n1 T_GroupBegin w1 /\ reads_items n1 w1 l n' w2 /\ bare w2 = T_GroupEnd :: k
  | HFence o l c => exists n1 w1 w2 w3 w4, leads sq n w n1 (mean (lit "left")) w1 /\ bare w1 = raw o :: w2 /\ reads_items n1 w2 l n' w3 /\
      bare w3 = mean (lit "right") :: w4 /\ bare w4 = raw c :: k
  | HEnv e args l => exists n1 w1 n2 w2 w3, leads sq n w n1 (T_Begin e) w1 /\ reads_args n1 w1 (marked [] args) n2 w2 /\ reads_items n2 w2 l n' w3 /\ bare w3 = T_End e :: k
  end.
Proof. destruct 1; eauto 13. Qed.

(** ** Arguments and what is in sequences *)

Lemma den_arg_target x a prev g d m d' : in_sequence a = false -> den_arg x a prev g d = Some (m, d') -> exists c, den_target x a prev ClDefault g d = Some ((c, m), d').
Proof.
  intros A H. rewrite den_arg_eq in H. rewrite den_target_eq. destruct g as [l|s|l|s|i|? ?]; try discriminate H.
  - exists ClDefault. destruct a; try discriminate A; unfold dbind in *; destruct (den_items _ _ _ _ _ _ _) as [[ns d1]|]; try discriminate H; injection H as <- <-; reflexivity.
  - apply dbind_some in H as ([c m'] & d1 & H1 & H). injection H as <- <-. exists c. assert (seen x (next_as a ClDefault) = ClDefault) as -> by (unfold seen, next_as; now destruct (cx_hack x), (in_sequence a)). exact H1.
  - apply dguard_some in H as [St H]. apply dbind_some in H as ([c m'] & d1 & H1 & H). injection H as <- <-. exists c. now rewrite St.
Qed.
Lemma no_script_stop k : script_ahead k = false -> stop_ahead k.
Proof. unfold script_ahead, stop_ahead. destruct (bare k) as [|t r]; [reflexivity|]. cbn [hd]. now destruct (unwrap_math t). Qed.

(** ** Statements *)

Notation at_ := (at_ cfg local cmds).
Notation wins := (wins cfg usize_max).

(** The state may have another style and alphabet after the items of a sequence. *)
Definition items_good (n : nat) : Prop := forall l, items_size l < n -> forall x after prev acc infix d ns d' e p w p' k s,
  den_items x after prev acc infix l d = Some (ns, d') -> reads_items p w l p' k -> closer e (cx_bracket x) (bare k) after ->
  at_ p x d w s ->
  wins (body (CLoop e prev acc infix)) s (fun r s' => infix_node (snd r) (fst r) = ns /\ exists st tf, at_ p' (with_tf tf (with_style st x)) d' k s').
Definition arg_good (n : nat) : Prop := forall g, arg_size g < n -> forall x a prev d m d' p w p' k,
  in_sequence a = false -> den_arg x a prev g d = Some (m, d') -> reads_arg false p w g p' k ->
  exists t0 r, bare w = t0 :: r /\ starts (unwrap_math t0) = true /\
    (not_bracket mean g = true -> unwrap_math t0 <> T_SquareBracketOpen) /\
    forall s sp, at_ p x d r s -> wins (body (CTok (unwrap_math t0, sp) a prev)) s (fun v s' => snd v = m /\ at_ p' x d' k s').
Definition target_good (n : nat) : Prop := forall g, arg_size g < n -> forall x a prev next d c m d' p w p' k,
  den_target x a prev next g d = Some ((c, m), d') -> reads_arg false p w g p' k ->
  exists t0 r, bare w = t0 :: r /\ starts (unwrap_math t0) = true /\
    (not_bracket mean g = true -> unwrap_math t0 <> T_SquareBracketOpen) /\
    forall s sp, (in_sequence a = true -> class_ahead k ClEnd = next) -> at_ p x d r s -> wins (body (CTok (unwrap_math t0, sp) a prev)) s (fun v s' => v = (c, m) /\ at_ p' x d' k s').
(** Nothing goes on with a number. *)
Definition head_over (h : head) (k : list token) : Prop := match h with HNum _ => no_more_digits k | _ => True end.
(** Numbers and groups as items are in sequences, and words are read in another way. *)
Definition placed_head (a : parse_as) (h : head) : Prop := match h with HNum _ | HGroup _ => a = PaSequence | HWord _ => False | _ => True end.
Definition head_good (n : nat) : Prop := forall h, head_size h < n -> forall sq x a prev next d c m d' p w p' k,
  (sq = true -> in_sequence a = true) -> den_head x a prev next h d = Some ((c, m), d') -> placed_head a h -> reads_head sq p w h p' k ->
  exists t0 r, bare w = t0 :: r /\ word_char (cx_tf x) t0 = None /\ silent (unwrap_math t0) = false /\
    forall s sp, head_over h k -> (in_sequence a = true -> class_ahead k ClEnd = next) -> at_ p x d r s ->
      wins (body (CTok (unwrap_math t0, sp) a prev)) s (fun v s' => v = (c, m) /\ at_ p' x d' k s').
Definition marks_good (n : nat) : Prop := forall ms, marks_size ms < n -> forall x d vs b d' p w p' k s,
  values (den_mark x) ms d = Some (vs, d') -> scripts_of vs = Some b -> reads_marks p w ms p' k -> stop_ahead k ->
  at_ p x d w s ->
  wins (get_bounds None) s (fun bl s' => bl_bounds bl = fst b /\ bl_kind bl = snd b /\ at_ p' x d' k s').
End Form.
