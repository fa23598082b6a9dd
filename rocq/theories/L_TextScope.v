(** The loop over text with its stacks, and text that is read piece by piece. *)
From Verif Require Import Str M_SuperChar M_Transform M_Length M_Spec M_Ast M_Token M_Symbols M_Commands M_Env
  M_LatexError M_Lexer M_CustomCmds M_Queue M_Spacing M_Colors M_Leaf M_TextParser
  S_SuperChar S_Transform S_Lexer S_Queue S_Store S_Text
  L_SuperChar L_Transform L_Lexer L_Queue L_Args L_Store L_Sound L_Define L_Keep L_Reads L_Leaf L_Text.
Local Open Scope nat_scope.

(** ** What the kinds of tokens do *)

Definition kind_step (k : text_kind) (st : option text_style) (vo : option length_set) (s : text_state) : option text_result :=
  let size := tx_size s in
  let flushed := tx_snips s ++ flush_opt st size vo (tx_builder s) in
  match k with
  | KChar x => Some (match tx_builder s with
      | Some b => TrNext (mkTx (tx_styles s) (Some (b ++ with_accent x (tx_accent s))) (tx_snips s) None (tx_nest s) (tx_sizes s))
      | None => TrNext (pop_style (tx_snips s ++ [mkSnip st size vo x]) s)
      end)
  | KString x => Some (push_string x st size vo s)
  | KNothing => Some (TrNext (match tx_builder s with Some _ => s | None => pop_style (tx_snips s) s end))
  | KAccent a => match tx_builder s with
      | Some _ => Some (TrNext (mkTx (tx_styles s) (tx_builder s) (tx_snips s) (Some a) (tx_nest s) (tx_sizes s)))
      | None => None
      end
  | KOpen => Some (TrNext (match tx_builder s with
      | None => mkTx (tx_styles s) (Some []) (tx_snips s) (tx_accent s) (tx_nest s) (tx_sizes s)
      | Some _ => mkTx (tx_styles s) (tx_builder s) (tx_snips s) (tx_accent s) (S (tx_nest s)) (tx_sizes s)
      end))
  | KClose => match tx_builder s with
      | None => None
      | Some b => Some (match tx_nest s with
          | S nest =>
              let had_sizes := match tx_sizes s with (d, n, _) :: _ => (d =? length (tx_styles s)) && (nest <? n) | [] => false end%nat in
              TrNext (if had_sizes
                      then mkTx (tx_styles s) (Some []) flushed (tx_accent s) nest (discard_dead_sizes (tx_sizes s) (length (tx_styles s)) nest)
                      else mkTx (tx_styles s) (Some b) (tx_snips s) (tx_accent s) nest (tx_sizes s))
          | O => TrNext (pop_style flushed s)
          end)
      end
  | KStyle f => Some (TrNext (push_style (f st) vo flushed s))
  | KSize z => Some (match tx_builder s with
      | Some b => TrNext (mkTx (tx_styles s) (Some []) flushed (tx_accent s) (tx_nest s) ((length (tx_styles s), tx_nest s, z) :: tx_sizes s))
      | None => TrNext (pop_style (tx_snips s) s)
      end)
  | KRaise => Some (TrRaise (mkTx (tx_styles s) (tx_builder s) flushed (tx_accent s) (tx_nest s) (tx_sizes s)))
  | KNone => None
  end.

Lemma step_kind m t st vo s :
  match kind_step (text_kind_of m t) st vo s with
  | Some r => text_token_step m t st vo s = r
  | None => forall s', text_token_step m t st vo s <> TrNext s' /\ text_token_step m t st vo s <> TrRaise s'
  end.
Proof.
  assert (Ch : forall c, match kind_step (char_kind c) st vo s with
    | Some r => push_char c st (tx_size s) vo s = r
    | None => forall s', push_char c st (tx_size s) vo s <> TrNext s' /\ push_char c st (tx_size s) vo s <> TrRaise s' end).
  { intros c. unfold char_kind, push_char. destruct (sc_chars c); cbn [kind_step]; [now destruct (tx_builder s)|]. intros s'. split; discriminate. }
  destruct t; cbn [text_kind_of text_token_step];
    try (destruct m; cbn [kind_step]; try apply Ch; try (intros s'; split; discriminate); try reflexivity; fail).
  all: try apply Ch.
  all: try (cbn [kind_step]; match goal with |- context [combine_style ?a ?b] =>
    replace (combine_style a b) with (style_within a b) by (destruct a as [[]|], b as [[]|]; reflexivity); reflexivity end).
  - cbn [kind_step]. destruct (tx_builder s); [reflexivity|]. intros s'. split; discriminate.
  - destruct m; cbn [kind_step]; [intros s'; split; discriminate|]. destruct (space_char l); [apply Ch|reflexivity].
  - match goal with |- context [match ?x with MMath => _ | MMathOrText => _ end] => destruct x end; [destruct m; cbn [kind_step]; [intros s'; split; discriminate|]|]; apply Ch.
  - match goal with x : text_token |- _ => destruct x end; destruct m; cbn [kind_step]; try apply Ch; try (intros s'; split; discriminate); try reflexivity.
    + destruct (tx_builder s); [reflexivity|]. intros s'. split; discriminate.
Qed.

(** ** Sizes that are in force *)

Definition alive (depth nest : nat) (l : list (nat * nat * text_size)) : Prop :=
  match l with (d, n, _) :: _ => d < depth \/ (d = depth /\ n <= nest) | [] => True end.
Definition made_at (depth nest : nat) (x : nat * nat * text_size) : Prop := fst x = (depth, nest).
Lemma discard_alive depth nest l : alive depth nest l -> discard_dead_sizes l depth nest = l.
Proof.
  destruct l as [|[[d n] z] r]; [reflexivity|]. cbn [alive discard_dead_sizes]. intros H.
  assert (depth <? d = false) as -> by (apply Nat.ltb_ge; lia). destruct (d =? depth) eqn:E; [|reflexivity]. apply Nat.eqb_eq in E.
  assert (nest <? n = false) as -> by (apply Nat.ltb_ge; lia). reflexivity.
Qed.
Lemma discard_ext depth nest d n e l : Forall (made_at d n) e -> depth < d \/ (d = depth /\ nest < n) -> alive depth nest l ->
  discard_dead_sizes (e ++ l) depth nest = l.
Proof.
  intros F H A. induction F as [|[[d' n'] z] e M _ IH]; [now apply discard_alive|]. injection M as -> ->. cbn [app discard_dead_sizes].
  destruct (depth <? d) eqn:E; [exact IH|]. apply Nat.ltb_ge in E. destruct H as [H|[-> H]]; [lia|]. rewrite Nat.eqb_refl. apply Nat.ltb_lt in H. rewrite H. exact IH.
Qed.
Lemma alive_more depth nest depth' nest' l : alive depth nest l -> depth < depth' \/ (depth = depth' /\ nest <= nest') -> alive depth' nest' l.
Proof. destruct l as [|[[d n] z] r]; [trivial|]. cbn. lia. Qed.

(** ** Steps of the loop *)

Definition reader (cfg : parser_cfg) (m : bool) : St queue qtok := if m then q_next_any cfg else q_next cfg.
Lemma loop_step cfg m f s q p st vo rest : tx_styles s = (p, st, vo) :: rest ->
  text_loop cfg m (S f) s q =
  match reader cfg m q with
  | (Ok t, q1) =>
      match text_token_step m (qt_tok t) st vo s with
      | TrNext s' => text_loop cfg m f s' q1
      | TrRaise s' =>
          match parse_string_literal cfg q1 with
          | (Ok (spec, sp), q2) =>
              match raise_length spec sp with
              | Ok new => text_loop cfg m f (push_style st (Some (match vo with Some v => set_add v new | None => new end)) (tx_snips s') s') q2
              | Err e => (Err e, q2)
              | Crash c => (Crash c, q2)
              end
          | (Err e, q2) => (Err e, q2)
          | (Crash c, q2) => (Crash c, q2)
          end
      | TrErr k => (Err (mkErr (qt_span t) k), q1)
      | TrCrash => (Crash Undefined, q1)
      end
  | (Err e, q1) => (Err e, q1)
  | (Crash c, q1) => (Crash c, q1)
  end.
Proof.
  intros E. cbn [text_loop]. rewrite E. unfold sbind, reader.
  destruct m; match goal with |- match ?x with _ => _ end = _ => destruct x as [[t|e|c] q1] end; try reflexivity;
    destruct (text_token_step _ _ _ _ _); try reflexivity; destruct (parse_string_literal cfg q1) as [[[spec sp]|e|c] q2]; try reflexivity;
    unfold sres; destruct (raise_length spec sp); reflexivity.
Qed.

Section Loop.
Context (cfg : parser_cfg) (m : bool).
Notation takes := (takes cfg m).
Notation takes_length := (takes_length cfg).
Notation reads_items := (reads_items cfg m).
Notation reads_arg := (reads_arg cfg m).
Notation loop := (text_loop cfg m).
Definition stuck (r : res (list snippet) * queue) : Prop := fst r = Crash OutOfFuel.
(** From [s] and [q] to [s'] and [q'] in exactly [n] rounds. *)
Definition moves (n : nat) (s : text_state) (q : queue) (s' : text_state) (q' : queue) : Prop :=
  (forall f, loop (n + f) s q = loop f s' q') /\ (forall f, f < n -> stuck (loop f s q)).
Lemma moves_zero s q : moves 0 s q s q.
Proof. split; [reflexivity|]. intros f H. lia. Qed.
Lemma moves_trans n1 n2 s q s1 q1 s2 q2 : moves n1 s q s1 q1 -> moves n2 s1 q1 s2 q2 -> moves (n1 + n2) s q s2 q2.
Proof.
  intros [A1 B1] [A2 B2]. split; [intros f; now rewrite <- Nat.add_assoc, A1|]. intros f H. destruct (Nat.lt_ge_cases f n1) as [L|L]; [now apply B1|].
  replace f with (n1 + (f - n1)) by lia. rewrite A1. apply B2. lia.
Qed.
Lemma moves_ok n s q s' q' f r qe : moves n s q s' q' -> loop f s q = (Ok r, qe) -> exists f', f = n + f' /\ loop f' s' q' = (Ok r, qe).
Proof.
  intros [A B] E. destruct (Nat.lt_ge_cases f n) as [L|L]; [apply B in L; rewrite E in L; discriminate L|]. exists (f - n). split; [lia|]. rewrite <- A. rewrite <- E. f_equal. lia.
Qed.
Lemma loop_zero s q p st vo rest : tx_styles s = (p, st, vo) :: rest -> stuck (loop 0 s q).
Proof. intros E. unfold stuck. cbn [text_loop]. now rewrite E. Qed.
Lemma move_next s q p st vo rest k q1 s' : tx_styles s = (p, st, vo) :: rest -> takes q k q1 -> kind_step k st vo s = Some (TrNext s') -> moves 1 s q s' q1.
Proof.
  intros E (t & En & Ek) Es. pose proof (step_kind m (qt_tok t) st vo s) as K. rewrite Ek, Es in K. split.
  - intros f. cbn [Nat.add]. rewrite (loop_step cfg m f s q p st vo rest E). change (reader cfg m q = (Ok t, q1)) in En. now rewrite En, K.
  - intros f H. assert (f = 0) as -> by lia. exact (loop_zero s q p st vo rest E).
Qed.
Lemma move_raise s q p st vo rest q1 v q2 : tx_styles s = (p, st, vo) :: rest -> takes q KRaise q1 -> takes_length q1 v q2 ->
  moves 1 s q (push_style st (Some (match vo with Some u => set_add u v | None => v end)) (tx_snips s ++ flush_opt st (tx_size s) vo (tx_builder s)) s) q2.
Proof.
  intros E (t & En & Ek) (spec & sp & El & Er). pose proof (step_kind m (qt_tok t) st vo s) as K. rewrite Ek in K. cbn [kind_step] in K. split.
  - intros f. cbn [Nat.add]. rewrite (loop_step cfg m f s q p st vo rest E). change (reader cfg m q = (Ok t, q1)) in En. now rewrite En, K, El, Er.
  - intros f H. assert (f = 0) as -> by lia. exact (loop_zero s q p st vo rest E).
Qed.

(** Characters shown so far: those of the snippets, and those of the builder. *)
Lemma all_shown_app a b : all_shown (a ++ b) = all_shown a ++ all_shown b.
Proof. apply flat_map_app. Qed.
Lemma shown_app k a b : shown k (a ++ b) = shown k a ++ shown k b.
Proof. apply map_app. Qed.
Lemma flush_shown k b : all_shown (flush (lk_style k) (lk_size k) (lk_voffset k) b) = shown k b.
Proof. destruct b; [reflexivity|]. cbn [flush all_shown flat_map snippet_look sn_style sn_size sn_voffset sn_text]. rewrite app_nil_r. now destruct k. Qed.
Lemma one_shown k x : all_shown [mkSnip (lk_style k) (lk_size k) (lk_voffset k) x] = shown k x.
Proof. cbn [all_shown flat_map snippet_look sn_style sn_size sn_voffset sn_text]. rewrite app_nil_r. now destruct k. Qed.

(** The state within the braces of a group or an argument. *)
Record within (k : look) (a : option N) (b : str) (s : text_state) : Prop := mkWithin {
  wi_styles : exists p rest, tx_styles s = (p, lk_style k, lk_voffset k) :: rest;
  wi_builder : tx_builder s = Some b;
  wi_size : tx_size s = lk_size k;
  wi_accent : tx_accent s = a;
  wi_alive : alive (length (tx_styles s)) (tx_nest s) (tx_sizes s) }.
(** The state before an argument. *)
Record before (k : look) (a : option N) (p : nat) (rest : list (nat * option text_style * option length_set)) (s : text_state) : Prop := mkBefore {
  be_styles : tx_styles s = (p, lk_style k, lk_voffset k) :: rest;
  be_builder : tx_builder s = None;
  be_size : tx_size s = lk_size k;
  be_accent : tx_accent s = a;
  be_nest : tx_nest s = 0;
  be_alive : alive (length rest) p (tx_sizes s) }.
(** The state after items. *)
Definition after_items (k : look) (b : str) (s : text_state) (l : list (N * look)) (k' : look) (a' : option N) (s' : text_state) : Prop :=
  exists b' ext, within k' a' b' s' /\ lk_style k' = lk_style k /\ lk_voffset k' = lk_voffset k /\
    tx_styles s' = tx_styles s /\ tx_nest s' = tx_nest s /\ tx_sizes s' = ext ++ tx_sizes s /\ Forall (made_at (length (tx_styles s)) (tx_nest s)) ext /\
    all_shown (tx_snips s') ++ shown k' b' = all_shown (tx_snips s) ++ shown k b ++ l.
(** The state after an argument. *)
Definition after_arg (p : nat) (rest : list (nat * option text_style * option length_set)) (s : text_state) (l : list (N * look)) (a' : option N) (s' : text_state) : Prop :=
  tx_styles s' = rest /\ tx_nest s' = p /\ tx_sizes s' = tx_sizes s /\ tx_accent s' = a' /\
  tx_builder s' = match rest with [] => None | _ => Some [] end /\ all_shown (tx_snips s') = all_shown (tx_snips s) ++ l.

Lemma after_nil k a b s : within k a b s -> after_items k b s [] k a s.
Proof. intros W. exists b, []. split; [exact W|]. split; [reflexivity|]. split; [reflexivity|]. split; [reflexivity|]. split; [reflexivity|]. split; [reflexivity|]. split; [constructor|]. now rewrite app_nil_r. Qed.
(** One step that stays in the same look, and then items. *)
Lemma after_cons k b s s1 b1 l1 l k' a' s' : tx_styles s1 = tx_styles s -> tx_nest s1 = tx_nest s -> tx_sizes s1 = tx_sizes s ->
  all_shown (tx_snips s1) ++ shown k b1 = all_shown (tx_snips s) ++ shown k b ++ l1 ->
  after_items k b1 s1 l k' a' s' -> after_items k b s (l1 ++ l) k' a' s'.
Proof.
  intros E1 E2 E3 E4 (b' & ext & W & K1 & K2 & K3 & K4 & K5 & K6 & K7). exists b', ext. rewrite E1, E2, E3 in *.
  split; [exact W|]. split; [exact K1|]. split; [exact K2|]. split; [exact K3|]. split; [exact K4|]. split; [exact K5|]. split; [exact K6|]. now rewrite K7, app_assoc, E4, <- !app_assoc.
Qed.

Lemma pop_after k a p rest s snips l : before k a p rest s -> all_shown snips = all_shown (tx_snips s) ++ l -> after_arg p rest s l a (pop_style snips s).
Proof.
  intros B E. unfold pop_style. rewrite (be_styles _ _ _ _ _ B). repeat split; cbn [tx_styles tx_nest tx_sizes tx_accent tx_builder tx_snips]; try assumption.
  - apply discard_alive, (be_alive _ _ _ _ _ B).
  - apply (be_accent _ _ _ _ _ B).
Qed.
(** Closing the brace of an argument. *)
Lemma close_arg k a b p rest s0 s l0 k1 q q1 : tx_styles s0 = (p, lk_style k, lk_voffset k) :: rest -> tx_nest s0 = 0 -> alive (length rest) p (tx_sizes s0) ->
  after_items k b s0 l0 k1 a s -> takes q KClose q1 -> exists s', moves 1 s q s' q1 /\ after_arg p rest s0 (shown k b ++ l0) a s'.
Proof.
  intros E N A (b' & ext & W & K1 & K2 & K3 & K4 & K5 & K6 & K7) T. rewrite E in K3.
  exists (pop_style (tx_snips s ++ flush (lk_style k1) (lk_size k1) (lk_voffset k1) b') s). split.
  - apply (move_next s q p (lk_style k) (lk_voffset k) rest KClose q1); [exact K3|exact T|]. cbn [kind_step]. rewrite (wi_builder _ _ _ _ W), K4, N. cbn [flush_opt]. now rewrite (wi_size _ _ _ _ W), K1, K2.
  - unfold pop_style. rewrite K3. repeat split; cbn [tx_styles tx_nest tx_sizes tx_accent tx_builder tx_snips].
    + rewrite K5. rewrite E, N in K6. apply (discard_ext _ _ _ _ _ _ K6); [left; cbn; lia|exact A].
    + apply (wi_accent _ _ _ _ W).
    + now rewrite all_shown_app, flush_shown, K7.
Qed.
(** Closing the brace of a group. *)
Lemma close_group k a b s0 s nest l0 k1 q q1 p rest : tx_styles s0 = (p, lk_style k, lk_voffset k) :: rest -> tx_nest s0 = S nest -> alive (length (tx_styles s0)) nest (tx_sizes s0) -> tx_size s0 = lk_size k ->
  after_items k b s0 l0 k1 a s -> takes q KClose q1 ->
  exists s' b', moves 1 s q s' q1 /\ within k a b' s' /\ tx_styles s' = tx_styles s0 /\ tx_nest s' = nest /\ tx_sizes s' = tx_sizes s0 /\
    all_shown (tx_snips s') ++ shown k b' = all_shown (tx_snips s0) ++ shown k b ++ l0.
Proof.
  intros E N A Z (b' & ext & W & K1 & K2 & K3 & K4 & K5 & K6 & K7) T.
  assert (M : forall r, kind_step KClose (lk_style k) (lk_voffset k) s = Some (TrNext r) -> moves 1 s q r q1).
  { intros r H. apply (move_next s q p (lk_style k) (lk_voffset k) rest KClose q1); [now rewrite K3, E|exact T|exact H]. }
  cbn [kind_step] in M. rewrite (wi_builder _ _ _ _ W), K4, N in M. cbn [flush_opt] in M.
  assert (Ek : lk_size k1 = lk_size k -> k1 = k) by (intros X; destruct k1, k; cbn in *; congruence).
  destruct ext as [|[[d n] z] ext].
  - assert (k1 = k) as ->. { apply Ek. rewrite <- (wi_size _ _ _ _ W), <- Z. unfold tx_size. now rewrite K5. }
    assert (H : match tx_sizes s with (d, n, _) :: _ => (d =? length (tx_styles s)) && (nest <? n) | [] => false end = false).
    { rewrite K5, K3. cbn [app]. clear -A. destruct (tx_sizes s0) as [|[[d n] z] r]; [reflexivity|]. cbn [alive] in A. destruct (d =? _) eqn:Ed; [|reflexivity]. apply Nat.eqb_eq in Ed. cbn [andb]. apply Nat.ltb_ge. lia. }
    rewrite H in M. specialize (M _ eq_refl). eexists; exists b'. split; [exact M|]. split.
    + split; cbn [tx_styles tx_builder tx_nest tx_sizes tx_accent]; try reflexivity.
      * rewrite K3, E. eauto.
      * rewrite <- (wi_size _ _ _ _ W). reflexivity.
      * apply (wi_accent _ _ _ _ W).
      * rewrite K3, K5. exact A.
    + cbn [tx_styles tx_nest tx_sizes tx_snips]. auto.
  - inversion K6 as [|? ? M1 M2]; subst. injection M1 as -> ->.
    assert (H : match tx_sizes s with (d, n, _) :: _ => (d =? length (tx_styles s)) && (nest <? n) | [] => false end = true).
    { rewrite K5, K3. cbn [app]. rewrite Nat.eqb_refl, N. cbn [andb]. apply Nat.ltb_lt. lia. }
    rewrite H in M. specialize (M _ eq_refl). eexists; exists []. split; [exact M|].
    assert (D : discard_dead_sizes (tx_sizes s) (length (tx_styles s)) nest = tx_sizes s0).
    { rewrite K5, K3. apply (discard_ext _ _ _ _ _ _ K6); [right; lia|exact A]. }
    rewrite D. split.
    + split; cbn [tx_styles tx_builder tx_nest tx_sizes tx_accent]; try reflexivity.
      * rewrite K3, E. eauto.
      * rewrite <- Z. reflexivity.
      * apply (wi_accent _ _ _ _ W).
      * rewrite K3. exact A.
    + cbn [tx_styles tx_nest tx_sizes tx_snips]. repeat split; auto. cbn [shown map]. rewrite app_nil_r, all_shown_app, <- K1, <- K2, (wi_size _ _ _ _ W), flush_shown. exact K7.
Qed.

Lemma text_moves :
  (forall k a q l k' a' q', reads_items k a q l k' a' q' -> forall b s, within k a b s -> exists n s', moves n s q s' q' /\ after_items k b s l k' a' s') /\
  (forall k a q l a' q', reads_arg k a q l a' q' -> forall p rest s, before k a p rest s -> exists n s', moves (S n) s q s' q' /\ after_arg p rest s l a' s').
Proof.
  apply reads_text_min.
  - intros k a q b s W. exists 0, s. split; [apply moves_zero|now apply after_nil].
  - intros k a q x q1 l k' a' q' T _ IH b s W. destruct (wi_styles _ _ _ _ W) as (p & rest & Es).
    set (s1 := mkTx (tx_styles s) (Some (b ++ with_accent x a)) (tx_snips s) None (tx_nest s) (tx_sizes s)).
    assert (M : moves 1 s q s1 q1) by (apply (move_next s q p _ _ rest _ q1 s1 Es T); cbn [kind_step]; now rewrite (wi_builder _ _ _ _ W), (wi_accent _ _ _ _ W)).
    destruct (IH (b ++ with_accent x a) s1) as (n & s' & M' & A'); [split; try reflexivity; [exists p, rest; exact Es|exact (wi_size _ _ _ _ W)|exact (wi_alive _ _ _ _ W)]|].
    exists (1 + n), s'. split; [exact (moves_trans _ _ _ _ _ _ _ _ M M')|]. apply (after_cons k b s s1 (b ++ with_accent x a)); auto. cbn [s1 tx_snips]. now rewrite shown_app.
  - intros k a q x q1 l k' a' q' T _ IH b s W. destruct (wi_styles _ _ _ _ W) as (p & rest & Es).
    set (s1 := mkTx (tx_styles s) (Some (b ++ x)) (tx_snips s) a (tx_nest s) (tx_sizes s)).
    assert (M : moves 1 s q s1 q1) by (apply (move_next s q p _ _ rest _ q1 s1 Es T); cbn [kind_step]; unfold push_string; now rewrite (wi_builder _ _ _ _ W), (wi_accent _ _ _ _ W)).
    destruct (IH (b ++ x) s1) as (n & s' & M' & A'); [split; try reflexivity; [exists p, rest; exact Es|exact (wi_size _ _ _ _ W)|exact (wi_alive _ _ _ _ W)]|].
    exists (1 + n), s'. split; [exact (moves_trans _ _ _ _ _ _ _ _ M M')|]. apply (after_cons k b s s1 (b ++ x)); auto. cbn [s1 tx_snips]. now rewrite shown_app.
  - intros k a q q1 l k' a' q' T _ IH b s W. destruct (wi_styles _ _ _ _ W) as (p & rest & Es).
    assert (M : moves 1 s q s q1) by (apply (move_next s q p _ _ rest _ q1 s Es T); cbn [kind_step]; now rewrite (wi_builder _ _ _ _ W)).
    destruct (IH b s W) as (n & s' & M' & A'). exists (1 + n), s'. split; [exact (moves_trans _ _ _ _ _ _ _ _ M M')|exact A'].
  - intros k a q c q1 l k' a' q' T _ IH b s W. destruct (wi_styles _ _ _ _ W) as (p & rest & Es).
    set (s1 := mkTx (tx_styles s) (Some b) (tx_snips s) (Some c) (tx_nest s) (tx_sizes s)).
    assert (M : moves 1 s q s1 q1) by (apply (move_next s q p _ _ rest _ q1 s1 Es T); cbn [kind_step]; now rewrite (wi_builder _ _ _ _ W)).
    destruct (IH b s1) as (n & s' & M' & A'); [split; try reflexivity; [exists p, rest; exact Es|exact (wi_size _ _ _ _ W)|exact (wi_alive _ _ _ _ W)]|].
    exists (1 + n), s'. split; [exact (moves_trans _ _ _ _ _ _ _ _ M M')|]. apply (after_cons k b s s1 b []); auto. cbn [s1 tx_snips]. now rewrite app_nil_r.
  - intros k a q z q1 l k' a' q' T _ IH b s W. destruct (wi_styles _ _ _ _ W) as (p & rest & Es).
    set (s1 := mkTx (tx_styles s) (Some []) (tx_snips s ++ flush (lk_style k) (lk_size k) (lk_voffset k) b) a (tx_nest s) ((length (tx_styles s), tx_nest s, z) :: tx_sizes s)).
    assert (M : moves 1 s q s1 q1) by (apply (move_next s q p _ _ rest _ q1 s1 Es T); cbn [kind_step]; now rewrite (wi_builder _ _ _ _ W), (wi_accent _ _ _ _ W), (wi_size _ _ _ _ W)).
    destruct (IH [] s1) as (n & s' & M' & A'); [split; try reflexivity; [exists p, rest; exact Es|cbn; lia]|].
    exists (1 + n), s'. split; [exact (moves_trans _ _ _ _ _ _ _ _ M M')|].
    destruct A' as (b' & ext & W' & K1 & K2 & K3 & K4 & K5 & K6 & K7). exists b', (ext ++ [(length (tx_styles s), tx_nest s, z)]).
    split; [exact W'|]. split; [exact K1|]. split; [exact K2|]. split; [exact K3|]. split; [exact K4|]. split; [rewrite K5; cbn [s1 tx_sizes]; now rewrite <- app_assoc|].
    split; [apply Forall_app; split; [exact K6|now repeat constructor]|]. rewrite K7. cbn [s1 tx_snips shown map]. now rewrite all_shown_app, flush_shown, <- app_assoc.
  - intros k a q q1 l1 k1 a1 q2 q3 l2 k' a' q' T1 _ IH1 T2 _ IH2 b s W. destruct (wi_styles _ _ _ _ W) as (p & rest & Es).
    set (s1 := mkTx (tx_styles s) (Some b) (tx_snips s) a (S (tx_nest s)) (tx_sizes s)).
    assert (M : moves 1 s q s1 q1) by (apply (move_next s q p _ _ rest _ q1 s1 Es T1); cbn [kind_step]; now rewrite (wi_builder _ _ _ _ W), (wi_accent _ _ _ _ W)).
    pose proof (wi_alive _ _ _ _ W) as Al.
    destruct (IH1 b s1) as (n1 & s2 & M1 & A1); [split; try reflexivity; [exists p, rest; exact Es|exact (wi_size _ _ _ _ W)|cbn [s1 tx_styles tx_nest tx_sizes]; apply (alive_more _ _ _ _ _ Al); lia]|].
    destruct (close_group k a1 b s1 s2 (tx_nest s) l1 k1 q2 q3 p rest Es eq_refl Al (wi_size _ _ _ _ W) A1 T2) as (s3 & b3 & M3 & W3 & E1 & E2 & E3 & E4).
    destruct (IH2 b3 s3 W3) as (n4 & s' & M4 & A4). exists (1 + (n1 + (1 + n4))), s'.
    split; [exact (moves_trans _ _ _ _ _ _ _ _ M (moves_trans _ _ _ _ _ _ _ _ M1 (moves_trans _ _ _ _ _ _ _ _ M3 M4)))|]. now apply (after_cons k b s s3 b3).
  - intros k a q f q1 l1 a1 q2 l2 k' a' q' T _ IH1 _ IH2 b s W. destruct (wi_styles _ _ _ _ W) as (p & rest & Es).
    set (s1 := push_style (f (lk_style k)) (lk_voffset k) (tx_snips s ++ flush (lk_style k) (lk_size k) (lk_voffset k) b) s).
    assert (M : moves 1 s q s1 q1) by (apply (move_next s q p _ _ rest _ q1 s1 Es T); cbn [kind_step]; now rewrite (wi_builder _ _ _ _ W), (wi_size _ _ _ _ W)).
    destruct (IH1 (tx_nest s) (tx_styles s) s1) as (n1 & s2 & M1 & (K1 & K2 & K3 & K4 & K5 & K6)); [split; try reflexivity; [exact (wi_size _ _ _ _ W)|exact (wi_accent _ _ _ _ W)|exact (wi_alive _ _ _ _ W)]|].
    assert (W2 : within k a1 [] s2).
    { split; [rewrite K1; eauto|rewrite K5, Es; reflexivity|unfold tx_size; rewrite K3; exact (wi_size _ _ _ _ W)|exact K4|rewrite K1, K2, K3; exact (wi_alive _ _ _ _ W)]. }
    destruct (IH2 [] s2 W2) as (n2 & s' & M2 & A2). exists (1 + (S n1 + n2)), s'. split; [exact (moves_trans _ _ _ _ _ _ _ _ M (moves_trans _ _ _ _ _ _ _ _ M1 M2))|].
    apply (after_cons k b s s2 []); auto. rewrite K6. cbn [s1 push_style tx_snips shown map]. rewrite app_nil_r, all_shown_app, flush_shown. now rewrite app_assoc.
  - intros k a q q1 v q2 l1 a1 q3 l2 k' a' q' T1 T2 _ IH1 _ IH2 b s W. destruct (wi_styles _ _ _ _ W) as (p & rest & Es).
    pose proof (move_raise s q p _ _ rest q1 v q2 Es T1 T2) as M. rewrite (wi_builder _ _ _ _ W), (wi_size _ _ _ _ W) in M. cbn [flush_opt] in M. set (s1 := push_style _ _ _ s) in M.
    destruct (IH1 (tx_nest s) (tx_styles s) s1) as (n1 & s2 & M1 & (K1 & K2 & K3 & K4 & K5 & K6)); [split; try reflexivity; [exact (wi_size _ _ _ _ W)|exact (wi_accent _ _ _ _ W)|exact (wi_alive _ _ _ _ W)]|].
    assert (W2 : within k a1 [] s2).
    { split; [rewrite K1; eauto|rewrite K5, Es; reflexivity|unfold tx_size; rewrite K3; exact (wi_size _ _ _ _ W)|exact K4|rewrite K1, K2, K3; exact (wi_alive _ _ _ _ W)]. }
    destruct (IH2 [] s2 W2) as (n2 & s' & M2 & A2). exists (1 + (S n1 + n2)), s'. split; [exact (moves_trans _ _ _ _ _ _ _ _ M (moves_trans _ _ _ _ _ _ _ _ M1 M2))|].
    apply (after_cons k b s s2 []); auto. rewrite K6. cbn [s1 push_style tx_snips shown map]. rewrite app_nil_r, all_shown_app, flush_shown. now rewrite app_assoc.
  - intros k a q q1 l k1 a' q2 q' T1 _ IH T2 p rest s B.
    set (s1 := mkTx (tx_styles s) (Some []) (tx_snips s) a (tx_nest s) (tx_sizes s)).
    assert (M : moves 1 s q s1 q1) by (apply (move_next s q p _ _ rest _ q1 s1 (be_styles _ _ _ _ _ B) T1); cbn [kind_step]; now rewrite (be_builder _ _ _ _ _ B), (be_accent _ _ _ _ _ B)).
    assert (W1 : within k a [] s1). { split; try reflexivity; [exists p, rest; exact (be_styles _ _ _ _ _ B)|exact (be_size _ _ _ _ _ B)|]. cbn [s1 tx_styles tx_nest tx_sizes]. apply (alive_more _ _ _ _ _ (be_alive _ _ _ _ _ B)). rewrite (be_styles _ _ _ _ _ B). cbn. lia. }
    destruct (IH [] s1 W1) as (n1 & s2 & M1 & A1).
    destruct (close_arg k a' [] p rest s1 s2 l k1 q2 q' (be_styles _ _ _ _ _ B) (be_nest _ _ _ _ _ B) (be_alive _ _ _ _ _ B) A1 T2) as (s3 & M3 & A3).
    exists (n1 + 1), s3. split; [exact (moves_trans _ _ _ _ _ _ _ _ M (moves_trans _ _ _ _ _ _ _ _ M1 M3))|exact A3].
  - intros k a q x q' T p rest s B. exists 0, (pop_style (tx_snips s ++ [mkSnip (lk_style k) (lk_size k) (lk_voffset k) x]) s). split.
    + apply (move_next s q p _ _ rest _ q' _ (be_styles _ _ _ _ _ B) T). cbn [kind_step]. now rewrite (be_builder _ _ _ _ _ B), (be_size _ _ _ _ _ B).
    + apply (pop_after k); [exact B|]. now rewrite all_shown_app, one_shown.
  - intros k a q x q' T p rest s B. exists 0, (pop_style (tx_snips s ++ [mkSnip (lk_style k) (lk_size k) (lk_voffset k) x]) s). split.
    + apply (move_next s q p _ _ rest _ q' _ (be_styles _ _ _ _ _ B) T). cbn [kind_step]. unfold push_string. now rewrite (be_builder _ _ _ _ _ B), (be_size _ _ _ _ _ B).
    + apply (pop_after k); [exact B|]. now rewrite all_shown_app, one_shown.
  - intros k a q q' T p rest s B. exists 0, (pop_style (tx_snips s) s). split.
    + apply (move_next s q p _ _ rest _ q' _ (be_styles _ _ _ _ _ B) T). cbn [kind_step]. now rewrite (be_builder _ _ _ _ _ B).
    + apply (pop_after k); [exact B|]. now rewrite app_nil_r.
  - intros k a q z q' T p rest s B. exists 0, (pop_style (tx_snips s) s). split.
    + apply (move_next s q p _ _ rest _ q' _ (be_styles _ _ _ _ _ B) T). cbn [kind_step]. now rewrite (be_builder _ _ _ _ _ B).
    + apply (pop_after k); [exact B|]. now rewrite app_nil_r.
  - intros k a q f q1 l1 a1 q2 l2 k' a' q3 q' T1 _ IH1 _ IH2 T2 p rest s B.
    set (s1 := push_style (f (lk_style k)) (lk_voffset k) (tx_snips s) s).
    assert (M : moves 1 s q s1 q1) by (apply (move_next s q p _ _ rest _ q1 s1 (be_styles _ _ _ _ _ B) T1); cbn [kind_step]; rewrite (be_builder _ _ _ _ _ B); cbn [flush_opt]; now rewrite app_nil_r).
    assert (Al : alive (length (tx_styles s)) 0 (tx_sizes s)) by (apply (alive_more _ _ _ _ _ (be_alive _ _ _ _ _ B)); rewrite (be_styles _ _ _ _ _ B); cbn; lia).
    destruct (IH1 (tx_nest s) (tx_styles s) s1) as (n1 & s2 & M1 & (K1 & K2 & K3 & K4 & K5 & K6)); [split; try reflexivity; [exact (be_size _ _ _ _ _ B)|exact (be_accent _ _ _ _ _ B)|rewrite (be_nest _ _ _ _ _ B); exact Al]|].
    assert (W2 : within k a1 [] s2).
    { split; [rewrite K1, (be_styles _ _ _ _ _ B); eauto|rewrite K5, (be_styles _ _ _ _ _ B); reflexivity|unfold tx_size; rewrite K3; exact (be_size _ _ _ _ _ B)|exact K4|rewrite K1, K2, K3, (be_nest _ _ _ _ _ B); exact Al]. }
    destruct (IH2 [] s2 W2) as (n2 & s3 & M2 & A2).
    destruct (close_arg k a' [] p rest s2 s3 l2 k' q3 q') as (s4 & M4 & (J1 & J2 & J3 & J4 & J5 & J6)); [rewrite K1; exact (be_styles _ _ _ _ _ B)|now rewrite K2, (be_nest _ _ _ _ _ B)|rewrite K3; exact (be_alive _ _ _ _ _ B)|exact A2|exact T2|].
    exists (S n1 + (n2 + 1)), s4. split; [exact (moves_trans _ _ _ _ _ _ _ _ M (moves_trans _ _ _ _ _ _ _ _ M1 (moves_trans _ _ _ _ _ _ _ _ M2 M4)))|].
    split; [exact J1|]. split; [exact J2|]. split; [now rewrite J3|]. split; [exact J4|]. split; [exact J5|]. rewrite J6, K6. cbn [s1 push_style tx_snips shown map app]. now rewrite app_assoc.
  - intros k a q q1 v q2 l1 a1 q3 l2 k' a' q4 q' T1 T2 _ IH1 _ IH2 T3 p rest s B.
    pose proof (move_raise s q p _ _ rest q1 v q2 (be_styles _ _ _ _ _ B) T1 T2) as M. rewrite (be_builder _ _ _ _ _ B) in M. cbn [flush_opt] in M. rewrite app_nil_r in M. set (s1 := push_style _ _ _ s) in M.
    assert (Al : alive (length (tx_styles s)) 0 (tx_sizes s)) by (apply (alive_more _ _ _ _ _ (be_alive _ _ _ _ _ B)); rewrite (be_styles _ _ _ _ _ B); cbn; lia).
    destruct (IH1 (tx_nest s) (tx_styles s) s1) as (n1 & s2 & M1 & (K1 & K2 & K3 & K4 & K5 & K6)); [split; try reflexivity; [exact (be_size _ _ _ _ _ B)|exact (be_accent _ _ _ _ _ B)|rewrite (be_nest _ _ _ _ _ B); exact Al]|].
    assert (W2 : within k a1 [] s2).
    { split; [rewrite K1, (be_styles _ _ _ _ _ B); eauto|rewrite K5, (be_styles _ _ _ _ _ B); reflexivity|unfold tx_size; rewrite K3; exact (be_size _ _ _ _ _ B)|exact K4|rewrite K1, K2, K3, (be_nest _ _ _ _ _ B); exact Al]. }
    destruct (IH2 [] s2 W2) as (n2 & s3 & M2 & A2).
    destruct (close_arg k a' [] p rest s2 s3 l2 k' q4 q') as (s4 & M4 & (J1 & J2 & J3 & J4 & J5 & J6)); [rewrite K1; exact (be_styles _ _ _ _ _ B)|now rewrite K2, (be_nest _ _ _ _ _ B)|rewrite K3; exact (be_alive _ _ _ _ _ B)|exact A2|exact T3|].
    exists (S n1 + (n2 + 1)), s4. split; [exact (moves_trans _ _ _ _ _ _ _ _ M (moves_trans _ _ _ _ _ _ _ _ M1 (moves_trans _ _ _ _ _ _ _ _ M2 M4)))|].
    split; [exact J1|]. split; [exact J2|]. split; [now rewrite J3|]. split; [exact J4|]. split; [exact J5|]. rewrite J6, K6. cbn [s1 push_style tx_snips shown map app]. now rewrite app_assoc.
Qed.

(** ** Every text that the loop accepts *)

Lemma loop_ok f s q p st vo rest r qe : tx_styles s = (p, st, vo) :: rest -> loop f s q = (Ok r, qe) ->
  exists f' kd q1, f = S f' /\ takes q kd q1 /\
    match kind_step kd st vo s with
    | Some (TrNext s') => loop f' s' q1 = (Ok r, qe)
    | Some (TrRaise s') => exists v q2, takes_length q1 v q2 /\
        loop f' (push_style st (Some (match vo with Some u => set_add u v | None => v end)) (tx_snips s') s') q2 = (Ok r, qe)
    | _ => False
    end.
Proof.
  intros E H. destruct f as [|f]; [pose proof (loop_zero s q p st vo rest E) as X; rewrite H in X; discriminate X|].
  rewrite (loop_step cfg m f s q p st vo rest E) in H. destruct (reader cfg m q) as [[t|e|c] q1] eqn:En; try discriminate H.
  exists f, (text_kind_of m (qt_tok t)), q1. split; [reflexivity|]. split; [exists t; split; [exact En|reflexivity]|].
  pose proof (step_kind m (qt_tok t) st vo s) as K. destruct (kind_step _ st vo s) as [x|].
  - rewrite K in H. destruct x as [s'|s'|k|]; try discriminate H; [exact H|].
    destruct (parse_string_literal cfg q1) as [[[spec sp]|e|c] q2] eqn:El; try discriminate H. destruct (raise_length spec sp) as [v|e|c] eqn:Er; try discriminate H.
    exists v, q2. split; [exists spec, sp; auto|exact H].
  - destruct (text_token_step m (qt_tok t) st vo s) as [s'|s'|k|]; try discriminate H; destruct (K s') as [K1 K2]; [now destruct K1|now destruct K2].
Qed.

Lemma text_parse f :
  (forall k a b s q r qe, within k a b s -> loop f s q = (Ok r, qe) -> exists l k' a' q1 q2, reads_items k a q l k' a' q1 /\ takes q1 KClose q2) /\
  (forall k a p rest s q r qe, before k a p rest s -> loop f s q = (Ok r, qe) -> exists l a' q1, reads_arg k a q l a' q1).
Proof.
  induction f as [f IHf] using lt_wf_ind.
  assert (Items : forall g, g < f -> forall k a b s q r qe, within k a b s -> loop g s q = (Ok r, qe) -> exists l k' a' q1 q2, reads_items k a q l k' a' q1 /\ takes q1 KClose q2) by (intros g L; apply (IHf g L)).
  assert (Arg : forall g, g < f -> forall k a p rest s q r qe, before k a p rest s -> loop g s q = (Ok r, qe) -> exists l a' q1, reads_arg k a q l a' q1) by (intros g L; apply (IHf g L)).
  clear IHf.
  (* after an argument *)
  assert (Then : forall g k k0 a p rest s q r qe, g < f -> rest = (fst (fst (hd (0, None, None) rest)), lk_style k0, lk_voffset k0) :: tl rest -> tx_size s = lk_size k0 -> alive (length rest) p (tx_sizes s) ->
    before k a p rest s -> loop g s q = (Ok r, qe) -> exists l a1 q1 l2 k' a' q2 q3, reads_arg k a q l a1 q1 /\ reads_items k0 a1 q1 l2 k' a' q2 /\ takes q2 KClose q3).
  { intros g k k0 a p rest s q r qe L Er Ez Al B H. destruct (Arg g L k a p rest s q r qe B H) as (l & a1 & q1 & R).
    destruct (proj2 text_moves _ _ _ _ _ _ R p rest s B) as (n & s2 & M & (K1 & K2 & K3 & K4 & K5 & K6)).
    destruct (moves_ok _ _ _ _ _ _ _ _ M H) as (g' & Eg & H').
    destruct (Items g' ltac:(lia) k0 a1 [] s2 q1 r qe) as (l2 & k' & a' & q2 & q3 & R2 & T2).
    - split; [rewrite K1, Er; eauto|rewrite K5, Er; reflexivity|unfold tx_size; rewrite K3; exact Ez|exact K4|rewrite K1, K2, K3; exact Al].
    - exact H'.
    - exists l, a1, q1, l2, k', a', q2, q3. auto. }
  split.
  - intros k a b s q r qe W H. destruct (wi_styles _ _ _ _ W) as (p & rest & Es).
    destruct (loop_ok f s q p _ _ rest r qe Es H) as (g & kd & q1 & -> & T & K). destruct kd as [x|x| |c| | |fs|z| |]; cbn [kind_step] in K; unfold push_string in K; rewrite ?(wi_builder _ _ _ _ W) in K.
    + set (s1 := mkTx _ _ _ _ _ _) in K. destruct (Items g ltac:(lia) k None (b ++ with_accent x a) s1 q1 r qe) as (l & k' & a' & q2 & q3 & R & T2); [|exact K|].
      { split; try reflexivity; [exists p, rest; exact Es|cbn [s1 tx_builder]; now rewrite (wi_accent _ _ _ _ W)|exact (wi_size _ _ _ _ W)|exact (wi_alive _ _ _ _ W)]. }
      exists (shown k (with_accent x a) ++ l), k', a', q2, q3. split; [now apply items_char with q1|exact T2].
    + set (s1 := mkTx _ _ _ _ _ _) in K. destruct (Items g ltac:(lia) k a (b ++ x) s1 q1 r qe) as (l & k' & a' & q2 & q3 & R & T2); [|exact K|].
      { split; try reflexivity; [exists p, rest; exact Es|exact (wi_size _ _ _ _ W)|exact (wi_accent _ _ _ _ W)|exact (wi_alive _ _ _ _ W)]. }
      exists (shown k x ++ l), k', a', q2, q3. split; [now apply items_string with q1|exact T2].
    + destruct (Items g ltac:(lia) k a b s q1 r qe W K) as (l & k' & a' & q2 & q3 & R & T2). exists l, k', a', q2, q3. split; [now apply items_nothing with q1|exact T2].
    + set (s1 := mkTx _ _ _ _ _ _) in K. destruct (Items g ltac:(lia) k (Some c) b s1 q1 r qe) as (l & k' & a' & q2 & q3 & R & T2); [|exact K|].
      { split; try reflexivity; [exists p, rest; exact Es|exact (wi_size _ _ _ _ W)|exact (wi_alive _ _ _ _ W)]. }
      exists l, k', a', q2, q3. split; [now apply items_accent with c q1|exact T2].
    + set (s1 := mkTx (tx_styles s) (Some b) (tx_snips s) (tx_accent s) (S (tx_nest s)) (tx_sizes s)) in K. pose proof (wi_alive _ _ _ _ W) as Al.
      assert (W1 : within k a b s1).
      { split; try reflexivity; [exists p, rest; exact Es|exact (wi_size _ _ _ _ W)|exact (wi_accent _ _ _ _ W)|]. cbn [s1 tx_styles tx_nest tx_sizes]. apply (alive_more _ _ _ _ _ Al). lia. }
      destruct (Items g ltac:(lia) k a b s1 q1 r qe W1 K) as (l1 & k1 & a1 & q2 & q3 & R1 & T2).
      destruct (proj1 text_moves _ _ _ _ _ _ _ R1 b s1 W1) as (n1 & s2 & M1 & A1).
      destruct (close_group k a1 b s1 s2 (tx_nest s) l1 k1 q2 q3 p rest Es eq_refl Al (wi_size _ _ _ _ W) A1 T2) as (s3 & b3 & M3 & W3 & _).
      destruct (moves_ok _ _ _ _ _ _ _ _ (moves_trans _ _ _ _ _ _ _ _ M1 M3) K) as (g' & Eg & H').
      destruct (Items g' ltac:(lia) k a1 b3 s3 q3 r qe W3 H') as (l2 & k' & a' & q4 & q5 & R2 & T3). exists (l1 ++ l2), k', a', q4, q5. split; [now apply (items_group cfg m k a q q1 l1 k1 a1 q2 q3)|exact T3].
    + exists [], k, a, q, q1. split; [constructor|exact T].
    + set (s1 := push_style _ _ _ _) in K.
      destruct (Then g (in_style (fs (lk_style k)) k) k a (tx_nest s) (tx_styles s) s1 q1 r qe) as (l1 & a1 & q2 & l2 & k' & a' & q3 & q4 & R1 & R2 & T2); [lia|now rewrite Es|exact (wi_size _ _ _ _ W)|exact (wi_alive _ _ _ _ W)| |exact K|].
      { split; try reflexivity; [exact (wi_size _ _ _ _ W)|exact (wi_accent _ _ _ _ W)|exact (wi_alive _ _ _ _ W)]. }
      exists (l1 ++ l2), k', a', q3, q4. split; [now apply (items_style cfg m k a q fs q1 l1 a1 q2)|exact T2].
    + set (s1 := mkTx _ _ _ _ _ _) in K. destruct (Items g ltac:(lia) (in_size z k) a [] s1 q1 r qe) as (l & k' & a' & q2 & q3 & R & T2); [|exact K|].
      { split; try reflexivity; [exists p, rest; exact Es|exact (wi_accent _ _ _ _ W)|cbn; lia]. }
      exists l, k', a', q2, q3. split; [now apply items_size with z q1|exact T2].
    + destruct K as (v & q2 & T2 & K). set (s1 := push_style _ _ _ _) in K.
      destruct (Then g (raised_by v k) k a (tx_nest s) (tx_styles s) s1 q2 r qe) as (l1 & a1 & q3 & l2 & k' & a' & q4 & q5 & R1 & R2 & T3); [lia|now rewrite Es|exact (wi_size _ _ _ _ W)|exact (wi_alive _ _ _ _ W)| |exact K|].
      { split; try reflexivity; [exact (wi_size _ _ _ _ W)|exact (wi_accent _ _ _ _ W)|exact (wi_alive _ _ _ _ W)]. }
      exists (l1 ++ l2), k', a', q4, q5. split; [now apply (items_raise cfg m k a q q1 v q2 l1 a1 q3)|exact T3].
    + destruct K.
  - intros k a p rest s q r qe B H. pose proof (be_styles _ _ _ _ _ B) as Es.
    assert (Al : alive (length (tx_styles s)) (tx_nest s) (tx_sizes s)) by (apply (alive_more _ _ _ _ _ (be_alive _ _ _ _ _ B)); rewrite Es; cbn; lia).
    destruct (loop_ok f s q p _ _ rest r qe Es H) as (g & kd & q1 & -> & T & K). destruct kd as [x|x| |c| | |fs|z| |]; cbn [kind_step] in K; unfold push_string in K; rewrite ?(be_builder _ _ _ _ _ B) in K.
    + exists (shown k x), a, q1. now constructor.
    + exists (shown k x), a, q1. now constructor.
    + exists [], a, q1. now constructor.
    + destruct K.
    + set (s1 := mkTx _ _ _ _ _ _) in K. destruct (Items g ltac:(lia) k a [] s1 q1 r qe) as (l & k' & a' & q2 & q3 & R & T2); [|exact K|].
      { split; try reflexivity; [exists p, rest; exact Es|exact (be_size _ _ _ _ _ B)|exact (be_accent _ _ _ _ _ B)|exact Al]. }
      exists l, a', q3. now apply (arg_group cfg m k a q q1 l k' a' q2).
    + destruct K.
    + set (s1 := push_style _ _ _ _) in K.
      destruct (Then g (in_style (fs (lk_style k)) k) k a (tx_nest s) (tx_styles s) s1 q1 r qe) as (l1 & a1 & q2 & l2 & k' & a' & q3 & q4 & R1 & R2 & T2); [lia|now rewrite Es|exact (be_size _ _ _ _ _ B)|exact Al| |exact K|].
      { split; try reflexivity; [exact (be_size _ _ _ _ _ B)|exact (be_accent _ _ _ _ _ B)|exact Al]. }
      exists (l1 ++ l2), a', q4. now apply (arg_style cfg m k a q fs q1 l1 a1 q2 l2 k' a' q3).
    + exists [], a, q1. now apply arg_size with z.
    + destruct K as (v & q2 & T2 & K). set (s1 := push_style _ _ _ _) in K.
      destruct (Then g (raised_by v k) k a (tx_nest s) (tx_styles s) s1 q2 r qe) as (l1 & a1 & q3 & l2 & k' & a' & q4 & q5 & R1 & R2 & T3); [lia|now rewrite Es|exact (be_size _ _ _ _ _ B)|exact Al| |exact K|].
      { split; try reflexivity; [exact (be_size _ _ _ _ _ B)|exact (be_accent _ _ _ _ _ B)|exact Al]. }
      exists (l1 ++ l2), a', q5. now apply (arg_raise cfg m k a q q1 v q2 l1 a1 q3 l2 k' a' q4).
    + destruct K.
Qed.

(** ** From the start *)

Lemma start_before st vo : before (mkLook st None vo) None 0 [] (text_start st vo).
Proof. now split. Qed.
Lemma loop_done f s q : tx_styles s = [] -> loop f s q = (Ok (tx_snips s), q).
Proof. intros E. destruct f; cbn [text_loop]; now rewrite E. Qed.
Lemma text_shows st vo q l a q' : reads_arg (mkLook st None vo) None q l a q' ->
  exists n sn, all_shown sn = l /\ (forall f, S n <= f -> loop f (text_start st vo) q = (Ok sn, q')) /\ (forall f, f <= n -> stuck (loop f (text_start st vo) q)).
Proof.
  intros R. destruct (proj2 text_moves _ _ _ _ _ _ R 0 [] _ (start_before st vo)) as (n & s' & [M1 M2] & (K1 & _ & _ & _ & _ & K6)). exists n, (tx_snips s'). split; [exact K6|]. split.
  - intros f L. replace f with (S n + (f - S n)) by lia. rewrite M1. now apply loop_done.
  - intros f L. apply M2. lia.
Qed.
Lemma text_exact st vo q q' l : sound_queue cfg q ->
  (exists sn, extract_text cfg m st vo q = (Ok sn, q') /\ all_shown sn = l) <-> (exists a, reads_arg (mkLook st None vo) None q l a q').
Proof.
  intros Sq. unfold extract_text. split.
  - intros (sn & E & Es). destruct (proj2 (text_parse _) _ _ _ _ _ _ _ _ (start_before st vo) E) as (l' & a & q1 & R).
    destruct (text_shows st vo q l' a q1 R) as (n & sn' & Es' & M1 & M2). destruct (Nat.lt_ge_cases (q_size q) n) as [L|L].
    { pose proof (M2 (S (q_size q)) ltac:(lia)) as X. rewrite E in X. discriminate X. }
    rewrite M1 in E by lia. injection E as -> ->. exists a. rewrite <- Es, Es'. exact R.
  - intros (a & R). destruct (text_shows st vo q l a q' R) as (n & sn & Es & M1 & M2). exists sn. split; [|exact Es].
    apply M1. destruct (Nat.lt_ge_cases (q_size q) n) as [L|L]; [|lia].
    pose proof (M2 (S (q_size q)) ltac:(lia)) as X. pose proof (text_sp cfg m st vo q Sq) as Y. unfold sp, extract_text in Y. unfold stuck in X.
    destruct (loop (S (q_size q)) (text_start st vo) q) as [[z|e|c] qz]; cbn [fst] in X; try discriminate X. destruct Y.
Qed.
End Loop.

(** ** The typed text *)

Section Typed.
Context (cfg : parser_cfg).
Notation takes := (takes cfg true).
Notation q_view := (q_view cfg).
Notation plain ts := (Forall (fun t => plain_text_tok true t = true) ts).
Notation typed ts := (flat_map (typed_text true) ts).

Lemma takes_view q k q1 : sound_queue cfg q -> takes q k q1 -> k <> KNone -> reads cfg q q1 /\
  exists t, fst (q_view q) = t :: fst (q_view q1) /\ text_kind_of true (qt_tok t) = k.
Proof.
  intros Sq (t & E & K) N. pose proof (next_any_sp cfg q (fun t q' => reads cfg q q' /\ took_any cfg q t q') no_err Sq (fun _ => I) (fun q' a b _ => conj a b)) as S.
  unfold sp in S. change (q_next_any cfg q = (Ok t, q1)) in E. rewrite E in S. destruct S as [R T]. split; [exact R|]. destruct T as [T _|sn T _ _]; [now exists t|].
  subst t. cbn in K. now destruct N.
Qed.
Lemma length_view q v q1 : sound_queue cfg q -> takes_length cfg q v q1 -> reads cfg q q1.
Proof. intros Sq (spec & sp0 & E & _). pose proof (literal_sp cfg q Sq) as S. unfold sp in S. rewrite E in S. apply S. Qed.
Definition tells (a : option N) (q : queue) (l : list (N * look)) (a' : option N) (q' : queue) : Prop :=
  sound_queue cfg q' /\ exists ts, fst (q_view q) = ts ++ fst (q_view q') /\ (a = None -> plain ts -> a' = None /\ map fst l = typed ts).
Lemma shown_fst k s : map fst (shown k s) = s.
Proof. unfold shown. rewrite map_map. apply map_id. Qed.
(** A token and then more. *)
Lemma tells_cons a q k q1 x l a1 a' q' : sound_queue cfg q -> takes q k q1 -> k <> KNone ->
  (forall t, text_kind_of true (qt_tok t) = k -> plain_text_tok true t = true -> a = None -> a1 = None /\ map fst x = typed_text true t) ->
  (sound_queue cfg q1 -> tells a1 q1 l a' q') -> tells a q (x ++ l) a' q'.
Proof.
  intros Sq T N H R. destruct (takes_view q k q1 Sq T N) as [R1 (t & V & K)]. destruct (R (reads_sound _ _ _ R1)) as (Sq' & ts & V' & E).
  split; [exact Sq'|]. exists (t :: ts). split; [now rewrite V, V'|]. intros A P. pose proof (Forall_inv P) as P1. pose proof (Forall_inv_tail P) as P2. destruct (H t K P1 A) as [A1 Ex].
  destruct (E A1 P2) as [A2 El]. split; [exact A2|]. cbn [flat_map]. now rewrite map_app, Ex, El.
Qed.
Lemma tells_app a q l1 a1 q1 l2 a' q' : tells a q l1 a1 q1 -> (sound_queue cfg q1 -> tells a1 q1 l2 a' q') -> tells a q (l1 ++ l2) a' q'.
Proof.
  intros (S1 & t1 & V1 & E1) R. destruct (R S1) as (S2 & t2 & V2 & E2). split; [exact S2|]. exists (t1 ++ t2). split; [now rewrite V1, V2, app_assoc|].
  intros A P. apply Forall_app in P as [P1 P2]. destruct (E1 A P1) as [A1 X1]. destruct (E2 A1 P2) as [A2 X2]. split; [exact A2|]. now rewrite map_app, flat_map_app, X1, X2.
Qed.
Lemma tells_nil a q : sound_queue cfg q -> tells a q [] a q.
Proof. intros Sq. split; [exact Sq|]. exists []. now split. Qed.
Lemma kind_typed k t : text_kind_of true (qt_tok t) = k -> typed_text true t = match k with KChar s | KString s => s | _ => [] end.
Proof. unfold typed_text. now intros ->. Qed.
Lemma kind_plain k t : text_kind_of true (qt_tok t) = k -> plain_text_tok true t = match k with KAccent _ | KRaise => false | _ => true end.
Proof. unfold plain_text_tok. now intros ->. Qed.
Lemma tells_raise a q q1 v q2 l a' q' : sound_queue cfg q -> takes q KRaise q1 -> takes_length cfg q1 v q2 -> (sound_queue cfg q2 -> tells a q2 l a' q') -> tells a q l a' q'.
Proof.
  intros Sq T1 T2 R. destruct (takes_view q KRaise q1 Sq T1 ltac:(discriminate)) as [R1 (t & V & K)].
  pose proof (length_view q1 v q2 (reads_sound _ _ _ R1) T2) as R2. destruct (R (reads_sound _ _ _ R2)) as (Sq' & ts & V' & E). split; [exact Sq'|].
  destruct R2 as (_ & _ & _ & p & V2). exists (t :: p ++ ts). split; [rewrite V, V2, V'; cbn [app]; now rewrite app_assoc|].
  intros _ P. pose proof (Forall_inv P) as P1. cbn beta in P1. rewrite (kind_plain _ _ K) in P1. discriminate P1.
Qed.
Lemma text_tells :
  (forall k a q l k' a' q', reads_items cfg true k a q l k' a' q' -> sound_queue cfg q -> tells a q l a' q') /\
  (forall k a q l a' q', reads_arg cfg true k a q l a' q' -> sound_queue cfg q -> tells a q l a' q').
Proof.
  assert (Close : forall a q q1, sound_queue cfg q -> takes q KClose q1 -> tells a q [] a q1).
  { intros a q q1 Sq T. apply (tells_cons a q KClose q1 [] [] a); [exact Sq|exact T|discriminate| |apply tells_nil].
    intros t K _ A. rewrite (kind_typed _ _ K). now split. }
  assert (Mid : forall l1 l2 : list (N * look), l1 ++ l2 = l1 ++ [] ++ l2) by reflexivity.
  apply reads_text_min.
  - intros. now apply tells_nil.
  - intros k a q s q1 l k' a' q' T _ IH Sq. apply (tells_cons a q (KChar s) q1 (shown k (with_accent s a)) l None); [exact Sq|exact T|discriminate| |exact IH].
    intros t K _ ->. split; [reflexivity|]. rewrite shown_fst, (kind_typed _ _ K). unfold with_accent. now rewrite app_nil_r.
  - intros k a q s q1 l k' a' q' T _ IH Sq. apply (tells_cons a q (KString s) q1 (shown k s) l a); [exact Sq|exact T|discriminate| |exact IH].
    intros t K _ A. now rewrite shown_fst, (kind_typed _ _ K).
  - intros k a q q1 l k' a' q' T _ IH Sq. apply (tells_cons a q KNothing q1 [] l a); [exact Sq|exact T|discriminate| |exact IH].
    intros t K _ A. now rewrite (kind_typed _ _ K).
  - intros k a q c q1 l k' a' q' T _ IH Sq. apply (tells_cons a q (KAccent c) q1 [] l (Some c)); [exact Sq|exact T|discriminate| |exact IH].
    intros t K P. rewrite (kind_plain _ _ K) in P. discriminate P.
  - intros k a q z q1 l k' a' q' T _ IH Sq. apply (tells_cons a q (KSize z) q1 [] l a); [exact Sq|exact T|discriminate| |exact IH].
    intros t K _ A. now rewrite (kind_typed _ _ K).
  - intros k a q q1 l1 k1 a1 q2 q3 l2 k' a' q' T1 _ IH1 T2 _ IH2 Sq. apply (tells_cons a q KOpen q1 [] (l1 ++ l2) a); [exact Sq|exact T1|discriminate| |].
    { intros t K _ A. now rewrite (kind_typed _ _ K). }
    intros S1. apply (tells_app a q1 l1 a1 q2); [now apply IH1|]. intros S2. apply (tells_app a1 q2 [] a1 q3 l2); [now apply Close|exact IH2].
  - intros k a q f q1 l1 a1 q2 l2 k' a' q' T _ IH1 _ IH2 Sq. apply (tells_cons a q (KStyle f) q1 [] (l1 ++ l2) a); [exact Sq|exact T|discriminate| |].
    { intros t K _ A. now rewrite (kind_typed _ _ K). }
    intros S1. apply (tells_app a q1 l1 a1 q2); [now apply IH1|exact IH2].
  - intros k a q q1 v q2 l1 a1 q3 l2 k' a' q' T1 T2 _ IH1 _ IH2 Sq. apply (tells_raise a q q1 v q2); [exact Sq|exact T1|exact T2|]. intros S2.
    apply (tells_app a q2 l1 a1 q3); [now apply IH1|exact IH2].
  - intros k a q q1 l k1 a' q2 q' T1 _ IH T2 Sq. apply (tells_cons a q KOpen q1 [] l a); [exact Sq|exact T1|discriminate| |].
    { intros t K _ A. now rewrite (kind_typed _ _ K). }
    intros S1. rewrite <- (app_nil_r l). apply (tells_app a q1 l a' q2); [now apply IH|]. intros S2. now apply Close.
  - intros k a q s q' T Sq. rewrite <- (app_nil_r (shown k s)). apply (tells_cons a q (KChar s) q' (shown k s) [] a); [exact Sq|exact T|discriminate| |apply tells_nil].
    intros t K _ A. now rewrite shown_fst, (kind_typed _ _ K).
  - intros k a q s q' T Sq. rewrite <- (app_nil_r (shown k s)). apply (tells_cons a q (KString s) q' (shown k s) [] a); [exact Sq|exact T|discriminate| |apply tells_nil].
    intros t K _ A. now rewrite shown_fst, (kind_typed _ _ K).
  - intros k a q q' T Sq. apply (tells_cons a q KNothing q' [] [] a); [exact Sq|exact T|discriminate| |apply tells_nil].
    intros t K _ A. now rewrite (kind_typed _ _ K).
  - intros k a q z q' T Sq. apply (tells_cons a q (KSize z) q' [] [] a); [exact Sq|exact T|discriminate| |apply tells_nil].
    intros t K _ A. now rewrite (kind_typed _ _ K).
  - intros k a q f q1 l1 a1 q2 l2 k' a' q3 q' T _ IH1 _ IH2 T2 Sq. apply (tells_cons a q (KStyle f) q1 [] (l1 ++ l2) a); [exact Sq|exact T|discriminate| |].
    { intros t K _ A. now rewrite (kind_typed _ _ K). }
    intros S1. apply (tells_app a q1 l1 a1 q2); [now apply IH1|]. intros S2. rewrite <- (app_nil_r l2). apply (tells_app a1 q2 l2 a' q3); [now apply IH2|]. intros S3. now apply Close.
  - intros k a q q1 v q2 l1 a1 q3 l2 k' a' q4 q' T1 T2 _ IH1 _ IH2 T3 Sq. apply (tells_raise a q q1 v q2); [exact Sq|exact T1|exact T2|]. intros S2.
    apply (tells_app a q2 l1 a1 q3); [now apply IH1|]. intros S3. rewrite <- (app_nil_r l2). apply (tells_app a1 q3 l2 a' q4); [now apply IH2|]. intros S4. now apply Close.
Qed.
Lemma text_typed st vo q sn q' : sound_queue cfg q -> extract_text cfg true st vo q = (Ok sn, q') ->
  exists ts, fst (q_view q) = ts ++ fst (q_view q') /\ (plain ts -> flat_map sn_text sn = typed ts).
Proof.
  intros Sq E. destruct (proj1 (text_exact cfg true st vo q q' (all_shown sn) Sq)) as (a & R); [now exists sn|].
  destruct (proj2 text_tells _ _ _ _ _ _ R Sq) as (_ & ts & V & H). exists ts. split; [exact V|]. intros P. destruct (H eq_refl P) as [_ <-].
  clear. induction sn as [|s sn IH]; [reflexivity|]. cbn [flat_map all_shown]. now rewrite map_app, shown_fst, IH.
Qed.
End Typed.
