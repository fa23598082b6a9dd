(** The readers of the parser, from a sound queue. *)
From Verif Require Import Str M_SuperChar M_Transform M_Length M_Spec M_Ast M_Token M_Symbols M_Commands M_Env
  M_LatexError M_Lexer M_CustomCmds M_Queue M_Spacing M_Colors M_Leaf M_TextParser
  S_SuperChar S_Transform S_Lexer S_Queue S_Store S_Node S_Emit S_Tree L_SuperChar L_Transform L_Lexer L_Queue L_Args L_Store L_Sound L_Define L_Keep L_Reads.
Local Open Scope nat_scope.
Notation no_err := (fun _ => True).
Notation scalars s := (forallb is_scalar s = true).
Notation typed s := (forallb typed_char s = true).
Lemma typed_scalars s : typed s -> scalars s.
Proof.
  rewrite !forallb_forall. intros H c Hc. apply H in Hc. unfold typed_char, is_ascii in Hc. apply andb_prop in Hc as [Hc _]. unfold is_scalar. apply N.ltb_lt in Hc.
  apply Bool.orb_true_iff. left. apply N.ltb_lt. lia.
Qed.

(** ** Characters *)

Lemma scalars_app a b : scalars a -> scalars b -> scalars (a ++ b).
Proof. intros A B. now rewrite forallb_app, A, B. Qed.
Lemma try_as_char_scalar s c : sc_valid s = true -> sc_try_as_char s = Some c -> is_scalar c = true.
Proof.
  intros V. apply sc_valid_inv in V as (x & V & ->). rewrite try_as_char_pack by exact V. destruct (_ && _); [|discriminate].
  intros [= <-]. apply V.
Qed.
Lemma transform_char_valid tf c up : is_scalar c = true -> sc_valid (transform_char tf c up) = true.
Proof. intros H. rewrite transform_char_pack by exact H. now apply sc_valid_pack, transformed_valid. Qed.
Lemma transform_valid tf s up : sc_valid s = true -> sc_valid (transform tf s up) = true.
Proof.
  intros V. unfold transform. destruct (sc_try_as_char s) as [c|] eqn:E; [|exact V].
  now apply transform_char_valid, (try_as_char_scalar s).
Qed.
Lemma cc_text_scalars c : cc_valid c -> scalars (cc_text c).
Proof.
  intros [V H]. unfold cc_text. cbn [forallb]. rewrite V. cbn [andb]. rewrite !forallb_app.
  assert (X : scalars (if (cc_vs c =? 0)%N then [] else [(0xFDFF + cc_vs c)%N])).
  { destruct (cc_vs c =? 0)%N; [reflexivity|]. cbn [forallb]. rewrite andb_true_r. unfold is_scalar. apply vs_cases in H. cbn [In] in H.
    repeat (destruct H as [<-|H]; [reflexivity|]). destruct H. }
  rewrite X. now destruct (cc_solidus c), (cc_vline c).
Qed.
Lemma sc_chars_scalars s t : sc_valid s = true -> sc_chars s = Some t -> scalars t.
Proof. intros V. apply sc_valid_inv in V as (x & V & ->). rewrite chars_pack by exact V. intros [= <-]. now apply cc_text_scalars. Qed.
Lemma sc_string_some l : forallb sc_valid l = true -> exists s, sc_string l = Some s /\ scalars s.
Proof.
  induction l as [|c l IH]; cbn [forallb sc_string]; [eauto|]. intros H. apply andb_prop in H as [H1 H2].
  destruct (sc_valid_chars c H1) as [t Et]. destruct (IH H2) as (s & -> & Hs). rewrite Et. eexists. split; [reflexivity|].
  apply scalars_app; [now apply (sc_chars_scalars c)|exact Hs].
Qed.
Lemma ascii_scalar c : is_ascii c = true -> is_scalar c = true.
Proof. unfold is_ascii, is_scalar. rewrite N.ltb_lt. intros H. apply orb_true_iff. left. apply N.ltb_lt. lia. Qed.
Lemma chars_valid P t : tok_ok P t -> forallb sc_valid (tok_superchars t) = true.
Proof.
  destruct t; cbn [tok_ok]; try reflexivity; intros H; cbn [tok_okb] in H; apply andb_prop in H as [H _]; apply andb_prop in H as [H _];
    apply andb_prop in H as [H _]; exact H.
Qed.
Lemma text_valid P t : tok_ok P t -> scalars (tok_text t).
Proof.
  destruct t; cbn [tok_ok]; try reflexivity; intros H; cbn [tok_okb] in H; apply andb_prop in H as [H _]; apply andb_prop in H as [H _];
    apply andb_prop in H as [_ H]; exact H.
Qed.
Lemma letters_valid P t : tok_ok P t -> letters_ok t = true.
Proof.
  destruct t; cbn [tok_ok]; try reflexivity; intros H; cbn [tok_okb] in H; apply andb_prop in H as [H _]; apply andb_prop in H as [_ H]; exact H.
Qed.
Lemma one_valid {A} (p : A -> bool) x : forallb p [x] = true -> p x = true.
Proof. cbn [forallb]. now rewrite andb_true_r. Qed.
Lemma recovered_scalar P t c : tok_ok P t -> recover_limited_ascii t = Some c -> is_scalar c = true.
Proof.
  intros T. apply chars_valid in T. destruct t; cbn [recover_limited_ascii tok_superchars] in *; try discriminate.
  all: try (destruct (is_ascii _ && _) eqn:E; [|discriminate]; apply andb_prop in E as [E _]; intros [= <-]; now apply ascii_scalar).
  - now intros [= <-].
  - apply one_valid in T. destruct (sc_try_as_char _) as [x|] eqn:E; [|discriminate]. destruct (_ || _); [|discriminate]. intros [= <-].
    exact (try_as_char_scalar _ _ T E).
Qed.

(** ** Characters of identifiers *)

Lemma letter_plain P c m : tok_ok P (T_Letter c m) -> sc_plain c = true.
Proof. intros H. pose proof (chars_valid _ _ H) as V. pose proof (letters_valid _ _ H) as L. cbn [tok_superchars letters_ok] in *. apply one_valid in V. unfold sc_plain. now rewrite V. Qed.
Lemma upright_plain P c : tok_ok P (T_UprightLetter c) -> sc_plain c = true.
Proof. intros H. pose proof (chars_valid _ _ H) as V. pose proof (letters_valid _ _ H) as L. cbn [tok_superchars letters_ok] in *. apply one_valid in V. unfold sc_plain. now rewrite V. Qed.
Lemma plain_from_char c : is_scalar c = true -> markup_char c = false -> sc_plain (sc_from_char c) = true.
Proof.
  intros H Hm. unfold sc_plain. rewrite (sc_valid_char c H), from_char_pack, unpack_pack by (split; [exact H|reflexivity]). cbn [cc_base]. now rewrite Hm.
Qed.
Lemma digit_plain P d : tok_ok P (T_Digit d) -> sc_plain (sc_from_char d) = true.
Proof.
  intros H. pose proof (text_valid _ _ H) as V. pose proof (letters_valid _ _ H) as L. cbn [tok_text letters_ok] in *. apply one_valid in V.
  apply plain_from_char; [exact V|]. unfold is_ascii_digit in L. apply andb_prop in L as [L1 L2]. apply N.leb_le in L1, L2. unfold markup_char.
  destruct (N.eqb_spec d 60), (N.eqb_spec d 62), (N.eqb_spec d 38); try lia; reflexivity.
Qed.
Lemma plain_valid l : forallb sc_plain l = true -> forallb sc_valid l = true.
Proof. rewrite !forallb_forall. intros H x I. specialize (H x I). unfold sc_plain in H. now apply andb_prop in H. Qed.
Lemma rules_not_markup c m : forall tf, apply_rules (rules tf) c = Some m -> markup_char m = false.
Proof.
  intros tf. set (big := fun r => match r with Rng lo hi off => (128 <=? lo + off)%N | Pt _ t => (128 <=? t)%N end).
  assert (B : forallb big (rules tf) = true) by (destruct tf; vm_compute; reflexivity).
  revert B. generalize (rules tf) as rs. induction rs as [|r rs IH]; cbn [apply_rules forallb]; [discriminate|]. intros B. apply andb_prop in B as [B1 B2].
  destruct (apply_rule r c) eqn:E; [|now apply IH]. intros X. injection X as X. subst n. assert (128 <= m)%N.
  { destruct r as [lo hi off|a t]; cbn [apply_rule big] in *; apply N.leb_le in B1.
    - destruct ((lo <=? c)%N && (c <=? hi)%N) eqn:F; [|discriminate]. apply andb_prop in F as [F _]. apply N.leb_le in F. injection E as <-. lia.
    - destruct (c =? a)%N; [|discriminate]. injection E as <-. lia. }
  unfold markup_char. destruct (N.eqb_spec m 60), (N.eqb_spec m 62), (N.eqb_spec m 38); try lia; reflexivity.
Qed.
Lemma transform_char_plain tf c up : is_scalar c = true -> markup_char c = false -> sc_plain (transform_char tf c up) = true.
Proof.
  intros H Hm. unfold sc_plain. rewrite transform_char_pack by exact H. pose proof (transformed_valid (effective tf up) c H) as V.
  rewrite (sc_valid_pack _ V), (unpack_pack _ V). unfold transformed. destruct (apply_rules _ c) eqn:E; cbn [cc_base]; [|now rewrite Hm].
  now rewrite (rules_not_markup _ _ _ E).
Qed.
Lemma plain_as_char s c : sc_plain s = true -> sc_try_as_char s = Some c -> is_scalar c = true /\ markup_char c = false.
Proof.
  unfold sc_plain. intros H E. apply andb_prop in H as [V H]. split; [exact (try_as_char_scalar _ _ V E)|].
  apply negb_true_iff in H. apply sc_valid_inv in V as (x & V & ->). rewrite unpack_pack in H by exact V.
  rewrite try_as_char_pack in E by exact V. destruct (_ && _)%bool; [|discriminate]. now injection E as <-.
Qed.
Lemma transform_plain tf s up : sc_plain s = true -> sc_plain (transform tf s up) = true.
Proof.
  intros V. unfold transform. destruct (sc_try_as_char s) as [c|] eqn:E; [|exact V]. destruct (plain_as_char _ _ V E). now apply transform_char_plain.
Qed.

Section Q.
Context (cfg : parser_cfg).
Notation q_view := (q_view cfg).
Notation sound := (sound_queue cfg).
Notation refs := (q_refs cfg).
Notation reads := (reads cfg).

(** ** Consumption *)

Definition shorter (q q' : queue) : Prop := length (fst (q_view q')) < length (fst (q_view q)).
Lemma took_shorter q x q' : took cfg q x q' -> means_eoi (qt_tok x) = false -> shorter q q'.
Proof.
  intros [bl E _ _ _|sn -> _ _] N; [|discriminate]. unfold shorter. rewrite E, app_length. cbn [length]. lia.
Qed.
Lemma took_any_shorter q x q' : took_any cfg q x q' -> means_eoi (qt_tok x) = false -> shorter q q'.
Proof. intros [E _|sn -> _ _] N; [|discriminate]. unfold shorter. rewrite E. cbn [length]. lia. Qed.
Lemma peek_any_peek q : sound q -> blank_tok (q_peek_any q) = false -> q_peek q = q_peek_any q.
Proof.
  intros (G & _) B. pose proof (good_ahead cfg q G) as A. pose proof (peek_any_front cfg q G) as F. unfold ahead in A.
  destruct (q_view q) as [[|x r] e]; cbn [fst snd front] in *.
  - unfold skip_blank in A. cbn [split_while snd front] in A. congruence.
  - injection F as F. rewrite <- F in *. unfold skip_blank in A. cbn [split_while] in A. rewrite B in A. cbn [snd front] in A. congruence.
Qed.
Lemma read_fact q q' t : reads q q' -> tok_ok (refs q) t -> tok_ok (refs q') t.
Proof. intros R. now rewrite (reads_refs _ _ _ R). Qed.
Lemma peek_tok_ok q : sound q -> tok_ok (refs q) (qt_tok (q_peek q)).
Proof. intros S. apply (peek_ok cfg q S). Qed.
Lemma peek_unwrap_ok q : sound q -> tok_ok (refs q) (qt_tok (qt_unwrap (q_peek q))).
Proof. intros S. apply qtok_unwrap_ok, (peek_ok cfg q S). Qed.
Lemma peek_any_tok_ok q : sound q -> tok_ok (refs q) (qt_tok (q_peek_any q)).
Proof. intros S. apply (peek_any_ok cfg q S). Qed.

(** ** Arguments *)

Definition ts_ok (P : cmd_source -> nat -> nat -> nat -> Prop) (t : tokspan) : Prop := tok_ok P (fst t).
Definition arg_ok (P : cmd_source -> nat -> nat -> nat -> Prop) (a : macro_argument) : Prop :=
  match a with MaToken t => ts_ok P t | MaGroup l _ => Forall (ts_ok P) l end.
Lemma read_tok_ok P pa t : qtok_ok P t -> qtok_ok P (read_tok pa t).
Proof. destruct pa; [exact (fun H => H)|apply qtok_unwrap_ok]. Qed.
Lemma read_form_ok P pa l : Forall (qtok_ok P) l -> Forall (qtok_ok P) (read_form pa l).
Proof.
  destruct pa; [exact (fun H => H)|]. cbn [read_form]. unfold math_form. intros H. apply Forall_forall. intros x I. apply in_map_iff in I as (y & <- & I).
  apply filter_In in I as [I _]. rewrite Forall_forall in H. now apply qtok_unwrap_ok, H.
Qed.
Lemma argument_sp pa q : sound q -> sp (read_argument cfg pa) (fun a q' => reads q q' /\ arg_ok (refs q) a) no_err q.
Proof.
  intros Sq. pose proof Sq as (G & So & F). pose proof (read_argument_spec cfg pa q G) as K. unfold sp, argument_result in *.
  destruct (read_argument cfg pa q) as [[[ts|body s]|e|c] q']; cbn zeta in K; [| |exact I|exact K].
  - destruct K as (x & K1 & K2 & K3 & -> & G' & St). destruct (skip_blank_split (fst (q_view q))) as (bl & Eb & _).
    pose proof (read_first_cases (skip_blank (fst (q_view q)), snd (q_view q))) as C. rewrite K1 in C. cbn [fst snd] in C.
    destruct C as [(r & C1 & C2)|(C1 & sn & C2 & -> & C3)].
    + apply (f_equal fst) in C1. cbn [fst] in C1. rewrite C1 in Eb. split.
      * apply (reads_view cfg q q' (bl ++ [x])); auto; rewrite C2; [cbn [fst]; now rewrite <- app_assoc|reflexivity].
      * cbn [arg_ok ts_ok qt_tokspan fst]. rewrite Eb in F. apply Forall_app in F as [_ F]. inversion F as [|? ? F1 F2]; subst.
        unfold ts_ok, qt_tokspan. cbn [fst]. now apply read_tok_ok.
    + rewrite C1, app_nil_r in Eb. split.
      * apply (reads_view cfg q q' bl); auto; rewrite C3; [cbn [fst]; now rewrite C1, app_nil_r|reflexivity].
      * cbn [arg_ok]. unfold ts_ok, qt_tokspan. cbn [fst]. now destruct pa.
  - destruct K as (bl & open & l1 & inner & close & rest & K1 & K2 & K3 & (K4 & _) & K5 & -> & _ & K6 & G' & St). split.
    + apply (reads_view cfg q q' (bl ++ open :: inner ++ [close])); auto; rewrite K6; [|reflexivity].
      cbn [fst]. rewrite K1, K4. rewrite <- !app_assoc. cbn [app]. now rewrite <- app_assoc.
    + cbn [arg_ok]. rewrite K1 in F. apply Forall_app in F as [_ F]. inversion F as [|? ? _ F2]; subst. apply Forall_app in F2 as [F2 _].
      apply (read_form_ok _ pa) in F2. rewrite Forall_map. revert F2. apply Forall_impl. intros t [H _]. exact H.
Qed.
Lemma recovered_typed t c : recover_limited_ascii t = Some c -> typed_char c = true.
Proof.
  destruct t; cbn [recover_limited_ascii]; try discriminate.
  all: try (intros [= <-]; reflexivity).
  all: try (unfold typed_char; destruct (is_ascii _ && _) eqn:E; [|discriminate]; intros X; now injection X as <-).
  destruct (sc_try_as_char _) as [x|]; [|discriminate]. destruct (_ || _)%bool eqn:E; [|discriminate]. intros X. injection X as ->.
  unfold typed_char, is_ascii, is_ascii_alpha, is_ascii_upper, is_ascii_lower in *.
  destruct (N.ltb_spec c 128); [|repeat (apply Bool.orb_prop in E as [E|E]); try (apply andb_prop in E as [_ E]); lia].
  destruct (N.eqb_spec c 38), (N.eqb_spec c 123), (N.eqb_spec c 125); subst; try discriminate; reflexivity.
Qed.
Lemma ascii_of_ok P l : Forall (ts_ok P) l -> match ascii_of l with Ok s => typed s | Err _ => True | Crash _ => False end.
Proof.
  induction 1 as [|t l H F IH]; cbn [ascii_of]; [reflexivity|]. destruct (recover_limited_ascii (fst t)) as [c|] eqn:E; [|exact I].
  destruct (ascii_of l); auto. cbn [forallb]. rewrite IH, (recovered_typed _ _ E). reflexivity.
Qed.
Lemma literal_sp q : sound q -> sp (parse_string_literal cfg) (fun a q' => reads q q' /\ typed (fst a)) no_err q.
Proof.
  intros Sq. unfold parse_string_literal. apply (sp_then _ _ _ _ _ _ (argument_sp true q Sq)). intros a q' [R K].
  assert (Ascii : forall l (s : span), Forall (ts_ok (refs q)) l ->
    sp (let* x := sres (ascii_of l) in sret (x, s)) (fun (a : str * span) q'' => reads q q'' /\ typed (fst a)) no_err q').
  { intros l s F. apply sp_bind. pose proof (ascii_of_ok _ _ F) as H. unfold sp, sres. destruct (ascii_of l); auto. cbn. auto. }
  destruct a as [[t s]|l s].
  - assert (H : sp (let* x := sres (ascii_of [(t, s)]) in sret (x, s)) (fun (a : str * span) q'' => reads q q'' /\ typed (fst a)) no_err q').
    { apply Ascii. constructor; [exact K|constructor]. }
    destruct t; try exact H. apply sp_ret. split; [exact R|]. cbn [fst]. exact (letters_valid _ _ K).
  - now apply Ascii.
Qed.

(** ** Numbers and letters *)

Lemma digits_loop_sp fuel : forall acc q, sound q -> length (fst (q_view q)) < fuel -> forallb digit_or_dot acc = true ->
  sp (digits_loop cfg fuel acc) (fun s q' => reads q q' /\ forallb digit_or_dot s = true /\ (acc <> [] -> s <> [])) no_err q.
Proof.
  induction fuel as [|f IH]; intros acc q Sq L H; [lia|]. cbn [digits_loop]. apply sp_bind, sp_get.
  assert (Done : forall q', reads q q' -> sp (sret acc) (fun s q' => reads q q' /\ forallb digit_or_dot s = true /\ (acc <> [] -> s <> [])) no_err q') by (intros q' R; now apply sp_ret).
  assert (More : forall c q1, reads q q1 -> digit_or_dot c = true -> q_peek q1 = q_peek q -> means_eoi (qt_tok (q_peek q)) = false ->
    sp (q_next cfg ;* digits_loop cfg f (acc ++ [c])) (fun s q' => reads q q' /\ forallb digit_or_dot s = true /\ (acc <> [] -> s <> [])) no_err q1).
  { intros c q1 R1 Hc P N. apply sp_bind. apply next_sp; [apply R1|auto|]. intros q' R T _. rewrite P in T. pose proof (took_shorter _ _ _ T N) as Sh.
    unfold shorter in Sh. pose proof (reads_length _ _ _ R1). eapply sp_mono; [apply (IH (acc ++ [c]) q')|..]; auto.
    - apply R.
    - lia.
    - rewrite forallb_app, H. cbn [forallb]. now rewrite Hc.
    - cbn beta. intros s q2 (R2 & Hs & Hn). split; [|split; [exact Hs|]]; [|intros _; apply Hn; now destruct acc]. exact (reads_trans _ _ _ _ (reads_trans _ _ _ _ R1 R) R2). }
  pose proof (peek_tok_ok q Sq) as Tk. pose proof (reads_refl cfg q Sq) as Rf.
  destruct (qt_tok (q_peek q)) eqn:Et; try (now apply Done).
  - destruct (is_full_stop _); [|now apply Done]. apply sp_bind. apply peek_second_sp; [exact Sq|auto|]. intros t2 q1 Sm _.
    assert (P : q_peek q1 = q_peek q).
    { destruct Sm as ((G1 & _) & _ & V). pose proof (good_ahead cfg q1 G1) as A1. rewrite V, (good_ahead cfg q (proj1 Sq)) in A1. congruence. }
    apply same_reads in Sm. destruct (is_digit_tok (qt_tok t2)); [|now apply Done]. apply More; auto.
  - apply More; auto. apply letters_valid in Tk. cbn [letters_ok] in Tk. unfold digit_or_dot. now rewrite Tk.
Qed.
Lemma digits_sp d q : sound q -> is_ascii_digit d = true -> sp (read_digits cfg d) (fun s q' => reads q q' /\ leaf_ok (Number s)) no_err q.
Proof.
  intros Sq H. unfold read_digits. unfold sp. eapply (sp_mono (digits_loop cfg (S (q_size q)) [d])).
  - apply digits_loop_sp; [exact Sq| |cbn [forallb]; unfold digit_or_dot; now rewrite H]. pose proof (view_size cfg q). lia.
  - intros s q' (R & Hs & Hn). split; [exact R|]. split; [now apply Hn|exact Hs].
  - exact (fun _ x => x).
Qed.

Lemma letters_loop_sp v fuel : forall acc q, sound q -> length (fst (q_view q)) < fuel -> forallb sc_plain acc = true ->
  sp (letters_loop cfg v fuel acc) (fun l q' => reads q q' /\ forallb sc_plain l = true /\ (length acc < length l -> shorter q q')) no_err q.
Proof.
  induction fuel as [|f IH]; intros acc q Sq L H; [lia|]. cbn [letters_loop]. apply sp_bind, sp_get.
  pose proof (peek_tok_ok q Sq) as Tk. pose proof (reads_refl cfg q Sq) as Rf.
  assert (Done : sp (sret acc) (fun l q' => reads q q' /\ forallb sc_plain l = true /\ (length acc < length l -> shorter q q')) no_err q).
  { apply sp_ret. split; [exact Rf|]. split; [exact H|]. lia. }
  assert (More : forall c, sc_plain c = true -> means_eoi (qt_tok (q_peek q)) = false ->
    sp (q_next cfg ;* letters_loop cfg v f (acc ++ [c])) (fun l q' => reads q q' /\ forallb sc_plain l = true /\ (length acc < length l -> shorter q q')) no_err q).
  { intros c Hc N. apply sp_bind. apply next_sp; [exact Sq|auto|]. intros q' R T _. pose proof (took_shorter _ _ _ T N) as Sh.
    unfold shorter in *. eapply sp_mono; [apply (IH (acc ++ [c]) q')|..]; auto.
    - apply R.
    - lia.
    - rewrite forallb_app, H. cbn [forallb]. now rewrite Hc.
    - cbn beta. intros s q2 (R2 & Hs & _). split; [exact (reads_trans _ _ _ _ R R2)|]. split; [exact Hs|]. intros _.
      pose proof (reads_length _ _ _ R2). lia. }
  assert (Add : forall c up, sc_plain c = true -> means_eoi (qt_tok (q_peek q)) = false ->
    sp (q_next cfg ;* letters_loop cfg v f (acc ++ [match v with MvTransform tf => transform tf c up | MvNormal => c end]))
      (fun l q' => reads q q' /\ forallb sc_plain l = true /\ (length acc < length l -> shorter q q')) no_err q).
  { intros c up Hc N. apply More; [|exact N]. destruct v; [exact Hc|]. now apply transform_plain. }
  destruct (qt_tok (q_peek q)) eqn:Et; try exact Done.
  - apply Add; [|reflexivity]. exact (letter_plain _ _ _ Tk).
  - apply Add; [|reflexivity]. exact (upright_plain _ _ Tk).
  - destruct v; [exact Done|]. apply (Add _ false); [|reflexivity]. exact (digit_plain _ _ Tk).
Qed.
Definition letters_node (n : node) : Prop :=
  match n with IdentifierChar c _ => sc_plain c = true | IdentifierStr s => scalars s | _ => False end.
Lemma letters_sp v q : sound q ->
  sp (merge_letters cfg v) (fun o q' => reads q q' /\ match o with Some n => letters_node n /\ shorter q q' | None => True end) no_err q.
Proof.
  intros Sq. unfold merge_letters. unfold sp. destruct v as [v|]; [|split; [now apply reads_refl|exact I]].
  apply (sp_then (letters_loop cfg v (S (q_size q)) []) _ _ (fun o q' => reads q q' /\ match o with Some n => letters_node n /\ shorter q q' | None => True end) no_err q
    (letters_loop_sp v (S (q_size q)) [] q Sq ltac:(pose proof (view_size cfg q); lia) eq_refl)).
  intros l q' (R & V & Sh). destruct l as [|c [|d l]].
  - apply sp_ret. now split.
  - apply sp_ret. split; [exact R|]. split; [|apply Sh; cbn; lia]. cbn [forallb] in V. now rewrite andb_true_r in V.
  - apply sp_bind, sp_opt. destruct (sc_string_some _ (plain_valid _ V)) as (s & -> & Hs). exists s. split; [reflexivity|]. apply sp_ret.
    split; [exact R|]. split; [exact Hs|apply Sh; cbn; lia].
Qed.
End Q.
