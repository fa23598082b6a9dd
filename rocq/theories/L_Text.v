(** Primes, dimensions, colors and text, from a sound queue. *)
From Verif Require Import Str M_SuperChar M_Transform M_Length M_Spec M_Ast M_Token M_Symbols M_Commands M_Env
  M_LatexError M_Lexer M_CustomCmds M_Queue M_Spacing M_Colors M_Leaf M_TextParser
  S_SuperChar S_Transform S_Lexer S_Queue S_Store L_SuperChar L_Transform L_Lexer L_Queue L_Args L_Store L_Sound L_Define L_Keep L_Reads L_Leaf.
Local Open Scope nat_scope.

Section Q.
Context (cfg : parser_cfg).
Notation q_view := (q_view cfg).
Notation sound := (sound_queue cfg).
Notation refs := (q_refs cfg).
Notation reads := (reads cfg).

(** The end of the input is never hidden. *)
Lemma peek_any_eoi q : sound q -> means_eoi (qt_tok (q_peek_any q)) = is_eoi (qt_tok (q_peek_any q)).
Proof.
  intros Sq. pose proof (view_no_eoi cfg q) as V. pose proof (peek_any_front cfg q (proj1 Sq)) as A. destruct (q_view q) as [[|x r] e]; cbn [front fst] in *.
  - destruct e; [|discriminate]. injection A as A. now rewrite <- A.
  - injection A as A. rewrite <- A. inversion V as [|? ? V1 _]; subst. unfold not_eoi in V1. apply negb_true_iff in V1. now rewrite V1, (is_eoi_unwrap _ V1).
Qed.
Lemma peek_eoi q : sound q -> means_eoi (qt_tok (q_peek q)) = is_eoi (qt_tok (q_peek q)).
Proof.
  intros Sq. pose proof (view_no_eoi cfg q) as V. pose proof (good_ahead cfg q (proj1 Sq)) as A. unfold ahead in A. destruct (skip_blank_split (fst (q_view q))) as (bl & E & _).
  destruct (skip_blank (fst (q_view q))) as [|x r]; cbn [front] in A.
  - destruct (snd (q_view q)); [|discriminate]. injection A as A. now rewrite <- A.
  - injection A as A. rewrite <- A. rewrite E in V. apply Forall_app in V as [_ V]. inversion V as [|? ? V1 _]; subst. unfold not_eoi in V1.
    apply negb_true_iff in V1. now rewrite V1, (is_eoi_unwrap _ V1).
Qed.
Lemma unwrap_eoi q : sound q -> means_eoi (qt_tok (qt_unwrap (q_peek q))) = is_eoi (qt_tok (qt_unwrap (q_peek q))).
Proof.
  intros Sq. pose proof (peek_eoi q Sq) as E. cbn [qt_unwrap qt_with qt_tok]. rewrite means_eoi_unwrap, E. destruct (is_eoi (qt_tok (q_peek q))) eqn:F.
  - destruct (qt_tok (q_peek q)); try discriminate. reflexivity.
  - symmetry. apply is_eoi_unwrap. now rewrite means_eoi_unwrap.
Qed.

Lemma primes_loop_sp fuel : forall acc q, sound q -> length (fst (q_view q)) < fuel ->
  sp (primes_loop cfg fuel acc) (fun r q' => reads q q') no_err q.
Proof.
  induction fuel as [|f IH]; intros acc q Sq L; [lia|]. cbn [primes_loop]. apply sp_bind, sp_get.
  pose proof (reads_refl cfg q Sq) as Rf.
  destruct (unwrap_math (qt_tok (q_peek_any q))) eqn:Et; try (now apply sp_ret).
  apply sp_bind. apply next_any_sp; [exact Sq|auto|]. intros q' R T _.
  assert (N : means_eoi (qt_tok (q_peek_any q)) = false) by (rewrite <- means_eoi_unwrap, Et; reflexivity).
  pose proof (took_any_shorter _ _ _ _ T N) as Sh. unfold shorter in Sh.
  eapply sp_mono; [apply (IH _ q')|..]; auto; [apply R|lia|]. cbn beta. intros r q2 R2. exact (reads_trans _ _ _ _ R R2).
Qed.
Lemma primes_sp k q : sound q -> sp (read_primes cfg k) (fun r q' => reads q q') no_err q.
Proof. intros Sq. unfold read_primes, sp. apply primes_loop_sp; [exact Sq|]. pose proof (view_size cfg q). lia. Qed.

(** ** Dimensions *)

Lemma full_stop_no_eoi t : is_full_stop t = true -> means_eoi t = false.
Proof. now destruct t. Qed.
Lemma kern_digits_sp fuel : forall b acc start stop q, sound q -> length (fst (q_view q)) < fuel ->
  sp (kern_digits cfg fuel b acc start stop) (fun r q' => reads q q') no_err q.
Proof.
  induction fuel as [|f IH]; intros b acc start stop q Sq L; [lia|]. cbn [kern_digits]. apply sp_bind, sp_get.
  pose proof (reads_refl cfg q Sq) as Rf. set (t := (if b then q_peek_any else q_peek) q).
  assert (More : forall c, blank_tok t = false -> means_eoi (qt_tok t) = false ->
    sp (let* u := q_next cfg in kern_digits cfg f true (acc ++ [c]) (Some (or_else start (sp_start (qt_span u)))) (sp_end (qt_span u))) (fun r q' => reads q q') no_err q).
  { intros c B N. apply sp_bind. apply next_sp; [exact Sq|auto|]. intros q' R T _.
    assert (Et : q_peek q = t). { unfold t. destruct b; [|reflexivity]. apply (peek_any_peek cfg q Sq B). }
    rewrite Et in T. pose proof (took_shorter _ _ _ _ T N) as Sh. unfold shorter in Sh.
    eapply sp_mono; [apply (IH true _ _ _ q')|..]; auto; [apply R|lia|]. cbn beta. intros r q2 R2. exact (reads_trans _ _ _ _ R R2). }
  assert (NE : means_eoi (qt_tok t) = is_eoi (qt_tok t)) by (unfold t; destruct b; [now apply peek_any_eoi|now apply peek_eoi]).
  unfold blank_tok in More. rewrite NE in More. clear NE. destruct (qt_tok t) eqn:Et; try (now apply sp_ret).
  all: try (destruct (is_full_stop _); [|now apply sp_ret]; now apply More).
  all: try (now apply More).
  all: destruct (_ =? 44)%N; [|now apply sp_ret]; now apply More.
Qed.
Definition space_node (n : node) : Prop := match n with Space _ => True | _ => False end.
Lemma kern_sp k stop q : sound q -> sp (parse_kern_or_skip cfg k stop) (fun n q' => reads q q' /\ space_node n) no_err q.
Proof.
  intros Sq. unfold parse_kern_or_skip. apply sp_bind, sp_get.
  set (sign := match qt_tok (q_peek q) with T_MathOrTextMode _ c => if (c =? 43)%N then Some false else if (c =? 45)%N then Some true else None | _ => None end).
  apply sp_then with (R := fun _ q' => reads q q').
  { destruct sign; [|apply sp_ret; now apply reads_refl]. apply sp_bind. apply next_sp; [exact Sq|auto|]. intros q' R _ _. now apply sp_ret. }
  intros [start st] q1 R1.
  apply sp_then with (R := fun _ q' => reads q q').
  { unfold sp. pose proof (kern_digits_sp (S (q_size q1)) false [] start st q1 (reads_sound _ _ _ R1) ltac:(pose proof (view_size cfg q1); lia)) as K.
    eapply sp_mono; [exact K|..]; auto. cbn beta. intros r q2 R2. exact (reads_trans _ _ _ _ R1 R2). }
  intros [value [start' stop']] q2 R2. destruct value as [|v0 value]; [now apply sp_fail|].
  apply sp_bind, sp_get. destruct (is_ascii_letter_tok (qt_tok (q_peek q2))) as [c1|]; [|now apply sp_fail].
  apply sp_bind. apply next_sp; [apply R2|auto|]. intros q3 R3 _ _. apply sp_bind, sp_get.
  destruct (is_ascii_letter_tok (qt_tok (q_peek_any q3))) as [c2|]; [|now apply sp_fail].
  apply sp_bind. apply next_sp; [apply R3|auto|]. intros q4 R4 _ _.
  destruct (latex_unit_try_from [c1; c2]) as [u|]; [|now apply sp_fail].
  destruct (negb _); [now apply sp_fail|]. destruct (limited_float_parse _) as [v|]; [|now apply sp_fail].
  apply sp_ret. split; [|exact I]. exact (reads_trans _ _ _ _ (reads_trans _ _ _ _ R2 R3) R4).
Qed.

(** ** Colors *)

Lemma color_type_sp s fuel : forall acc q, sound q -> length (fst (q_view q)) < fuel ->
  sp (color_type_loop cfg fuel s acc) (fun r q' => reads q q') no_err q.
Proof.
  induction fuel as [|f IH]; intros acc q Sq L; [lia|]. cbn [color_type_loop]. apply sp_bind, sp_try. apply next_sp; [exact Sq|intros q'; now apply sp_fail|].
  intros q' R T _. cbn [option_map]. pose proof (peek_unwrap_ok cfg q Sq) as Tk.
  destruct (qt_tok (qt_unwrap (q_peek q))) eqn:Et; try (now apply sp_fail).
  - now apply sp_ret.
  - apply sp_bind, sp_opt. pose proof (chars_valid _ _ Tk) as Cv. cbn [tok_superchars] in Cv. apply one_valid in Cv.
    destruct (sc_valid_chars _ Cv) as [x Ex].
    exists x. split; [exact Ex|].
    assert (N : means_eoi (qt_tok (q_peek q)) = false). { rewrite <- means_eoi_unwrap. cbn [qt_unwrap qt_with qt_tok] in Et. now rewrite Et. }
    pose proof (took_shorter _ _ _ _ T N) as Sh. unfold shorter in Sh.
    eapply sp_mono; [apply (IH _ q')|..]; auto; [apply R|lia|]. cbn beta. intros r q2 R2. exact (reads_trans _ _ _ _ R R2).
Qed.
Definition color_bytes (c : N * N * N) : Prop := (fst (fst c) < 256 /\ snd (fst c) < 256 /\ snd c < 256)%N.
Lemma as_u8_byte x : (f32_as_u8 x < 256)%N.
Proof. unfold f32_as_u8. destruct x as [|[]| |[]]; lia. Qed.
Lemma hex_byte a b : (hex_value a * 16 + hex_value b < 256)%N.
Proof.
  assert (H : forall x, (hex_value x < 16)%N).
  { intros x. unfold hex_value. repeat match goal with |- context [if ?c then _ else _] => destruct c eqn:? end;
    repeat match goal with E : (_ && _)%bool = true |- _ => apply andb_prop in E as [?E ?E]; apply N.leb_le in E, E0 end; lia. }
  pose proof (H a). pose proof (H b). lia.
Qed.
Lemma color_of_bytes n d c : color_of n d = Some c -> color_bytes c.
Proof.
  unfold color_of, color_bytes. destruct (str_eqb n (lit "rgb")); [|destruct (str_eqb n (lit "RGB"))].
  - destruct (three_floats d) as [[[r g] b]|]; [|discriminate]. intros [= <-]. cbn [fst snd]. unfold unit_as_u8. repeat split; apply as_u8_byte.
  - destruct (three_floats d) as [[[r g] b]|]; [|discriminate]. intros [= <-]. cbn [fst snd]. repeat split; apply as_u8_byte.
  - destruct (utf8 d) as [|r1 [|r2 [|g1 [|g2 [|b1 [|b2 [|]]]]]]]; try discriminate. intros X. injection X as <-. cbn [fst snd]. repeat split; apply hex_byte.
Qed.
Lemma get_color_bytes n c : get_color n = Some c -> color_bytes c.
Proof.
  unfold get_color. assert (H : forallb (fun e => let c := snd e in (fst (fst c) <? 256) && (snd (fst c) <? 256) && (snd c <? 256))%N COLORS = true) by (vm_compute; reflexivity).
  revert H. generalize COLORS. intros m. induction m as [|[k v] m IH]; cbn [assoc_str forallb snd]; [discriminate|].
  intros H. apply andb_prop in H as [H1 H2]. destruct (str_eqb n k); [|now apply IH]. intros [= <-].
  apply andb_prop in H1 as [H1 H3]. apply andb_prop in H1 as [H1 H4]. unfold color_bytes. rewrite <- !N.ltb_lt. auto.
Qed.
Lemma color_sp s q : sound q -> sp (parse_color cfg s) (fun c q' => reads q q' /\ color_bytes c) no_err q.
Proof.
  intros Sq. unfold parse_color. apply sp_bind, sp_get.
  assert (Named : sp (let* p := parse_string_literal cfg in let (name, sp') := p : str * span in
      match get_color name with Some c => sret c | None => sfail sp' (E_UnknownColor name) end) (fun c q' => reads q q' /\ color_bytes c) no_err q).
  { apply (sp_then _ _ _ _ _ _ (literal_sp cfg q Sq)). intros [name s'] q' [R _]. destruct (get_color name) eqn:E; [|now apply sp_fail].
    apply sp_ret. split; [exact R|exact (get_color_bytes _ _ E)]. }
  destruct (qt_tok (q_peek q)); try exact Named.
  apply sp_bind. apply next_sp; [exact Sq|auto|]. intros q1 R1 _ _.
  apply sp_then with (R := fun _ q' => reads q q').
  { unfold sp. pose proof (color_type_sp s (S (q_size q1)) [] q1 (reads_sound _ _ _ R1) ltac:(pose proof (view_size cfg q1); lia)) as K.
    eapply sp_mono; [exact K|..]; auto. cbn beta. intros r q2 R2. exact (reads_trans _ _ _ _ R1 R2). }
  intros type q2 R2. apply sp_bind, sp_try.
  eapply sp_mono; [exact (literal_sp cfg q2 (reads_sound _ _ _ R2))|..]; cbn beta; [|intros q' _; now apply sp_fail].
  intros [d s'] q3 [R3 _]. destruct (_ || _); [|now apply sp_fail]. destruct (color_of type d) eqn:E; [|now apply sp_fail].
  apply sp_ret. split; [exact (reads_trans _ _ _ _ R2 R3)|exact (color_of_bytes _ _ _ E)].
Qed.

(** ** Text *)

Lemma space_scalar l c : space_char l = Some c -> is_scalar c = true.
Proof. unfold space_char. repeat match goal with |- context [if ?b then _ else _] => destruct b end; intros [= <-]; reflexivity. Qed.
Definition snip_ok (s : snippet) : Prop := scalars (sn_text s).
Definition text_ok (s : text_state) : Prop :=
  Forall snip_ok (tx_snips s) /\ match tx_builder s with Some b => scalars b | None => True end /\
  match tx_accent s with Some a => is_scalar a = true | None => True end.
Lemma flush_ok st z vo b : scalars b -> Forall snip_ok (flush st z vo b).
Proof. intros H. unfold flush. destruct b; constructor; [exact H|constructor]. Qed.
Lemma flush_opt_ok st z vo b : match b with Some b => scalars b | None => True end -> Forall snip_ok (flush_opt st z vo b).
Proof. destruct b; [apply flush_ok|constructor]. Qed.
Lemma pop_style_ok snips s : text_ok s -> Forall snip_ok snips -> text_ok (pop_style snips s).
Proof.
  intros (H1 & H2 & H3) F. unfold pop_style. destruct (tx_styles s) as [|[[p st] vo] rest] eqn:E; [now split|].
  split; [exact F|]. split; [|exact H3]. cbn [tx_builder]. now destruct rest.
Qed.
Lemma push_char_ok c st z vo s : text_ok s -> sc_valid c = true -> exists s', push_char c st z vo s = TrNext s' /\ text_ok s'.
Proof.
  intros T V. unfold push_char. destruct (sc_valid_chars c V) as [x Ex]. rewrite Ex. assert (Hx := sc_chars_scalars _ _ V Ex).
  pose proof T as (H1 & H2 & H3). destruct (tx_builder s) as [b|] eqn:Eb.
  - eexists. split; [reflexivity|]. split; [exact H1|]. split; [|exact I]. cbn [tx_builder]. apply scalars_app; [exact H2|]. apply scalars_app; [exact Hx|].
    destruct (tx_accent s); [cbn [forallb]; now rewrite H3|reflexivity].
  - eexists. split; [reflexivity|]. apply pop_style_ok; [exact T|]. apply Forall_app. split; [exact H1|]. constructor; [exact Hx|constructor].
Qed.
Lemma push_string_ok x st z vo s : text_ok s -> scalars x -> exists s', push_string x st z vo s = TrNext s' /\ text_ok s'.
Proof.
  intros T Hx. unfold push_string. pose proof T as (H1 & H2 & H3). destruct (tx_builder s) as [b|] eqn:Eb.
  - eexists. split; [reflexivity|]. split; [exact H1|]. split; [|exact H3]. cbn [tx_builder]. now apply scalars_app.
  - eexists. split; [reflexivity|]. apply pop_style_ok; [exact T|]. apply Forall_app. split; [exact H1|]. constructor; [exact Hx|constructor].
Qed.
Lemma text_step_ok P m t st vo s : tok_ok P t -> text_ok s ->
  match text_token_step m t st vo s with TrNext s' | TrRaise s' => text_ok s' | TrErr _ => True | TrCrash => False end.
Proof.
  intros Tk T. pose proof (chars_valid _ _ Tk) as Cv. pose proof (text_valid _ _ Tk) as Tv.
  assert (Ch : forall c z, sc_valid c = true -> match push_char c st z vo s with TrNext s' | TrRaise s' => text_ok s' | TrErr _ => True | TrCrash => False end).
  { intros c z V. destruct (push_char_ok c st z vo s T V) as (s' & -> & H). exact H. }
  assert (St : forall x z, scalars x -> match push_string x st z vo s with TrNext s' | TrRaise s' => text_ok s' | TrErr _ => True | TrCrash => False end).
  { intros x z V. destruct (push_string_ok x st z vo s T V) as (s' & -> & H). exact H. }
  pose proof T as (H1 & H2 & H3).
  assert (Fl : forall z, Forall snip_ok (tx_snips s ++ flush_opt st z vo (tx_builder s))).
  { intros z. apply Forall_app. split; [exact H1|now apply flush_opt_ok]. }
  assert (Ps : forall st' vo' z, text_ok (push_style st' vo' (tx_snips s ++ flush_opt st z vo (tx_builder s)) s)) by (intros; split; [apply Fl|now split]).
  destruct t; cbn [text_token_step tok_superchars tok_text] in *; try apply one_valid in Cv; try apply one_valid in Tv;
  try exact I; try (destruct m; exact I).
  all: try (apply Ch; assumption).
  all: try (apply Ch, sc_valid_char; assumption).
  all: try (destruct m; [exact I|]; apply Ch; assumption).
  all: try (destruct m; [exact I|]; apply Ch, sc_valid_char; assumption).
  all: try (destruct m; [exact I|]; apply St; assumption).
  all: try (apply St; assumption).
  all: try (apply Ch; reflexivity).
  all: try (apply Ps).
  - destruct (tx_builder s) eqn:Eb; (split; [exact H1|split; [|exact H3]]); cbn [tx_builder]; [exact H2|reflexivity].
  - destruct (tx_builder s) as [b|] eqn:Eb; [|exact I]. destruct (tx_nest s); [now apply pop_style_ok|].
    destruct (match tx_sizes s with [] => false | _ => _ end); (split; [|split; [|exact H3]]); cbn [tx_builder tx_snips]; auto; reflexivity.
  - destruct m; [exact I|]. destruct (space_char l) as [c|] eqn:Ec.
    + apply Ch, sc_valid_char. exact (space_scalar _ _ Ec).
    + destruct (tx_builder s); [exact T|now apply pop_style_ok].
  - destruct m; [exact I|]. apply Ch. destruct k; reflexivity.
  - match goal with |- context [match ?x with MMath => _ | MMathOrText => _ end] => destruct x end; [destruct m; [exact I|]|]; now apply Ch.
  - destruct m; [|exact I]. match goal with x : text_token |- _ => destruct x end.
    + apply one_valid in Tv. destruct (tx_builder s) eqn:Eb; [|exact I]. now split.
    + apply one_valid in Tv. now apply Ch, sc_valid_char.
    + apply Ps.
    + destruct (tx_builder s) eqn:Eb; [|now apply pop_style_ok]. split; [apply Fl|]. split; [reflexivity|exact H3].
  - split; [apply Fl|now split].
Qed.
Lemma text_loop_sp m fuel : forall s q, sound q -> text_ok s -> length (fst (q_view q)) < fuel ->
  sp (text_loop cfg m fuel s) (fun r q' => reads q q' /\ Forall snip_ok r) no_err q.
Proof.
  induction fuel as [|f IH]; intros s q Sq T L; [lia|]. cbn [text_loop].
  destruct (tx_styles s) as [|[[n0 st] vo] rest] eqn:Es; [apply sp_ret; split; [now apply reads_refl|apply T]|].
  apply sp_then with (R := fun t q' => reads q q' /\ tok_ok (refs q) (qt_tok t) /\ (means_eoi (qt_tok t) = false -> shorter cfg q q') /\ means_eoi (qt_tok t) = is_eoi (qt_tok t)).
  { destruct m.
    - apply next_any_sp; [exact Sq|auto|]. intros q' R Tk _. split; [exact R|]. split; [exact (peek_any_tok_ok cfg q Sq)|].
      split; [exact (took_any_shorter _ _ _ _ Tk)|exact (peek_any_eoi q Sq)].
    - apply next_sp; [exact Sq|auto|]. intros q' R Tk _. split; [exact R|]. split; [exact (peek_unwrap_ok cfg q Sq)|].
      split; [|exact (unwrap_eoi q Sq)]. intros N. apply (took_shorter _ _ _ _ Tk). now rewrite <- means_eoi_unwrap. }
  intros t q' (R & Tk & Sh & Ee). cbn beta in *.
  pose proof (text_step_ok _ m (qt_tok t) st vo s Tk T) as K.
  assert (Ne : means_eoi (qt_tok t) = false -> length (fst (q_view q')) < f) by (intros N; specialize (Sh N); unfold shorter in Sh; lia).
  assert (Eo : means_eoi (qt_tok t) = true -> exists k, text_token_step m (qt_tok t) st vo s = TrErr k).
  { rewrite Ee. destruct (qt_tok t); try discriminate. intros _. cbn [text_token_step]. eauto. }
  destruct (means_eoi (qt_tok t)). { destruct Eo as [k ->]; [reflexivity|]. now apply sp_fail. }
  specialize (Ne eq_refl). destruct (text_token_step m (qt_tok t) st vo s) as [s'|s'|k|]; [| |now apply sp_fail|destruct K].
  - eapply sp_mono; [apply (IH s' q')|..]; auto; [apply R|]. cbn beta. intros r q2 [R2 H]. split; [exact (reads_trans _ _ _ _ R R2)|exact H].
  - apply (sp_then _ _ _ _ _ _ (literal_sp cfg q' (reads_sound _ _ _ R))). intros [spec s2] q2 [R2 _].
    unfold raise_length. apply sp_bind, sp_res; [|intros; exact I|intros c; destruct (parse_length_specification spec) as [[[l u] []]|]; discriminate].
    intros new _. eapply sp_mono; [apply (IH _ q2)|..]; auto.
    + apply R2.
    + destruct K as (K1 & K2 & K3). split; [exact K1|now split].
    + pose proof (reads_length _ _ _ R2). lia.
    + cbn beta. intros r q3 [R3 H]. split; [exact (reads_trans _ _ _ _ (reads_trans _ _ _ _ R R2) R3)|exact H].
Qed.
Lemma text_sp m st vo q : sound q -> sp (extract_text cfg m st vo) (fun r q' => reads q q' /\ Forall snip_ok r) no_err q.
Proof.
  intros Sq. unfold extract_text, sp. apply text_loop_sp; [exact Sq| |pose proof (view_size cfg q); lia].
  split; [constructor|now split].
Qed.
End Q.
