(** Reading texts that are not formulas. *)
From Verif Require Import Str M_SuperChar M_Transform M_Length M_Spec M_Ast M_Token M_Symbols M_Commands M_Env
  M_LatexError M_Lexer M_CustomCmds M_Queue M_Spacing M_Colors M_Leaf M_TextParser M_Parser
  S_Lexer S_Queue S_Scripts S_Formula S_Reading S_Faulty L_Queue L_Args L_Reads L_Wp L_Ends L_Wins L_WinLeaf L_Expand L_FormEq L_Form L_FormArg L_FormHead L_FormSeq.
Local Open Scope nat_scope.

Scheme seq_wrong := Minimality for wrong_seq Sort Prop
with tok_wrong := Minimality for wrong_tok Sort Prop
with args_wrong := Minimality for wrong_args Sort Prop
with marks_wrong := Minimality for wrong_marks Sort Prop
with script_wrong := Minimality for wrong_script Sort Prop.
Combined Scheme faulty_ind from seq_wrong, tok_wrong, args_wrong, marks_wrong, script_wrong.

Lemma is_end_matches e t : is_end e t = seq_end_matches e t.
Proof. destruct e as [[]|]; destruct t; reflexivity. Qed.
Lemma takes_part_eq a : takes_part a = in_sequence a.
Proof. now destruct a. Qed.

Section Faulty.
Context (K : err_kind) (usize_max : N) (cfg : parser_cfg) (local cmds : custom_cmds).
#[local] Instance due : fate := fun k => k = K.
Notation mean := (the_mean cfg local cmds).
Notation tok := (tok mean).
Notation raw := (raw mean).
Notation den_item := (den_item mean usize_max).
Notation den_head := (den_head mean usize_max).
Notation den_arg := (den_arg mean usize_max).
Notation den_target := (den_target mean usize_max).
Notation den_mark := (den_mark mean usize_max).
Notation den_items := (den_items mean usize_max den_item).
Notation reads_items := (reads_items mean (the_body cfg local cmds) (pc_ignore_unknown cfg)).
Notation reads_head := (reads_head mean (the_body cfg local cmds) (pc_ignore_unknown cfg)).
Notation reads_args := (reads_args mean (the_body cfg local cmds) (pc_ignore_unknown cfg)).
Notation reads_arg := (reads_arg mean (the_body cfg local cmds) (pc_ignore_unknown cfg)).
Notation reads_marks := (reads_marks mean (the_body cfg local cmds) (pc_ignore_unknown cfg)).
Notation reads_mark := (reads_mark mean (the_body cfg local cmds) (pc_ignore_unknown cfg)).
Notation at_ := (at_ cfg local cmds).
Notation wins := (wins cfg usize_max).
Notation script x := (with_style (style_scriptify (cx_style x)) x).

Lemma fail_wins {A} sp k s (Q : A -> pstate -> Prop) : k = K -> wins (fail sp k) s Q.
Proof. intros E. exists (Err (mkErr sp k)), s. split; [now apply ends_fail|exact E]. Qed.
Lemma pres_fail_wins {A B} (r : res A) (f : A -> prog B) e s Q : r = Err e -> err_kind_of e = K -> wins (pbind (pres r) f) s Q.
Proof. intros -> E. exists (Err e), s. split; [now apply ends_fail|exact E]. Qed.

(** The next token, perhaps the end. *)
Lemma qnext_end d w q : qat cfg local cmds d w q -> bare w = [] -> exists y q', q_next cfg q = (Ok y, q') /\ qt_tok y = T_Eoi /\ qat cfg local cmds d [] q'.
Proof.
  intros (G & V & (sp & E) & L & Gs & Kn) B. pose proof (next_spec cfg q G) as N. rewrite E in N.
  pose proof (skip_bare (fst (q_view cfg q))) as Sk. rewrite V, B in Sk. destruct (skip_blank (fst (q_view cfg q))) as [|y r] eqn:Ev; [|discriminate].
  cbn in N. destruct N as (q' & N & G' & V' & S1 & S2).
  eexists _, q'. split; [exact N|]. split; [reflexivity|]. split; [exact G'|]. rewrite V'. cbn [fst snd map]. repeat split; [eauto|congruence|congruence|]. right. constructor.
Qed.
Lemma next_any_at {A} (k : tokspan -> prog A) n x d w s Q : at_ n x d w s ->
  (forall s1 sp, at_ n x d (rest w) s1 -> wins (k (first w, sp)) s1 Q) -> wins (Do ONext k) s Q.
Proof.
  intros At H. unfold first, rest in H. destruct (bare w) as [|t r] eqn:B; [|exact (next_at cfg usize_max local cmds k n x d w t r s Q At B H)].
  destruct (on_queue_at cfg local cmds (q_next cfg) n x d w [] s (fun y => qt_tok y = T_Eoi) At) as (y & s1 & E & Ey & A1).
  { intros q Aq. destruct (qnext_end d w q Aq B) as (y & q' & N & T & A'). now exists y, q'. }
  eapply wins_do; [|apply (H s1 (qt_span y) A1)]. cbn [M_Parser.exec]. unfold next_tok, sbind. rewrite E. unfold sret, qt_tokspan. now rewrite Ey.
Qed.

(** ** What fails *)

Definition seq_fails (x : ctx) (d : numbering) (e : seq_end) (prev : class) (inf : bool) (n : nat) (w : list token) : Prop :=
  forall acc infix s Q, inf = (match infix with None => false | Some _ => true end) -> at_ n x d w s -> wins (body (CLoop e prev acc infix)) s Q.
Definition tok_fails (a : parse_as) (prev : class) (x : ctx) (d : numbering) (n : nat) (w : list token) : Prop :=
  match first w with T_Letter _ _ | T_UprightLetter _ | T_Digit _ => false | _ => true end = true /\
  forall s sp Q, at_ n x d (rest w) s -> wins (body (CTok (first w, sp) a prev)) s Q.
Fixpoint args_fail (p : list (ctx * parse_as * class)) (d : numbering) (n : nat) (w : list token) : Prop :=
  match p with
  | [] => False
  | (x, a, prev) :: p =>
      tok_fails a prev x d n w \/
      exists g m d1 n1 w1, takes_part a = false /\ reads_arg false n w g n1 w1 /\ den_arg x a prev g d = Some (m, d1) /\ args_fail p d1 n1 w1
  end.
Definition given {A} (o : option A) : bool := match o with Some _ => true | None => false end.
Definition marks_fail (x : ctx) (d : numbering) (sb sp : bool) (n : nat) (w : list token) : Prop :=
  forall acc s Q, sb = given (b_sub (bl_bounds acc)) -> sp = given (b_sup (bl_bounds acc)) -> at_ n x d w s -> wins (body (CBounds None acc)) s Q.
Definition script_fails (x : ctx) (d : numbering) (n : nat) (w : list token) : Prop := forall s Q, at_ n x d w s -> wins script_node s Q.

(** ** Parts *)

Lemma good_items l : items_good usize_max cfg local cmds (S (items_size l)).
Proof. apply (all_good usize_max cfg local cmds). Qed.
Lemma good_arg g : arg_good usize_max cfg local cmds (S (arg_size g)).
Proof. apply (all_good usize_max cfg local cmds). Qed.

(** A sequence that fails. *)
Lemma seq_failed x d e prev keep n w s Q : seq_fails x d e prev false n w -> at_ n x d w s -> wins (body (CSeq e prev keep)) s Q.
Proof.
  intros H A. cbn [body]. unfold seq_body. eapply view_at; [exact A|]. intros left. apply wins_call. apply (H [] None); [reflexivity|exact A].
Qed.
Lemma next_failed {B} x a prev d n w s (f : tokspan -> class * node -> prog B) Q : tok_fails a prev x d n w -> at_ n x d w s ->
  wins (do t := ONext in rec r := CTok t a prev in f t r) s Q.
Proof. intros [_ H] A. eapply next_any_at; [exact A|]. intros s1 sp A1. apply wins_call. now apply H. Qed.
Lemma parse_next_failed x a d n w s Q : tok_fails a ClDefault x d n w -> at_ n x d w s -> wins (parse_next a) s Q.
Proof. intros H A. unfold parse_next. exact (next_failed x a ClDefault d n w s (fun _ => _) Q H A). Qed.
(** An argument that is all right. *)
Lemma parse_next_passed {B} x a d g m d1 n w n1 w1 s (f : node -> prog B) Q : takes_part a = false -> reads_arg false n w g n1 w1 -> den_arg x a ClDefault g d = Some (m, d1) -> at_ n x d w s ->
  (forall s1, at_ n1 x d1 w1 s1 -> wins (f m) s1 Q) -> wins (pbind (parse_next a) f) s Q.
Proof.
  intros T R E A H. eapply wins_then; [eapply (parse_next_wins usize_max cfg local cmds (S (arg_size g)) g x a d m d1 n w n1 w1 s (good_arg g)); [lia|now rewrite <- takes_part_eq|exact E|exact R|exact A]|].
  intros v s1 [-> A1]. now apply H.
Qed.

(** ** Scripts *)

Lemma script_passed {B} g x d m d1 n w n1 w1 s (f : node -> prog B) Q : reads_arg false n w g n1 w1 -> den_arg (script x) PaArg ClDefault g d = Some (m, d1) -> at_ n x d w s ->
  (forall s1, at_ n1 x d1 w1 s1 -> wins (f m) s1 Q) -> wins (pbind script_node f) s Q.
Proof.
  intros R E A H. eapply wins_then; [exact (script_wins usize_max cfg local cmds (S (arg_size g)) g x d m d1 n w n1 w1 s (good_arg g) (Nat.lt_succ_diag_r _) E R A)|]. intros v s1 [-> A1]. now apply H.
Qed.
Definition mark_added (v : mark_value) (acc : bounds_limits) (sp : span) : prog bounds_limits :=
  let b := bl_bounds acc in
  let again acc' := rec r := CBounds None acc' in Ret r in
  match v with
  | VSub m => match b_sub b with Some _ => fail sp E_DuplicateSubOrSup | None => again (mkBl (mkBounds (Some m) (b_sup b)) (bl_limits acc)) end
  | VSup m => match b_sup b with Some _ => fail sp E_DuplicateSubOrSup | None => again (mkBl (mkBounds (b_sub b) (Some m)) (bl_limits acc)) end
  | VLimits k => again (mkBl b (Some (k, sp)))
  end.
Lemma mark_passed m x d v d1 n w n1 w1 s acc Q : reads_mark n w m n1 w1 -> mark_over m w1 = true -> den_mark x m d = Some (v, d1) -> at_ n x d w s ->
  (forall s1 sp, at_ n1 x d1 w1 s1 -> wins (mark_added v acc sp) s1 Q) -> wins (body (CBounds None acc)) s Q.
Proof.
  intros R Ov E A H. destruct (mark_starts usize_max cfg local cmds _ _ _ _ _ E) as (t0 & r & Et & Rt & Kt).
  destruct (mark_front cfg local cmds _ _ _ _ _ R) as (t1 & r1 & B & Eh & _). rewrite Et in Eh. cbn [hd] in Eh. subst t1.
  cbn [body]. unfold bounds_body. cbn [pbind]. eapply peek_at; [exact A|]. intros sp. rewrite B. cbn [hd fst snd]. cbv zeta.
  apply mark_parts in R. destruct m as [g|g|ps sup|sy]; rewrite den_mark_eq in E; cbv zeta in E.
  - subst t0. destruct R as (w2 & B2 & R). cbn [unwrap_math]. eapply next_at; [exact A|exact B2|]. intros s1 sp1 A1. apply dbind_some in E as (m0 & d3 & E1 & E3). injection E3 as <- <-.
    eapply script_passed; [exact R|exact E1|exact A1|]. intros s2 A2. exact (H s2 sp A2).
  - subst t0. destruct R as (w2 & B2 & R). cbn [unwrap_math]. eapply next_at; [exact A|exact B2|]. intros s1 sp1 A1. apply dbind_some in E as (m0 & d3 & E1 & E3). injection E3 as <- <-.
    eapply script_passed; [exact R|exact E1|exact A1|]. intros s2 A2. exact (H s2 sp A2).
  - destruct Kt as (kd & Ek). rewrite Ek.
    apply dbind_some in E as (ks & d3 & E0 & E1). apply dopt_some in E0 as [E0 ->]. apply dguard_some in E1 as [G E1].
    destruct ps as [|p0 ps]; [cbn [all_some] in E0; injection E0 as <-; discriminate G|]. clear G. cbn [all_some] in E0. change (mark_toks mean (FPrimes (p0 :: ps) sup)) with (raw p0 :: map raw ps ++ match sup with Some a => T_Circumflex :: arg_toks mean a | None => [] end) in Et.
    injection Et as <- <-. unfold S_Formula.tok in E0. rewrite Ek in E0.
    destruct (all_some _ ps) as [ks'|] eqn:Eks; [|discriminate]. injection E0 as <-.
    eapply next_at; [exact A|exact B|]. intros s1 sp1 A1.
    assert (Eks' : all_some token_prime (map raw ps) = Some ks').
    { clear - Eks. revert ks' Eks. induction ps as [|q ps IHp]; intros ks' Eks; cbn [map all_some] in *; [exact Eks|]. unfold token_prime at 1.
      destruct (unwrap_math (raw q)); try discriminate. destruct (all_some _ ps) as [z|] eqn:Ez; [|discriminate]. now rewrite (IHp z eq_refl). }
    cbn [pbind]. unfold prime_script.
    destruct sup as [g|].
    + apply dbind_some in E1 as (m0 & d4 & E1 & E3). injection E3 as <- <-. destruct R as (q & qs & w2 & Eq & B2 & R). injection Eq as <- <-. rewrite B2 in B. injection B as <-.
      cbn [pbind]. eapply primes_at; [exact Eks'| |exact A1|]; [reflexivity|]. intros s2 A2. cbn [hd unwrap_math]. cbv iota zeta. cbn [pbind].
      eapply caret_at; [|exact A2|]; [discriminate|]. intros s3 A3. apply wins_bind. eapply script_passed; [exact R|exact E1|exact A3|]. intros s4 A4. apply wins_ret. exact (H s4 sp A4).
    + injection E1 as <- <-. destruct R as (q & qs & Eq & B2 & ->). injection Eq as <- <-. rewrite B2 in B. injection B as <-. cbn [pbind]. cbn [mark_over] in Ov.
      assert (Nx : token_prime (hd T_Eoi w1) = None /\ match unwrap_math (hd T_Eoi w1) with T_Circumflex => true | _ => false end = false).
      { unfold token_prime. destruct (unwrap_math (hd T_Eoi w1)); try discriminate Ov; now split. }
      eapply primes_at; [exact Eks'|exact (proj1 Nx)|exact A1|]. intros s2 A2. rewrite (proj2 Nx). cbv iota zeta. cbn [pbind]. exact (H s2 sp A2).
  - destruct Kt as (kd & Ek). rewrite Ek. injection Et as <- <-. unfold S_Formula.tok in E. rewrite Ek in E. injection E as <- <-.
    destruct R as (B1 & ->). eapply next_at; [exact A|exact B1|]. intros s1 sp1 A1. exact (H s1 sp A1).
Qed.
Lemma later_marks x d sb sp n w m v d1 n1 w1 : reads_mark n w m n1 w1 -> mark_over m w1 = true -> den_mark x m d = Some (v, d1) -> sb && is_sub v = false -> sp && is_sup v = false ->
  marks_fail x d1 (sb || is_sub v) (sp || is_sup v) n1 w1 -> marks_fail x d sb sp n w.
Proof.
  intros R Ov E Nb Np H acc s Q Eb Ep A. eapply mark_passed; [exact R|exact Ov|exact E|exact A|]. intros s1 sp1 A1. unfold mark_added. cbv zeta. subst sb sp.
  destruct v as [m0|m0|k]; cbn [is_sub is_sup] in *.
  - destruct (b_sub (bl_bounds acc)); [discriminate Nb|]. apply wins_return. apply H; [reflexivity|cbn; now rewrite orb_false_r|exact A1].
  - destruct (b_sup (bl_bounds acc)); [discriminate Np|]. apply wins_return. apply H; [cbn; now rewrite orb_false_r|reflexivity|exact A1].
  - apply wins_return. apply H; [cbn; now rewrite orb_false_r|cbn; now rewrite orb_false_r|exact A1].
Qed.
Lemma marks_twice x d sb sp n w m v d1 n1 w1 : reads_mark n w m n1 w1 -> mark_over m w1 = true -> den_mark x m d = Some (v, d1) -> sb && is_sub v || sp && is_sup v = true -> K = E_DuplicateSubOrSup ->
  marks_fail x d sb sp n w.
Proof.
  intros R Ov E T Ek acc s Q Eb Ep A. eapply mark_passed; [exact R|exact Ov|exact E|exact A|]. intros s1 sp1 A1. unfold mark_added. cbv zeta. subst sb sp.
  destruct v as [m0|m0|k]; cbn [is_sub is_sup] in *; rewrite ?andb_false_r, ?andb_true_r, ?orb_false_r in T; cbn [orb] in T; [|rewrite ?orb_false_r in T|discriminate T].
  - destruct (b_sub (bl_bounds acc)); [|discriminate T]. now apply fail_wins.
  - destruct (b_sup (bl_bounds acc)); [|discriminate T]. now apply fail_wins.
Qed.
Lemma marks_script x d sb sp n w : first w = T_Underscore \/ first w = T_Circumflex -> script_fails x d n (rest w) -> marks_fail x d sb sp n w.
Proof.
  intros F H acc s Q _ _ A. cbn [body]. unfold bounds_body. cbn [pbind]. eapply peek_at; [exact A|]. intros sp1. cbn [fst snd]. cbv zeta. fold (first w).
  destruct F as [-> | ->]; (eapply next_any_at; [exact A|]); intros s1 sp2 A1; apply wins_bind; now apply H.
Qed.
Lemma script_none x d n w : first w = T_Eoi -> K = E_ExpectedArgumentGotEOI -> script_fails x d n w.
Proof. intros B Ek s Q A. unfold script_node. eapply next_any_at; [exact A|]. intros s1 sp A1. rewrite B. now apply fail_wins. Qed.
Lemma script_again x d n w : script_sign (first w) = true -> K = E_BoundFollowedByBound -> script_fails x d n w.
Proof. intros B Ek s Q A. unfold script_node. eapply next_any_at; [exact A|]. intros s1 sp A1. cbn [fst]. destruct (first w); try discriminate B; now apply fail_wins. Qed.
Lemma script_tok x d n w : first w <> T_Eoi -> script_sign (first w) = false -> tok_fails PaArg ClDefault (script x) d n w -> script_fails x d n w.
Proof.
  intros B Ns [_ H] s Q A. unfold script_node. eapply next_any_at; [exact A|]. intros s1 sp A1. cbn [fst].
  assert (G : wins (do v := OView in do_ OSetStyle (style_scriptify (pv_style v)) in rec r := CTok (first w, sp) PaArg ClDefault in do_ OSetStyle (pv_style v) in Ret (snd r)) s1 Q).
  { eapply view_at; [exact A1|]. intros left. eapply style_at; [exact A1|]. intros s2 A2. apply wins_call. now apply H. }
  destruct (first w); try exact G; try discriminate Ns. now destruct B.
Qed.

(** ** Tokens *)

Ltac enter A := eapply tok_wins; [exact A|reflexivity|]; clear A; let s := fresh "s1" in let left := fresh "left" in intros s left A; cbv zeta; cbn [fst snd view_of pv_hack pv_style pv_transform pv_vld pv_env es_allow_columns].
Lemma tok_misplaced a prev x d n w : misplaced x a (first w) = Some K -> tok_fails a prev x d n w.
Proof.
  intros H. split; [destruct (first w); reflexivity || discriminate H|]. intros s sp Q A.
  destruct (first w); try discriminate H; enter A; cbn [misplaced] in H.
  all: try (injection H as H; apply fail_wins; exact H).
  all: try (rewrite takes_part_eq in H; destruct (in_sequence a); injection H as H; apply fail_wins; exact H).
  all: try (destruct (cx_cols x); [discriminate H|]; injection H as H; apply fail_wins; exact H).
  all: try (match type of H with context [match ?k with _ => _ end] => destruct k end; injection H as H; apply fail_wins; exact H).
  eapply style_at; [exact A|]. intros s2 A2. unfold seq_if_in_sequence. rewrite <- takes_part_eq. destruct (takes_part a); [discriminate H|]. injection H as H. now apply fail_wins.
Qed.
(** The arguments of a command. *)
Ltac last_arg H A := destruct H as [H|(? & ? & ? & ? & ? & ? & ? & ? & [])]; apply wins_bind; eapply parse_next_failed; [exact H|exact A].
Ltac more_args H A :=
  let g := fresh "g" in let m := fresh "m" in let d1 := fresh "d" in let n1 := fresh "n" in let w1 := fresh "w" in let T := fresh "T" in let R := fresh "R" in let E := fresh "E" in let s2 := fresh "s" in
  destruct H as [H|(g & m & d1 & n1 & w1 & T & R & E & H)]; [apply wins_bind; eapply parse_next_failed; [exact H|exact A]|]; eapply parse_next_passed; [exact T|exact R|exact E|exact A|]; clear A; intros s2 A; cbv beta.
Lemma plain_option {B} y a prev d n w s Q (f : tokspan -> prog B) : first w <> T_SquareBracketOpen -> (tok_fails a prev y d n w) -> at_ n y d w s ->
  (forall t sp, t <> T_SquareBracketOpen -> exists h, f (t, sp) = Call (CTok (t, sp) a prev) h) -> wins (Do ONext f) s Q.
Proof.
  intros Nb [_ H] A F. eapply next_any_at; [exact A|]. intros s1 sp A1. destruct (F _ sp Nb) as (h & ->). apply wins_call. now apply H.
Qed.
Ltac option_arg H A Ob := destruct H as [H|(? & ? & ? & ? & ? & ? & ? & ? & [])]; refine (plain_option _ _ _ _ _ _ _ _ _ (Ob eq_refl) H A _); intros t0 sp0 Nt; destruct t0; (now destruct Nt) || (eexists; reflexivity).
Lemma args_failed t x a prev d n w s sp Q p : plan x a prev t = Some p -> (has_option t = true -> first w <> T_SquareBracketOpen) -> args_fail p d n w -> at_ n x d w s -> wins (body (CTok (t, sp) a prev)) s Q.
Proof.
  intros P O H A. destruct t; try discriminate P; injection P as <-; cbn [args_fail] in H; enter A.
  all: try (last_arg H A).
  all: try (option_arg H A O).
  all: try (destruct H as [H|(? & ? & ? & ? & ? & ? & ? & ? & [])]; exact (next_failed _ _ _ _ _ _ _ (fun t' r => _) _ H A)).
  all: try (eapply style_at; [exact A|]; clear A; intros s2 A).
  all: try (more_args H A; last_arg H A).
  all: try (more_args H A; more_args H A; last_arg H A).
  all: try (more_args H A; eapply style_at; [exact A|]; clear A; intros s3 A; destruct H as [[_ H]|(? & ? & ? & ? & ? & ? & ? & ? & [])];
    eapply next_any_at; [exact A|]; intros s4 sp4 A4; eapply hack_at; [exact A4|]; intros s5 A5; apply wins_call; apply H;
    change (at_ n0 (with_hack (with_style (cx_style x) x)) d0 (rest w0) s5) in A5; rewrite with_style_same in A5; exact A5).
  - eapply transform_at; [exact A|]. clear A. intros s2 A. last_arg H A.
  - eapply hack_at; [exact A|]. clear A. intros s3 A. option_arg H A O.
Qed.
(** The formula in brackets. *)
Lemma option_failed t x a prev d n w s sp Q y : option_ctx x t = Some y -> first w = T_SquareBracketOpen -> seq_fails y d (SeqEnd EtSquareBracketClose) ClOpen false n (rest w) -> at_ n x d w s ->
  wins (body (CTok (t, sp) a prev)) s Q.
Proof.
  intros P F H A. destruct t; try discriminate P; injection P as <-; enter A.
  - eapply next_any_at; [exact A|]. intros s2 sp2 A2. rewrite F. cbn [fst]. apply wins_call. eapply seq_failed; [exact H|exact A2].
  - eapply style_at; [exact A|]. clear A. intros s2 A. eapply hack_at; [exact A|]. clear A. intros s3 A.
    eapply next_any_at; [exact A|]. intros s4 sp4 A4. rewrite F. cbn [fst pbind]. apply wins_call. eapply seq_failed; [exact H|exact A4].
Qed.
End Faulty.
