(** Runs of digits. *)
From Verif Require Import Str M_SuperChar M_Transform M_Length M_Spec M_Ast M_Token M_Symbols M_Commands M_Env
  M_LatexError M_Lexer M_CustomCmds M_Queue M_Spacing M_Colors M_Leaf M_TextParser M_Parser
  S_SuperChar S_Lexer S_Queue S_Store S_Scripts S_Numbers L_Lexer L_Queue L_Args L_Keep L_Reads L_Leaf L_Ends L_Scripts.
Local Open Scope nat_scope.

Notation blanks bl := (Forall (fun t => blank_tok t = true) bl).
Lemma skip_blanks bl l : blanks bl -> skip_blank (bl ++ l) = skip_blank l.
Proof. unfold skip_blank. induction 1 as [|t bl B _ IH]; cbn [app split_while]; [reflexivity|]. rewrite B. destruct (split_while blank_tok (bl ++ l)), (split_while blank_tok l). exact IH. Qed.
Lemma skip_blank_cons t l : blank_tok t = false -> skip_blank (t :: l) = t :: l.
Proof. intros B. unfold skip_blank. cbn [split_while]. now rewrite B. Qed.
Lemma digit_not_blank t d : qt_tok t = T_Digit d -> blank_tok t = false.
Proof. unfold blank_tok. now intros ->. Qed.
Lemma dot_not_blank t : is_full_stop (qt_tok t) = true -> blank_tok t = false.
Proof. unfold blank_tok. now destruct (qt_tok t). Qed.
Lemma dot_not_digit t : is_full_stop (qt_tok t) = true -> is_digit_tok (qt_tok t) = false.
Proof. now destruct (qt_tok t). Qed.
Lemma skip_blank_shape l t r : skip_blank l = t :: r -> exists bl, l = bl ++ t :: r /\ blanks bl /\ blank_tok t = false.
Proof. intros E. destruct (skip_blank_split l) as (bl & E1 & B & N). rewrite E in E1, N. now exists bl. Qed.

(** ** There is only one longest number *)

Lemma number_unique l w rest w' rest' : number_split l w rest -> number_split l w' rest' -> w' = w /\ rest' = rest.
Proof.
  intros (ts & -> & N & E) (ts' & E0 & N' & E'). revert ts' w' rest' E' E0 N'.
  induction N as [|bl t d ts w B T N IH|bl t bl1 t1 d ts w B T B1 T1 N IH]; intros ts' w' rest' E' E0 N'.
  - cbn [app] in E0; rewrite <- ?app_assoc in E0; cbn [app] in E0. destruct E as [E1 E2]. unfold digit_ahead in E1. destruct N' as [|bl t d ts w B T N|bl t bl1 t1 d ts w B T B1 T1 N]; [now split|exfalso|exfalso]; subst rest.
    + rewrite <- ?app_assoc, skip_blanks in E1 by exact B. cbn [app] in E1. rewrite skip_blank_cons in E1 by exact (digit_not_blank _ _ T). now rewrite T in E1.
    + rewrite <- ?app_assoc, skip_blanks in E2 by exact B. cbn [app] in E2. rewrite skip_blank_cons in E2 by exact (dot_not_blank _ T). specialize (E2 T).
      unfold digit_ahead in E2. rewrite <- ?app_assoc, skip_blanks in E2 by exact B1. cbn [app] in E2. rewrite skip_blank_cons in E2 by exact (digit_not_blank _ _ T1). now rewrite T1 in E2.
  - apply (f_equal skip_blank) in E0. rewrite <- ?app_assoc, skip_blanks in E0 by exact B. cbn [app] in E0; rewrite <- ?app_assoc in E0; cbn [app] in E0. rewrite skip_blank_cons in E0 by exact (digit_not_blank _ _ T).
    destruct N' as [|bl' t' d' ts' w' B' T' N'|bl' t' bl1' t1' d' ts' w' B' T' B1' T1' N'].
    + exfalso. destruct E' as [E1 _]. unfold digit_ahead in E1. cbn [app] in E0; rewrite <- ?app_assoc in E0; cbn [app] in E0. rewrite <- E0, T in E1. discriminate E1.
    + rewrite <- ?app_assoc, skip_blanks in E0 by exact B'. cbn [app] in E0; rewrite <- ?app_assoc in E0; cbn [app] in E0. rewrite skip_blank_cons in E0 by exact (digit_not_blank _ _ T'). injection E0 as <- E0.
      rewrite T in T'. injection T' as <-. destruct (IH _ _ _ E' E0 N') as [-> ->]. now split.
    + exfalso. rewrite <- ?app_assoc, skip_blanks in E0 by exact B'. cbn [app] in E0; rewrite <- ?app_assoc in E0; cbn [app] in E0. rewrite skip_blank_cons in E0 by exact (dot_not_blank _ T'). injection E0 as <- E0. now rewrite T in T'.
  - apply (f_equal skip_blank) in E0. rewrite <- ?app_assoc, skip_blanks in E0 by exact B. cbn [app] in E0; rewrite <- ?app_assoc in E0; cbn [app] in E0. rewrite skip_blank_cons in E0 by exact (dot_not_blank _ T).
    destruct N' as [|bl' t' d' ts' w' B' T' N'|bl' t' bl1' t1' d' ts' w' B' T' B1' T1' N'].
    + exfalso. destruct E' as [_ E2]. cbn [app] in E0; rewrite <- ?app_assoc in E0; cbn [app] in E0. rewrite <- E0 in E2. specialize (E2 T).
      unfold digit_ahead in E2. rewrite <- ?app_assoc, skip_blanks in E2 by exact B1. cbn [app] in E2. rewrite skip_blank_cons in E2 by exact (digit_not_blank _ _ T1). now rewrite T1 in E2.
    + exfalso. rewrite <- ?app_assoc, skip_blanks in E0 by exact B'. cbn [app] in E0; rewrite <- ?app_assoc in E0; cbn [app] in E0. rewrite skip_blank_cons in E0 by exact (digit_not_blank _ _ T'). injection E0 as <- E0. now rewrite T' in T.
    + rewrite <- ?app_assoc, skip_blanks in E0 by exact B'. cbn [app] in E0; rewrite <- ?app_assoc in E0; cbn [app] in E0. rewrite skip_blank_cons in E0 by exact (dot_not_blank _ T'). injection E0 as <- E0.
      apply (f_equal skip_blank) in E0. rewrite <- ?app_assoc, !skip_blanks in E0 by assumption. cbn [app] in E0; rewrite <- ?app_assoc in E0; cbn [app] in E0.
      rewrite !skip_blank_cons in E0 by (eapply digit_not_blank; eassumption). injection E0 as <- E0. rewrite T1 in T1'. injection T1' as <-.
      destruct (IH _ _ _ E' E0 N') as [-> ->]. now split.
Qed.

(** ** Reading a number *)

Section Read.
Context (cfg : parser_cfg).
Notation q_view := (q_view cfg).
Notation digits_loop := (digits_loop cfg).

Lemma next_ahead q t r : good_queue q -> skip_blank (fst (q_view q)) = t :: r -> reject_unknown cfg (qt_unwrap t) = None ->
  match ahead (r, snd (q_view q)) with
  | Ok _ => exists q', q_next cfg q = (Ok (qt_unwrap t), q') /\ good_queue q' /\ q_view q' = (r, snd (q_view q)) /\ stored_as q q'
  | Err e => exists q', q_next cfg q = (Err e, q')
  | Crash _ => False
  end.
Proof.
  intros G E K. pose proof (step_spec cfg QNext q G I) as S. rewrite (surjective_pairing (q_view q)) in S. cbn [stream_step] in S. rewrite E in S.
  cbn [read_first] in S. destruct (ahead (r, snd (q_view q))) as [t'|e|c]; cbn [reply_of fst snd] in S.
  - unfold known in S. rewrite K in S. destruct S as (q' & S & S'). exists q'. split; [|exact S'].
    cbn [queue_step] in S. unfold q_reply in S. destruct (q_next cfg q) as [[x|e|c] q1]; cbn [fst snd] in S; try discriminate S. now injection S as -> ->.
  - destruct S as (q' & S). exists q'. cbn [queue_step] in S. unfold q_reply in S. destruct (q_next cfg q) as [[x|e'|c] q1]; cbn [fst snd] in S; try discriminate S. now injection S as -> ->.
  - exact S.
Qed.
Lemma second_ahead q t r : good_queue q -> skip_blank (fst (q_view q)) = t :: r ->
  match ahead (r, snd (q_view q)) with
  | Ok t' => exists q', q_peek_second cfg q = (Ok t', q') /\ good_queue q' /\ q_view q' = q_view q /\ stored_as q q'
  | Err e => exists q', q_peek_second cfg q = (Err e, q')
  | Crash _ => False
  end.
Proof.
  intros G E. pose proof (step_spec cfg QPeekSecond q G I) as S. rewrite (surjective_pairing (q_view q)) in S. cbn [stream_step] in S. rewrite E in S.
  rewrite <- surjective_pairing in S. destruct (ahead (r, snd (q_view q))) as [t'|e|c]; cbn [reply_of fst snd] in S.
  - destruct S as (q' & S & S'). exists q'. split; [|exact S'].
    cbn [queue_step] in S. unfold q_reply in S. destruct (q_peek_second cfg q) as [[x|e|c] q1]; cbn [fst snd] in S; try discriminate S. now injection S as -> ->.
  - destruct S as (q' & S). exists q'. cbn [queue_step] in S. unfold q_reply in S. destruct (q_peek_second cfg q) as [[x|e'|c] q1]; cbn [fst snd] in S; try discriminate S. now injection S as -> ->.
  - exact S.
Qed.
Lemma peek_ahead q : good_queue q ->
  match skip_blank (fst (q_view q)) with
  | t :: _ => q_peek q = t
  | [] => exists sp, snd (q_view q) = LexEoi sp /\ q_peek q = eoi_at sp
  end.
Proof.
  intros G. pose proof (good_ahead cfg q G) as A. unfold ahead in A. cbn [fst snd] in A. destruct (skip_blank (fst (q_view q))) as [|t r].
  - cbn [front] in A. destruct (snd (q_view q)) as [sp|e]; [|discriminate A]. injection A as A. now exists sp.
  - cbn [front] in A. now injection A as <-.
Qed.
Lemma ahead_err l x e : ahead (l, x) = Err e -> x = LexError e.
Proof. unfold ahead. cbn [fst snd]. destruct (skip_blank l); cbn [front]; destruct x; intros H; try discriminate H. now injection H as ->. Qed.
Lemma ahead_digit l x t : ahead (l, x) = Ok t -> is_digit_tok (qt_tok t) = digit_ahead l.
Proof. unfold ahead, digit_ahead. cbn [fst snd]. destruct (skip_blank l); cbn [front]; [destruct x|]; intros H; try discriminate H; now injection H as <-. Qed.
Lemma qt_unwrap_digit t d : qt_tok t = T_Digit d -> qt_unwrap t = t.
Proof. destruct t as [k sp nm]. unfold qt_unwrap. cbn. now intros ->. Qed.

Lemma digit_case f acc t d q : q_peek q = t -> qt_tok t = T_Digit d ->
  digits_loop (S f) acc q = sbind (q_next cfg) (fun _ => digits_loop f (acc ++ [d])) q.
Proof. intros P T. cbn [M_Leaf.digits_loop]. unfold sbind at 1, sget. now rewrite P, T. Qed.
Lemma dot_case f acc t q : q_peek q = t -> is_full_stop (qt_tok t) = true ->
  digits_loop (S f) acc q =
  sbind (q_peek_second cfg) (fun t2 => if is_digit_tok (qt_tok t2) then sbind (q_next cfg) (fun _ => digits_loop f (acc ++ [46%N])) else sret acc) q.
Proof. intros P T. cbn [M_Leaf.digits_loop]. unfold sbind at 1, sget. rewrite P. destruct (qt_tok t) eqn:Et; try discriminate T. now rewrite T. Qed.
Lemma other_case f acc t q : q_peek q = t -> is_digit_tok (qt_tok t) = false -> is_full_stop (qt_tok t) = false -> digits_loop (S f) acc q = (Ok acc, q).
Proof. intros P T1 T2. cbn [M_Leaf.digits_loop]. unfold sbind at 1, sget. rewrite P. destruct (qt_tok t) eqn:Et; try discriminate T1; now rewrite ?T2. Qed.

Lemma digits_spec f : forall acc q, good_queue q -> length (fst (q_view q)) < f ->
  match digits_loop f acc q with
  | (Ok s, q') => good_queue q' /\ stored_as q q' /\ snd (q_view q') = snd (q_view q) /\
      exists w, s = acc ++ w /\ number_split (fst (q_view q)) w (fst (q_view q'))
  | (Err e, _) => snd (q_view q) = LexError e
  | (Crash _, _) => False
  end.
Proof.
  induction f as [f IHf] using lt_wf_ind. intros acc q G L. destruct f as [|f]; [lia|].
  assert (Refl : stored_as q q) by now split.
  pose proof (peek_ahead q G) as P. destruct (skip_blank (fst (q_view q))) as [|t r] eqn:E.
  { destruct P as (sp & V & P). rewrite (other_case f acc _ q P eq_refl eq_refl). split; [exact G|]. split; [exact Refl|]. split; [reflexivity|].
    exists []. split; [now rewrite app_nil_r|]. exists []. split; [reflexivity|]. split; [constructor|]. split; [unfold digit_ahead|]; now rewrite E. }
  destruct (skip_blank_shape _ _ _ E) as (bl & V & B & Nt).
  assert (Lr : length (fst (q_view q)) = length bl + S (length r)) by (rewrite V, app_length; reflexivity).
  (* a digit next *)
  assert (Step : forall q t d r bl acc f, f < S (S f) -> (forall acc q, good_queue q -> length (fst (q_view q)) < f ->
      match digits_loop f acc q with
      | (Ok s, q') => good_queue q' /\ stored_as q q' /\ snd (q_view q') = snd (q_view q) /\
          exists w, s = acc ++ w /\ number_split (fst (q_view q)) w (fst (q_view q'))
      | (Err e, _) => snd (q_view q) = LexError e
      | (Crash _, _) => False
      end) ->
    good_queue q -> fst (q_view q) = bl ++ t :: r -> blanks bl -> qt_tok t = T_Digit d -> length r < f ->
      match digits_loop (S f) acc q with
      | (Ok s, q') => good_queue q' /\ stored_as q q' /\ snd (q_view q') = snd (q_view q) /\
          exists w ts, s = acc ++ d :: w /\ r = ts ++ fst (q_view q') /\ number_toks ts w /\ ends_number (fst (q_view q'))
      | (Err e, _) => snd (q_view q) = LexError e
      | (Crash _, _) => False
      end).
  { clear. intros q t d r bl acc f _ IH G V B T L. assert (E : skip_blank (fst (q_view q)) = t :: r) by (rewrite V, skip_blanks, skip_blank_cons by eauto using digit_not_blank; reflexivity).
    pose proof (peek_ahead q G) as P. rewrite E in P. rewrite (digit_case f acc t d q P T). unfold sbind.
    pose proof (next_ahead q t r G E) as Nx. rewrite (qt_unwrap_digit _ _ T) in Nx. unfold reject_unknown in Nx. rewrite T in Nx. specialize (Nx eq_refl).
    destruct (ahead (r, snd (q_view q))) as [t'|e|c] eqn:Ea; [| |contradiction].
    - destruct Nx as (q1 & -> & G1 & V1 & S1). specialize (IH (acc ++ [d]) q1 G1). rewrite V1 in IH. cbn [fst snd] in IH. specialize (IH L).
      destruct (digits_loop f (acc ++ [d]) q1) as [[s|e|c] q']; [|exact IH|exact IH]. destruct IH as (G' & S' & V' & w & -> & ts & Er & N & En).
      split; [exact G'|]. split; [destruct S1, S'; split; congruence|]. split; [exact V'|]. exists w, ts. split; [now rewrite <- app_assoc|]. auto.
    - destruct Nx as (q1 & ->). exact (ahead_err _ _ _ Ea). }
  destruct (is_digit_tok (qt_tok t)) eqn:Ed.
  - destruct (qt_tok t) eqn:T; try discriminate Ed. rename c into d.
    pose proof (Step q t d r bl acc f ltac:(lia) (IHf f ltac:(lia)) G V B T ltac:(lia)) as K.
    destruct (digits_loop (S f) acc q) as [[s|e|cr] q']; [|exact K|exact K]. destruct K as (G' & S' & V' & w & ts & -> & Er & N & En).
    split; [exact G'|]. split; [exact S'|]. split; [exact V'|]. exists (d :: w). split; [reflexivity|]. exists (bl ++ t :: ts). split; [rewrite V, Er, <- app_assoc; reflexivity|].
    split; [now constructor|exact En].
  - destruct (is_full_stop (qt_tok t)) eqn:Es.
    + rewrite (dot_case f acc t q P Es). unfold sbind at 1. pose proof (second_ahead q t r G E) as Sec.
      destruct (ahead (r, snd (q_view q))) as [t2|e|c] eqn:Ea; [| |contradiction].
      2:{ destruct Sec as (q1 & ->). exact (ahead_err _ _ _ Ea). }
      destruct Sec as (q1 & -> & G1 & V1 & S1). rewrite (ahead_digit _ _ _ Ea). destruct (digit_ahead r) eqn:Edr.
      * unfold digit_ahead in Edr. destruct (skip_blank r) as [|t1 r1] eqn:E1; [discriminate Edr|]. destruct (skip_blank_shape _ _ _ E1) as (bl1 & Vr & B1 & Nt1).
        destruct (qt_tok t1) eqn:T1; try discriminate Edr. rename c into d. unfold sbind.
        pose proof (next_ahead q1 t r G1 ltac:(now rewrite V1)) as Nx. rewrite V1, Ea in Nx.
        assert (Eu : qt_unwrap t = t) by (destruct t as [k sp nm]; unfold qt_unwrap; cbn in *; now destruct k).
        rewrite Eu in Nx. unfold reject_unknown in Nx. destruct (qt_tok t) eqn:Et; try discriminate Es. destruct (Nx eq_refl) as (q2 & -> & G2 & V2 & S2).
        assert (length r = length bl1 + S (length r1)) by (rewrite Vr, app_length; reflexivity). destruct f as [|f]; [lia|].
        pose proof (Step q2 t1 d r1 bl1 (acc ++ [46%N]) f ltac:(lia) (IHf f ltac:(lia)) G2 ltac:(now rewrite V2) B1 T1 ltac:(lia)) as K. rewrite V2 in K. cbn [snd] in K.
        destruct (digits_loop (S f) (acc ++ [46%N]) q2) as [[s|e|cr] q']; [|exact K|exact K]. destruct K as (G' & S' & V' & w & ts & -> & Er & N & En).
        split; [exact G'|]. split; [destruct S1, S2, S'; split; congruence|]. split; [exact V'|]. exists (46%N :: d :: w). split; [now rewrite <- app_assoc|].
        exists (bl ++ t :: bl1 ++ t1 :: ts). split.
        { rewrite V, Vr, Er, <- app_assoc. cbn [app]. now rewrite <- app_assoc. }
        split; [|exact En]. apply number_dot; rewrite ?Et; auto.
      * split; [exact G1|]. split; [exact S1|]. split; [now rewrite V1|]. exists []. split; [now rewrite app_nil_r|]. exists []. rewrite V1. split; [reflexivity|]. split; [constructor|].
        split; [unfold digit_ahead; now rewrite E|]. rewrite E. now intros _.
    + rewrite (other_case f acc t q P Ed Es). split; [exact G|]. split; [exact Refl|]. split; [reflexivity|]. exists []. split; [now rewrite app_nil_r|].
      exists []. split; [reflexivity|]. split; [constructor|]. split; [unfold digit_ahead; now rewrite E|]. rewrite E. rewrite Es. discriminate.
Qed.

Lemma read_digits_spec d q : good_queue q ->
  match read_digits cfg d q with
  | (Ok s, q') => good_queue q' /\ stored_as q q' /\ snd (q_view q') = snd (q_view q) /\
      exists w, s = d :: w /\ number_split (fst (q_view q)) w (fst (q_view q'))
  | (Err e, _) => snd (q_view q) = LexError e
  | (Crash _, _) => False
  end.
Proof. intros G. unfold read_digits. apply (digits_spec (S (q_size q)) [d] q G). pose proof (view_size cfg q). lia. Qed.
End Read.

(** ** Numbers as atoms *)

Section Atom.
Context (cfg : parser_cfg) (usize_max : N).
Notation q_view := (q_view cfg).
Notation exec := (exec cfg usize_max).
Notation ends := (ends cfg usize_max).

Lemma no_letters s t r d : good_queue (ps_queue s) -> no_transform (ps_view s) ->
  skip_blank (fst (q_view (ps_queue s))) = t :: r -> qt_tok t = T_Digit d -> exec OLetters s = (Ok None, s).
Proof.
  intros G N E T. pose proof (peek_ahead cfg _ G) as P. rewrite E in P. destruct s as [q v]. cbn [ps_queue ps_view] in *.
  unfold M_Parser.exec, sbind, view, sget, on_queue. cbn [ps_view ps_queue]. unfold merge_letters. destruct (pv_transform v) as [[|tf]|] eqn:Ev; [|now destruct (N tf)|reflexivity].
  cbn [letters_loop]. unfold sbind, sget. rewrite P, T. reflexivity.
Qed.
Lemma class_ahead s b : good_queue (ps_queue s) ->
  match exec (OPeekClass b) s with
  | (Ok _, s') => good_queue (ps_queue s') /\ stored_as (ps_queue s) (ps_queue s') /\ q_view (ps_queue s') = q_view (ps_queue s) /\ ps_view s' = ps_view s
  | (Err e, _) => snd (q_view (ps_queue s)) = LexError e
  | (Crash _, _) => False
  end.
Proof.
  intros G. unfold M_Parser.exec, peek_class. destruct b.
  2:{ cbn. split; [exact G|]. now repeat split. }
  pose proof (step_spec cfg QPeekClass (ps_queue s) G I) as S. rewrite (surjective_pairing (q_view (ps_queue s))) in S. cbn [stream_step] in S.
  destruct (split_while blank_tok (fst (q_view (ps_queue s)))) as [bl l1], (split_while has_no_class l1) as [un l2].
  rewrite <- surjective_pairing in S. cbn [queue_step] in S. unfold sbind at 1. unfold on_queue. unfold q_reply in S.
  destruct (front (l2, snd (q_view (ps_queue s)))) as [t|e|c] eqn:Ef; [| |destruct S].
  - destruct S as (q' & S & G' & V' & S'). destruct (q_peek_class cfg (ps_queue s)) as [[[i c]|e|c] q1]; cbn [fst snd] in S; try discriminate S. injection S as S1 S2 ->.
    unfold sbind, view, sget, sret. cbn [ps_view ps_queue].
    assert (K : forall c : class, good_queue (ps_queue (mkPs q' (ps_view s))) /\ stored_as (ps_queue s) (ps_queue (mkPs q' (ps_view s))) /\ q_view (ps_queue (mkPs q' (ps_view s))) = q_view (ps_queue s) /\ ps_view (mkPs q' (ps_view s)) = ps_view s) by (intros _; auto).
    destruct (pv_vld (ps_view s)); [|now apply K]. destruct (option_map qt_tok (nth_error (q_toks q') i)) as [tk|]; [|now apply K].
    destruct tk; try (now apply K). destruct tk; try (now apply K). destruct (is_vertical_line o && (c0 =? 124)%N); now apply K.
  - destruct S as (q' & S). destruct (q_peek_class cfg (ps_queue s)) as [[[i c]|e'|c] q1]; cbn [fst snd] in S; try discriminate S. injection S as -> ->.
    destruct l2; cbn [front] in Ef; [|discriminate Ef]. destruct (snd (q_view (ps_queue s))); [discriminate Ef|]. now injection Ef as ->.
Qed.

(** What the digit [d] becomes, when it has been taken. *)
Lemma digit_tok prev d sp s : good_queue (ps_queue s) -> no_transform (ps_view s) ->
  (exists w q', number_split (fst (q_view (ps_queue s))) w (fst (q_view q')) /\ snd (q_view q') = snd (q_view (ps_queue s)) /\
     good_queue q' /\ stored_as (ps_queue s) q' /\
     ends (body (CTok (T_Digit d, sp) PaSequence prev)) s (Ok (ClDefault, Number (d :: w))) (mkPs q' (ps_view s))) \/
  (exists e s', snd (q_view (ps_queue s)) = LexError e /\ ends (body (CTok (T_Digit d, sp) PaSequence prev)) s (Err e) s').
Proof.
  intros G N. pose proof (class_ahead s true G) as K. cbn [body]. unfold tok_body. cbn [fst snd].
  destruct (exec (OPeekClass (in_sequence PaSequence)) s) as [[c|e|c] s1] eqn:E1; cbn [in_sequence] in E1; rewrite E1 in K.
  3:{ destruct K. }
  2:{ right. exists e, s1. split; [exact K|]. apply ends_do. cbn [in_sequence]. rewrite E1. now split. }
  destruct K as (G1 & S1 & V1 & W1). pose proof (read_digits_spec cfg d _ G1) as R.
  assert (Tail : forall r s', ends (do s := ODigits d in Ret (ClDefault, Number s)) s1 r s' ->
    ends (tok_body (T_Digit d, sp) PaSequence prev) s r s').
  { intros r s' H. unfold tok_body. apply ends_do. cbn [in_sequence]. rewrite E1. apply ends_do. unfold M_Parser.exec at 1, view, sget. cbn [fst].
    rewrite W1. destruct (pv_transform (ps_view s)) as [[|tf]|] eqn:Ev; [exact H|now destruct (N tf)|exact H]. }
  unfold tok_body in Tail. cbn [fst snd] in Tail. rewrite V1 in R.
  destruct (read_digits cfg d (ps_queue s1)) as [[w|e|x] q'] eqn:Er; [| |destruct R].
  - left. destruct R as (G' & S' & V' & w' & -> & Sp). exists w', q'. split; [exact Sp|]. split; [exact V'|]. split; [exact G'|]. split; [destruct S1, S'; split; congruence|].
    apply Tail. apply ends_do. unfold M_Parser.exec, on_queue. rewrite Er. rewrite W1. now apply ends_ret.
  - right. exists e, (mkPs q' (ps_view s1)). split; [exact R|]. apply Tail. apply ends_do. unfold M_Parser.exec, on_queue. now rewrite Er.
Qed.

Lemma number_atom prev s t r d : good_queue (ps_queue s) -> no_transform (ps_view s) ->
  skip_blank (fst (q_view (ps_queue s))) = t :: r -> qt_tok t = T_Digit d ->
  (forall e, snd (q_view (ps_queue s)) <> LexError e) ->
  exists w q', atom_read cfg usize_max prev s ClDefault (Number (d :: w)) (mkPs q' (ps_view s)) /\
    number_split r w (fst (q_view q')) /\ snd (q_view q') = snd (q_view (ps_queue s)) /\ good_queue q' /\ stored_as (ps_queue s) q'.
Proof.
  intros G N E T L. pose proof (no_letters s t r d G N E T) as E1.
  pose proof (next_ahead cfg _ t r G E) as Nx. rewrite (qt_unwrap_digit _ _ T) in Nx. unfold reject_unknown in Nx. rewrite T in Nx. specialize (Nx eq_refl).
  destruct (ahead (r, snd (q_view (ps_queue s)))) as [t'|e|c] eqn:Ea; [|now apply ahead_err in Ea; destruct (L e)|destruct Nx].
  destruct Nx as (q1 & En & G1 & V1 & S1).
  assert (E2 : exec ONext s = (Ok (qt_tokspan t), mkPs q1 (ps_view s))).
  { unfold M_Parser.exec, next_tok, sbind, on_queue, sret. now rewrite En. }
  destruct (digit_tok prev d (qt_span t) (mkPs q1 (ps_view s)) G1 N) as [(w & q' & Sp & V' & G' & S' & H)|(e & s' & V' & _)]; cbn [ps_queue ps_view] in *; rewrite V1 in *; cbn [fst snd] in *.
  - exists w, q'. split.
    + apply (atom_token cfg usize_max prev s s (qt_tokspan t) _ ClDefault _ _ E1 E2); unfold qt_tokspan; rewrite T; [reflexivity|exact H].
    + split; [exact Sp|]. split; [exact V'|]. split; [exact G'|]. destruct S1, S'; split; congruence.
  - now destruct (L e).
Qed.
Lemma number_atom_only prev s t r d c n s' : good_queue (ps_queue s) -> no_transform (ps_view s) ->
  skip_blank (fst (q_view (ps_queue s))) = t :: r -> qt_tok t = T_Digit d ->
  atom_read cfg usize_max prev s c n s' ->
  exists w, c = ClDefault /\ n = Number (d :: w) /\ ps_view s' = ps_view s /\
    number_split r w (fst (q_view (ps_queue s'))) /\ snd (q_view (ps_queue s')) = snd (q_view (ps_queue s)) /\
    good_queue (ps_queue s') /\ stored_as (ps_queue s) (ps_queue s').
Proof.
  intros G N E T A. pose proof (no_letters s t r d G N E T) as E1.
  pose proof (next_ahead cfg _ t r G E) as Nx. rewrite (qt_unwrap_digit _ _ T) in Nx. unfold reject_unknown in Nx. rewrite T in Nx. specialize (Nx eq_refl).
  destruct A as [n s' X|s1 t0 s2 c n s' X1 X2 Si X3]; [rewrite E1 in X; discriminate X|].
  rewrite E1 in X1. injection X1 as <-. unfold M_Parser.exec, next_tok, sbind, on_queue, sret in X2.
  destruct (ahead (r, snd (q_view (ps_queue s)))) as [t'|e|cr] eqn:Ea; [|destruct Nx as (q1 & Nx); rewrite Nx in X2; discriminate X2|destruct Nx].
  destruct Nx as (q1 & En & G1 & V1 & S1). rewrite En in X2. injection X2 as <- <-. unfold qt_tokspan in X3. rewrite T in X3.
  destruct (digit_tok prev d (qt_span t) (mkPs q1 (ps_view s)) G1 N) as [(w & q' & Sp & V' & G' & S' & H)|(e & s3 & V' & H)]; cbn [ps_queue ps_view] in *; rewrite V1 in *; cbn [fst snd] in *;
    destruct (ends_det _ _ _ _ _ _ _ _ _ H X3) as [H1 <-]; [|discriminate H1].
  injection H1 as <- <-. exists w. cbn [ps_queue ps_view]. split; [reflexivity|]. split; [reflexivity|]. split; [reflexivity|]. split; [exact Sp|]. split; [exact V'|]. split; [exact G'|].
  destruct S1, S'; split; congruence.
Qed.
End Atom.

(** ** Numbers as they are typed *)

Section Typed.
Context (cfg : parser_cfg) (usize_max : N).

Lemma plain_char c r p : is_ascii_digit c = true \/ c = 46%N ->
  next_token (mkLexer p (c :: r)) = (inl (LexTok (if is_ascii_digit c then T_Digit c else T_Letter 46%N MMathOrText, mkSpan p (p + 1))), mkLexer (p + 1) r).
Proof.
  intros H. rewrite next_token_eq. unfold skip_whitespace. cbn [lx_rest lx_pos].
  assert (K : forall a, In a [46;48;49;50;51;52;53;54;55;56;57]%N ->
    (is_ascii_ws a = false /\ a <> 37 /\ a <> 0 /\ a <> 35 /\ a <> 92 /\ len_utf8 a = 1%nat /\
      char_token a = if is_ascii_digit a then T_Digit a else T_Letter 46 MMathOrText)%N).
  { intros a Ia. cbn [In] in Ia. repeat (destruct Ia as [<-|Ia]; [vm_compute; repeat split; discriminate|]). destruct Ia. }
  assert (I : In c [46;48;49;50;51;52;53;54;55;56;57]%N).
  { destruct H as [H| ->]; [|now left]. unfold is_ascii_digit in H. apply andb_prop in H as [H1 H2]. apply N.leb_le in H1, H2. cbn [In]. lia. }
  destruct (K c I) as (K1 & K2 & K3 & K4 & K5 & K6 & K7). cbn [span_while]. rewrite K1.
  assert (A : after_comments (c :: r) = c :: r). { unfold after_comments. destruct c as [|c]; [reflexivity|]. repeat (destruct c as [c|c|]; try reflexivity). now destruct K2. }
  rewrite A, Nat.sub_diag, Nat.add_0_r. unfold lex_char. apply N.eqb_neq in K3, K4, K5. rewrite K3, K4, K5, K6, K7. cbn [lx_pos]. unfold lex_advance, blen. cbn [lx_pos fold_right map]. 
  f_equal. f_equal. cbn. rewrite K6. lia.
Qed.
Lemma lex_numeral n : forall w p, length w <= n -> numeral_rest w = true ->
  exists outs sp, tokenize (S (length w)) (mkLexer p w) = Some (outs, LexEoi sp) /\ forall q, number_toks (map (resolve_lexed cfg q) outs) w.
Proof.
  induction n as [|n IH]; intros w p L H.
  - destruct w; [|cbn in L; lia]. exists [], (span_zero_width (p + 0)). split; [|intros q; constructor]. rewrite tokenize_step, next_token_eq. unfold skip_whitespace. cbn. now rewrite Nat.add_0_r.
  - destruct w as [|c r]; [now apply (IH []); [cbn; lia|]|]. cbn [numeral_rest] in H. cbn [length] in L. destruct (c =? 46)%N eqn:Ec.
    + apply N.eqb_eq in Ec as ->. destruct r as [|d r]; [discriminate H|]. apply andb_prop in H as [Hd Hr]. cbn [length] in L. destruct (IH r (p + 1 + 1) ltac:(lia) Hr) as (outs & sp & E & Nt).
      exists (LexTok (T_Letter 46%N MMathOrText, mkSpan p (p + 1)) :: LexTok (T_Digit d, mkSpan (p + 1) (p + 1 + 1)) :: outs), sp. split.
      * rewrite tokenize_step, plain_char by now right. cbn [is_eoi_out is_ascii_digit N.leb N.compare Pos.compare Pos.compare_cont andb length]. rewrite tokenize_step, plain_char by now left. rewrite Hd. cbn [is_eoi_out]. now rewrite E.
      * intros q. apply (number_dot [] _ [] _ d); [constructor|reflexivity|constructor|reflexivity|apply Nt].
    + apply andb_prop in H as [Hd Hr]. destruct (IH r (p + 1) ltac:(lia) Hr) as (outs & sp & E & Nt). exists (LexTok (T_Digit c, mkSpan p (p + 1)) :: outs), sp. split.
      * rewrite tokenize_step, plain_char by now left. rewrite Hd. cbn [is_eoi_out length]. now rewrite E.
      * intros q. apply (number_digit [] _ c); [constructor|reflexivity|apply Nt].
Qed.
Lemma new_numeral d w gs : is_ascii_digit d = true -> numeral_rest w = true ->
  exists q t ts sp, queue_new cfg (lexer_new (d :: w)) gs = (Ok tt, q) /\ good_queue q /\ q_gs q = gs /\
    q_view cfg q = (t :: ts, LexEoi sp) /\ qt_tok t = T_Digit d /\ number_toks ts w.
Proof.
  intros Hd Hw. destruct (lex_numeral (length w) w 1 (le_n _) Hw) as (outs & sp & E & Nt). pose proof (new_spec cfg (lexer_new (d :: w)) gs) as K. cbn zeta in K.
  set (q0 := mkQueue (lexer_new (d :: w)) [] false 0 cmds_empty gs) in *.
  assert (V : lexed cfg q0 = (qt_of (T_Digit d, mkSpan 0 1) :: map (resolve_lexed cfg q0) outs, LexEoi sp)).
  { unfold lexed. cbn [q0 q_lexer lexer_new lx_rest length]. rewrite tokenize_step. unfold lexer_new. rewrite plain_char by now left. rewrite Hd. cbn [is_eoi_out Nat.add]. rewrite E. reflexivity. }
  rewrite V in K. unfold ahead in K. cbn [fst snd] in K. rewrite skip_blank_cons in K by reflexivity. cbn [front] in K. destruct K as (q & K1 & K2 & K3 & _ & K4).
  exists q, (qt_of (T_Digit d, mkSpan 0 1)), (map (resolve_lexed cfg q0) outs), sp. split; [exact K1|]. split; [exact K2|]. split; [exact K4|]. split; [exact K3|]. split; [reflexivity|apply Nt].
Qed.
End Typed.
