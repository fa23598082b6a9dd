(** Reading arguments and expanding macros. *)
From Verif Require Import Str M_Ast M_Spec M_Token M_Commands M_Env M_LatexError M_Lexer M_CustomCmds M_Queue S_Lexer S_Queue L_Lexer L_Queue.
Local Open Scope nat_scope.

Section Q.
Context (cfg : parser_cfg).
Notation lexed := (lexed cfg).
Notation q_view := (q_view cfg).

(** ** Single reads *)

Lemma next_spec q : good_queue q ->
  match read_first (skip_blank (fst (q_view q)), snd (q_view q)) with
  | (Ok t, s) => exists q', q_next cfg q = (match reject_unknown cfg (qt_unwrap t) with Some e => Err e | None => Ok (qt_unwrap t) end, q') /\
      good_queue q' /\ q_view q' = s /\ stored_as q q'
  | (Err e, _) => exists q', q_next cfg q = (Err e, q')
  | (Crash _, _) => False
  end.
Proof.
  intros G. pose proof (next_unres_spec cfg q G) as K. unfold q_next. rewrite rejecting_eq.
  destruct (read_first _) as [[t|e|c] s].
  - destruct K as (q' & -> & K). exists q'. split; [reflexivity|exact K].
  - destruct K as (q' & ->). eauto.
  - exact K.
Qed.
Lemma next_any_spec q : good_queue q ->
  match read_first (q_view q) with
  | (Ok t, s) => exists q', q_next_any cfg q = (match reject_unknown cfg t with Some e => Err e | None => Ok t end, q') /\
      good_queue q' /\ q_view q' = s /\ stored_as q q'
  | (Err e, _) => exists q', q_next_any cfg q = (Err e, q')
  | (Crash _, _) => False
  end.
Proof.
  intros G. pose proof (next_any_unres_spec cfg q G) as K. unfold q_next_any. rewrite rejecting_eq.
  destruct (read_first _) as [[t|e|c] s].
  - destruct K as (q' & -> & K). exists q'. split; [reflexivity|exact K].
  - destruct K as (q' & ->). eauto.
  - exact K.
Qed.

(** Both, for the loop of [record_group]. *)
Definition skip_for (pa : bool) (l : list qtok) : list qtok := if pa then l else skip_blank l.
Lemma next_mode_spec pa q : good_queue q ->
  match read_first (skip_for pa (fst (q_view q)), snd (q_view q)) with
  | (Ok t, s) => exists q', (if pa then q_next_any cfg q else q_next cfg q) =
        (match reject_unknown cfg (read_tok pa t) with Some e => Err e | None => Ok (read_tok pa t) end, q') /\
      good_queue q' /\ q_view q' = s /\ stored_as q q'
  | (Err e, _) => exists q', (if pa then q_next_any cfg q else q_next cfg q) = (Err e, q')
  | (Crash _, _) => False
  end.
Proof.
  intros G. destruct pa; cbn [skip_for read_tok]; [rewrite <- surjective_pairing; now apply next_any_spec|now apply next_spec].
Qed.

(** The tokens that are left never get more. *)
Lemma read_first_cases s : match read_first s with
  | (Ok t, s') => (exists r, s = (t :: r, snd s) /\ s' = (r, snd s)) \/ (fst s = [] /\ exists sp, snd s = LexEoi sp /\ t = eoi_at sp /\ s' = s)
  | (Err e, _) => snd s = LexError e
  | (Crash _, _) => False
  end.
Proof.
  destruct s as [[|t r] e]; cbn [read_first front fst snd].
  - destruct e; [right; eauto 7|reflexivity].
  - unfold ahead, front, fst. destruct (skip_blank r); [|left; eauto]. cbn. destruct e; [left; eauto|reflexivity].
Qed.

Lemma skip_blank_split l : exists bl, l = bl ++ skip_blank l /\ Forall (fun t => blank_tok t = true) bl /\
  match skip_blank l with t :: _ => blank_tok t = false | [] => True end.
Proof.
  exists (fst (split_while blank_tok l)). split; [apply split_while_eq|]. apply split_while_front.
Qed.

(** The number of tokens in the stream is bounded by the size of the queue. *)
Lemma tokenize_length f : forall l ts e, tokenize f l = Some (ts, e) -> length ts <= length (lx_rest l).
Proof.
  induction f as [|f IH]; intros l ts e; [discriminate|]. rewrite tokenize_step. pose proof (next_token_cases l) as C.
  destruct (next_token l) as [[o|er] l']; [|intros [= <- <-]; cbn; lia].
  destruct (is_eoi_out o); [intros [= <- <-]; cbn; lia|].
  destruct (tokenize f l') as [[ts' e']|] eqn:T; [|discriminate]. intros [= <- <-]. apply IH in T. cbn [length]. lia.
Qed.
Lemma lexed_length q : length (fst (lexed q)) <= length (lx_rest (q_lexer q)).
Proof.
  unfold lexed, S_Queue.lexed. destruct (tokenize _ _) as [[ts e]|] eqn:T; cbn [fst]; [|cbn; lia].
  rewrite map_length. now apply tokenize_length in T.
Qed.
Lemma filter_length {A} (p : A -> bool) l : length (filter p l) <= length l.
Proof. induction l as [|x l IH]; cbn [filter length]; [lia|]. destruct (p x); cbn [length]; lia. Qed.
Lemma view_size q : length (fst (q_view q)) < q_size q.
Proof.
  unfold q_view, S_Queue.q_view, q_size. cbn [fst]. rewrite app_length. pose proof (lexed_length q). pose proof (filter_length not_eoi (q_toks q)).
  fold (lexed q). lia.
Qed.

(** ** Groups *)

Lemma means_eoi_unwrap t : means_eoi (unwrap_math t) = means_eoi t.
Proof. now destruct t. Qed.
Lemma not_eoi_read pa t : not_eoi (read_tok pa t) = not_eoi t.
Proof. destruct pa; [reflexivity|]. unfold not_eoi. cbn [read_tok qt_unwrap qt_with qt_tok]. now rewrite means_eoi_unwrap. Qed.


Lemma nest_app l1 : forall d l2, nest d (l1 ++ l2) = match nest d l1 with Some d' => nest d' l2 | None => None end.
Proof.
  induction l1 as [|t l1 IH]; intros d l2; cbn [app nest]; [reflexivity|].
  destruct (qt_tok t); try apply IH. destruct d; [reflexivity|apply IH].
Qed.
Lemma math_form_app l1 l2 : math_form (l1 ++ l2) = math_form l1 ++ math_form l2.
Proof. unfold math_form. now rewrite filter_app, map_app. Qed.
Lemma read_form_app pa l1 l2 : read_form pa (l1 ++ l2) = read_form pa l1 ++ read_form pa l2.
Proof. destruct pa; [reflexivity|apply math_form_app]. Qed.
Lemma math_form_blank bl : Forall (fun t => blank_tok t = true) bl -> math_form bl = [].
Proof. induction 1 as [|t l H F IH]; [reflexivity|]. unfold math_form in *. cbn [filter map]. now rewrite H. Qed.
Lemma read_form_one pa t : blank_tok t = false \/ pa = true -> read_form pa [t] = [read_tok pa t].
Proof. destruct pa; [reflexivity|]. intros [H|H]; [|discriminate]. unfold read_form, math_form. cbn [filter]. now rewrite H. Qed.

Lemma skip_for_split pa l : exists bl, l = bl ++ skip_for pa l /\ Forall (fun t => blank_tok t = true) bl /\ read_form pa bl = [] /\
  match skip_for pa l with t :: _ => blank_tok t = false \/ pa = true | [] => True end.
Proof.
  destruct pa; cbn [skip_for].
  - exists []. repeat split; auto. destruct l; auto.
  - destruct (skip_blank_split l) as (bl & E & F & H). exists bl. split; [exact E|]. split; [exact F|]. split; [now apply math_form_blank|].
    destruct (skip_blank l); auto.
Qed.

(** A token that is not a blank is not among the blanks in front. *)
Lemma not_in_blanks {bl r inner rest} {close : qtok} : Forall (fun t => blank_tok t = true) bl -> blank_tok close = false ->
  bl ++ r = inner ++ close :: rest -> exists inner', inner = bl ++ inner' /\ r = inner' ++ close :: rest.
Proof.
  intros F B. revert inner. induction F as [|b bl Hb F IH]; intros inner E; [exists inner; auto|].
  destruct inner as [|x inner]; cbn [app] in E; injection E as -> E; [congruence|].
  destruct (IH inner E) as (i & -> & ->). exists i. auto.
Qed.

Lemma ahead_err_blank r e err : ahead (r, e) = Err err -> e = LexError err /\ skip_blank r = [].
Proof.
  unfold ahead. cbn [fst snd]. destruct (skip_blank r); cbn [front]; [|discriminate]. destruct e; [discriminate|]. intros [= ->]. auto.
Qed.
Lemma skip_blank_nil r : skip_blank r = [] -> Forall (fun t => blank_tok t = true) r.
Proof. intros H. destruct (skip_blank_split r) as (bl & E & F & _). rewrite H, app_nil_r in E. now subst. Qed.
Lemma no_close_in_blanks bl inner close rest : Forall (fun t => blank_tok t = true) bl -> bl = inner ++ close :: rest -> blank_tok close = true.
Proof. intros F ->. apply Forall_app in F as [_ F]. now inversion F. Qed.

(** A brace that closes [d] + 1 groups. *)
Definition closing (pa : bool) (d : nat) (l inner : list qtok) (close : qtok) (rest : list qtok) : Prop :=
  l = inner ++ close :: rest /\ nest d (read_form pa inner) = Some O /\ blank_tok close = false /\ qt_tok (read_tok pa close) = T_GroupEnd.

(** What the loop returns: the tokens up to the brace that closes [d] + 1 groups. *)
Definition group_result (pa : bool) (d : nat) (acc : list qtok) (q : queue) (r : res (list qtok * nat) * queue) : Prop :=
  match r with
  | (Ok (l, stop), q') => exists inner close rest, closing pa d (fst (q_view q)) inner close rest /\ all_known cfg (read_form pa inner) /\
      l = acc ++ read_form pa inner /\ stop = sp_end (qt_span close) /\ good_queue q' /\ q_view q' = (rest, snd (q_view q)) /\ stored_as q q'
  | (Err e, _) =>
      (snd (q_view q) = LexError e \/
       (exists t, In t (fst (q_view q)) /\ reject_unknown cfg (read_tok pa t) = Some e) \/
       (exists sp, e = mkErr sp (E_UnclosedGroup EtGroupClose) /\ snd (q_view q) = LexEoi sp)) /\
      (forall inner close rest, closing pa d (fst (q_view q)) inner close rest -> all_known cfg (read_form pa inner) ->
         exists err, ahead (rest, snd (q_view q)) = Err err)
  | (Crash _, _) => False
  end.

Lemma group_loop_spec pa : forall fuel d acc q, good_queue q -> length (fst (q_view q)) < fuel ->
  group_result pa d acc q (record_group_loop cfg pa fuel d acc q).
Proof.
  induction fuel as [|f IH]; intros d acc q G Hf; [lia|]. cbn [record_group_loop].
  pose proof (next_mode_spec pa q G) as K. destruct (skip_for_split pa (fst (q_view q))) as (bl & Es & Fbl & Hbl & Hfr).
  set (l := skip_for pa (fst (q_view q))) in *. pose proof (read_first_cases (l, snd (q_view q))) as C.
  destruct (read_first (l, snd (q_view q))) as [[t|e|c] s] eqn:Erf.
  2: { destruct K as (q' & ->). split; [left; exact C|]. cbn [fst snd] in C. intros inner close rest (D1 & D2 & D3 & D4) _. rewrite Es in D1.
       destruct (not_in_blanks Fbl D3 D1) as (i & -> & E'). clearbody l. subst l.
       destruct i as [|x i]; cbn [app read_first] in Erf.
       - destruct (ahead (rest, snd (q_view q))) eqn:Ea; try discriminate. eauto.
       - destruct (ahead _) eqn:Ea in Erf; try discriminate. apply ahead_err_blank in Ea as [_ Ea]. apply skip_blank_nil in Ea.
         pose proof (no_close_in_blanks _ i close rest Ea eq_refl). congruence. }
  2: contradiction.
  destruct K as (q' & K1 & G' & V' & ST). cbn [fst snd] in C. rewrite K1. clear K1.
  destruct C as [(r & C1 & C2)|(C1 & sp & C2 & C3 & C4)].
  - injection C1 as El. rewrite El in Hfr. rewrite C2 in V'. clear C2 s Erf.
    assert (Ev : fst (q_view q) = bl ++ t :: r) by (rewrite Es, El; reflexivity).
    assert (R1 : read_form pa (bl ++ [t]) = [read_tok pa t]) by (rewrite read_form_app, Hbl, read_form_one by exact Hfr; reflexivity).
    assert (Dec : forall inner close rest, fst (q_view q) = inner ++ close :: rest -> blank_tok close = false ->
              (inner = bl /\ close = t /\ rest = r) \/ (exists i, inner = (bl ++ [t]) ++ i /\ r = i ++ close :: rest)).
    { intros inner close rest E B. rewrite Ev in E. destruct (not_in_blanks Fbl B E) as (i0 & -> & E0).
      destruct i0 as [|x i]; cbn [app] in E0; injection E0 as <- E0; [left; rewrite app_nil_r; auto|].
      right. exists i. rewrite <- app_assoc. auto. }
    destruct (reject_unknown cfg (read_tok pa t)) as [e|] eqn:Er.
    { split.
      - right; left. exists t. split; [rewrite Ev; apply in_elt|exact Er].
      - intros inner close rest (D1 & D2 & D3 & D4) AK. exfalso. destruct (Dec inner close rest D1 D3) as [(-> & -> & ->)|(i & -> & ->)].
        + unfold reject_unknown in Er. now rewrite D4 in Er.
        + rewrite read_form_app, R1 in AK. inversion AK. congruence. }
    assert (Lr : length r < f). { rewrite Ev, app_length in Hf. cbn [length] in Hf. lia. }
    assert (Step : forall d', (forall x, nest d (read_tok pa t :: x) = nest d' x) -> qt_tok (read_tok pa t) <> T_GroupEnd \/ d <> O ->
      group_result pa d acc q (record_group_loop cfg pa f d' (acc ++ [read_tok pa t]) q')).
    { intros d' Hd Hend. specialize (IH d' (acc ++ [read_tok pa t]) q' G'). unfold group_result in IH. rewrite V' in IH. cbn [fst snd] in IH. specialize (IH Lr).
      destruct (record_group_loop cfg pa f d' (acc ++ [read_tok pa t]) q') as [[[l' stop]|e|c] q'']; cbn [group_result].
      - destruct IH as (inner & close & rest & (I1 & I2 & I3 & I4) & I5 & I6 & I7 & I8 & I9 & I10).
        exists ((bl ++ [t]) ++ inner), close, rest. unfold closing.
        rewrite read_form_app, R1. cbn [app].
        split; [split; [rewrite Ev, I1, <- !app_assoc; reflexivity|]; split; [now rewrite Hd|]; split; [exact I3|]; exact I4|].
        split; [constructor; assumption|]. split; [rewrite I6, <- app_assoc; reflexivity|]. split; [exact I7|]. split; [exact I8|]. split; [exact I9|].
        destruct ST, I10. split; congruence.
      - destruct IH as [I IB]. split.
        + destruct I as [I|[(t' & I1 & I2)|I]]; [left; exact I| |right; right; exact I].
          right; left. exists t'. split; [rewrite Ev; apply in_or_app; right; now right|exact I2].
        + intros inner close rest (D1 & D2 & D3 & D4) AK. destruct (Dec inner close rest D1 D3) as [(-> & -> & ->)|(i & -> & ->)].
          * rewrite Hbl in D2. cbn in D2. injection D2 as ->. destruct Hend as [He|He]; [contradiction|now contradiction He].
          * rewrite read_form_app, R1 in D2, AK. cbn [app] in D2, AK. rewrite Hd in D2. inversion AK. apply (IB i close rest); [|assumption].
            repeat split; assumption.
      - exact IH. }
    destruct (qt_tok (read_tok pa t)) eqn:Et;
      try (apply Step; [intros x; cbn [nest]; now rewrite Et|left; discriminate]).
    + pose proof (view_no_eoi cfg q) as F. rewrite Ev in F. apply Forall_app in F as [_ F]. inversion F as [|? ? F1 F2].
      rewrite <- (not_eoi_read pa) in F1. unfold not_eoi in F1. now rewrite Et in F1.
    + destruct d as [|d].
      * exists bl, t, r. unfold closing. rewrite Hbl. split.
        { split; [exact Ev|]. split; [reflexivity|]. split; [|exact Et].
          destruct Hfr as [Hfr| ->]; [exact Hfr|]. cbn [read_tok] in Et. unfold blank_tok. now rewrite Et. }
        split; [constructor|]. split; [symmetry; apply app_nil_r|]. split; [now destruct pa|]. auto.
      * apply Step; [intros x; cbn [nest]; now rewrite Et|right; discriminate].
  - subst t. assert (reject_unknown cfg (read_tok pa (eoi_at sp)) = None) as -> by (destruct pa; reflexivity).
    assert (qt_tok (read_tok pa (eoi_at sp)) = T_Eoi) as -> by (destruct pa; reflexivity).
    split.
    + right; right. exists sp. split; [destruct pa; reflexivity|exact C2].
    + intros inner close rest (D1 & D2 & D3 & D4) AK. rewrite Es in D1.
      destruct (not_in_blanks Fbl D3 D1) as (i & _ & E'). rewrite C1 in E'. now destruct i.
Qed.

Lemma record_group_spec pa q : good_queue q -> group_result pa 0 [] q (record_group cfg pa q).
Proof. intros G. apply group_loop_spec; [exact G|]. pose proof (view_size q). lia. Qed.

(** ** Uniqueness *)

Lemma nest_prefix d l t x : qt_tok t = T_GroupEnd -> nest d l = Some O -> nest d (l ++ t :: x) = None.
Proof. intros H N. rewrite nest_app, N. cbn [nest]. now rewrite H. Qed.

Lemma closing_unique pa d l i c r i' c' r' : closing pa d l i c r -> closing pa d l i' c' r' -> i = i' /\ c = c' /\ r = r'.
Proof.
  intros (E & N & B & C) (E' & N' & B' & C'). rewrite E in E'. clear E.
  assert (A : forall i x (c : qtok), nest d (read_form pa i) = Some O -> blank_tok c = false -> qt_tok (read_tok pa c) = T_GroupEnd ->
     nest d (read_form pa (i ++ c :: x)) <> Some O).
  { clear. intros i x c N B C. change (i ++ c :: x) with (i ++ [c] ++ x). rewrite !read_form_app, (read_form_one pa c) by auto. cbn [app].
    rewrite (nest_prefix d _ _ _ C N). discriminate. }
  assert (P : (exists x, i' = i ++ x /\ c :: r = x ++ c' :: r') \/ (exists x, i = i' ++ x /\ c' :: r' = x ++ c :: r)).
  { clear -E'. revert i' E'. induction i as [|y i IH]; intros i' E'; [left; exists i'; auto|].
    destruct i' as [|z i']; [right; exists (y :: i); auto|]. cbn in E'. injection E' as -> E'.
    destruct (IH i' E') as [(x & -> & X)|(x & -> & X)]; [left|right]; exists x; auto. }
  destruct P as [(x & -> & X)|(x & -> & X)]; destruct x as [|y x]; cbn [app] in X; injection X as -> X; try (subst; rewrite app_nil_r; auto).
  - contradiction (A _ _ _ N B C N').
  - contradiction (A _ _ _ N' B' C' N).
Qed.

(** ** Arguments *)

Definition argument_result (pa : bool) (q : queue) (r : res macro_argument * queue) : Prop :=
  let l := fst (q_view q) in let e := snd (q_view q) in
  match r with
  | (Ok (MaToken ts), q') =>
      exists x, read_first (skip_blank l, e) = (Ok x, q_view q') /\ qt_tok (read_tok pa x) <> T_GroupBegin /\
        reject_unknown cfg (qt_unwrap x) = None /\ ts = qt_tokspan (read_tok pa x) /\ good_queue q' /\ stored_as q q'
  | (Ok (MaGroup body sp), q') =>
      exists bl open l1 inner close rest, l = bl ++ open :: l1 /\ Forall (fun t => blank_tok t = true) bl /\
        qt_tok (read_tok pa open) = T_GroupBegin /\ closes pa l1 inner close rest /\ all_known cfg (read_form pa inner) /\
        body = map qt_tokspan (read_form pa inner) /\ sp = mkSpan (sp_start (qt_span open)) (sp_end (qt_span close)) /\
        q_view q' = (rest, e) /\ good_queue q' /\ stored_as q q'
  | (Err err, _) =>
      (e = LexError err \/
       (exists t, In t l /\ (reject_unknown cfg t = Some err \/ reject_unknown cfg (qt_unwrap t) = Some err)) \/
       (exists sp, err = mkErr sp (E_UnclosedGroup EtGroupClose) /\ e = LexEoi sp)) /\
      (forall bl open l1 inner close rest, l = bl ++ open :: l1 -> Forall (fun t => blank_tok t = true) bl ->
         qt_tok (read_tok pa open) = T_GroupBegin -> closes pa l1 inner close rest -> all_known cfg (read_form pa inner) ->
         exists err', ahead (rest, e) = Err err')
  | (Crash _, _) => False
  end.

Lemma skip_blank_app bl x l : Forall (fun t => blank_tok t = true) bl -> blank_tok x = false -> skip_blank (bl ++ x :: l) = x :: l.
Proof.
  intros F B. unfold skip_blank. rewrite split_while_app, (split_while_all _ _ F). cbn [snd split_while]. now rewrite B.
Qed.
Lemma read_tok_blank pa t : qt_tok (read_tok pa t) = T_GroupBegin -> blank_tok t = false.
Proof. unfold blank_tok. destruct pa; cbn [read_tok qt_unwrap qt_with qt_tok]; [intros ->; reflexivity|]. now destruct (qt_tok t). Qed.
Lemma open_unwrap pa t : qt_tok (read_tok pa t) = T_GroupBegin -> reject_unknown cfg (qt_unwrap t) = None.
Proof. unfold reject_unknown. destruct pa; cbn [read_tok qt_unwrap qt_with qt_tok]; [intros ->; reflexivity|]. now intros ->. Qed.

Lemma read_argument_spec pa q : good_queue q -> argument_result pa q (read_argument cfg pa q).
Proof.
  intros G. unfold read_argument. pose proof (next_spec q G) as K.
  destruct (skip_blank_split (fst (q_view q))) as (bl & Es & Fbl & Hfr).
  pose proof (read_first_cases (skip_blank (fst (q_view q)), snd (q_view q))) as C.
  assert (Dec : forall bl' open l1, fst (q_view q) = bl' ++ open :: l1 -> Forall (fun t => blank_tok t = true) bl' ->
            qt_tok (read_tok pa open) = T_GroupBegin -> skip_blank (fst (q_view q)) = open :: l1).
  { intros bl' open l1 -> F H. apply skip_blank_app; [exact F|]. now apply (read_tok_blank pa). }
  destruct (read_first _) as [[t|e|c] s] eqn:Erf.
  2: { destruct K as (q' & ->). split; [left; exact C|]. intros bl' open l1 inner close rest E F H (D1 & D2 & D3 & D4) AK.
       rewrite (Dec _ _ _ E F H) in Erf. cbn [read_first] in Erf.
       destruct (ahead (l1, snd (q_view q))) eqn:Ea; try discriminate.
       apply ahead_err_blank in Ea as [_ Ea]. apply skip_blank_nil in Ea. rewrite D1 in Ea.
       pose proof (no_close_in_blanks _ inner close rest Ea eq_refl). congruence. }
  2: contradiction.
  destruct K as (q' & -> & G' & V' & ST). cbn [fst snd] in C.
  assert (First : (if pa then q_peek q else qt_unwrap t) = read_tok pa t).
  { destruct pa; [|reflexivity]. cbn [read_tok]. pose proof (good_ahead cfg q G) as A. unfold ahead in A.
    destruct C as [(r & C1 & C2)|(C1 & sp & C2 & -> & C4)].
    - apply (f_equal fst) in C1; cbn [fst] in C1. rewrite C1 in A. cbn [front] in A. now injection A.
    - rewrite C1, C2 in A. cbn [front] in A. now injection A. }
  destruct (reject_unknown cfg (qt_unwrap t)) as [e|] eqn:Er.
  { split.
    - right; left. destruct C as [(r & C1 & C2)|(C1 & sp & C2 & -> & C4)]; [|discriminate]. apply (f_equal fst) in C1; cbn [fst] in C1.
      exists t. split; [rewrite Es, C1; apply in_elt|auto].
    - intros bl' open l1 inner close rest E F H (D1 & D2 & D3 & D4) AK. exfalso.
      destruct C as [(r & C1 & C2)|(C1 & sp & C2 & -> & C4)]; [|discriminate]. apply (f_equal fst) in C1; cbn [fst] in C1. rewrite (Dec _ _ _ E F H) in C1. injection C1 as -> ->.
      rewrite (open_unwrap pa t H) in Er. discriminate. }
  rewrite First.
  destruct (qt_tok (read_tok pa t)) eqn:Et;
    try (exists t; rewrite V'; split; [exact Erf|]; split; [rewrite Et; discriminate|]; split; [exact Er|]; split; [reflexivity|]; split; [exact G'|exact ST]).
  destruct C as [(r & C1 & C2)|(C1 & sp & C2 & -> & C4)]; [|destruct pa; discriminate]. apply (f_equal fst) in C1; cbn [fst] in C1. rewrite C2 in V'.
  pose proof (record_group_spec pa q' G') as R. unfold group_result in R. rewrite V' in R. cbn [fst snd] in R.
  destruct (record_group cfg pa q') as [[[l stop]|e|c] q''].
  - destruct R as (inner & close & rest & Cl & AK & -> & -> & G'' & V'' & ST''). cbn [app].
    exists bl, t, r, inner, close, rest. split; [rewrite Es, C1; reflexivity|]. split; [exact Fbl|]. split; [exact Et|].
    split; [exact Cl|]. split; [exact AK|]. split; [reflexivity|]. split; [destruct pa; reflexivity|]. split; [exact V''|]. split; [exact G''|].
    destruct ST, ST''. split; congruence.
  - destruct R as [R1 R2]. split.
    + destruct R1 as [R1|[(t' & R3 & R4)|R1]]; [left; exact R1| |right; right; exact R1].
      right; left. exists t'. split; [rewrite Es, C1; apply in_or_app; right; now right|]. destruct pa; auto.
    + intros bl' open l1 inner close rest E F H Cl AK. rewrite (Dec _ _ _ E F H) in C1. injection C1 as -> ->. now apply (R2 inner close rest).
  - exact R.
Qed.

(** ** Macro arguments *)

(** The buffer [a] holds the arguments [args]. *)
Definition holds (a : cmd_args) (args : list (list qtok)) : Prop :=
  ca_tokens a = concat args /\ length (ca_offsets a) = 9 /\
  forall i, i < length args -> nth i (ca_offsets a) 0 = length (concat (firstn (S i) args)).

Lemma holds_clear : holds args_clear [].
Proof. repeat split. intros i H. cbn in H. lia. Qed.

Lemma nth_update_same {A} n (x d : A) l : n < length l -> nth n (update_nth n x l) d = x.
Proof. revert l. induction n as [|n IH]; intros [|y l] H; cbn in *; try lia; [reflexivity|]. apply IH. lia. Qed.
Lemma nth_update_other {A} n m (x d : A) l : n <> m -> nth m (update_nth n x l) d = nth m l d.
Proof. revert n m. induction l as [|y l IH]; intros [|n] [|m] H; cbn; try reflexivity; try lia. apply IH. lia. Qed.
Lemma length_update {A} n (x : A) l : length (update_nth n x l) = length l.
Proof. revert n. induction l as [|y l IH]; intros [|n]; cbn; auto. Qed.

Lemma firstn_app_le {A} n (l1 l2 : list A) : n <= length l1 -> firstn n (l1 ++ l2) = firstn n l1.
Proof. intros H. rewrite firstn_app. replace (n - length l1) with 0 by lia. cbn. apply app_nil_r. Qed.

Lemma holds_more a args arg : holds a args -> length args < 9 -> holds (args_finish (args_append a arg) (length args)) (args ++ [arg]).
Proof.
  intros (H1 & H2 & H3) L. unfold holds. cbn [args_finish args_append ca_tokens ca_offsets]. rewrite concat_app. cbn [concat]. rewrite app_nil_r.
  split; [now rewrite H1|]. split; [now rewrite length_update|]. intros i Hi. rewrite app_length in Hi. cbn in Hi.
  destruct (Nat.eq_dec i (length args)) as [->|Hn].
  - rewrite nth_update_same by lia. rewrite firstn_all2 by (rewrite app_length; cbn; lia). rewrite concat_app, H1. cbn [concat].
    now rewrite app_nil_r.
  - rewrite nth_update_other by lia. rewrite H3 by lia. now rewrite firstn_app_le by lia.
Qed.

Lemma concat_firstn_S {A} (l : list (list A)) i : i < length l -> concat (firstn (S i) l) = concat (firstn i l) ++ nth i l [].
Proof.
  revert i. induction l as [|x l IH]; intros i H; [cbn in H; lia|]. destruct i as [|i]; cbn [firstn concat nth app]; [now rewrite app_nil_r|].
  rewrite <- app_assoc, <- IH by (cbn in H; lia). reflexivity.
Qed.
Lemma concat_split {A} (l : list (list A)) i : i < length l -> concat l = concat (firstn i l) ++ nth i l [] ++ concat (skipn (S i) l).
Proof.
  intros H. rewrite <- (firstn_skipn (S i) l) at 1. rewrite concat_app, concat_firstn_S by exact H. now rewrite <- app_assoc.
Qed.

Lemma holds_get a args i : holds a args -> i < length args -> length args <= 9 -> args_get a i = nth i args [].
Proof.
  intros (H1 & H2 & H3) Hi Hl. unfold args_get.
  assert (Start : match i with O => O | S m => nth m (ca_offsets a) O end = length (concat (firstn i args))).
  { destruct i as [|m]; [reflexivity|]. apply H3. lia. }
  rewrite Start. rewrite (nth_indep _ _ 0) by lia. rewrite H3 by exact Hi. rewrite H1.
  rewrite (concat_split args i Hi). rewrite concat_firstn_S by exact Hi. unfold slice_get. rewrite !app_length.
  assert (((length (concat (firstn i args)) <=? length (concat (firstn i args)) + length (nth i args [])) &&
           (length (concat (firstn i args)) + length (nth i args []) <=?
            length (concat (firstn i args)) + (length (nth i args []) + length (concat (skipn (S i) args))))) = true) as ->.
  { apply andb_true_intro. split; apply Nat.leb_le; lia. }
  rewrite skipn_app, skipn_all, Nat.sub_diag. cbn [app skipn]. rewrite Nat.add_comm, Nat.add_sub.
  rewrite firstn_app, firstn_all, Nat.sub_diag. cbn. apply app_nil_r.
Qed.

Definition args_result (n : nat) (before : list (list qtok)) (q : queue) (r : res cmd_args * queue) : Prop :=
  let l := fst (q_view q) in let e := snd (q_view q) in
  match r with
  | (Ok a, q') => exists args rest, length args = n /\ takes_args l args rest /\ q_view q' = (rest, e) /\ holds a (before ++ args) /\
      good_queue q' /\ stored_as q q'
  | (Err err, _) => forall args rest, length args = n -> takes_args l args rest ->
      (exists t, In t l /\ (reject_unknown cfg t <> None \/ reject_unknown cfg (qt_unwrap t) <> None)) \/ (exists err', e = LexError err')
  | (Crash _, _) => False
  end.

Lemma takes_arg_sub l arg rest : takes_arg l arg rest -> exists p, l = p ++ rest.
Proof.
  destruct 1.
  - exists (bl ++ [x]). now rewrite <- app_assoc.
  - exists (bl ++ open :: inner ++ [close]). rewrite <- app_assoc. cbn [app]. now rewrite <- app_assoc.
Qed.

(** An argument is determined by the stream. *)
Lemma takes_arg_token l arg rest x r : takes_arg l arg rest -> skip_blank l = x :: r -> qt_tok (qt_unwrap x) <> T_GroupBegin ->
  arg = [qt_unwrap x] /\ rest = r /\ qt_tok (qt_unwrap x) <> T_Eoi.
Proof.
  destruct 1; rewrite skip_blank_app by assumption; intros E N; injection E as E1 E2; subst; auto. contradiction.
Qed.
Lemma takes_arg_group l arg rest x r : takes_arg l arg rest -> skip_blank l = x :: r -> qt_tok (qt_unwrap x) = T_GroupBegin ->
  exists close, closing true 0 r arg close rest.
Proof.
  destruct 1; rewrite skip_blank_app by assumption; intros E N; injection E as E1 E2; subst; [contradiction|]. exists close. repeat split; auto.
  unfold blank_tok. cbn [read_tok] in *. now rewrite H3.
Qed.
Lemma takes_arg_nonempty l arg rest : takes_arg l arg rest -> skip_blank l <> [].
Proof. destruct 1; rewrite skip_blank_app by assumption; discriminate. Qed.

Lemma read_args_spec n : forall arg a before q, good_queue q -> holds a before -> arg = length before -> length before + n <= 9 ->
  args_result n before q (read_args_loop cfg n arg a q).
Proof.
  induction n as [|n IH]; intros arg a before q G H Ha L; cbn [read_args_loop].
  { exists [], (fst (q_view q)). rewrite app_nil_r, <- surjective_pairing. repeat split; try apply G; try apply H. constructor. }
  pose proof (next_spec q G) as K.
  destruct (skip_blank_split (fst (q_view q))) as (bl & Es & Fbl & Hfr).
  pose proof (read_first_cases (skip_blank (fst (q_view q)), snd (q_view q))) as C.
  destruct (read_first _) as [[t|e|c] s] eqn:Erf.
  2: { destruct K as (q' & ->). intros args rest _ _. right. cbn in C. eauto. }
  2: contradiction.
  destruct K as (q' & -> & G' & V' & ST). cbn [fst snd] in C.
  destruct (reject_unknown cfg (qt_unwrap t)) as [e|] eqn:Er.
  { intros args rest _ _. left. destruct C as [(r & C1 & C2)|(C1 & sp & C2 & -> & C4)]; [|discriminate].
    apply (f_equal fst) in C1; cbn [fst] in C1. exists t. split; [rewrite Es, C1; apply in_elt|right; congruence]. }
  destruct C as [(r & C1 & C2)|(C1 & sp & C2 & -> & C4)].
  2: { cbn [qt_unwrap qt_with eoi_at qt_tok unwrap_math]. intros args rest La T. inversion T as [|l arg' l1 args' l2 T1 T2 X1 X2]; subst; [discriminate|].
       now apply takes_arg_nonempty in T1. }
  apply (f_equal fst) in C1; cbn [fst] in C1. rewrite C2 in V'. rewrite C1 in Hfr.
  assert (Ev : fst (q_view q) = bl ++ t :: r) by (rewrite Es, C1; reflexivity).
  (* the rest, after this argument *)
  assert (Rest : forall arg' r' q1, takes_arg (fst (q_view q)) arg' r' -> good_queue q1 -> q_view q1 = (r', snd (q_view q)) -> stored_as q q1 ->
            (forall arg2 r2, takes_arg (fst (q_view q)) arg2 r2 -> r2 = r') ->
            args_result (S n) before q (read_args_loop cfg n (S arg) (args_finish (args_append a arg') arg) q1)).
  { intros arg' r' q1 T G1 V1 ST1 Un. subst arg.
    specialize (IH (S (length before)) (args_finish (args_append a arg') (length before)) (before ++ [arg']) q1 G1).
    specialize (IH (holds_more _ _ _ H ltac:(lia))). rewrite app_length in IH. cbn [length] in IH. specialize (IH ltac:(lia) ltac:(lia)).
    unfold args_result in *. rewrite V1 in IH. cbn [fst snd] in IH.
    destruct (read_args_loop cfg n (S (length before)) _ q1) as [[a'|e|c] q2].
    - destruct IH as (args & rest & I1 & I2 & I3 & I4 & I5 & I6). exists (arg' :: args), rest. split; [cbn; congruence|].
      split; [econstructor; eassumption|]. split; [exact I3|]. rewrite <- app_assoc in I4. split; [exact I4|]. split; [exact I5|].
      destruct ST1, I6. split; congruence.
    - intros args rest La Ta. inversion Ta as [|l arg2 l1 args2 l2 T1 T2 X1 X2]; subst; [discriminate|].
      specialize (Un _ _ T1). subst l1. cbn in La. destruct (IH args2 rest ltac:(lia) T2) as [(t' & I1 & I2)|I1]; [|right; exact I1].
      left. exists t'. split; [|exact I2]. destruct (takes_arg_sub _ _ _ T) as (p & ->). apply in_or_app. now right.
    - exact IH. }
  assert (Tok : qt_tok (qt_unwrap t) <> T_GroupBegin -> qt_tok (qt_unwrap t) <> T_Eoi ->
            args_result (S n) before q (read_args_loop cfg n (S arg) (args_finish (args_append a [qt_unwrap t]) arg) q')).
  { intros N1 N2. apply (Rest _ r); [rewrite Ev; now constructor|exact G'|exact V'|exact ST|].
    intros arg2 r2 T. now apply (takes_arg_token _ _ _ t r T C1) in N1. }
  destruct (qt_tok (qt_unwrap t)) eqn:Et; try (apply Tok; discriminate).
  - (* end of input *)
    intros args rest La T. inversion T as [|l arg' l1 args' l2 T1 T2 X1 X2]; subst; [discriminate|].
    destruct (takes_arg_token _ _ _ t r T1 C1) as (_ & _ & Ne); [rewrite Et; discriminate|contradiction].
  - (* a group *)
    pose proof (record_group_spec true q' G') as R. unfold group_result in R. rewrite V' in R. cbn [fst snd] in R.
    destruct (record_group cfg true q') as [[[l stop]|e|c] q''].
    + destruct R as (inner & close & rest & Cl & AK & -> & -> & G'' & V'' & ST''). cbn [app read_form] in *.
      apply (Rest _ rest).
      * rewrite Ev. destruct Cl as (-> & D2 & D3 & D4). constructor; assumption.
      * exact G''.
      * exact V''.
      * destruct ST, ST''. split; congruence.
      * intros arg2 r2 T. destruct (takes_arg_group _ _ _ t r T C1 Et) as (c2 & Cl2). now destruct (closing_unique _ _ _ _ _ _ _ _ _ Cl2 Cl).
    + destruct R as [R1 R2]. intros args rest La T. inversion T as [|l arg' l1 args' l2 T1 T2 X1 X2]; subst; [discriminate|].
      destruct R1 as [R1|[(t' & R3 & R4)|(sp & R1 & R3)]].
      * right. eauto.
      * left. exists t'. split; [rewrite Ev; apply in_or_app; right; now right|]. left. cbn [read_tok] in R4. congruence.
      * destruct (takes_arg_group _ _ _ t r T1 C1 Et) as (c2 & Cl2).
        assert (D : all_known cfg arg' \/ exists t', In t' arg' /\ reject_unknown cfg t' <> None).
        { clear. induction arg' as [|x l IH]; [left; constructor|]. destruct (reject_unknown cfg x) eqn:E.
          - right. exists x. split; [now left|congruence].
          - destruct IH as [IH|(t' & H1 & H2)]; [left; now constructor|right; exists t'; split; [now right|exact H2]]. }
        destruct D as [D|(t' & D1 & D2)].
        -- destruct (R2 _ _ _ Cl2 D) as (err & R). apply ahead_err_blank in R as [R _]. right. eauto.
        -- left. exists t'. split; [|auto]. rewrite Ev. destruct Cl2 as (-> & _). apply in_or_app. right. right. apply in_or_app. now left.
    + exact R.
Qed.

Lemma read_cmd_args_spec n q : good_queue q -> n <= 9 -> args_result n [] q (read_cmd_args cfg n q).
Proof. intros G L. apply read_args_spec; auto. apply holds_clear. Qed.

Lemma blanks_unique bl x l bl' x' l' : Forall (fun t => blank_tok t = true) bl -> blank_tok x = false ->
  Forall (fun t => blank_tok t = true) bl' -> blank_tok x' = false -> bl ++ x :: l = bl' ++ x' :: l' -> x = x' /\ l = l'.
Proof.
  intros F H F' H' E. assert (X : x :: l = x' :: l').
  { rewrite <- (skip_blank_app bl x l F H), <- (skip_blank_app bl' x' l' F' H'). now rewrite E. }
  now injection X.
Qed.
Lemma takes_arg_unique l arg rest arg' rest' : takes_arg l arg rest -> takes_arg l arg' rest' -> arg = arg' /\ rest = rest'.
Proof.
  intros H H'. inversion H as [bl x r F B N1 N2|bl o i c r F B O Bal C]; subst; inversion H' as [bl' x' r' F' B' N1' N2'|bl' o' i' c' r' F' B' O' Bal' C']; subst.
  - match goal with X : _ = _ |- _ => destruct (blanks_unique _ _ _ _ _ _ F' B' F B X) as (-> & ->) end. auto.
  - match goal with X : _ = _ |- _ => destruct (blanks_unique _ _ _ _ _ _ F' B' F B X) as (-> & _) end. contradiction.
  - match goal with X : _ = _ |- _ => destruct (blanks_unique _ _ _ _ _ _ F' B' F B X) as (-> & _) end. contradiction.
  - match goal with X : _ = _ |- _ => destruct (blanks_unique _ _ _ _ _ _ F' B' F B X) as (-> & X') end.
    assert (blank_tok c = false) by (unfold blank_tok; now rewrite C). assert (blank_tok c' = false) by (unfold blank_tok; now rewrite C').
    destruct (closing_unique true 0 (arg ++ c :: rest) arg c rest arg' c' rest') as (-> & -> & ->); auto; repeat split; auto.
Qed.
Lemma takes_args_unique l args rest : takes_args l args rest -> forall args' rest', takes_args l args' rest' ->
  length args = length args' -> args = args' /\ rest = rest'.
Proof.
  induction 1 as [l|l arg l1 args l2 T Ts IH]; intros args' rest' H' L.
  - destruct args'; [|discriminate]. inversion H'. auto.
  - destruct args' as [|arg' args']; [discriminate|]. inversion H' as [|? ? l1' ? ? T' Ts']; subst.
    destruct (takes_arg_unique _ _ _ _ _ T T') as (<- & <-). destruct (IH _ _ Ts') as (<- & <-); [now injection L|]. auto.
Qed.

(** ** Expansion *)

Lemma body_token_subst q a args sp t : holds a args -> length args <= 9 ->
  match t with T_CustomCmdArg i => i < length args | _ => True end ->
  body_token a sp t = substituted (q_meaning cfg q) args sp (RTok t).
Proof.
  intros H L B. destruct t; try reflexivity. cbn [body_token substituted].
  rewrite (holds_get a args _ H B L). unfold arg_front. now destruct (nth n args []).
Qed.
Lemma recorded_token_subst q a args sp r : holds a args -> length args <= 9 ->
  match r with RTok (T_CustomCmdArg i) => i < length args | _ => True end ->
  recorded_token cfg q a sp r = substituted (q_meaning cfg q) args sp r.
Proof.
  intros H L B. destruct r as [t|name].
  - apply body_token_subst; auto.
  - cbn [recorded_token substituted]. unfold q_meaning. destruct (q_resolve cfg q name) as [t|] eqn:E; [|reflexivity].
    apply q_resolve_plain in E. apply andb_prop in E as [_ E]. destruct t; try discriminate; reflexivity.
Qed.

Lemma takes_arg_no_eoi l arg rest : takes_arg l arg rest -> Forall (fun t => not_eoi t = true) l ->
  Forall (fun t => not_eoi t = true) arg /\ Forall (fun t => not_eoi t = true) rest.
Proof.
  destruct 1; intros F; apply Forall_app in F as [_ F]; inversion F as [|? ? F1 F2]; subst.
  - split; [|exact F2]. constructor; [|constructor]. rewrite <- F1. apply (not_eoi_read false x).
  - apply Forall_app in F2 as [F2 F3]. inversion F3; subst. auto.
Qed.
Lemma takes_args_no_eoi l args rest : takes_args l args rest -> Forall (fun t => not_eoi t = true) l ->
  Forall (Forall (fun t => not_eoi t = true)) args /\ Forall (fun t => not_eoi t = true) rest.
Proof.
  induction 1; intros F; [split; [constructor|exact F]|].
  destruct (takes_arg_no_eoi _ _ _ H F) as [F1 F2]. destruct (IHtakes_args F2) as [F3 F4]. split; [now constructor|exact F4].
Qed.

Lemma expansion_no_eoi q args sp body : Forall (Forall (fun t => not_eoi t = true)) args -> Forall not_means_eoi body ->
  Forall (fun t => not_eoi t = true) (expansion (q_meaning cfg q) args sp body).
Proof.
  intros Fa Fb. assert (A : Forall (fun t => not_eoi t = true) (flat_map (substituted (q_meaning cfg q) args sp) body)).
  { induction Fb as [|r body Hr Fb IH]; [constructor|]. cbn [flat_map]. apply Forall_app. split; [|exact IH].
    assert (One : forall t s, means_eoi t = false -> Forall (fun t => not_eoi t = true) [mkQt t s None]).
    { intros t s X. constructor; [|constructor]. unfold not_eoi. cbn [qt_tok]. now rewrite X. }
    destruct r as [t|name]; cbn [substituted].
    - destruct t; try (apply One; exact Hr).
      destruct (nth n args []) as [|y ys] eqn:En.
      + constructor; [reflexivity|]. constructor; [reflexivity|constructor].
      + rewrite <- En. destruct (Nat.lt_ge_cases n (length args)) as [Hn|Hn].
        * rewrite Forall_forall in Fa. apply Fa. now apply nth_In.
        * rewrite nth_overflow in En by exact Hn. discriminate.
    - pose proof (q_meaning_no_eoi cfg q name) as M. destruct (q_meaning cfg q name); apply One; exact M || reflexivity. }
  destruct body; [|exact A]. constructor; [reflexivity|constructor].
Qed.

(** A stored macro. *)
Lemma expand_ref_spec q1 src start stop a args sp body : good_queue q1 -> holds a args -> length args <= 9 ->
  Forall (Forall (fun t => not_eoi t = true)) args ->
  q_body cfg q1 src start stop = Some body -> params_below (length args) body -> Forall not_means_eoi body ->
  exists q2, queue_stored_body cfg src start stop a sp q1 = (true, q2) /\ good_queue q2 /\ stored_as q1 q2 /\
    q_view q2 = (expansion (q_meaning cfg q1) args sp body ++ fst (q_view q1), snd (q_view q1)).
Proof.
  intros G H L Fa Hb P Fb. unfold queue_stored_body. rewrite Hb.
  assert (E : (match body with [] => empty_front sp | _ => flat_map (recorded_token cfg q1 a sp) body end) = expansion (q_meaning cfg q1) args sp body).
  { destruct body as [|r body]; [reflexivity|]. cbn [expansion]. set (b := r :: body) in *. clearbody b. clear Hb Fb.
    induction P as [|x l Hx P IH]; [reflexivity|]. cbn [flat_map]. rewrite IH. f_equal. now apply recorded_token_subst. }
  pose proof (push_spec cfg (expansion (q_meaning cfg q1) args sp body) q1 G (expansion_no_eoi _ _ _ _ Fa Fb)) as (P1 & P2 & P3).
  exists (queue_in_front (expansion (q_meaning cfg q1) args sp body) q1). rewrite <- E in P1, P2, P3 |- *.
  split; [destruct body; reflexivity|]. split; [exact P1|]. split; [exact P3|]. exact P2.
Qed.

(** A builtin macro. *)
Lemma expand_builtin_spec q1 a args sp toks : good_queue q1 -> holds a args -> length args <= 9 ->
  Forall (Forall (fun t => not_eoi t = true)) args -> params_below (length args) (map RTok toks) -> Forall not_means_eoi (map RTok toks) ->
  good_queue (queue_body toks a sp q1) /\ stored_as q1 (queue_body toks a sp q1) /\
  q_view (queue_body toks a sp q1) = (expansion (q_meaning cfg q1) args sp (map RTok toks) ++ fst (q_view q1), snd (q_view q1)).
Proof.
  intros G H L Fa P Fb. unfold queue_body.
  assert (E : (match toks with [] => empty_front sp | _ => flat_map (body_token a sp) toks end) = expansion (q_meaning cfg q1) args sp (map RTok toks)).
  { destruct toks as [|r body]; [reflexivity|]. cbn [expansion map]. change (RTok r :: map RTok body) with (map RTok (r :: body)).
    set (b := r :: body) in *. clearbody b. clear Fb.
    induction b as [|x l IH]; [reflexivity|]. cbn [flat_map map]. inversion P as [|? ? P1 P2]; subst. rewrite IH by exact P2. f_equal. now apply body_token_subst. }
  rewrite E. pose proof (push_spec cfg (expansion (q_meaning cfg q1) args sp (map RTok toks)) q1 G (expansion_no_eoi _ _ _ _ Fa Fb)) as (P1 & P2 & P3).
  auto.
Qed.
End Q.
