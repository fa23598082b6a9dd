(** The use of a macro, from states whose remaining tokens are known. *)
From Verif Require Import Str M_SuperChar M_Transform M_Length M_Spec M_Ast M_Token M_Symbols M_Commands M_Env
  M_LatexError M_Lexer M_CustomCmds M_Queue M_Spacing M_Colors M_Leaf M_TextParser M_Parser
  S_Lexer S_Queue S_Scripts S_Formula S_Reading L_Queue L_Args L_Reads L_Wp L_Ends L_Wins.
Local Open Scope nat_scope.

Lemma map_split {A B} (f : A -> B) l a b : map f l = a ++ b -> exists l1 l2, l = l1 ++ l2 /\ map f l1 = a /\ map f l2 = b.
Proof.
  revert l. induction a as [|x a IH]; intros l E; [now exists [], l|]. destruct l as [|y l]; [discriminate|]. cbn [map app] in E. injection E as E1 E2.
  destruct (IH l E2) as (l1 & l2 & -> & <- & <-). exists (y :: l1), l2. cbn [map app]. now rewrite E1.
Qed.
Lemma level_nest l : forall d, nest d l = level d (map qt_tok l).
Proof.
  induction l as [|t l IH]; intros d; [reflexivity|]. cbn [nest map level]. destruct (qt_tok t); try apply IH. destruct d; [reflexivity|apply IH].
Qed.
Lemma grabs_takes l w a r : map qt_tok l = w -> grabs w a r -> exists arg rest, takes_arg l arg rest /\ map qt_tok arg = a /\ map qt_tok rest = r.
Proof.
  intros E G. destruct (skip_blank_split l) as (bl & El & Fb & Hb). pose proof (skip_bare l) as Sk. rewrite E in Sk.
  destruct G as [w t r B N1 N2 N3|w inner r B L].
  - rewrite B in Sk. destruct (skip_blank l) as [|x l']; [discriminate|]. cbn [map] in Sk. injection Sk as E1 E2. exists [qt_unwrap x], l'. rewrite El. split; [|cbn; now rewrite E1].
    pose proof (bare_head _ _ _ B) as W. constructor; [exact Fb|unfold blank_tok; now rewrite E1|cbn; now rewrite E1|cbn; now rewrite E1].
  - rewrite B in Sk. destruct (skip_blank l) as [|x l']; [discriminate|]. cbn [map] in Sk. injection Sk as E1 E2.
    destruct (map_split _ _ _ _ E2) as (li & l2 & -> & Ei & E3). destruct l2 as [|y l2]; [discriminate|]. cbn [map] in E3. injection E3 as E3 E4.
    exists li, l2. rewrite El. split; [|now split]. constructor; [exact Fb|unfold blank_tok; now rewrite E1|cbn; now rewrite E1| |exact E3].
    unfold balanced. now rewrite level_nest, Ei.
Qed.
Lemma grabs_takes_all w args r : grabs_all w args r -> forall l, map qt_tok l = w ->
  exists qs rest, takes_args l qs rest /\ map (map qt_tok) qs = args /\ map qt_tok rest = r.
Proof.
  induction 1 as [w|w a w1 args k G Gs IH]; intros l E; [exists [], l; split; [constructor|now split]|].
  destruct (grabs_takes l w a w1 E G) as (arg & rest & T & Ea & Er). destruct (IH rest Er) as (qs & rest' & Ts & Eq & Er'). exists (arg :: qs), rest'.
  split; [now apply (takes_more _ _ rest)|]. cbn [map]. now rewrite Ea, Eq.
Qed.
Lemma grabs_tail w a r : grabs w a r -> exists p, w = p ++ r.
Proof.
  intros [w' t r' B|w' inner r' B _]; destruct (bare_blank w') as (n & E & _); rewrite B in E.
  - exists (repeat T_Whitespace n ++ [t]). now rewrite <- app_assoc.
  - exists (repeat T_Whitespace n ++ T_GroupBegin :: inner ++ [T_GroupEnd]). rewrite E, <- app_assoc. cbn [app]. now rewrite <- app_assoc.
Qed.
Lemma grabs_all_tail w args r : grabs_all w args r -> exists p, w = p ++ r.
Proof. induction 1 as [|w a w1 args k G Gs (p & IH)]; [now exists []|]. destruct (grabs_tail _ _ _ G) as (p1 & ->). exists (p1 ++ p). now rewrite <- app_assoc, <- IH. Qed.

Section Expand.
Context {Ft : fate} (cfg : parser_cfg) (usize_max : N) (local cmds : custom_cmds).
Notation q_view := (q_view cfg).
Notation qat := (qat cfg local cmds).
Notation at_ := (at_ cfg local cmds).
Notation wins := (wins cfg usize_max).
Notation exec := (exec cfg usize_max).

(** The meaning of names, and the bodies of the macros. *)
Definition the_mean (name : str) : token := match resolve_command cfg local cmds name with Some t => t | None => T_UnresolvedCommand name end.
Definition the_body (src : cmd_source) (start stop : nat) : option (list recorded) :=
  cmds_body (match src with SrcConfig => pc_custom cfg | SrcDocument => cmds | SrcLocal => local end) start stop.

Lemma expansion_unfolded mean qs sp body : map qt_tok (expansion mean qs sp body) = unfolded mean (map (map qt_tok) qs) body.
Proof.
  unfold expansion, unfolded. destruct body as [|r body]; [reflexivity|]. generalize (r :: body). clear. intros l. induction l as [|r l IH]; [reflexivity|].
  cbn [flat_map]. rewrite map_app, IH. f_equal. destruct r as [t|name]; cbn [substituted put_in].
  - destruct t; try reflexivity. change (@nil token) with (map qt_tok []) at 1. rewrite map_nth. now destruct (nth n qs []).
  - now destruct (mean name).
Qed.
Lemma known_reject x : known (qt_tok x) = true -> reject_unknown cfg x = None /\ reject_unknown cfg (qt_unwrap x) = None.
Proof.
  unfold known, reject_unknown. cbn [qt_unwrap qt_with qt_tok]. intros K. split; [destruct (qt_tok x); try reflexivity; discriminate K|destruct (unwrap_math (qt_tok x)); try reflexivity; discriminate K].
Qed.
Lemma args_at d w args r q : qat d w q -> grabs_all w args r -> length args <= 9 ->
  exists ca qs q', read_cmd_args cfg (length args) q = (Ok ca, q') /\ map (map qt_tok) qs = args /\ holds ca qs /\ qat d r q' /\ stored_as q q' /\
    Forall (Forall (fun t => not_eoi t = true)) qs.
Proof.
  intros (G & V & (sp & E) & L & Gs & Kn) H Le. pose proof (read_cmd_args_spec cfg _ q G Le) as A. destruct (grabs_takes_all _ _ _ H _ V) as (qs & rest & T & Eq & Er).
  assert (Lq : length qs = length args) by (rewrite <- Eq, map_length; reflexivity). unfold args_result in A. destruct (read_cmd_args cfg (length args) q) as [[ca|e|c] q']; [| |destruct A].
  - destruct A as (qs' & rest' & L' & T' & V' & Ho & G' & [S1 S2]). destruct (takes_args_unique _ _ _ T _ _ T') as [<- <-]; [congruence|]. exists ca, qs, q'.
    split; [reflexivity|]. split; [exact Eq|]. split; [exact Ho|]. split; [|split; [now split|]].
    + split; [exact G'|]. rewrite V'. cbn [fst snd]. repeat split; [exact Er|eauto|congruence|congruence|]. destruct Kn as [Kn|Kn]; [now left|right].
      destruct (grabs_all_tail _ _ _ H) as (p & ->). now apply Forall_app in Kn as [_ Kn].
    + exact (proj1 (takes_args_no_eoi _ _ _ T (view_no_eoi cfg q))).
  - exfalso. destruct (A qs rest Lq T) as [(t & Ht & Rj)|(err & X)]; [|congruence]. destruct Kn as [Kn|Kn].
    + unfold reject_unknown in Rj. rewrite Kn in Rj. destruct Rj as [Rj|Rj]; [destruct (qt_tok t)|destruct (qt_tok (qt_unwrap t))]; now destruct Rj.
    + rewrite Forall_forall in Kn. destruct (known_reject t) as [R1 R2]; [|rewrite R1, R2 in Rj; now destruct Rj]. apply Kn. rewrite <- V. now apply in_map.
Qed.
Lemma the_q_mean d w q : qat d w q -> forall name, q_meaning cfg q name = the_mean name.
Proof. intros (_ & _ & _ & L & Gs & _) name. unfold q_meaning, q_resolve, the_mean. now rewrite L, Gs. Qed.
Lemma qat_pushed d args qs sp body r q q' : qat d r q -> map (map qt_tok) qs = args -> good_queue q' -> stored_as q q' ->
  q_view q' = (expansion (q_meaning cfg q) qs sp body ++ fst (q_view q), snd (q_view q)) ->
  pc_ignore_unknown cfg = true \/ Forall (fun t => known t = true) (unfolded the_mean args body) -> qat d (unfolded the_mean args body ++ r) q'.
Proof.
  intros Aq Eq G' [S1 S2] V' Kb. pose proof Aq as (G & V & E & L & Gs & Kn). split; [exact G'|]. rewrite V'. cbn [fst snd].
  assert (X : map qt_tok (expansion (q_meaning cfg q) qs sp body) = unfolded the_mean args body).
  { rewrite expansion_unfolded, Eq. unfold unfolded. destruct body; [reflexivity|]. apply flat_map_ext. intros [t|name]; [reflexivity|]. cbn [put_in]. now rewrite (the_q_mean d r q Aq). }
  split; [rewrite map_app, X, V; reflexivity|]. split; [exact E|]. split; [congruence|]. split; [congruence|].
  destruct Kn as [Kn|Kn]; [now left|]. destruct Kb as [Kb|Kb]; [now left|right]. now apply Forall_app.
Qed.

Lemma expand_at {A} (k : unit -> prog A) n x d args toks r r' sp s Q : at_ (S n) x d r s -> body_ok (length args) (map RTok toks) -> grabs_all r args r' ->
  pc_ignore_unknown cfg = true \/ Forall (fun t => known t = true) (unfolded the_mean args (map RTok toks)) ->
  (forall s1, at_ n x d (unfolded the_mean args (map RTok toks) ++ r') s1 -> wins (k tt) s1 Q) -> wins (Do (OExpand (length args) toks sp) k) s Q.
Proof.
  intros [Aq (left & Lf & V)] (B1 & B2 & B3) Gr Kb H. destruct left as [|left]; [lia|].
  destruct (args_at d r args r' _ Aq Gr B1) as (ca & qs & q1 & E & Eq & Ho & A1 & St & Ne).
  assert (Lq : length qs = length args) by (rewrite <- Eq, map_length; reflexivity).
  destruct (expand_builtin_spec cfg q1 ca qs sp toks (proj1 A1) Ho ltac:(lia) Ne ltac:(now rewrite Lq) B3) as (G2 & St2 & V2).
  eapply (wins_do _ _ _ _ _ _ _ (mkPs (queue_body toks ca sp q1) (view_of x d left))); [|apply H; split; [exact (qat_pushed d args qs sp (map RTok toks) r' q1 _ A1 Eq G2 St2 V2 Kb)|exists left; split; [lia|reflexivity]]].
  cbn [M_Parser.exec]. unfold expand, count_expansion, sbind, view, sget. rewrite V. cbn [view_of pv_left]. unfold on_view, on_queue, on_queue_pure. cbn [ps_queue ps_view]. rewrite E. cbn [ps_queue ps_view]. rewrite V. reflexivity.
Qed.
Lemma expand_ref_at {A} (k : unit -> prog A) n x d args src start stop body r r' sp s Q : at_ (S n) x d r s -> the_body src start stop = Some body ->
  body_ok (length args) body -> grabs_all r args r' ->
  pc_ignore_unknown cfg = true \/ Forall (fun t => known t = true) (unfolded the_mean args body) ->
  (forall s1, at_ n x d (unfolded the_mean args body ++ r') s1 -> wins (k tt) s1 Q) -> wins (Do (OExpandRef src (length args) start stop sp) k) s Q.
Proof.
  intros [Aq (left & Lf & V)] Hb (B1 & B2 & B3) Gr Kb H. destruct left as [|left]; [lia|].
  destruct (args_at d r args r' _ Aq Gr B1) as (ca & qs & q1 & E & Eq & Ho & A1 & St & Ne).
  assert (Lq : length qs = length args) by (rewrite <- Eq, map_length; reflexivity).
  assert (Qb : q_body cfg q1 src start stop = Some body). { destruct A1 as (_ & _ & _ & L & Gs & _). unfold q_body. rewrite L, Gs. destruct src; exact Hb. }
  destruct (expand_ref_spec cfg q1 src start stop ca qs sp body (proj1 A1) Ho ltac:(lia) Ne Qb ltac:(now rewrite Lq) B3) as (q2 & E2 & G2 & St2 & V2).
  eapply (wins_do _ _ _ _ _ _ _ (mkPs q2 (view_of x d left))); [|apply H; split; [exact (qat_pushed d args qs sp body r' q1 _ A1 Eq G2 St2 V2 Kb)|exists left; split; [lia|reflexivity]]].
  cbn [M_Parser.exec]. unfold expand_ref, count_expansion, sbind, view, sget. rewrite V. cbn [view_of pv_left]. unfold on_view, on_queue, on_queue_pure. cbn [ps_queue ps_view]. rewrite E. cbn [ps_queue ps_view]. rewrite E2. cbn [ps_queue ps_view]. rewrite V. reflexivity.
Qed.

(** ** The first token *)

Definition macro_tok (t : token) : bool := match unwrap_math t with T_CustomCmd _ _ | T_CustomCmdRef _ _ _ _ _ | T_Dots => true | _ => false end.
Lemma leads_wins sq n w n' t r : leads the_mean the_body (pc_ignore_unknown cfg) sq n w n' t r -> exists t0 r0, bare w = t0 :: r0 /\
  (t0 = t /\ r0 = r /\ n' = n \/ macro_tok t0 = true /\ acts t = true) /\
  forall x d s sp a prev Q, (sq = true -> in_sequence a = true) -> at_ n x d r0 s -> (forall s1 sp1, at_ n' x d r s1 -> wins (body (CTok (unwrap_math t, sp1) a prev)) s1 Q) ->
    wins (body (CTok (unwrap_math t0, sp) a prev)) s Q.
Proof.
  induction 1 as [n w t r B|n w u r B Eu Sc|n w u r m bd args r' n' t k B Hm Ok Gr La Kb Cl Ac Ld (t1 & r1 & B1 & _ & IH)].
  - exists t, r. split; [exact B|]. split; [now left|]. intros x d s sp a prev Q _ At H. now apply H.
  - exists u, r. split; [exact B|]. split; [right; split; [unfold macro_tok; now rewrite Eu|now destruct (centered r)]|]. intros x d s sp a prev Q Sa At H. rewrite Eu. cbn [unwrap_math body]. unfold tok_body.
    assert (Go : forall s1 b, b = centered r -> at_ n x d r s1 -> wins (do_ ODots b in do t' := ONext in rec r := CTok t' a prev in Ret r) s1 Q).
    { intros s1 b -> A1. eapply (push_at cfg usize_max local cmds (ODots (centered r)) _ n x d (map qt_of_token (if centered r then PRE_CDOTS else PRE_DOTS))); [reflexivity|exact A1|now destruct (centered r); repeat constructor|now destruct (centered r); repeat constructor|].
      intros s2 A2. assert (Em : map qt_tok (map qt_of_token (if centered r then PRE_CDOTS else PRE_DOTS)) = T_Inner (if centered r then SYM_MIDDLE_DOT else SYM_FULL_STOP) :: tl (if centered r then PRE_CDOTS else PRE_DOTS)) by (now destruct (centered r)).
      rewrite Em in A2. eapply next_at; [exact A2|reflexivity|]. intros s3 sp3 A3. apply wins_return. now apply H. }
    destruct (in_sequence a) eqn:Ea.
    + eapply class_at; [exact At|]. intros s1 A1. eapply view_at; [exact A1|]. intros left. cbv zeta. cbn [fst]. apply Go; [|exact A1].
      unfold centered. destruct (pv_hack _); now destruct (class_ahead r ClEnd).
    + apply no_class_at. eapply view_at; [exact At|]. intros left. cbv zeta. cbn [fst]. apply Go; [|exact At].
      destruct Sc as [Sc|Sc]; [rewrite Sc in Sa; discriminate (Sa eq_refl)|]. rewrite Sc. now destruct (pv_hack _).
  - exists u, r. split; [exact B|]. split; [right; split; [|exact Ac]; unfold macro_tok; destruct (unwrap_math u); try discriminate Hm; reflexivity|].
    intros x d s sp a prev Q Sa At H. subst m.
    assert (Go : forall s1, at_ n x d (unfolded the_mean args bd ++ r') s1 -> wins (do t' := ONext in rec r := CTok t' a prev in Ret r) s1 Q).
    { intros s1 A1. eapply next_at; [exact A1|exact B1|]. intros s2 sp2 A2. apply wins_return. eapply IH; [exact Sa|exact A2|exact H]. }
    assert (Pk : forall f, (forall c s1 v, at_ (S n) x d r s1 -> wins (f c v) s1 Q) -> wins (do c := OPeekClass (in_sequence a) in do v := OView in f c v) s Q).
    { intros f Hf. destruct (in_sequence a).
      - eapply class_at; [exact At|]. intros s1 A1. eapply view_at; [exact A1|]. intros left. now apply Hf.
      - apply no_class_at. eapply view_at; [exact At|]. intros left. now apply Hf. }
    cbn [body]. unfold tok_body. apply Pk. clear Pk. intros c s1 v A1. cbn [fst snd].
    destruct (unwrap_math u) eqn:Eu; try discriminate Hm; cbn [macro_def] in Hm.
    + injection Hm as -> <-. eapply expand_at; [exact A1|exact Ok|exact Gr|exact Kb|]. exact Go.
    + destruct (the_body src start stop) as [bd'|] eqn:Eb; [|discriminate]. injection Hm as -> ->. eapply expand_ref_at; [exact A1|exact Eb|exact Ok|exact Gr|exact Kb|]. exact Go.
Qed.
End Expand.
