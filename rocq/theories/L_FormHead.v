(** Reading atoms of formulas. *)
From Verif Require Import Str M_SuperChar M_Transform M_Length M_Spec M_Ast M_Token M_Symbols M_Commands M_Env
  M_LatexError M_Lexer M_CustomCmds M_Queue M_Spacing M_Colors M_Leaf M_TextParser M_Parser
  S_Lexer S_Queue S_Scripts S_Formula S_Reading L_Queue L_Args L_Reads L_Wp L_Ends L_Wins L_WinLeaf L_Expand L_FormEq L_Form L_FormArg.
Local Open Scope nat_scope.

Lemma command_no_word tf t : match unwrap_math t with T_Letter _ _ | T_UprightLetter _ | T_Digit _ => false | _ => true end = true -> word_char tf t = None.
Proof. destruct tf as [v|]; [|reflexivity]. destruct t; try reflexivity; discriminate. Qed.
Lemma sums2 (a b : nat) : list_sum [a; b] = a + b.
Proof. cbn. lia. Qed.
Lemma delimiter_any t sp m d sp' m' : extract_delimiter (t, sp) m = Ok d -> extract_delimiter (t, sp') m' = Ok d /\ starts t = true.
Proof. unfold extract_delimiter. cbn [fst snd]. destruct t; try discriminate; destruct (_ : option stretchable_op); (discriminate || auto). Qed.
Lemma env_eqb_refl e : env_eqb e e = true.
Proof. now destruct e. Qed.

Section Form.
Context {Ft : fate} (usize_max : N) (cfg : parser_cfg) (local cmds : custom_cmds).
Notation mean := (the_mean cfg local cmds).
Notation tok := (tok mean).
Notation raw := (raw mean).
Notation item_toks := (item_toks mean).
Notation head_toks := (head_toks mean).
Notation arg_toks := (arg_toks mean).
Notation mark_toks := (mark_toks mean).
Notation den_item := (den_item mean usize_max).
Notation den_head := (den_head mean usize_max).
Notation den_arg := (den_arg mean usize_max).
Notation den_target := (den_target mean usize_max).
Notation den_mark := (den_mark mean usize_max).
Notation den_items := (den_items mean usize_max den_item).
Notation leads := (leads mean (the_body cfg local cmds) (pc_ignore_unknown cfg)).
Notation reads_items := (reads_items mean (the_body cfg local cmds) (pc_ignore_unknown cfg)).
Notation reads_head := (reads_head mean (the_body cfg local cmds) (pc_ignore_unknown cfg)).
Notation reads_args := (reads_args mean (the_body cfg local cmds) (pc_ignore_unknown cfg)).
Notation reads_arg := (reads_arg mean (the_body cfg local cmds) (pc_ignore_unknown cfg)).
Notation at_ := (at_ cfg local cmds).
Notation wins := (wins cfg usize_max).
Notation items_good := (items_good usize_max cfg local cmds).
Notation arg_good := (arg_good usize_max cfg local cmds).
Notation target_good := (target_good usize_max cfg local cmds).
Notation head_good := (head_good usize_max cfg local cmds).

Lemma delimiter_read s o : delimiter mean s = Some o -> readable (raw s) /\ forall sp m, extract_delimiter (unwrap_math (raw s), sp) m = Ok o.
Proof.
  unfold delimiter, S_Formula.tok. intros E. destruct (extract_delimiter _ _) as [o'| |] eqn:Ed; try discriminate. injection E as ->. split.
  - apply starts_readable. exact (proj2 (delimiter_any _ _ _ _ span_default DmBig Ed)).
  - intros sp m. exact (proj1 (delimiter_any _ _ _ _ sp m Ed)).
Qed.
Lemma fence_wins s o m p x d w k st : fence_of mean s = Some o -> at_ p x d w st -> bare w = raw s :: k ->
  wins (fence_delimiter m) st (fun v s' => v = o /\ at_ p x d k s').
Proof.
  intros E A B. unfold fence_of in E. unfold fence_delimiter. unfold tok, S_Formula.tok in E. eapply next_at; [exact A|exact B|]. intros s1 sp A1. cbn [fst]. destruct (is_full_stop (unwrap_math (raw s))) eqn:Ef.
  - injection E as <-. apply wins_ret. now split.
  - destruct (delimiter mean s) as [o'|] eqn:Ed; [|discriminate]. injection E as <-. apply delimiter_read in Ed as [R Ed]. eapply wins_pres; [apply Ed|]. apply wins_ret. now split.
Qed.

(** The next token, read like an argument; it is not a bracket that opens an optional argument. *)
Lemma plain_arg_wins {B} n g x a prev d m d' p w p' k s (f : class * node -> prog B) (h : tokspan -> prog B) (Q : B -> pstate -> Prop) :
  arg_good n -> arg_size g < n -> in_sequence a = false -> not_bracket mean g = true ->
  den_arg x a prev g d = Some (m, d') -> reads_arg false p w g p' k -> at_ p x d w s ->
  (forall t sp, t <> T_SquareBracketOpen -> h (t, sp) = (rec r := CTok (t, sp) a prev in f r)) ->
  (forall c s1, at_ p' x d' k s1 -> wins (f (c, m)) s1 Q) -> wins (Do ONext h) s Q.
Proof.
  intros IH L Sq Nb E R A Hh H. destruct (IH g L x a prev d m d' p w p' k Sq E R) as (t0 & r & Et & St & Nb' & W).
  eapply next_at; [exact A|exact Et|]. intros s1 sp A1. rewrite Hh by exact (Nb' Nb).
  eapply wins_calls; [exact (W s1 sp A1)|]. intros [c m'] s2 [E2 A2]. cbn [snd] in E2. subst m'. now apply H.
Qed.
(** ... and one that takes part in the sequence. *)
Lemma target_wins {B} n g x a prev next d c m d' p w p' k s (h : class * node -> prog B) (pr : tokspan -> prog B) (Q : B -> pstate -> Prop) :
  target_good n -> arg_size g < n ->
  den_target x a prev next g d = Some ((c, m), d') -> (in_sequence a = true -> class_ahead k ClEnd = next) -> reads_arg false p w g p' k -> at_ p x d w s ->
  (forall t sp, pr (t, sp) = (rec r := CTok (t, sp) a prev in h r)) ->
  (forall s1, at_ p' x d' k s1 -> wins (h (c, m)) s1 Q) -> wins (Do ONext pr) s Q.
Proof.
  intros IH L E N R A Hp H. destruct (IH g L x a prev next d c m d' p w p' k E R) as (t0 & r & Et & St & _ & W).
  eapply next_at; [exact A|exact Et|]. intros s1 sp A1. rewrite Hp. eapply wins_calls; [exact (W s1 sp N A1)|]. intros v s2 [-> A2]. now apply H.
Qed.
(** A formula in square brackets, after its first bracket. *)
Lemma bracket_wins n l x d ns d' p w p' w' k s : items_good n -> items_size l < n ->
  den_items (in_bracket true x) ClClose ClOpen [] None l d = Some (ns, d') ->
  reads_items p w l p' w' -> bare w' = T_SquareBracketClose :: k -> at_ p x d w s ->
  wins (body (CSeq (SeqEnd EtSquareBracketClose) ClOpen false)) s (fun r s' => r = ns /\ at_ p' x d' k s').
Proof.
  intros IH L E R B A. eapply seq_wins_close; [exact IH|exact L|exact E|exact R|exact B|apply cl_bracket|exact A].
Qed.
Lemma arg_size_pos a : 1 <= arg_size a.
Proof. destruct a; cbn [arg_size]; lia. Qed.
Lemma set_hack_same x : set_hack (cx_hack x) (with_hack x) = x.
Proof. now destruct x. Qed.
Lemma arrow_same x : set_hack (cx_hack x) (with_style (cx_style x) (with_hack (with_style StScript x))) = x.
Proof. now destruct x. Qed.
Lemma with_style_same x : with_style (cx_style x) x = x.
Proof. now destruct x. Qed.
Lemma lit_toks t k : arg_toks (ALit t) ++ k = T_GroupBegin :: map lit_tok t ++ T_GroupEnd :: k.
Proof. cbn. now rewrite <- app_assoc. Qed.
Lemma sym_toks t k : arg_toks (ASym t) ++ k = raw t :: k.
Proof. reflexivity. Qed.
Lemma bracket_toks l k : arg_toks (ABracket l) ++ k = T_SquareBracketOpen :: flat_map item_toks l ++ T_SquareBracketClose :: k.
Proof. change (arg_toks (ABracket l)) with (T_SquareBracketOpen :: flat_map item_toks l ++ [T_SquareBracketClose]). cbn [app]. now rewrite <- app_assoc. Qed.
Lemma text_nodes_flush ts t : text_nodes (flush ts None None t) = match t with [] => EMPTY_ROW | _ => Text ts None t end.
Proof. now destruct t. Qed.

(** Overset and Underset: the end of the formula counts as an atom. *)
Lemma hacked_target {B} n g x prev next d c m d' p w p' k s (h : tokspan -> class * node -> prog B) (Q : B -> pstate -> Prop) :
  target_good n -> arg_size g < n ->
  den_target (with_hack x) PaContinue prev next g d = Some ((c, m), d') -> class_ahead k ClEnd = next -> reads_arg false p w g p' k -> at_ p x d w s ->
  (forall t s1, at_ p' (with_hack x) d' k s1 -> wins (h t (c, m)) s1 Q) ->
  wins (do t' := ONext in do_ OSetHack true in rec r := CTok t' PaContinue prev in h t' r) s Q.
Proof.
  intros IH L E N R A H. destruct (IH g L (with_hack x) PaContinue prev next d c m d' p w p' k E R) as (t0 & r & Et & St & _ & W).
  eapply next_at; [exact A|exact Et|]. intros s1 sp A1. eapply hack_at; [exact A1|]. intros s2 A2. eapply wins_calls; [exact (W s2 sp (fun _ => N) A2)|]. intros v s3 [-> A3]. now apply H.
Qed.
(** Overlays: the token is needed afterwards. *)
Lemma next_target {B} n g x a prev next d c m d' p w p' k s (h : tokspan -> class * node -> prog B) (Q : B -> pstate -> Prop) :
  target_good n -> arg_size g < n ->
  den_target x a prev next g d = Some ((c, m), d') -> (in_sequence a = true -> class_ahead k ClEnd = next) -> reads_arg false p w g p' k -> at_ p x d w s ->
  (forall t s1, at_ p' x d' k s1 -> wins (h t (c, m)) s1 Q) ->
  wins (do t' := ONext in rec r := CTok t' a prev in h t' r) s Q.
Proof.
  intros IH L E N R A H. destruct (IH g L x a prev next d c m d' p w p' k E R) as (t0 & r & Et & St & _ & W).
  eapply next_at; [exact A|exact Et|]. intros s1 sp A1. eapply wins_calls; [exact (W s1 sp N A1)|]. intros v s3 [-> A3]. now apply H.
Qed.

(** The class of what comes next, as far as it counts. *)
Lemma class_as {B} a next p x d k s (f : class -> prog B) (Q : B -> pstate -> Prop) : (in_sequence a = true -> class_ahead k ClEnd = next) -> at_ p x d k s ->
  (forall s1, at_ p x d k s1 -> wins (f (next_as a next)) s1 Q) -> wins (Do (OPeekClass (in_sequence a)) f) s Q.
Proof.
  intros N A H. unfold next_as in H. destruct (in_sequence a).
  - eapply class_at; [exact A|]. intros s1 A1. rewrite (N eq_refl). now apply H.
  - apply no_class_at. now apply H.
Qed.
Lemma next_as_ahead a next k : (in_sequence a = true -> class_ahead k ClEnd = next) -> (if in_sequence a then class_ahead k ClEnd else ClDefault) = next_as a next.
Proof. unfold next_as. destruct (in_sequence a); auto. Qed.

(** Arguments of at most one symbol. *)
Lemma one_toks a o : at_most_one a = Some o ->
  match o with
  | None => forall k, arg_toks a ++ k = T_GroupBegin :: T_GroupEnd :: k
  | Some s => exists braces : bool, forall k, arg_toks a ++ k = if braces then T_GroupBegin :: raw s :: T_GroupEnd :: k else raw s :: k
  end.
Proof.
  destruct a as [[|[[s [|? ?]|[|d [|? ?]]|?|?|? ? ?|? ? ?] [|? ?]] [|? ?]]|s|?|?|?|? ?]; try discriminate; intros [= <-]; try reflexivity.
  - exists true. reflexivity.
  - exists true. reflexivity.
  - exists false. reflexivity.
Qed.
Lemma genfrac_fence_wins a o p x d k st : genfrac_fence mean a = Some o -> at_ p x d (arg_toks a ++ k) st -> wins genfrac_delimiter st (fun v s' => v = o /\ at_ p x d k s').
Proof.
  unfold genfrac_fence. intros E A. destruct (at_most_one a) as [[s|]|] eqn:Ea; [| |discriminate]; apply one_toks in Ea.
  - destruct Ea as (br & Ea). rewrite Ea in A. destruct (delimiter mean s) as [y|] eqn:Ed; [|discriminate]. injection E as <-. pose proof Ed as Ed0. apply delimiter_read in Ed as [R Ed].
    unfold genfrac_delimiter. eapply (token_argument_at cfg usize_max local cmds p _ x d _ (raw s) k br); [exact R| |exact A|now destruct br; [|apply bare_same]|].
    { unfold delimiter, S_Formula.tok in Ed0. destruct (unwrap_math (raw s)); try reflexivity; discriminate Ed0. }
    intros s1 g sp A1 Eg. eapply wins_pres; [exact Eg|]. eapply wins_pres; [apply Ed|]. apply wins_ret. now split.
  - injection E as <-. rewrite Ea in A. unfold genfrac_delimiter. eapply empty_argument_at; [exact A|reflexivity|]. intros s1 sp A1. eapply wins_pres; [reflexivity|]. apply wins_ret. now split.
Qed.
Lemma genfrac_style_wins {B} a o p x d k st (f : option style -> prog B) Q : genfrac_style_of mean a = Some o -> at_ p x d (arg_toks a ++ k) st ->
  (forall s1, at_ p x d k s1 -> wins (f o) s1 Q) ->
  wins (do sarg := OArgument in sub sone := pres (into_one_or_none sarg) in sub gst := pres (genfrac_style sone) in f gst) st Q.
Proof.
  unfold genfrac_style_of. intros E A H. destruct (at_most_one a) as [[s|]|] eqn:Ea; [| |discriminate]; apply one_toks in Ea.
  - destruct Ea as (br & Ea). rewrite Ea in A. destruct (tok s) eqn:Et; try discriminate E. unfold tok, S_Formula.tok in Et.
    assert (Wr : readable (raw s)) by (apply starts_readable; now rewrite Et).
    eapply (token_argument_at cfg usize_max local cmds p _ x d _ (raw s) k br); [exact Wr|now rewrite Et|exact A|now destruct br; [|apply bare_same]|].
    intros s1 g sp A1 Eg. eapply wins_pres; [exact Eg|]. eapply wins_pres; [|exact (H s1 A1)]. rewrite Et. unfold genfrac_style. cbn [find fst] in E.
    rewrite !(N.eqb_sym c). destruct (48 =? c)%N; [now injection E as <-|]. destruct (49 =? c)%N; [now injection E as <-|]. destruct (50 =? c)%N; [now injection E as <-|]. destruct (51 =? c)%N; [now injection E as <-|discriminate].
  - injection E as <-. rewrite Ea in A. eapply empty_argument_at; [exact A|reflexivity|]. intros s1 sp A1. eapply wins_pres; [reflexivity|]. eapply wins_pres; [reflexivity|]. exact (H s1 A1).
Qed.

Ltac sizes := unfold items_size in *; cbn [head_size arg_size map list_sum fold_right] in *; lia.

Ltac args1 Ra R1 :=
  let p1 := fresh "q1" in let w1 := fresh "w1" in
  cbn [marked as_is] in Ra; apply args_parts in Ra as (p1 & w1 & R1 & Ra); apply args_parts in Ra as [-> ->].
Ltac args2 Ra R1 R2 :=
  let p1 := fresh "q1" in let w1 := fresh "w1" in let p2 := fresh "q2" in let w2 := fresh "w2" in
  cbn [marked as_is] in Ra; apply args_parts in Ra as (p1 & w1 & R1 & Ra); apply args_parts in Ra as (p2 & w2 & R2 & Ra); apply args_parts in Ra as [-> ->].
Ltac args3 Ra R1 R2 R3 :=
  let p1 := fresh "q1" in let w1 := fresh "w1" in let p2 := fresh "q2" in let w2 := fresh "w2" in let p3 := fresh "q3" in let w3 := fresh "w3" in
  cbn [marked as_is] in Ra; apply args_parts in Ra as (p1 & w1 & R1 & Ra); apply args_parts in Ra as (p2 & w2 & R2 & Ra); apply args_parts in Ra as (p3 & w3 & R3 & Ra); apply args_parts in Ra as [-> ->].
Ltac next_arg IHa A E R :=
  eapply wins_then; [eapply (parse_next_wins usize_max cfg local cmds _ _ _ _ _ _ _ _ _ _ _ _ IHa); [|reflexivity|exact E|exact R|exact A]; sizes|];
  clear A; let v := fresh "vn" in let s' := fresh "sn" in intros v s' [-> A].

Lemma sym_step n : items_good n -> arg_good n -> target_good n -> forall s args, head_size (HSym s args) < S n -> forall x a prev next d c m d',
  den_head x a prev next (HSym s args) d = Some ((c, m), d') ->
  word_char (cx_tf x) (raw s) = None /\ silent (tok s) = false /\
  forall p w p' k st sp, reads_args p w (marked (as_is (tok s) args) args) p' k -> (in_sequence a = true -> class_ahead k ClEnd = next) -> at_ p x d w st ->
      wins (body (CTok (tok s, sp) a prev)) st (fun v s' => v = (c, m) /\ at_ p' x d' k s').
Proof.
  intros IHi IHa IHt s args L x a prev next d c m d' E.
  rewrite den_sym_eq in E. cbv zeta in E.
  assert (Sym : tok s <> T_Relax -> match args with [] => match word_char (cx_tf x) (raw s) with None => dopt (sym_node x a prev (seen x (next_as a next)) (tok s)) | Some _ => dnone end | _ => dnone end d = Some ((c, m), d') ->
    word_char (cx_tf x) (raw s) = None /\ silent (tok s) = false /\
    forall p w p' k st sp, reads_args p w (marked (as_is (tok s) args) args) p' k -> (in_sequence a = true -> class_ahead k ClEnd = next) -> at_ p x d w st ->
      wins (body (CTok (tok s, sp) a prev)) st (fun v s' => v = (c, m) /\ at_ p' x d' k s')).
  { clear - L. intros Nr E. destruct args; [|discriminate]. destruct (word_char (cx_tf x) (raw s)) eqn:Ew; [discriminate|]. apply dopt_some in E as [E ->]. split; [reflexivity|]. split.
    - destruct (tok s); try discriminate E; try reflexivity. now destruct Nr.
    - intros p w p' k st sp Ra N A. apply args_parts in Ra as [-> ->]. apply (sym_wins usize_max cfg local cmds p x a prev (tok s) c m d w st sp); [now rewrite (next_as_ahead a next w N)|exact A]. }
  assert (Cmd : match tok s with T_Letter _ _ | T_UprightLetter _ | T_Digit _ => false | _ => true end = true -> word_char (cx_tf x) (raw s) = None) by apply command_no_word.
  destruct (tok s) eqn:Et; try exact (Sym ltac:(discriminate) E); try (now destruct args); clear Sym; specialize (Cmd eq_refl); (split; [exact Cmd|]); (split; [reflexivity|]);
    intros p9 v9 p9' k9 st9 sp9 Ra N A; (eapply tok_wins; [exact A|reflexivity|]); clear A st9; intros s9 left9 A; cbv zeta; cbn [fst snd view_of pv_hack pv_style pv_transform pv_vld].
  - (* EqRef *) destruct args as [|[?|?|?|t|?|? ?] [|? ?]]; try discriminate E; [rewrite Cmd in E; discriminate E|]. injection E as <- <- <-. args1 Ra R1.
    apply lit_parts in R1 as (-> & O1 & B1). eapply literal_at; [exact O1|exact A|exact B1|]. intros s1 sp A1. apply wins_ret. now split.
  - (* Middle *) destruct args as [|[?|t|?|?|?|? ?] [|? ?]]; try discriminate E; [rewrite Cmd in E; discriminate E|]. apply dbind_some in E as (o & d1 & E1 & E). apply dopt_some in E1 as [E1 ->].
    injection E as <- <- <-. apply delimiter_read in E1 as [R E1]. args1 Ra R1. apply as_is_parts in R1 as (-> & -> & _). rewrite sym_toks in A. eapply next_at; [exact A|exact (bare_same _ _ R)|]. intros s1 sp A1. eapply wins_pres; [apply E1|]. apply wins_ret. now split.
  - (* Frac *) destruct args as [|g1 [|g2 [|? ?]]]; try discriminate E; [rewrite Cmd in E; discriminate E|]. apply dbind_some in E as (m1 & d1 & E1 & E). apply dbind_some in E as (m2 & d2 & E2 & E). injection E as <- <- <-.
    args2 Ra R1 R2. eapply style_at; [exact A|]. clear A. intros s1 A. next_arg IHa A E1 R1. next_arg IHa A E2 R2. eapply style_at; [exact A|]. intros s2 A2. apply wins_ret. split; [reflexivity|]. now destruct x.
  - (* Genfrac *) destruct args as [|g1 [|g2 [|[?|?|?|t|?|? ?] [|g4 [|g5 [|g6 [|? ?]]]]]]]; try discriminate E; [rewrite Cmd in E; discriminate E|].
    apply dbind_some in E as (open & d1 & E1 & E). apply dopt_some in E1 as [E1 ->]. apply dbind_some in E as (close & d1 & E2 & E). apply dopt_some in E2 as [E2 ->].
    apply dbind_some in E as (line & d1 & E3 & E). apply dopt_some in E3 as [E3 ->]. apply dbind_some in E as (sty & d1 & E4 & E). apply dopt_some in E4 as [E4 ->].
    apply dbind_some in E as (m1 & d1 & E5 & E). apply dbind_some in E as (m2 & d2 & E6 & E). injection E as <- <- <-.
    cbn [marked as_is] in Ra. apply args_parts in Ra as (q1 & w1 & R1 & Ra). apply args_parts in Ra as (q2 & w2 & R2 & Ra). apply args_parts in Ra as (q3 & w3 & R3 & Ra).
    apply args_parts in Ra as (q4 & w4 & R4 & Ra). apply args_parts in Ra as (q5 & w5 & R5 & Ra). apply args_parts in Ra as (q6 & w6 & R6 & Ra). apply args_parts in Ra as [-> ->].
    apply as_is_parts in R1 as (-> & -> & _). apply as_is_parts in R2 as (-> & -> & _). apply lit_parts in R3 as (-> & O3 & B3). apply as_is_parts in R4 as (-> & -> & _).
    eapply wins_then; [eapply genfrac_fence_wins; [exact E1|exact A]|]. clear A. intros v s1 [-> A].
    eapply wins_then; [eapply genfrac_fence_wins; [exact E2|exact A]|]. clear A. intros v s2 [-> A].
    eapply literal_at; [exact O3|exact A|exact B3|]. clear A. intros s3 sp A. cbn beta iota.
    assert (K : (match trim_ascii t with [] => Ret length_none | c0 :: r0 => match parse_length_specification (c0 :: r0) with Some (l, _, _) => Ret l | None => fail sp (E_ExpectedLength (c0 :: r0)) end end) = Ret line).
    { unfold genfrac_line in E3. destruct (trim_ascii t); [injection E3 as <-; reflexivity|]. cbv zeta. destruct (parse_length_specification _) as [[[l ?] ?]|]; [|discriminate]. injection E3 as <-; reflexivity. }
    rewrite K. cbn [pbind]. eapply genfrac_style_wins; [exact E4|exact A|]. clear A. intros s4 A. next_arg IHa A E5 R5. next_arg IHa A E6 R6. apply wins_ret. now split.
  - (* Prescript *) destruct args as [|g1 [|g2 [|g3 [|? ?]]]]; try discriminate E; [rewrite Cmd in E; discriminate E|]. apply dbind_some in E as (m1 & d1 & E1 & E). apply dbind_some in E as (m2 & d2 & E2 & E). apply dbind_some in E as (m3 & d3 & E3 & E).
    injection E as <- <- <-. args3 Ra R1 R2 R3. next_arg IHa A E1 R1. next_arg IHa A E2 R2. next_arg IHa A E3 R3. apply wins_ret. now split.
  - (* Binom *) destruct args as [|g1 [|g2 [|? ?]]]; try discriminate E; [rewrite Cmd in E; discriminate E|]. apply dbind_some in E as (m1 & d1 & E1 & E). apply dbind_some in E as (m2 & d2 & E2 & E). injection E as <- <- <-.
    args2 Ra R1 R2. eapply style_at; [exact A|]. clear A. intros s1 A. next_arg IHa A E1 R1. next_arg IHa A E2 R2. eapply style_at; [exact A|]. intros s2 A2. apply wins_ret. split; [reflexivity|]. now destruct x.
  - (* Overset *) destruct args as [|g1 [|g2 [|? ?]]]; try discriminate E; [rewrite Cmd in E; discriminate E|]. apply dguard_some in E as [Sq E]. apply dbind_some in E as (m1 & d1 & E1 & E). apply dbind_some in E as ([c2 m2] & d2 & E2 & E). injection E as <- <- <-.
    args2 Ra R1 R2. eapply style_at; [exact A|]. clear A. intros s1 A. next_arg IHa A E1 R1. eapply style_at; [exact A|]. intros s2 A2.
    change (with_style (cx_style x) (with_style StScript x)) with (with_style (cx_style x) x) in A2. rewrite with_style_same in A2.
    eapply (hacked_target n g2); [exact IHt|sizes|exact E2|exact (N Sq)|exact R2|exact A2|].  intros t' s3 A3. cbn [fst snd]. eapply hack_at; [exact A3|]. intros s4 A4. rewrite set_hack_same in A4. apply wins_ret. now split.
  - (* Underset *) destruct args as [|g1 [|g2 [|? ?]]]; try discriminate E; [rewrite Cmd in E; discriminate E|]. apply dguard_some in E as [Sq E]. apply dbind_some in E as (m1 & d1 & E1 & E). apply dbind_some in E as ([c2 m2] & d2 & E2 & E). injection E as <- <- <-.
    args2 Ra R1 R2. eapply style_at; [exact A|]. clear A. intros s1 A. next_arg IHa A E1 R1. eapply style_at; [exact A|]. intros s2 A2.
    change (with_style (cx_style x) (with_style StScript x)) with (with_style (cx_style x) x) in A2. rewrite with_style_same in A2.
    eapply (hacked_target n g2); [exact IHt|sizes|exact E2|exact (N Sq)|exact R2|exact A2|].  intros t' s3 A3. cbn [fst snd]. eapply hack_at; [exact A3|]. intros s4 A4. rewrite set_hack_same in A4. apply wins_ret. now split.
  - (* Sqrt *) destruct args as [|g1 [|g2 [|? ?]]]; try discriminate E; try (destruct g1; discriminate E); [rewrite Cmd in E; discriminate E|..].
    + assert (E' : dguard (not_bracket mean g1) (dbind (den_arg x PaArg ClDefault g1) (fun m1 => dret (ClDefault, Sqrt m1))) d = Some ((c, m), d')) by (destruct g1; exact E).
      clear E. apply dguard_some in E' as [Nb E]. apply dbind_some in E as (m1 & d1 & E1 & E). injection E as <- <- <-. args1 Ra R1.
      eapply (plain_arg_wins n g1 x PaArg ClDefault d m1 d1); [exact IHa|sizes|reflexivity|exact Nb|exact E1|exact R1|exact A| |].
      { intros t sp Nt. cbn [fst]. destruct t; try reflexivity. now destruct Nt. }
      intros c1 s1 A1. apply wins_ret. now split.
    + destruct g1 as [?|?|l|?|?|? ?]; try discriminate E. apply dbind_some in E as (ns & d1 & E1 & E). apply dbind_some in E as (m1 & d2 & E2 & E). injection E as <- <- <-.
      args2 Ra R1 R2. apply bracket_parts in R1 as (u1 & u2 & Bo & Rl & Bc). eapply next_at; [exact A|exact Bo|]. clear A. intros s1 sp A. cbn [fst unwrap_math].
      eapply wins_calls; [eapply (bracket_wins n l x d ns d1 _ _ _ _ _ s1 IHi); [sizes|exact E1|exact Rl|exact Bc|exact A]|]. clear A. intros v s2 [-> A]. next_arg IHa A E2 R2. apply wins_ret. now split.
  - (* CustomSpace *) destruct args as [|[?|?|?|t|?|? ?] [|? ?]]; try discriminate E; [rewrite Cmd in E; discriminate E|]. args1 Ra R1.
    apply lit_parts in R1 as (-> & O1 & B1). eapply literal_at; [exact O1|exact A|exact B1|]. intros s1 sp A1. cbn [fst snd]. destruct (parse_length_specification (trim_ascii t)) as [[[ln un] im]|]; [|discriminate]. apply dguard_some in E as [G E]. injection E as <- <- <-.
    rewrite G. apply wins_ret. now split.
  - (* Transform *) destruct args as [|g1 [|? ?]]; try discriminate E; [rewrite Cmd in E; discriminate E|]. apply dbind_some in E as (m1 & d1 & E1 & E). injection E as <- <- <-. args1 Ra R1.
    eapply transform_at; [exact A|]. clear A. intros s1 A. next_arg IHa A E1 R1. eapply transform_at; [exact A|]. intros s2 A2. apply wins_ret. split; [reflexivity|]. now destruct x.
  - (* Big *) destruct args as [|[?|t|?|?|?|? ?] [|? ?]]; try discriminate E; [rewrite Cmd in E; discriminate E|]. apply dbind_some in E as (o & d1 & E1 & E). apply dopt_some in E1 as [E1 ->].
    apply delimiter_read in E1 as [R E1]. args1 Ra R1. apply as_is_parts in R1 as (-> & -> & _). rewrite sym_toks in A. eapply next_at; [exact A|exact (bare_same _ _ R)|]. intros s1 sp A1. eapply wins_pres; [apply E1|].
    match type of N with _ -> class_ahead ?k _ = _ => set (k9 := k) in * end.
    assert (N' : in_sequence a = true -> class_ahead (raw t :: k9) ClEnd = class_ahead [raw t] next) by (intros Sq; rewrite <- (N Sq); apply (class_ahead_app [raw t] k9)). rewrite sym_toks, (next_as_ahead a _ _ N').
    assert (K : forall nx s2, at_ p9 x d k9 s2 -> nx = match p with Some PtMiddle => next_as a next | _ => seen x (next_as a (class_ahead [raw t] next)) end ->
      wins (let (attrs, spc) := big_spacing (cx_style x) prev nx p o in Ret (big_class p, Operator (so_op o) attrs (Some s0) (fst spc) (snd spc))) s2 (fun v s' => v = (c, m) /\ at_ p9 x d' k9 s')).
    { intros nx s2 A2 ->. destruct (big_spacing _ _ _ _ _) as [attrs spc]. injection E as <- <- <-. apply wins_ret. now split. }
    destruct p as [[| |]|]; cbn [pbind]; try (apply K; [exact A1|reflexivity]).
    eapply class_as; [exact N|exact A1|]. intros s2 A2. now apply K.
  - (* Accent *) destruct args as [|g1 [|? ?]]; try discriminate E; [rewrite Cmd in E; discriminate E|]. apply dbind_some in E as (m1 & d1 & E1 & E). injection E as <- <- <-. args1 Ra R1.
    next_arg IHa A E1 R1. apply wins_ret. now split.
  - (* Op *) destruct args as [|? ?]; try discriminate E. apply args_parts in Ra as [-> ->]. destruct (op_cat o) eqn:Ec; try discriminate E. unfold parse_mathop_spacing. cbn [pbind].
    eapply class_as; [exact N|exact A|]. intros s1 A1. eapply view_at; [exact A1|]. intros left. cbn [pbind pv_style view_of]. cbn [bl_kind bl_bounds bl_none bl_limits option_map].
    change (bounds_trivial bounds_none) with true. destruct (op_limits None (is_jop o) true) as [uo attrs]. injection E as <- <- <-. apply wins_ret. split; [|exact A1]. now destruct uo.
  - (* MathClass *) destruct args as [|g1 [|? ?]]; try discriminate E; [rewrite Cmd in E; discriminate E|]. apply dbind_some in E as ([c1 m1] & d1 & E1 & E). args1 Ra R1.
    eapply (target_wins n g1 x a prev next); [exact IHt|sizes|exact E1|exact N|exact R1|exact A|reflexivity|]. intros s1 A1. cbn beta iota.
    eapply class_as; [exact N|exact A1|]. intros s2 A2. eapply view_at; [exact A2|]. intros left. cbn [pv_style view_of]. cbn [snd] in E. destruct (class_spacing k (cx_style x) (in_sequence a) prev (next_as a next)) as [c2 sp2].
    injection E as <- <- <-. apply wins_ret. now split.
  - (* XArrow *) destruct args as [|g1 [|g2 [|? ?]]]; try discriminate E; try (destruct g1; discriminate E); [rewrite Cmd in E; discriminate E|..].
    + assert (E' : dguard (not_bracket mean g1) (dbind (den_arg (with_hack (with_style StScript x)) PaArg ClDefault g1) (fun m1 => dret (ClRelation, arrow_node (cx_style x) r prev (next_as a next) None m1))) d = Some ((c, m), d')) by (destruct g1; exact E).
      clear E. apply dguard_some in E' as [Nb E]. apply dbind_some in E as (m1 & d1 & E1 & E). injection E as <- <- <-. args1 Ra R1.
      eapply style_at; [exact A|]. clear A. intros s1 A. eapply hack_at; [exact A|]. clear A. intros s2 A. cbn [pbind].
      eapply (plain_arg_wins n g1 _ PaArg ClDefault d m1 d1); [exact IHa|sizes|reflexivity|exact Nb|exact E1|exact R1|exact A| |].
      { intros t sp Nt. cbn [fst]. destruct t; try reflexivity. now destruct Nt. }
      intros c1 s3 A3. cbn beta iota. cbn [pbind]. eapply style_at; [exact A3|]. intros s4 A4. eapply hack_at; [exact A4|]. intros s5 A5. rewrite arrow_same in A5. eapply class_as; [exact N|exact A5|]. intros s6 A6. apply wins_ret. now split.
    + destruct g1 as [?|?|l|?|?|? ?]; try discriminate E. apply dbind_some in E as (ns & d1 & E1 & E). apply dbind_some in E as (m1 & d2 & E2 & E). injection E as <- <- <-.
      args2 Ra R1 R2. apply bracket_parts in R1 as (u1 & u2 & Bo & Rl & Bc). eapply style_at; [exact A|]. clear A. intros s1 A. eapply hack_at; [exact A|]. clear A. intros s2 A. cbn [pbind].
      eapply next_at; [exact A|exact Bo|]. clear A. intros s3 sp A. cbn [fst unwrap_math pbind].
      eapply wins_calls; [eapply (bracket_wins n l (with_hack (with_style StScript x)) d ns d1 _ _ _ _ _ s3 IHi); [sizes|exact E1|exact Rl|exact Bc|exact A]|]. clear A. intros v s4 [-> A]. cbn [pbind].
      apply wins_bind. next_arg IHa A E2 R2. apply wins_ret. cbn beta iota.
      eapply style_at; [exact A|]. intros s5 A5. eapply hack_at; [exact A5|]. intros s6 A6. rewrite arrow_same in A6. eapply class_as; [exact N|exact A6|]. intros s7 A7. apply wins_ret. now split.
  - (* Enclose *) destruct args as [|g1 [|? ?]]; try discriminate E; [rewrite Cmd in E; discriminate E|]. apply dbind_some in E as (m1 & d1 & E1 & E). injection E as <- <- <-. args1 Ra R1.
    next_arg IHa A E1 R1. apply wins_ret. now split.
  - (* Overlay *) destruct args as [|g1 [|? ?]]; try discriminate E; [rewrite Cmd in E; discriminate E|]. apply dbind_some in E as ([c1 m1] & d1 & E1 & E). apply dbind_some in E as (m2 & d2 & E2 & E). apply dopt_some in E2 as [E2 ->]. injection E as <- <- <-. args1 Ra R1.
    eapply (next_target n g1); [exact IHt|sizes|exact E1|exact N|exact R1|exact A|]. intros t s1 A1. cbn beta iota. cbn [snd] in E2. rewrite E2. apply wins_ret. now split.
  - (* Text *) destruct args as [|[?|?|?|t|?|? ?] [|? ?]]; try discriminate E; [rewrite Cmd in E; discriminate E|]. injection E as <- <- <-. args1 Ra R1.
    apply as_is_parts in R1 as (-> & -> & O1). specialize (O1 t eq_refl). rewrite lit_toks in A. eapply text_at; [exact O1|exact A|]. intros s1 A1. apply wins_ret. split; [|exact A1]. rewrite text_nodes_flush. now destruct t.
  - (* Cramped *) destruct args as [|g1 [|g2 [|? ?]]]; try discriminate E; try (destruct g1; discriminate E); [rewrite Cmd in E; discriminate E|..].
    + assert (E' : dguard (not_bracket mean g1) (dbind (den_arg x PaArg prev g1) (fun m1 => dret (ClDefault, Row [m1] (mkRowAttrs None None true)))) d = Some ((c, m), d')) by (destruct g1; exact E).
      clear E. apply dguard_some in E' as [Nb E]. apply dbind_some in E as (m1 & d1 & E1 & E). injection E as <- <- <-. assert (Ra' : reads_args p9 v9 [(false, g1)] p9' k9) by (destruct g1; (discriminate E1 || exact Ra)). clear Ra. rename Ra' into Ra. args1 Ra R1.
      eapply (plain_arg_wins n g1 x PaArg prev d m1 d1); [exact IHa|sizes|reflexivity|exact Nb|exact E1|exact R1|exact A| |].
      { intros t sp Nt. cbn [fst]. destruct t; try reflexivity. now destruct Nt. }
      intros c1 s1 A1. apply wins_ret. now split.
    + destruct g1 as [?|?|l|?|?|? ?]; try discriminate E. apply dbind_some in E as (sty & d1 & E1 & E). apply dopt_some in E1 as [E1 ->]. apply dbind_some in E as (m1 & d2 & E2 & E). injection E as <- <- <-.
      args2 Ra R1 R2. apply as_is_parts in R1 as (-> & -> & _). rewrite bracket_toks in A. eapply next_at; [exact A|reflexivity|]. clear A. intros s1 sp A. cbn [fst unwrap_math].
      destruct l as [|[[y [|? ?]|?|?|?|? ? ?|? ? ?] [|? ?]] [|? ?]]; try discriminate E1.
      * injection E1 as <-. cbn [flat_map app] in A. eapply next_at; [exact A|reflexivity|]. clear A. intros s2 sp2 A. cbn [fst snd unwrap_math pbind]. next_arg IHa A E2 R2. apply wins_ret. now split.
      * destruct (tok y) eqn:Ey; try discriminate E1. injection E1 as <-. change (flat_map item_toks [Item (HSym y []) []]) with [raw y] in A. cbn [app] in A. unfold tok, S_Formula.tok in Ey.
        eapply next_at; [exact A|apply bare_same, starts_readable; now rewrite Ey|]. clear A. intros s2 sp2 A. cbn [fst snd]. rewrite Ey. cbn [pbind].
        eapply next_at; [exact A|reflexivity|]. clear A. intros s3 sp3 A. cbn [fst snd unwrap_math pbind]. next_arg IHa A E2 R2. apply wins_ret. now split.
  - (* Phantom *) destruct args as [|g1 [|? ?]]; try discriminate E; [rewrite Cmd in E; discriminate E|]. apply dbind_some in E as (m1 & d1 & E1 & E). injection E as <- <- <-. args1 Ra R1.
    next_arg IHa A E1 R1. apply wins_ret. now split.
  - (* RaiseBox *) destruct args as [|[?|?|?|len|?|? ?] [|[?|?|?|t|?|? ?] [|? ?]]]; try discriminate E; [rewrite Cmd in E; discriminate E|]. args2 Ra R1 R2. apply lit_parts in R1 as (-> & O1 & B1). apply as_is_parts in R2 as (-> & -> & O2). specialize (O2 t eq_refl).
    eapply literal_at; [exact O1|exact A|exact B1|]. clear A. intros s1 sp A. cbn beta iota. unfold raise_length.
    destruct (parse_length_specification len) as [[[l u] [|]]|]; try discriminate E. injection E as <- <- <-. cbn [pbind pres].
    rewrite lit_toks in A. eapply text_at; [exact O2|exact A|]. intros s2 A2. apply wins_ret. split; [|exact A2]. unfold raised_text. destruct t as [|c0 t]; [reflexivity|].
    unfold text_nodes. cbn [flush text_of map node_vec_to_node text_node sn_voffset sn_style sn_size sn_text]. destruct (set_eqb (set_of_length l) set_zero); reflexivity.
Qed.

(** ** Environments *)

Definition env_spec (e : env) (args : list arg) : D (option array_spec) :=
  match e, args with
  | (EArray | EDArray | ESubarray), [ALit s] => dopt (option_map Some (parse_column_specification s))
  | (EArray | EDArray | ESubarray), _ => dnone
  | _, [] => dret None
  | _, _ => dnone
  end.
Lemma spec_wins e args x d spec d' p w p' k s : env_spec e args d = Some (spec, d') -> reads_args p w (marked [] args) p' k -> at_ p x d w s ->
  d' = d /\ wins (match e with
        | EArray | EDArray | ESubarray =>
            do '(s, sp') := OLiteral in match parse_column_specification s with Some c => Ret (Some c) | None => fail sp' (E_ExpectedColSpec s) end
        | _ => Ret None
        end) s (fun v s' => v = spec /\ at_ p' x d k s').
Proof.
  intros E Ra A.
  assert (None_ : match args with [] => dret None | _ => dnone end d = Some (spec, d') -> d' = d /\ wins (Ret None) s (fun v s' => v = spec /\ at_ p' x d k s')).
  { clear E. intros E. destruct args; [|discriminate]. injection E as <- <-. apply args_parts in Ra as [-> ->]. split; [reflexivity|]. apply wins_ret. now split. }
  assert (Some_ : match args with [ALit s] => dopt (option_map Some (parse_column_specification s)) | _ => dnone end d = Some (spec, d') -> d' = d /\
    wins (do '(s, sp') := OLiteral in match parse_column_specification s with Some c => Ret (Some c) | None => fail sp' (E_ExpectedColSpec s) end) s (fun v s' => v = spec /\ at_ p' x d k s')).
  { clear E. intros E. destruct args as [|[?|?|?|t|?|? ?] [|? ?]]; try discriminate E. apply dopt_some in E as [E ->]. split; [reflexivity|]. args1 Ra R1. apply lit_parts in R1 as (-> & O1 & B1).
    eapply literal_at; [exact O1|exact A|exact B1|]. intros s1 sp A1. destruct (parse_column_specification t); [|discriminate]. injection E as <-. apply wins_ret. now split. }
  destruct e; exact (None_ E) || exact (Some_ E).
Qed.
Lemma border_wins e b p x d w k s : at_ p x d w s -> match b with Some l => bare w = T_HLine l :: k | None => w = k end -> (b = None -> forall l, hd T_Eoi (bare k) <> T_HLine l) ->
  (b <> None -> env_allows_hlines e = true) ->
  wins (if env_allows_hlines e then do p := OPeek in match fst p with T_HLine l => do_ ONext in Ret (Some l) | _ => Ret None end else Ret None) s (fun v s' => v = b /\ at_ p x d k s').
Proof.
  intros A F Nh B. destruct b as [l|].
  - rewrite (B ltac:(discriminate)). eapply peek_at; [exact A|]. intros sp. rewrite F. cbn [hd fst]. eapply next_at; [exact A|exact F|]. intros s1 sp1 A1. apply wins_ret. now split.
  - subst w. destruct (env_allows_hlines e); [|apply wins_ret; now split]. eapply peek_at; [exact A|]. intros sp. cbn [fst].
    specialize (Nh eq_refl). destruct (hd T_Eoi (bare k)); try (apply wins_ret; now split). now destruct (Nh l).
Qed.
Lemma env_same x e d left : set_flags (pv_env (view_of x d left)) (with_style (cx_style x) (set_flags (env_new_state e) (with_style (env_style e) x))) = x.
Proof. now destruct x. Qed.
Lemma set_row_same d : set_row (nu_row d) d = d.
Proof. now destruct d. Qed.
(** The environment after its arguments. *)
Lemma env_wins n e spec border l x d ns info d' p w p' w' k s nd sp0 left0 a : in_sequence a = true -> items_good n -> items_size l < n ->
  new_rows e (dbind (den_items (in_env e x) ClEnd ClOpen [] None l) (fun ns => dbind (end_row usize_max true) (fun info => dret (ns, info)))) d = Some ((ns, info), d') ->
  construct_node e ns (option_map (fun c => mkArraySpec (as_border_left c) border (match e with ESubarray => true | _ => as_is_sub c end) (as_columns c)) spec) (fst info) (snd info) border = Some nd ->
  reads_items p w l p' w' -> bare w' = T_End e :: k -> at_ p x d w s ->
  wins (do_ OSetStyle (env_style e) in
      do_ OSetEnv (env_new_state e) in
      sub content := seq_if_in_sequence a sp0 (SeqEnd EtEnd) ClOpen true in
      do_ OSetStyle (cx_style x) in
      do v' := OView in
      do_ OSetEnv (pv_env (view_of x d left0)) in
      do t' := ONext in
      match fst t' with
      | T_End e' =>
          if env_eqb e' e then
            do '(info, rows) := OEnvEnd sp0 (es_numbered (pv_env v')) in
            match construct_node e content (option_map (fun c => mkArraySpec (as_border_left c) border (match e with ESubarray => true | _ => as_is_sub c end) (as_columns c)) spec) info rows border with
            | Some n => Ret (ClClose, n)
            | None => Stop Undefined
            end
          else fail (snd t') (E_MismatchedEnvironment e e')
      | _ => fail (snd t') E_Internal
      end) s (fun v s' => v = (ClClose, nd) /\ at_ p' x d' k s').
Proof.
  intros Sq IH L E Ec R Be A. unfold new_rows in E. destruct (dbind _ _ (mkNu _ _ _)) as [[[ns0 info0] d2]|] eqn:E1; [|discriminate]. injection E as -> -> <-.
  apply dbind_some in E1 as (ns1 & d3 & E1 & E2). apply dbind_some in E2 as (info1 & d4 & E2 & E3). injection E3 as -> -> ->.
  eapply style_at; [exact A|]. intros s1 A1. eapply env_at; [exact A1|]. intros s2 A2. cbn [es_numbered env_new_state] in A2. unfold seq_if_in_sequence. rewrite Sq. cbn [pbind].
  assert (C : closer (SeqEnd EtEnd) false (bare w') ClEnd) by (rewrite Be; apply cl_end).
  eapply wins_calls; [apply (seq_wins usize_max cfg local cmds n l (set_flags (env_new_state e) (with_style (env_style e) x)) ClEnd ClOpen (set_row (numbered_env_state e) d) ns d3 (SeqEnd EtEnd) false p w p' w' s2 IH L E1 R C A2)|].
  intros r s3 [-> A3]. cbn [pbind]. eapply style_at; [exact A3|]. intros s4 A4. eapply view_at; [exact A4|]. intros left. eapply env_at; [exact A4|]. intros s5 A5. rewrite env_same in A5.
  eapply next_at; [exact A5|exact Be|]. intros s6 sp A6. cbn [fst unwrap_math]. rewrite env_eqb_refl. cbn [pv_env view_of es_numbered] in *.
  assert (E3 : end_row usize_max true (set_row (nu_row d3) (set_row (nu_row d) d3)) = Some (info, d2)).
  { change (set_row (nu_row d3) (set_row (nu_row d) d3)) with (set_row (nu_row d3) d3). now rewrite set_row_same. }
  eapply last_row_at; [exact A6|exact E3|].
  intros s7 A7. destruct info as [i r]. cbn [fst snd] in Ec. rewrite Ec. apply wins_ret. split; [reflexivity|exact A7].
Qed.

(** ** First tokens as they are read *)

Lemma leads_head sq n w n' t r tf : leads sq n w n' t r -> word_char tf t = None -> silent (unwrap_math t) = false ->
  exists t0 r0, bare w = t0 :: r0 /\ word_char tf t0 = None /\ silent (unwrap_math t0) = false /\
    forall x d s sp a prev Q, (sq = true -> in_sequence a = true) -> at_ n x d r0 s -> (forall s1 sp1, at_ n' x d r s1 -> wins (body (CTok (unwrap_math t, sp1) a prev)) s1 Q) ->
      wins (body (CTok (unwrap_math t0, sp) a prev)) s Q.
Proof.
  intros H Ew Es. destruct (leads_wins cfg usize_max local cmds _ _ _ _ _ _ H) as (t0 & r0 & B & K & W). exists t0, r0. split; [exact B|].
  destruct K as [(-> & -> & ->)|(M & _)]; [split; [exact Ew|]; split; [exact Es|exact W]|]. split; [apply (macro_plain t0 M)|]. split; [apply (macro_starts t0 M)|exact W].
Qed.
(** Numbers and words are not empty. *)
Lemma head_nonempty x after prev acc infix h ms l d r : den_items x after prev acc infix (Item h ms :: l) d = Some r -> head_toks h <> [].
Proof.
  intros E En. destruct h as [sy args|[|? ?]|[|? ?]|?|? ? ?|? ? ?]; try discriminate En; cbn [S_Formula.den_items] in E; cbv zeta in E;
    apply dguard_some in E as [_ E]; apply dbind_some in E as (? & ? & E & _); rewrite den_item_eq in E; apply dbind_some in E as (? & ? & E & _).
  - rewrite den_num_eq in E. apply dguard_some in E as [E _]. apply andb_true_iff in E as [_ E]. discriminate.
  - rewrite den_word_eq in E. apply dbind_some in E as (? & ? & E1 & E). apply dopt_some in E1 as [E1 ->]. injection E1 as <-. apply dbind_some in E as (? & ? & E1 & _). discriminate E1.
Qed.
(** A sequence begins with a token that does not end it. *)
Lemma items_first x after prev acc infix l d r p w p' k : den_items x after prev acc infix l d = Some r -> reads_items p w l p' k ->
  (l = [] /\ w = k /\ p' = p) \/ exists t0 r0, bare w = t0 :: r0 /\ may_begin (unwrap_math t0) = true /\ (acc <> [] -> starts (unwrap_math t0) = true) /\ (cx_bracket x = true -> unwrap_math t0 <> T_SquareBracketClose).
Proof.
  intros E R. destruct (items_start mean usize_max _ _ _ _ _ _ _ _ E) as [->|(t0 & ts & Et & S0 & S0' & B0)]; [left; apply no_items in R as [-> ->]; auto|]. right.
  destruct l as [|[h ms] l]; [discriminate|]. apply item_parts in R as (p1 & w1 & p2 & w2 & Rh & _ & _).
  pose proof (head_nonempty _ _ _ _ _ _ _ _ _ _ E) as Ne.
  pose proof (head_fronts usize_max cfg local cmds _ _ _ _ _ _ (flat_map mark_toks ms ++ flat_map item_toks l) Rh Ne) as [M|M].
  - destruct (bare w) as [|t1 r1]; [discriminate M|]. cbn [hd] in M. exists t1, r1. destruct (macro_starts t1 M) as (S1 & C1 & _). split; [reflexivity|]. split; [now apply starts_may_begin|]. auto.
  - cbn [flat_map] in Et. change (item_toks (Item h ms)) with (head_toks h ++ flat_map mark_toks ms) in Et. rewrite <- app_assoc in Et. rewrite Et in M. cbn [hd] in M.
    destruct (bare w) as [|t1 r1]; [|cbn [hd] in M; subst t1; exists t0, r1; auto]. cbn [hd] in M. subst t0. discriminate S0.
Qed.

Lemma head_step n : items_good n -> arg_good n -> target_good n -> head_good (S n).
Proof.
  intros IHi IHa IHt h L sq x a prev next d c m d' p w p' k Sq E Nw R. apply head_parts in R. destruct h as [s args|num|wd|l|o l cl|e args l]; [| |destruct Nw| | |]; cbn [placed_head] in Nw.
  - destruct R as (p1 & w1 & Rs & Ra). destruct (sym_step n IHi IHa IHt s args L x a prev next d c m d' E) as (W & Si & H).
    destruct (leads_head _ _ _ _ _ _ (cx_tf x) Rs W Si) as (t0 & r & B & W0 & S0 & Go). exists t0, r. split; [exact B|]. split; [exact W0|]. split; [exact S0|].
    intros st sp _ N A. eapply Go; [exact Sq|exact A|]. intros s1 sp1 A1. exact (H p1 w1 p' k s1 sp1 Ra N A1).
  - subst a. destruct R as (c0 & r & w1 & -> & Rc & Sp).
    rewrite den_num_eq in E. apply dguard_some in E as [G E]. injection E as <- <- <-. apply andb_true_iff in G as [Gp Gn]. cbn [number_ok] in Gn. apply andb_true_iff in Gn as [Gd Gr].
    rewrite (digit_token c0 Gd) in Rc. assert (W : word_char (cx_tf x) (T_Digit c0) = None) by (cbn [word_char]; destruct (cx_tf x) as [[|]|]; try reflexivity; discriminate Gp).
    destruct (leads_head _ _ _ _ _ _ (cx_tf x) Rc W eq_refl) as (t0 & r0 & B & W0 & S0 & Go). exists t0, r0. split; [exact B|]. split; [exact W0|]. split; [exact S0|].
    intros st sp Ov N A. eapply Go; [exact Sq|exact A|]. clear A. intros s0 sp1 A. eapply tok_wins; [exact A|reflexivity|]. intros s1 left A1. cbv zeta. cbn [fst unwrap_math view_of pv_transform].
    assert (K : wins (do s := ODigits c0 in Ret (ClDefault, Number s)) s1 (fun v s' => v = (ClDefault, Number (c0 :: r)) /\ at_ p' x d k s')).
    { eapply number_at; [exact Gr|exact Ov|exact A1|exact Sp|]. intros s2 A2. apply wins_ret. now split. }
    destruct (cx_tf x) as [[|]|]; try exact K. discriminate Gp.
  - subst a. destruct R as (p1 & w1 & w2 & Rb & Rl & Be). rewrite den_group_eq in E. apply dbind_some in E as (ns & d1 & E1 & E). injection E as <- <- <-.
    destruct (leads_head _ _ _ _ _ _ (cx_tf x) Rb ltac:(now apply command_no_word) eq_refl) as (t0 & r0 & B & W0 & S0 & Go). exists t0, r0. split; [exact B|]. split; [exact W0|]. split; [exact S0|].
    intros st sp _ N A. eapply Go; [exact Sq|exact A|]. clear A. intros s0 sp1 A. cbn [unwrap_math].
    apply (group_wins usize_max cfg local cmds n l x PaSequence prev d ns d1 p1 w1 p' w2 k s0 sp1 IHi); [sizes|exact E1|exact Rl|exact Be|exact A].
  - destruct R as (p1 & w1 & w2 & w3 & w4 & Rb & Bo & Rl & Br & Bc). rewrite den_fence_eq in E. destruct (mean (lit "left")) eqn:El; try discriminate E. destruct (mean (lit "right")) eqn:Er; try discriminate E.
    destruct (fence_of mean o) as [open|] eqn:Eo; [|discriminate]. destruct (fence_of mean cl) as [close|] eqn:Ecl; [|discriminate]. apply dbind_some in E as (ns & d1 & E1 & E). injection E as <- <- <-.
    destruct (leads_head _ _ _ _ _ _ (cx_tf x) Rb ltac:(now apply command_no_word) eq_refl) as (t0 & r0 & B & W0 & S0 & Go). exists t0, r0. split; [exact B|]. split; [exact W0|]. split; [exact S0|].
    intros st sp _ N A. eapply Go; [exact Sq|exact A|]. clear A. intros s0 sp1 A. cbn [unwrap_math]. eapply tok_wins; [exact A|reflexivity|]. intros s1 left A1. cbv zeta. cbn [fst].
    eapply wins_then; [eapply fence_wins; [exact Eo|exact A1|exact Bo]|]. intros v s2 [-> A2].
    eapply wins_calls; [apply (seq_wins_close usize_max cfg local cmds n l x ClClose ClOpen d ns d1 (SeqEnd EtRight) false p1 w2 p' w3 T_Right w4 s2 IHi); [sizes|exact E1|exact Rl|exact Br|apply cl_right|exact A2]|].
    intros v s3 [-> A3]. eapply wins_then; [eapply fence_wins; [exact Ecl|exact A3|exact Bc]|]. intros v s4 [-> A4]. apply wins_ret. now split.
  - destruct R as (p1 & w1 & p2 & w2 & w3 & Rb & Ra & Rl & Be).
    rewrite den_env_eq in E. fold (env_spec e args) in E. cbv zeta in E. apply dbind_some in E as (spec & d1 & E1 & E). apply dguard_some in E as [Sa E].
    destruct (leads_head _ _ _ _ _ _ (cx_tf x) Rb ltac:(now apply command_no_word) eq_refl) as (t0 & r0 & B & W0 & S0 & Go). exists t0, r0. split; [exact B|]. split; [exact W0|]. split; [exact S0|].
    intros st sp _ N A. eapply Go; [exact Sq|exact A|]. clear A. intros s0 sp1 A. cbn [unwrap_math]. eapply tok_wins; [exact A|reflexivity|]. clear A. intros s1 left A1. cbv zeta. cbn [fst pv_style view_of].
    destruct (spec_wins e args x d spec d1 p1 w1 p2 w2 s1 E1 Ra A1) as [-> W]. apply wins_bind. eapply wins_mono; [exact W|]. intros v s2 [-> A2]. clear W A1 E1.
    (* the line above the first row *)
    assert (K : exists border l' u, (exists pre, l = pre ++ l') /\ match border with Some lt => bare w2 = T_HLine lt :: u | None => w2 = u end /\ reads_items p2 u l' p' w3 /\
      (border <> None -> env_allows_hlines e = true) /\
      dbind (new_rows e (dbind (den_items (in_env e x) ClEnd ClOpen [] None l') (fun ns => dbind (end_row usize_max true) (fun info => dret (ns, info)))))
        (fun r => dbind (dopt (construct_node e (fst r) (option_map (fun c => mkArraySpec (as_border_left c) border (match e with ESubarray => true | _ => as_is_sub c end) (as_columns c)) spec) (fst (snd r)) (snd (snd r)) border))
        (fun n => dret (ClClose, n))) d = Some ((c, m), d')).
    { destruct l as [|i rest].
      - exists None, [], w2. split; [now exists []|]. split; [reflexivity|]. split; [exact Rl|]. split; [now intros []|exact E].
      - destruct (hline_of mean i) as [lt|] eqn:Eh.
        + apply dguard_some in E as [Ga E]. destruct i as [[sy [|? ?]|?|?|?|? ? ?|? ? ?] [|? ?]]; try discriminate Eh. cbn [hline_of] in Eh.
          apply item_parts in Rl as (p3 & u & p4 & u2 & Rh & Rm & Rl). apply no_marks in Rm as [-> ->]. apply head_parts in Rh as (p5 & u5 & Rs & Rn). apply args_parts in Rn as [-> ->].
          apply (leads_silent usize_max) in Rs as [Bs ->]; [|now destruct (S_Formula.raw mean sy)]. exists (Some lt), rest, u5. split; [now exists [Item (HSym sy []) []]|].
          split; [rewrite Bs; destruct (S_Formula.raw mean sy); try discriminate Eh; now injection Eh as ->|]. split; [exact Rl|]. split; [intros _; exact Ga|exact E].
        + exists None, (i :: rest), w2. split; [now exists []|]. split; [reflexivity|]. split; [exact Rl|]. split; [now intros []|exact E]. }
    clear E. destruct K as (border & l' & u & (pre & El2) & Bb & Ru & Ga & E). apply dbind_some in E as ([ns info] & d2 & E1 & E). apply dbind_some in E as (nd & d3 & E2 & E). apply dopt_some in E2 as [E2 ->]. injection E as <- <- <-. cbn [fst snd] in E2.
    assert (Sz : items_size l' <= items_size l). { rewrite El2. unfold items_size. rewrite map_app, list_sum_app. lia. }
    assert (Nh : forall lt, hd T_Eoi (bare u) <> T_HLine lt).
    { assert (exists d0 r, den_items (in_env e x) ClEnd ClOpen [] None l' d0 = Some r) as (d0 & r & Ed).
      { unfold new_rows in E1. destruct (dbind _ _ _) as [[? ?]|] eqn:Eb in E1; [|discriminate]. apply dbind_some in Eb as (? & ? & Eb & _). eauto. }
      destruct (items_first _ _ _ _ _ _ _ _ _ _ _ _ Ed Ru) as [(_ & -> & _)|(t1 & ts & Et0 & S1 & _)]; [rewrite Be; discriminate|]. rewrite Et0. cbn [hd]. intros lt ->. discriminate S1. }
    apply wins_bind. eapply wins_mono; [eapply (border_wins e border p2 x d w2 u s2 A2 Bb)|]; [intros _; exact Nh|exact Ga|].
    intros v s3 [-> A3]. apply (env_wins n e spec border l' x d ns info d2 p2 u p' w3 k s3 nd _ _ a Sa); [exact IHi| |exact E1|exact E2|exact Ru|exact Be|exact A3]. cbn [head_size] in L. unfold items_size in *. lia.
Qed.
End Form.
