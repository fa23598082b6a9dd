(** The token queue delivers the stream it views. *)
From Verif Require Import Str M_Ast M_Spec M_Token M_Commands M_Env M_LatexError M_Lexer M_CustomCmds M_Queue S_Lexer S_Queue L_Lexer.
Local Open Scope nat_scope.

(** ** The lexer *)

Lemma blen_ascii n : blen (repeat 97%N n) = n.
Proof. induction n; cbn [repeat blen]; [reflexivity|]. rewrite IHn. reflexivity. Qed.
Lemma lex_at_any l : exists input, lex_at input l.
Proof. exists (repeat 97%N (lx_pos l) ++ lx_rest l). exists (repeat 97%N (lx_pos l)). split; [reflexivity|]. now rewrite blen_ascii. Qed.

Definition is_eoi_out (o : lexer_output) : bool := match o with LexTok (T_Eoi, _) => true | _ => false end.

Lemma next_token_cases l :
  match next_token l with
  | (inr e, _) => True
  | (inl o, l') =>
      if is_eoi_out o then o = LexTok (T_Eoi, span_zero_width (lx_pos l')) /\ lx_rest l' = [] else length (lx_rest l') < length (lx_rest l)
  end.
Proof.
  destruct (lex_at_any l) as [input H]. destruct (next_token_ok input l H) as [[[a Ca] K] P].
  pose proof (eoi_token_ok input l) as EO. destruct (next_token l) as [[o|e] l'] eqn:E; [|exact I]. cbn [fst snd] in *.
  assert (H' := consumed_at _ _ _ _ H Ca).
  destruct (is_eoi_out o) eqn:Eo.
  - destruct o as [[t sp]|n sp]; [|discriminate]. destruct t; try discriminate.
    destruct (EO sp l' H eq_refl) as [R ->]. split; [|exact R]. apply at_within in H'. rewrite R in H'. cbn in H'.
    do 3 f_equal. lia.
  - destruct P as [P|(sp & P & _)]; [exact P|]. injection P as ->. discriminate.
Qed.

Lemma next_token_end l : lx_rest l = [] -> next_token l = (inl (LexTok (T_Eoi, span_zero_width (lx_pos l))), l).
Proof.
  destruct l as [p r]. cbn [lx_rest lx_pos]. intros ->. rewrite next_token_eq. unfold skip_whitespace. cbn.
  now rewrite Nat.add_0_r.
Qed.

Lemma tokenize_step f l : tokenize (S f) l =
  match next_token l with
  | (inr e, _) => Some ([], LexError e)
  | (inl o, l') => if is_eoi_out o then Some ([], LexEoi (out_span o)) else option_map (fun '(ts, e) => (o :: ts, e)) (tokenize f l')
  end.
Proof.
  cbn [tokenize]. destruct (next_token l) as [[o|e] l']; [|reflexivity].
  destruct o as [[t sp]|n sp]; [|reflexivity]. destruct t; reflexivity.
Qed.

Lemma tokenize_more f : forall l r, tokenize f l = Some r -> forall g, f <= g -> tokenize g l = Some r.
Proof.
  induction f as [|f IH]; intros l r E g G; [discriminate|]. destruct g as [|g]; [lia|].
  rewrite tokenize_step in E |- *. destruct (next_token l) as [[o|e] l']; [|exact E].
  destruct (is_eoi_out o); [exact E|]. destruct (tokenize f l') as [[ts e]|] eqn:T; [|discriminate].
  now rewrite (IH l' _ T g ltac:(lia)).
Qed.

Lemma tokenize_total l f : length (lx_rest l) < f -> exists ts e, tokenize f l = Some (ts, e).
Proof.
  intros H. destruct (lex_at_any l) as [input A]. destruct (tokenize_ok input f l A H) as (ts & e & T & _). eauto.
Qed.

(** No name means a blank or the end of the input. *)
Definition plain_token (t : token) : bool :=
  negb (is_ws t) && negb (means_eoi t) && match t with T_UnresolvedCommand _ => false | _ => true end.
Lemma builtin_tables_plain :
  forallb (fun p => plain_token (snd p)) UNRELIABLE = true /\ forallb (fun p => plain_token (snd p)) SUBSTITUTED = true /\
  forallb (fun p => plain_token (snd p)) COMMANDS = true.
Proof. repeat split; vm_compute; reflexivity. Qed.
Lemma assoc_plain m name t : forallb (fun p => plain_token (snd p)) m = true -> assoc_str name m = Some t -> plain_token t = true.
Proof.
  induction m as [|[n x] m IH]; cbn [assoc_str forallb fst snd]; [discriminate|]. intros H. apply andb_prop in H as [H1 H2].
  destruct (str_eqb name n); [now intros [= <-]|auto].
Qed.
Lemma resolve_builtin_plain u c name t : resolve_builtin u c name = Some t -> plain_token t = true.
Proof.
  destruct builtin_tables_plain as (B1 & B2 & B3). unfold resolve_builtin.
  destruct u, c;
  repeat match goal with |- context [assoc_str name ?m] => destruct (assoc_str name m) eqn:?; [intros X; injection X as X; subst; eauto using assoc_plain|] end;
  destruct (existsb (str_eqb name) FUNCTIONS); try discriminate; intros X; injection X as X; now subst.
Qed.

Section Q.
Context (cfg : parser_cfg).
Notation lexed := (lexed cfg).
Notation q_view := (q_view cfg).

Lemma q_resolve_plain q name t : q_resolve cfg q name = Some t -> plain_token t = true.
Proof.
  unfold q_resolve, resolve_command, cmds_get.
  destruct (assoc_str name (cc_map (q_local q))); [now intros [= <-]|].
  destruct (assoc_str name (cc_map (gs_cmds (q_gs q)))); [now intros [= <-]|].
  destruct (assoc_str name (cc_map (pc_custom cfg))); [now intros [= <-]|].
  apply resolve_builtin_plain.
Qed.
Lemma q_meaning_no_eoi q name : means_eoi (q_meaning cfg q name) = false.
Proof.
  unfold q_meaning. destruct (q_resolve cfg q name) eqn:E; [|reflexivity]. apply q_resolve_plain in E.
  apply andb_prop in E as [E _]. apply andb_prop in E as [_ E]. now apply negb_true_iff in E.
Qed.
Lemma is_eoi_unwrap t : means_eoi t = false -> is_eoi t = false.
Proof. now destruct t. Qed.
Lemma resolve_lexed_eoi q o : is_eoi (qt_tok (resolve_lexed cfg q o)) = is_eoi_out o.
Proof.
  destruct o as [[t sp]|name sp]; cbn [resolve_lexed qt_tok].
  - now destruct t.
  - apply is_eoi_unwrap, q_meaning_no_eoi.
Qed.
Lemma next_token_unwrap l t sp l' : next_token l = (inl (LexTok (t, sp)), l') -> means_eoi t = is_eoi t.
Proof.
  rewrite next_token_eq. destruct (skip_whitespace l) as [[w|] l1]; [now intros [= <- _ _]|]. cbn zeta.
  match goal with |- context [mkLexer ?a ?b] => set (l2 := mkLexer a b) end.
  destruct (after_comments (lx_rest l)) as [|c r]; [now intros [= <- _ _]|]. unfold lex_char.
  destruct (c =? 0)%N; [discriminate|].
  destruct (c =? 35)%N. { destruct r as [|d r']; [discriminate|]. destruct (is_ascii_digit d); [destruct (d =? 48)%N; [discriminate|now intros [= <- _ _]]|discriminate]. }
  destruct (c =? 92)%N.
  - destruct (read_command (lex_advance l2 [c] r)) as [cmd l3]. destruct (skip_whitespace l3) as [o4 l4]. unfold parse_env_marker.
    destruct (str_eqb cmd (lit "begin")); cbn [orb].
    + destruct (skip_whitespace l4) as [o5 l5]. destruct (read_env_name l5) as [[[nm e]|[[ch|] es]] l6]; try discriminate.
      destruct (env_from_str nm); [now intros [= <- _ _]|discriminate].
    + destruct (str_eqb cmd (lit "end")); [|discriminate]. destruct (skip_whitespace l4) as [o5 l5]. destruct (read_env_name l5) as [[[nm e]|[[ch|] es]] l6]; try discriminate.
      destruct (env_from_str nm); [now intros [= <- _ _]|discriminate].
  - intros [= <- _ _]. unfold char_token.
    repeat match goal with |- context [if ?b then _ else _] => destruct b; [reflexivity|] end.
    unfold get_operator_from_unicode. destruct (assoc_n c UNICODE_OPERATORS) eqn:E; [|reflexivity].
    cbn [means_eoi is_eoi].
    assert (T : forallb (fun p => negb (means_eoi (snd p))) UNICODE_OPERATORS = true) by (vm_compute; reflexivity).
    revert T E. generalize UNICODE_OPERATORS. intros m. induction m as [|[k v] m IH]; cbn [assoc_n forallb fst snd]; [discriminate|].
    intros T. apply andb_prop in T as [T1 T2]. destruct (c =? k)%N; [|now apply IH]. intros [= <-]. now apply negb_true_iff in T1.
Qed.
Lemma lexed_not_eoi q l o l' : next_token l = (inl o, l') -> is_eoi_out o = false -> not_eoi (resolve_lexed cfg q o) = true.
Proof.
  intros E Eo. unfold not_eoi. destruct o as [[t sp]|name sp]; cbn [resolve_lexed qt_of qt_tok fst].
  - rewrite (next_token_unwrap l t sp l' E). now destruct t.
  - now rewrite q_meaning_no_eoi.
Qed.

Lemma lexed_stores q q' : q_lexer q = q_lexer q' -> q_local q = q_local q' -> q_gs q = q_gs q' -> lexed q = lexed q'.
Proof.
  intros H1 H2 H3. unfold lexed. rewrite H1. destruct (tokenize _ _) as [[ts e]|]; [|reflexivity]. f_equal. apply map_ext.
  intros [[t sp]|name sp]; [reflexivity|]. cbn [resolve_lexed]. unfold q_meaning, q_resolve. now rewrite H2, H3.
Qed.

Lemma lexed_step q : lexed q =
  match next_token (q_lexer q) with
  | (inr e, _) => ([], LexError e)
  | (inl o, l') =>
      if is_eoi_out o then ([], LexEoi (out_span o))
      else (resolve_lexed cfg q o :: fst (lexed (q_set_lexer q l')), snd (lexed (q_set_lexer q l')))
  end.
Proof.
  unfold lexed at 1. rewrite tokenize_step. pose proof (next_token_cases (q_lexer q)) as C.
  destruct (next_token (q_lexer q)) as [[o|e] l']; [|reflexivity].
  destruct (is_eoi_out o); [reflexivity|].
  unfold lexed. cbn [q_set_lexer q_lexer].
  destruct (tokenize_total l' (S (length (lx_rest l')))) as (ts & e & T); [lia|]. rewrite T.
  rewrite (tokenize_more _ _ _ T) by lia. cbn [option_map map fst snd]. reflexivity.
Qed.
Lemma lexed_end q : lx_rest (q_lexer q) = [] -> lexed q = ([], LexEoi (span_zero_width (lx_pos (q_lexer q)))).
Proof. intros H. rewrite lexed_step, next_token_end by exact H. reflexivity. Qed.

Lemma lexed_no_eoi q : Forall (fun t => not_eoi t = true) (fst (lexed q)).
Proof.
  remember (length (lx_rest (q_lexer q))) as n eqn:En. revert q En.
  induction n as [n IH] using lt_wf_ind. intros q En. rewrite lexed_step. pose proof (next_token_cases (q_lexer q)) as C.
  destruct (next_token (q_lexer q)) as [[o|e] l'] eqn:En'; [|constructor]. destruct (is_eoi_out o) eqn:Eo; [constructor|].
  cbn [fst]. constructor; [exact (lexed_not_eoi q _ _ _ En' Eo)|].
  apply (IH (length (lx_rest l'))); [subst n; exact C|reflexivity].
Qed.

(** ** Loading *)

(** [q'] is [q] after loading the tokens [new]. *)
Definition loaded (q q' : queue) (new : list qtok) : Prop :=
  q_toks q' = q_toks q ++ new /\ q_eoi q' = q_eoi q /\ q_nnw q' = q_nnw q /\ q_local q' = q_local q /\ q_gs q' = q_gs q.

Lemma load_loop_spec {T} (pred : nat -> token -> option T) : (forall i, pred i T_Eoi <> None) ->
  forall fuel idx q, length (lx_rest (q_lexer q)) < fuel ->
  (exists ts1 t ts2 x q', lexed q = (ts1 ++ t :: ts2, snd (lexed q)) /\
     find_from pred idx ts1 = None /\
     pred (idx + length ts1) (qt_tok t) = Some x /\
     load_loop cfg pred fuel idx q = (Ok (Some x), q') /\ loaded q q' (ts1 ++ [t]) /\ lexed q' = (ts2, snd (lexed q))) \/
  (find_from pred idx (fst (lexed q)) = None /\
   match snd (lexed q) with
   | LexError e => exists q', load_loop cfg pred fuel idx q = (Err e, q')
   | LexEoi sp => exists x q', pred (idx + length (fst (lexed q))) T_Eoi = Some x /\
       load_loop cfg pred fuel idx q = (Ok (Some x), q') /\ loaded q q' (fst (lexed q) ++ [eoi_at sp]) /\
       lx_rest (q_lexer q') = [] /\ sp = span_zero_width (lx_pos (q_lexer q'))
   end).
Proof.
  intros Hp. induction fuel as [|f IH]; intros idx q Hf; [lia|]. cbn [load_loop]. rewrite (lexed_step q).
  pose proof (next_token_cases (q_lexer q)) as C.
  destruct (next_token (q_lexer q)) as [[o|e] l'].
  2: { right. cbn [fst snd find_from]. split; [reflexivity|]. eauto. }
  destruct (is_eoi_out o) eqn:Eo.
  - destruct C as [-> R]. right. cbn [fst snd find_from length out_span]. split; [reflexivity|]. cbn [resolve_lexed qt_of fst snd qt_tok].
    destruct (pred idx T_Eoi) as [x|] eqn:Ex; [|now apply Hp in Ex].
    exists x. eexists. rewrite Nat.add_0_r. split; [exact Ex|]. split; [reflexivity|]. split; [|split].
    + repeat split.
    + exact R.
    + reflexivity.
  - set (t := resolve_lexed cfg q o) in *. set (q1 := q_set_lexer q l').
    destruct (pred idx (qt_tok t)) as [x|] eqn:Ex.
    + left. exists [], t, (fst (lexed q1)), x. eexists. cbn [app length find_from fst snd]. rewrite Nat.add_0_r.
      split; [reflexivity|]. split; [reflexivity|]. split; [exact Ex|]. split; [reflexivity|].
      split; [repeat split|]. rewrite (lexed_stores _ q1) by reflexivity. apply surjective_pairing.
    + assert (is_eoi (qt_tok t) = false) as Et by (unfold t; rewrite resolve_lexed_eoi; exact Eo). rewrite Et.
      set (q2 := q_set_toks q1 (q_toks q ++ [t])). change (q_set_toks (q_set_lexer q l') (q_toks q ++ [t])) with q2.
      assert (L2 : lexed q2 = lexed q1) by (apply lexed_stores; reflexivity).
      destruct (IH (S idx) q2 ltac:(cbn; lia)) as [(ts1 & t' & ts2 & x & q' & A1 & A3 & A4 & A5 & A6 & A7)|[B1 B2]].
      * left. exists (t :: ts1), t', ts2, x, q'. rewrite L2 in *. cbn [fst snd app find_from length]. rewrite Ex.
        split; [now rewrite A1|]. split; [exact A3|]. rewrite Nat.add_succ_r. split; [exact A4|].
        split; [exact A5|]. split; [|exact A7]. destruct A6 as (D1 & D2). split; [|exact D2].
        rewrite D1. cbn [q2 q_toks q_set_toks]. now rewrite <- app_assoc.
      * right. rewrite L2 in *. cbn [fst snd find_from length]. rewrite Ex. split; [exact B1|].
        destruct (snd (lexed q1)) as [sp|e]; [|exact B2]. destruct B2 as (x & q' & D1 & D2 & D3 & D4).
        exists x, q'. rewrite Nat.add_succ_r. split; [exact D1|]. split; [exact D2|]. split; [|exact D4].
        destruct D3 as (F1 & F2). split; [|exact F2]. rewrite F1. cbn [q2 q_toks q_set_toks]. now rewrite <- app_assoc.
Qed.

(** ** Looking for a token *)

Definition end_of (q : queue) : qtok := eoi_at (span_zero_width (lx_pos (q_lexer q))).
(** The end tokens come last. *)
Definition eoi_tail (q : queue) (r : list qtok) : Prop :=
  exists a n, r = a ++ repeat (end_of q) n /\ Forall (fun t => not_eoi t = true) a /\ (n <> O -> lx_rest (q_lexer q) = []).

Lemma filter_all {A} (p : A -> bool) l : Forall (fun x => p x = true) l -> filter p l = l.
Proof. induction 1 as [|x l H F IH]; cbn [filter]; [reflexivity|]. now rewrite H, IH. Qed.
Lemma filter_repeat {A} (p : A -> bool) x n : p x = false -> filter p (repeat x n) = [].
Proof. intros H. induction n; cbn [repeat filter]; [reflexivity|]. now rewrite H. Qed.

Lemma eoi_tail_suffix q p r : eoi_tail q (p ++ r) -> eoi_tail q r.
Proof.
  intros (a & n & E & Fa & Hn). revert a n E Fa Hn. induction p as [|t p IH]; intros a n E Fa Hn; [exists a, n; auto|].
  destruct a as [|x a].
  - destruct n as [|n]; [discriminate|]. cbn [app repeat] in E. injection E as _ E. apply (IH [] n E); [constructor|auto].
  - cbn [app] in E. injection E as _ E. inversion Fa; subst. eapply IH; eauto.
Qed.
Lemma eoi_tail_app q new r : Forall (fun t => not_eoi t = true) new -> eoi_tail q r -> eoi_tail q (new ++ r).
Proof.
  intros F (a & n & -> & Fa & Hn). exists (new ++ a), n. rewrite app_assoc. split; [reflexivity|]. split; [|exact Hn].
  now apply Forall_app.
Qed.

Lemma split_while_app {A} (p : A -> bool) l1 l2 :
  split_while p (l1 ++ l2) =
  match snd (split_while p l1) with
  | [] => (l1 ++ fst (split_while p l2), snd (split_while p l2))
  | b => (fst (split_while p l1), b ++ l2)
  end.
Proof.
  induction l1 as [|x l1 IH]; cbn [app split_while fst snd]; [apply surjective_pairing|].
  destruct (p x); cbn [fst snd]; [|reflexivity]. rewrite IH.
  destruct (split_while p l1) as [a b]. cbn [fst snd]. destruct b; reflexivity.
Qed.
Lemma split_while_eq {A} (p : A -> bool) l : l = fst (split_while p l) ++ snd (split_while p l).
Proof.
  induction l as [|x l IH]; cbn [split_while fst snd]; [reflexivity|]. destruct (p x); [|reflexivity].
  destruct (split_while p l) as [a b]. cbn in *. now rewrite IH at 1.
Qed.
Lemma split_while_front {A} (p : A -> bool) l : Forall (fun x => p x = true) (fst (split_while p l)) /\
  match snd (split_while p l) with x :: _ => p x = false | [] => True end.
Proof.
  induction l as [|x l IH]; cbn [split_while fst snd]; [split; [constructor|exact I]|]. destruct (p x) eqn:E; [|split; [constructor|exact E]].
  destruct (split_while p l) as [a b]. cbn in *. destruct IH. split; [now constructor|assumption].
Qed.
Lemma split_while_all {A} (p : A -> bool) l : Forall (fun x => p x = true) l -> split_while p l = (l, []).
Proof. induction 1 as [|x l H F IH]; cbn [split_while]; [reflexivity|]. now rewrite H, IH. Qed.

Section Search.
Context {T : Type} (pred : nat -> token -> option T) (np : qtok -> bool) (mk : nat -> token -> T).
Context (Hpred : forall i t, pred i (qt_tok t) = if np t then None else Some (mk i (qt_tok t))).
Context (Heoi : forall sp, np (eoi_at sp) = false).

Lemma find_from_split l : forall idx, find_from pred idx l =
  match snd (split_while np l) with
  | t :: _ => Some (mk (idx + length (fst (split_while np l))) (qt_tok t))
  | [] => None
  end.
Proof.
  induction l as [|t l IH]; intros idx; cbn [find_from split_while]; [reflexivity|]. rewrite Hpred.
  destruct (np t); cbn [fst snd]; [|now rewrite Nat.add_0_r]. rewrite IH. destruct (split_while np l) as [a b]. cbn [fst snd].
  destruct b; [reflexivity|]. cbn [length]. now rewrite Nat.add_succ_r.
Qed.

Lemma pred_eoi i : pred i T_Eoi = Some (mk i T_Eoi).
Proof. pose proof (Hpred i (eoi_at span_default)) as H. rewrite Heoi in H. exact H. Qed.

Definition same_view (q q' : queue) : Prop :=
  (exists new, q_toks q' = q_toks q ++ new) /\ q_eoi q' = q_eoi q /\ q_nnw q' = q_nnw q /\ q_local q' = q_local q /\
  q_gs q' = q_gs q /\ eoi_tail q' (q_toks q') /\ q_view q' = q_view q.

Lemma search_spec q p r : q_eoi q = false -> q_toks q = p ++ r -> eoi_tail q (q_toks q) ->
  let l := filter not_eoi r ++ fst (lexed q) in
  let found := match find_from pred (length p) r with Some x => (Ok (Some x), q) | None => load_token cfg pred q end in
  match front (snd (split_while np l), snd (lexed q)) with
  | Ok t => exists q', found = (Ok (Some (mk (length p + length (fst (split_while np l))) (qt_tok t))), q') /\
      (exists rest, q_toks q' = p ++ fst (split_while np l) ++ t :: rest) /\ same_view q q'
  | Err e => exists q', found = (Err e, q')
  | Crash _ => False
  end.
Proof.
  intros Heo Et Hq. cbn zeta. assert (Hr := Hq). rewrite Et in Hr. apply eoi_tail_suffix in Hr.
  destruct Hr as (a & n & Er & Fa & Hn).
  assert (Ff : filter not_eoi r = a). { rewrite Er, filter_app, filter_all, filter_repeat by (assumption || reflexivity). apply app_nil_r. }
  rewrite Ff, find_from_split. rewrite Er, !split_while_app.
  destruct (split_while np a) as [x y] eqn:Ea. cbn [fst snd].
  pose proof (split_while_eq np a) as Eq. rewrite Ea in Eq. cbn [fst snd] in Eq.
  destruct y as [|t y].
  2: { (* already queued *)
    cbn [fst snd app front]. exists q. split; [reflexivity|]. split.
    - eexists. rewrite Et, Er, Eq, <- !app_assoc. reflexivity.
    - repeat split; auto. exists []. symmetry. apply app_nil_r. }
  rewrite app_nil_r in Eq. subst x. cbn [fst snd].
  destruct n as [|n].
  2: { (* an end token is queued *)
    cbn [repeat split_while]. assert (np (end_of q) = false) as -> by apply Heoi. cbn [fst snd]. rewrite (lexed_end q) by auto. cbn [fst snd split_while front].
    exists q. rewrite !app_nil_r. split; [reflexivity|]. split.
    - eexists. rewrite Et, Er. reflexivity.
    - repeat split; auto. exists []. symmetry. apply app_nil_r. }
  cbn [repeat split_while fst snd]. rewrite app_nil_r in Er. subst r.
  unfold load_token. rewrite Heo.
  assert (Lt : length (q_toks q) = length p + length a) by (rewrite Et; apply app_length).
  assert (Hp : forall i, pred i T_Eoi <> None) by (intros i; rewrite pred_eoi; discriminate).
  destruct (load_loop_spec pred Hp (S (length (lx_rest (q_lexer q)))) (length (q_toks q)) q ltac:(lia))
    as [(ts1 & t & ts2 & z & q' & A1 & A3 & A4 & A5 & A6 & A7)|[B1 B2]].
  - (* found while loading *)
    assert (N1 : snd (split_while np ts1) = []).
    { rewrite find_from_split in A3. destruct (snd (split_while np ts1)); [reflexivity|discriminate]. }
    assert (N2 : split_while np ts1 = (ts1, [])).
    { pose proof (split_while_eq np ts1) as E. rewrite N1, app_nil_r in E. rewrite (surjective_pairing (split_while np ts1)), N1, <- E. reflexivity. }
    assert (S1 : split_while np (fst (lexed q)) = (ts1, t :: ts2)).
    { rewrite A1. cbn [fst]. rewrite split_while_app, N2. cbn [fst snd split_while]. rewrite Hpred in A4.
      destruct (np t); [discriminate|]. cbn [fst snd]. now rewrite app_nil_r. }
    rewrite S1. cbn [fst snd front]. exists q'. rewrite A5. rewrite Hpred in A4. destruct (np t); [discriminate|]. injection A4 as <-.
    rewrite app_length, Nat.add_assoc, <- Lt. split; [reflexivity|]. destruct A6 as (D1 & D2 & D3 & D4 & D5). split.
    + exists []. rewrite D1, Et, <- !app_assoc. reflexivity.
    + assert (NE : Forall (fun t => not_eoi t = true) (ts1 ++ t :: ts2)) by (pose proof (lexed_no_eoi q) as F; now rewrite A1 in F).
      assert (NE1 : Forall (fun t => not_eoi t = true) (ts1 ++ [t])).
      { apply Forall_app in NE as [F1 F2]. apply Forall_app. split; [exact F1|]. inversion F2. now constructor. }
      assert (Np : Forall (fun t => not_eoi t = true) (q_toks q) \/ lx_rest (q_lexer q) = []).
      { destruct Hq as (b & m & Eb & Fb & Hm). destruct m; [left; rewrite Eb; cbn [repeat]; now rewrite app_nil_r|right; auto]. }
      destruct Np as [Np|Np]; [|rewrite lexed_end in A1 by exact Np; now destruct ts1].
      assert (NE2 : Forall (fun t => not_eoi t = true) (q_toks q')) by (rewrite D1; now apply Forall_app).
      repeat split; auto.
      * exists (ts1 ++ [t]). exact D1.
      * exists (q_toks q'), O. cbn [repeat]. rewrite app_nil_r. split; [reflexivity|]. split; [exact NE2|]. intros X. now contradiction X.
      * unfold q_view, S_Queue.q_view. rewrite A7. cbn [fst snd]. f_equal. rewrite (filter_all _ _ NE2), (filter_all _ _ Np), D1.
        fold (lexed q). rewrite A1. cbn [fst]. rewrite <- !app_assoc. reflexivity.
  - assert (N1 : split_while np (fst (lexed q)) = (fst (lexed q), [])).
    { rewrite find_from_split in B1. pose proof (split_while_eq np (fst (lexed q))) as E.
      destruct (split_while np (fst (lexed q))) as [u v]. cbn [fst snd] in *. destruct v; [|discriminate]. now rewrite app_nil_r in E; subst. }
    rewrite N1. cbn [fst snd front].
    destruct (snd (lexed q)) as [sp|e] eqn:Es.
    + destruct B2 as (z & q' & D1 & D2 & D3 & D4 & D5). exists q'. rewrite D2. rewrite pred_eoi in D1. injection D1 as <-.
      rewrite app_length, Nat.add_assoc, <- Lt. split; [reflexivity|]. destruct D3 as (F1 & F2 & F3 & F4 & F5).
      assert (Eq : eoi_at sp = end_of q') by (unfold end_of; now rewrite D5).
      split.
      * exists []. rewrite F1, Et, <- !app_assoc. reflexivity.
      * repeat split; auto.
        -- eexists. exact F1.
        -- pose proof (lexed_no_eoi q) as NE.
           destruct Hq as (b & m & Eb & Fb & Hm). destruct m as [|m].
           ++ exists (b ++ fst (lexed q)), 1. split; [|split; [apply Forall_app; auto|auto]].
              rewrite F1, Eb. cbn [repeat]. rewrite app_nil_r, <- app_assoc. now rewrite Eq.
           ++ specialize (Hm ltac:(discriminate)). exists b, (S (S m)). split; [|auto].
              rewrite (lexed_end q Hm) in F1, Es. cbn [fst snd app] in F1, Es. rewrite F1, Eb. injection Es as Es.
              assert (end_of q = eoi_at sp) as -> by (unfold end_of; now rewrite Es). rewrite Eq.
              change (repeat (end_of q') (S (S m))) with (end_of q' :: repeat (end_of q') (S m)). rewrite <- app_assoc. f_equal.
              rewrite <- repeat_cons. reflexivity.
        -- unfold q_view, S_Queue.q_view. fold (lexed q'). fold (lexed q). rewrite (lexed_end q' D4). cbn [fst snd]. rewrite Es, <- D5. f_equal.
           rewrite F1, app_nil_r, !filter_app, (filter_all _ (fst (lexed q))) by apply lexed_no_eoi.
           cbn [filter not_eoi eoi_at qt_tok is_eoi negb]. now rewrite app_nil_r.
    + destruct B2 as (q' & B2). exists q'. exact B2.
Qed.
End Search.

(** ** The operations *)


Lemma find_nnw_from l : forall i, find_from is_not_whitespace i l = match find_nnw l with Some n => Some (i + n) | None => None end.
Proof.
  induction l as [|t l IH]; intros i; cbn [find_from find_nnw]; [reflexivity|]. unfold is_not_whitespace at 1.
  destruct (is_ws (qt_tok t)); [|now rewrite Nat.add_0_r]. rewrite IH. destruct (find_nnw l); [|reflexivity]. now rewrite Nat.add_succ_r.
Qed.
Lemma nw_pred i t : is_not_whitespace i (qt_tok t) = if blank_tok t then None else Some ((fun i _ => i) i (qt_tok t)).
Proof. reflexivity. Qed.
Lemma find_nnw_split l : find_nnw l =
  match snd (split_while blank_tok l) with _ :: _ => Some (length (fst (split_while blank_tok l))) | [] => None end.
Proof.
  pose proof (find_nnw_from l 0) as H. rewrite (find_from_split _ _ _ nw_pred) in H.
  destruct (snd (split_while blank_tok l)), (find_nnw l); cbn in *; congruence.
Qed.
Lemma find_nnw_at bl t rest : Forall (fun t => blank_tok t = true) bl -> blank_tok t = false -> find_nnw (bl ++ t :: rest) = Some (length bl).
Proof.
  intros F H. rewrite find_nnw_split, split_while_app, (split_while_all _ _ F). cbn [snd split_while]. rewrite H. cbn [fst snd].
  now rewrite app_nil_r.
Qed.

Lemma front_blank q r e t : front (snd (split_while blank_tok (r ++ fst (lexed q))), e) = Ok t -> blank_tok t = false.
Proof.
  destruct (split_while_front blank_tok (r ++ fst (lexed q))) as [_ H].
  destruct (snd (split_while blank_tok _)); cbn [front]; [destruct e; [intros [= <-]; reflexivity|discriminate]|].
  now intros [= <-].
Qed.

Lemma ensure_spec q : q_eoi q = false -> eoi_tail q (q_toks q) ->
  match ahead (q_view q) with
  | Ok _ => exists q', ensure_nnw cfg q = (Ok tt, q') /\ good_queue q' /\ q_view q' = q_view q /\ stored_as q q'
  | Err e => exists q', ensure_nnw cfg q = (Err e, q')
  | Crash _ => False
  end.
Proof.
  intros He Ht. pose proof (search_spec is_not_whitespace blank_tok _ nw_pred (fun _ => eq_refl) q [] (q_toks q) He eq_refl Ht) as S.
  cbn zeta in S. unfold ahead, skip_blank. unfold q_view at 1, S_Queue.q_view at 1. cbn [fst snd]. fold (lexed q).
  cbn [length Nat.add app] in S. rewrite find_nnw_from in S. cbn [Nat.add] in S.
  unfold ensure_nnw, load_skip_whitespace.
  pose proof (front_blank q (filter not_eoi (q_toks q)) (snd (lexed q))) as FB.
  destruct (front _) as [t|e|c].
  - specialize (FB t eq_refl). destruct S as (q' & S1 & (rest & S2) & S3 & S4 & S5 & S6 & S7 & S8 & S9).
    exists (q_set_nnw q' (length (fst (split_while blank_tok (filter not_eoi (q_toks q) ++ fst (lexed q)))))).
    split.
    + destruct (find_nnw (q_toks q)); [injection S1 as <- <-; reflexivity|]. rewrite S1. reflexivity.
    + split; [|split; [exact S9|split; assumption]]. split; [cbn; congruence|]. split; [|exact S8]. cbn [q_set_nnw q_toks q_nnw].
      rewrite S2. apply find_nnw_at; [|exact FB]. apply split_while_front.
  - destruct S as (q' & S). exists q'. destruct (find_nnw (q_toks q)); [discriminate|]. now rewrite S.
  - exact S.
Qed.

(** The shape of a good queue. *)
Lemma good_shape q : good_queue q ->
  exists bl t rest, q_toks q = bl ++ t :: rest /\ Forall (fun t => blank_tok t = true) bl /\ blank_tok t = false /\ q_nnw q = length bl /\
    eoi_tail q (t :: rest) /\
    (is_eoi (qt_tok t) = true -> t = end_of q /\ q_view q = (bl, LexEoi (span_zero_width (lx_pos (q_lexer q)))) /\ lx_rest (q_lexer q) = []) /\
    (is_eoi (qt_tok t) = false -> q_view q = (bl ++ t :: filter not_eoi rest ++ fst (lexed q), snd (lexed q))).
Proof.
  intros (He & Hn & Ht). rewrite find_nnw_split in Hn. pose proof (split_while_eq blank_tok (q_toks q)) as E.
  destruct (split_while_front blank_tok (q_toks q)) as [F1 F2].
  destruct (split_while blank_tok (q_toks q)) as [bl [|t rest]]; cbn [fst snd] in *; [discriminate|]. injection Hn as Hn.
  exists bl, t, rest. split; [exact E|]. split; [exact F1|]. split; [exact F2|]. split; [symmetry; exact Hn|].
  change (eoi_tail q (q_toks q)) in Ht. rewrite E in Ht. assert (Ht' := eoi_tail_suffix _ _ _ Ht). split; [exact Ht'|].
  assert (Fb : filter not_eoi bl = bl).
  { apply filter_all. eapply Forall_impl; [|exact F1]. intros x. unfold blank_tok, not_eoi. now destruct (qt_tok x). }
  destruct Ht' as (a & n & Ea & Fa & Hr). split.
  - intros T. destruct a as [|x a].
    + destruct n as [|n]; [discriminate|]. cbn in Ea. injection Ea as -> ->. specialize (Hr ltac:(discriminate)).
      split; [reflexivity|]. split; [|exact Hr]. unfold q_view, S_Queue.q_view. rewrite E, (lexed_end q Hr). cbn [fst snd]. rewrite app_nil_r. f_equal.
      rewrite filter_app, Fb. cbn [filter]. change (not_eoi (end_of q)) with false. cbn iota.
      rewrite filter_repeat by reflexivity. apply app_nil_r.
    + cbn in Ea. injection Ea as -> ->. inversion Fa; subst. unfold not_eoi in H1. apply negb_true_iff, is_eoi_unwrap in H1. congruence.
  - intros T. unfold q_view, S_Queue.q_view. fold (lexed q). rewrite E, filter_app, Fb. cbn [filter].
    assert (not_eoi t = true) as ->.
    { destruct a as [|x a]; [destruct n as [|n]; [discriminate|]; cbn in Ea; injection Ea as -> _; discriminate|]. cbn in Ea. injection Ea as -> _. now inversion Fa. }
    rewrite <- app_assoc. reflexivity.
Qed.

Lemma good_ahead q : good_queue q -> ahead (q_view q) = Ok (q_peek q).
Proof.
  intros G. destruct (good_shape q G) as (bl & t & rest & E & F & B & N & T & S1 & S2).
  unfold q_peek. rewrite E, N, app_nth2, Nat.sub_diag by lia. cbn [nth].
  destruct (is_eoi (qt_tok t)) eqn:Et.
  - destruct (S1 eq_refl) as (-> & V & _). unfold ahead, skip_blank. rewrite V. cbn [fst snd].
    now rewrite (split_while_all _ _ F).
  - rewrite (S2 eq_refl). unfold ahead, skip_blank. cbn [fst snd]. rewrite split_while_app, (split_while_all _ _ F). cbn [snd].
    cbn [split_while]. rewrite B. reflexivity.
Qed.

Lemma view_no_eoi q : Forall (fun t => not_eoi t = true) (fst (q_view q)).
Proof.
  unfold q_view, S_Queue.q_view. cbn [fst]. apply Forall_app. split; [|apply lexed_no_eoi]. apply Forall_forall. intros x H. now apply filter_In in H.
Qed.

(** Reading the first token. *)
Lemma read_first_spec q bl t rest : good_queue q -> q_toks q = bl ++ t :: rest -> Forall (fun t => blank_tok t = true) bl -> blank_tok t = false ->
  q_nnw q = length bl ->
  match read_first (skip_blank (fst (q_view q)), snd (q_view q)) with
  | (Ok t', s) => t' = t /\ exists q', ensure_nnw cfg (q_set_toks q rest) = (Ok tt, q') /\ good_queue q' /\ q_view q' = s /\ stored_as q q'
  | (Err e, _) => exists q', ensure_nnw cfg (q_set_toks q rest) = (Err e, q')
  | (Crash _, _) => False
  end.
Proof.
  intros G E F B N. destruct (good_shape q G) as (bl' & t' & rest' & E' & F' & B' & N' & T & S1 & S2).
  assert (bl' = bl /\ t' = t /\ rest' = rest) as (-> & -> & ->).
  { rewrite E in E'. assert (L : length bl = length bl') by congruence. clear -E' L. revert bl' E' L. induction bl as [|x bl IH]; destruct bl' as [|y bl']; cbn; intros E L; try lia.
    - injection E as -> ->. auto.
    - injection E as -> E. injection L as L. destruct (IH _ E L) as (-> & -> & ->). auto. }
  set (q1 := q_set_toks q rest).
  assert (He : q_eoi q1 = false) by apply G.
  assert (T1 : eoi_tail q1 (q_toks q1)) by exact (eoi_tail_suffix q [t] rest T).
  pose proof (ensure_spec q1 He T1) as S.
  destruct (is_eoi (qt_tok t)) eqn:Et.
  - destruct (S1 eq_refl) as (-> & V & R). rewrite V. cbn [fst snd]. unfold skip_blank. rewrite (split_while_all _ _ F). cbn [snd read_first front].
    split; [reflexivity|].
    assert (V1 : q_view q1 = ([], LexEoi (span_zero_width (lx_pos (q_lexer q))))).
    { unfold q_view, S_Queue.q_view. rewrite (lexed_end q1 R). cbn [fst snd q1 q_set_toks q_toks q_lexer]. rewrite app_nil_r. f_equal.
      destruct T as (a & n & Ea & Fa & _). destruct a as [|x a].
      - destruct n; [discriminate|]. cbn in Ea. injection Ea as ->. now apply filter_repeat.
      - cbn in Ea. injection Ea as <- _. inversion Fa. discriminate. }
    rewrite V1 in S. cbn in S. destruct S as (q' & S3 & S4 & S5 & S6). exists q'. exact (conj S3 (conj S4 (conj S5 S6))).
  - rewrite (S2 eq_refl). cbn [fst snd]. unfold skip_blank. rewrite split_while_app, (split_while_all _ _ F). cbn [snd split_while]. rewrite B.
    cbn [snd read_first].
    assert (V1 : q_view q1 = (filter not_eoi rest ++ fst (lexed q), snd (lexed q))).
    { unfold q_view, S_Queue.q_view. fold (lexed q1). now rewrite (lexed_stores q1 q) by reflexivity. }
    rewrite V1 in S. destruct (ahead _) as [t'|e|c].
    + split; [reflexivity|]. destruct S as (q' & S3 & S4 & S5 & S6). exists q'. exact (conj S3 (conj S4 (conj S5 S6))).
    + exact S.
    + exact S.
Qed.

Lemma next_unres_spec q : good_queue q ->
  match read_first (skip_blank (fst (q_view q)), snd (q_view q)) with
  | (Ok t, s) => exists q', q_next_unres cfg q = (Ok (qt_unwrap t), q') /\ good_queue q' /\ q_view q' = s /\ stored_as q q'
  | (Err e, _) => exists q', q_next_unres cfg q = (Err e, q')
  | (Crash _, _) => False
  end.
Proof.
  intros G. destruct (good_shape q G) as (bl & t & rest & E & F & B & N & _).
  pose proof (read_first_spec q bl t rest G E F B N) as S. unfold q_next_unres.
  rewrite E, N, skipn_app, skipn_all, Nat.sub_diag. cbn [app skipn].
  destruct (read_first _) as [[t'|e|c] s].
  - destruct S as (-> & q' & -> & S). eauto.
  - destruct S as (q' & ->). eauto.
  - exact S.
Qed.

Lemma next_any_unres_spec q : good_queue q ->
  match read_first (q_view q) with
  | (Ok t, s) => exists q', q_next_any_unres cfg q = (Ok t, q') /\ good_queue q' /\ q_view q' = s /\ stored_as q q'
  | (Err e, _) => exists q', q_next_any_unres cfg q = (Err e, q')
  | (Crash _, _) => False
  end.
Proof.
  intros G. destruct (good_shape q G) as (bl & t & rest & E & F & B & N & T & S1 & S2).
  destruct bl as [|b bl].
  - pose proof (read_first_spec q [] t rest G E F B N) as S. unfold q_next_any_unres. rewrite E, N. cbn [app length].
    assert (skip_blank (fst (q_view q)) = fst (q_view q)) as Sk.
    { destruct (is_eoi (qt_tok t)) eqn:Et; [destruct (S1 eq_refl) as (-> & -> & _); reflexivity|].
      rewrite (S2 eq_refl). unfold skip_blank. cbn [fst app split_while]. now rewrite B. }
    rewrite Sk, <- surjective_pairing in S.
    destruct (read_first _) as [[t'|e|c] s].
    + destruct S as (-> & q' & -> & S). eauto.
    + destruct S as (q' & ->). eauto.
    + exact S.
  - inversion F as [|? ? F1 F2]; subst. unfold q_next_any_unres. rewrite E, N. cbn [app length].
    set (q' := q_set_nnw (q_set_toks q (bl ++ t :: rest)) (length bl)).
    assert (G' : good_queue q').
    { split; [apply G|]. split; [cbn; now apply find_nnw_at|]. destruct G as (_ & _ & G). fold (eoi_tail q (q_toks q)) in G. rewrite E in G.
      exact (eoi_tail_suffix q [b] (bl ++ t :: rest) G). }
    assert (V : q_view q = (b :: fst (q_view q'), snd (q_view q'))).
    { unfold q_view, S_Queue.q_view. fold (lexed q). fold (lexed q'). rewrite (lexed_stores q' q) by reflexivity. rewrite E. cbn [q' q_toks q_set_nnw q_set_toks app filter fst snd].
      unfold not_eoi at 1. unfold blank_tok in F1. destruct (qt_tok b); try discriminate. reflexivity. }
    rewrite V. cbn [read_first]. rewrite <- surjective_pairing, (good_ahead q' G').
    exists q'. exact (conj eq_refl (conj G' (conj eq_refl (conj eq_refl eq_refl)))).
Qed.

Lemma rejecting_eq r : rejecting cfg r = (match fst r with Ok t => match reject_unknown cfg t with Some e => Err e | None => Ok t end | e => e end, snd r).
Proof. destruct r as [[t|e|c] q]; cbn [rejecting fst snd]; [now destruct (reject_unknown cfg t)|reflexivity|reflexivity]. Qed.

Lemma push_spec l q : good_queue q -> Forall (fun t => not_eoi t = true) l ->
  good_queue (queue_in_front l q) /\ q_view (queue_in_front l q) = (l ++ fst (q_view q), snd (q_view q)) /\ stored_as q (queue_in_front l q).
Proof.
  intros (He & Hn & Ht) F. split; [|split].
  - split; [exact He|]. split.
    + cbn [queue_in_front update_nnw q_set_nnw q_set_toks q_toks q_nnw].
      destruct (find_nnw (l ++ q_toks q)) eqn:E; [reflexivity|]. rewrite find_nnw_split, split_while_app in E.
      destruct (snd (split_while blank_tok l)) eqn:E1; [|discriminate]. rewrite find_nnw_split in Hn. cbn [snd] in E.
      destruct (snd (split_while blank_tok (q_toks q))); discriminate.
    + exact (eoi_tail_app q l (q_toks q) F Ht).
  - unfold q_view, S_Queue.q_view. fold (lexed q). fold (lexed (queue_in_front l q)). rewrite (lexed_stores (queue_in_front l q) q) by reflexivity.
    cbn [queue_in_front update_nnw q_set_nnw q_set_toks q_toks fst snd]. now rewrite filter_app, (filter_all _ _ F), <- app_assoc.
  - split; reflexivity.
Qed.

Lemma hc_pred i t : has_class i (qt_tok t) = if has_no_class t then None else
  Some ((fun i tok => (i, match token_class tok with Some c => c | None => ClEnd end)) i (qt_tok t)).
Proof. unfold has_class, has_no_class. now destruct (token_class (qt_tok t)). Qed.

Lemma same_view_good q q' : good_queue q -> same_view q q' -> good_queue q'.
Proof.
  intros (He & Hn & Ht) ((new & E) & S2 & S3 & S4 & S5 & S6 & S7). split; [congruence|]. split; [|exact S6]. rewrite E, S3.
  rewrite find_nnw_split, split_while_app. rewrite find_nnw_split in Hn. destruct (snd (split_while blank_tok (q_toks q))); [discriminate|]. exact Hn.
Qed.

Lemma after_next_spec {T} (pred : nat -> token -> option T) (np : qtok -> bool) (mk : nat -> token -> T) q :
  (forall i t, pred i (qt_tok t) = if np t then None else Some (mk i (qt_tok t))) -> (forall sp, np (eoi_at sp) = false) ->
  good_queue q ->
  exists bl t rest, q_toks q = bl ++ t :: rest /\ Forall (fun t => blank_tok t = true) bl /\ blank_tok t = false /\ q_nnw q = length bl /\
  let l := filter not_eoi rest ++ fst (lexed q) in
  match front (snd (split_while np l), snd (lexed q)) with
  | Ok x => exists q' more, find_or_load_after_next cfg pred q = (Ok (Some (mk (S (length bl) + length (fst (split_while np l))) (qt_tok x))), q') /\
      q_toks q' = bl ++ t :: fst (split_while np l) ++ x :: more /\ good_queue q' /\ q_view q' = q_view q /\ stored_as q q'
  | Err e => exists q', find_or_load_after_next cfg pred q = (Err e, q')
  | Crash _ => False
  end.
Proof.
  intros Hp He G. destruct (good_shape q G) as (bl & t & rest & E & F & B & N & _). exists bl, t, rest. repeat split; auto.
  cbn zeta. assert (E' : q_toks q = (bl ++ [t]) ++ rest) by (rewrite E, <- app_assoc; reflexivity).
  assert (L : length (bl ++ [t]) = S (length bl)) by (rewrite app_length; cbn; lia).
  pose proof (search_spec pred np mk Hp He q (bl ++ [t]) rest (proj1 G) E' (proj2 (proj2 G))) as K. cbn zeta in K.
  unfold find_or_load_after_next. rewrite N.
  assert ((length bl <? length (q_toks q)) = true) as -> by (apply Nat.ltb_lt; rewrite E, app_length; cbn; lia).
  assert (skipn (S (length bl)) (q_toks q) = rest) as -> by (rewrite E', <- L, skipn_app, skipn_all, Nat.sub_diag; reflexivity).
  rewrite L in K. destruct (front _) as [x|e|c].
  - destruct K as (q' & S1 & (more & S2) & S3). exists q', more. split; [|split].
    + destruct (find_from pred (S (length bl)) rest); exact S1.
    + rewrite S2, <- app_assoc. reflexivity.
    + split; [exact (same_view_good q q' G S3)|]. destruct S3 as (_ & _ & _ & S4 & S5 & _ & S6). repeat split; auto.
  - destruct K as (q' & K). exists q'. destruct (find_from pred (S (length bl)) rest); exact K.
  - exact K.
Qed.

Lemma step_spec o q : good_queue q -> good_op o ->
  match stream_step cfg o (q_view q) with
  | (Ok x, s) => exists q', queue_step cfg o q = (Ok x, q') /\ good_queue q' /\ q_view q' = s /\ stored_as q q'
  | (Err e, _) => exists q', queue_step cfg o q = (Err e, q')
  | (Crash _, _) => False
  end.
Proof.
  intros G Ho. assert (ST : forall q, stored_as q q) by (split; reflexivity).
  rewrite (surjective_pairing (q_view q)). unfold stream_step. rewrite <- (surjective_pairing (q_view q)).
  destruct o as [| | | | | | | |l]; cbn [queue_step].
  - rewrite (good_ahead q G). cbn [reply_of fst snd]. eauto.
  - destruct (good_shape q G) as (bl & t & rest & E & F & B & N & T & S1 & S2).
    assert (front (q_view q) = Ok (q_peek_any q)) as ->.
    { unfold q_peek_any. rewrite E. destruct (is_eoi (qt_tok t)) eqn:Et.
      - destruct (S1 eq_refl) as (-> & -> & _). destruct bl; reflexivity.
      - rewrite (S2 eq_refl). destruct bl; reflexivity. }
    cbn [reply_of fst snd]. eauto.
  - destruct (good_shape q G) as (bl' & t' & rest' & E' & F' & B' & N' & T & S1 & S2).
    destruct (after_next_spec is_not_whitespace blank_tok _ q nw_pred (fun _ => eq_refl) G) as (bl & t & rest & E & F & B & N & S). cbn zeta in S.
    assert (bl' = bl /\ t' = t /\ rest' = rest) as (-> & -> & ->).
    { rewrite E in E'. assert (L : length bl = length bl') by congruence. clear -E' L. revert bl' E' L. induction bl as [|x bl IH]; destruct bl' as [|y bl']; cbn; intros E L; try lia.
      - injection E as -> ->. auto.
      - injection E as -> E. injection L as L. destruct (IH _ E L) as (-> & -> & ->). auto. }
    assert (X : match skip_blank (fst (q_view q)) with _ :: r => ahead (r, snd (q_view q)) | [] => ahead (q_view q) end =
                front (snd (split_while blank_tok (filter not_eoi rest ++ fst (lexed q))), snd (lexed q))).
    { destruct (is_eoi (qt_tok t)) eqn:Et.
      - destruct (S1 eq_refl) as (-> & V & R). rewrite V. unfold ahead, skip_blank. cbn [fst snd]. rewrite (split_while_all _ _ F). cbn [snd].
        rewrite (lexed_end q R). cbn [fst snd]. rewrite app_nil_r. destruct T as (a & n & Ea & Fa & _). destruct a as [|x a].
        + destruct n; [discriminate|]. cbn in Ea. injection Ea as ->. now rewrite filter_repeat.
        + cbn in Ea. injection Ea as <- _. inversion Fa. discriminate.
      - rewrite (S2 eq_refl). unfold skip_blank at 1. cbn [fst snd]. rewrite split_while_app, (split_while_all _ _ F). cbn [snd split_while].
        rewrite B. reflexivity. }
    rewrite X. unfold q_peek_second.
    destruct (front _) as [x|e|c]; cbn [reply_of fst snd].
    + destruct S as (q' & more & A1 & A2 & A3 & A4 & A5). rewrite A1, A2. cbn [q_reply fst snd].
      replace (nth _ _ _) with x; [exists q'; exact (conj eq_refl (conj A3 (conj A4 A5)))|].
      rewrite app_nth2 by lia. rewrite Nat.add_succ_l, Nat.sub_succ_l by lia. rewrite Nat.add_comm, Nat.add_sub.
      cbn [nth]. rewrite app_nth2, Nat.sub_diag by lia.
      reflexivity.
    + destruct S as (q' & S). rewrite S. exists q'. reflexivity.
    + exact S.
  - destruct (good_shape q G) as (bl' & t' & rest' & E' & F' & B' & N' & T & S1 & S2).
    destruct (after_next_spec has_class has_no_class _ q hc_pred (fun _ => eq_refl) G) as (bl & t & rest & E & F & B & N & S). cbn zeta in S.
    assert (bl' = bl /\ t' = t /\ rest' = rest) as (-> & -> & ->).
    { rewrite E in E'. assert (L : length bl = length bl') by congruence. clear -E' L. revert bl' E' L. induction bl as [|x bl IH]; destruct bl' as [|y bl']; cbn; intros E L; try lia.
      - injection E as -> ->. auto.
      - injection E as -> E. injection L as L. destruct (IH _ E L) as (-> & -> & ->). auto. }
    assert (Hp : q_peek q = t) by (unfold q_peek; rewrite E, N, app_nth2, Nat.sub_diag by lia; reflexivity).
    unfold q_peek_class. rewrite Hp.
    destruct (is_eoi (qt_tok t)) eqn:Et.
    + destruct (S1 eq_refl) as (-> & V & R). rewrite V. cbn [fst snd]. rewrite (split_while_all _ _ F). cbn [split_while front eoi_at end_of qt_tok token_class class_inner].
      cbn [q_reply fst snd length]. rewrite N, Nat.add_0_r. exists q. exact (conj eq_refl (conj G (conj V (ST q)))).
    + rewrite (S2 eq_refl). cbn [fst snd]. rewrite split_while_app, (split_while_all _ _ F). cbn [snd split_while]. rewrite B. cbn [fst snd].
      cbn [split_while]. destruct (token_class (qt_tok t)) as [c|] eqn:Ec.
      * assert (has_no_class t = false) as -> by (unfold has_no_class; now rewrite Ec). cbn [front]. rewrite Ec. cbn [q_reply fst snd length].
        rewrite N, app_nil_r, Nat.add_0_r. exists q. rewrite (S2 eq_refl). auto.
      * assert (has_no_class t = true) as -> by (unfold has_no_class; now rewrite Ec).
        rewrite (S2 eq_refl) in S.
        destruct (split_while has_no_class (filter not_eoi rest ++ fst (lexed q))) as [un l2]. cbn [fst snd] in S.
        destruct (front (l2, snd (lexed q))) as [x|e|c].
        -- destruct S as (q' & more & A1 & A2 & A3 & A4 & A5). rewrite A1. cbn [q_reply fst snd length]. exists q'. split; [|auto].
           rewrite app_nil_r, Nat.add_succ_r. reflexivity.
        -- destruct S as (q' & S). rewrite S. exists q'. reflexivity.
        -- exact S.
  - pose proof (next_unres_spec q G) as S. unfold q_next. rewrite rejecting_eq.
    destruct (read_first _) as [[t|e|c] s]; cbn [reply_of fst snd].
    + destruct S as (q' & -> & S). cbn [fst snd]. unfold known. destruct (reject_unknown cfg (qt_unwrap t)); exists q'; [reflexivity|exact (conj eq_refl S)].
    + destruct S as (q' & ->). exists q'. reflexivity.
    + exact S.
  - pose proof (next_unres_spec q G) as S.
    destruct (read_first _) as [[t|e|c] s]; cbn [reply_of fst snd].
    + destruct S as (q' & -> & S). exists q'. exact (conj eq_refl S).
    + destruct S as (q' & ->). exists q'. reflexivity.
    + exact S.
  - pose proof (next_any_unres_spec q G) as S. unfold q_next_any. rewrite rejecting_eq.
    destruct (read_first _) as [[t|e|c] s]; cbn [reply_of fst snd].
    + destruct S as (q' & -> & S). cbn [fst snd]. unfold known. destruct (reject_unknown cfg t); exists q'; [reflexivity|exact (conj eq_refl S)].
    + destruct S as (q' & ->). exists q'. reflexivity.
    + exact S.
  - pose proof (next_any_unres_spec q G) as S.
    destruct (read_first _) as [[t|e|c] s]; cbn [reply_of fst snd].
    + destruct S as (q' & -> & S). exists q'. exact (conj eq_refl S).
    + destruct S as (q' & ->). exists q'. reflexivity.
    + exact S.
  - destruct (push_spec l q G Ho) as (P1 & P2 & P3). eexists. exact (conj eq_refl (conj P1 (conj P2 P3))).
Qed.

Lemma run_spec ops : forall q, good_queue q -> Forall good_op ops -> queue_run cfg ops q = stream_run cfg ops (q_view q).
Proof.
  induction ops as [|o ops IH]; intros q G F; [reflexivity|]. inversion F as [|? ? F1 F2]; subst. cbn [queue_run stream_run].
  pose proof (step_spec o q G F1) as S. destruct (stream_step cfg o (q_view q)) as [[x|e|c] s].
  - destruct S as (q' & -> & G' & <- & _). f_equal. now apply IH.
  - destruct S as (q' & ->). reflexivity.
  - contradiction.
Qed.

Lemma new_spec l gs : let s := lexed (mkQueue l [] false 0 cmds_empty gs) in
  match ahead s with
  | Ok _ => exists q, queue_new cfg l gs = (Ok tt, q) /\ good_queue q /\ q_view q = s /\ q_local q = cmds_empty /\ q_gs q = gs
  | Err e => exists q, queue_new cfg l gs = (Err e, q)
  | Crash _ => False
  end.
Proof.
  cbn zeta. set (q0 := mkQueue l [] false 0 cmds_empty gs).
  assert (T : eoi_tail q0 (q_toks q0)). { exists [], O. split; [reflexivity|]. split; [constructor|]. intros X. now contradiction X. }
  pose proof (ensure_spec q0 eq_refl T) as S. assert (V : q_view q0 = lexed q0) by (unfold q_view, S_Queue.q_view; cbn [q_toks q0 filter app]; now rewrite <- surjective_pairing).
  rewrite V in S. unfold ensure_nnw in S. cbn [q0 q_toks find_nnw] in S. fold q0 in S. unfold queue_new. fold q0.
  destruct (ahead (lexed q0)) as [t|e|c].
  - destruct S as (q & S1 & S2 & S3 & S4 & S5). exists q. split; [|split; [exact S2|split; [exact S3|split; assumption]]].
    destruct (load_skip_whitespace cfg q0) as [[n|e|c] q1]; try discriminate. exact S1.
  - destruct S as (q & S). exists q. destruct (load_skip_whitespace cfg q0) as [[n|e'|c] q1]; try discriminate. exact S.
  - exact S.
Qed.
End Q.
