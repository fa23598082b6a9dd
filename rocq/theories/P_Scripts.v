(** Subscripts, superscripts and primes (C47). *)
From Verif Require Import Str M_SuperChar M_Transform M_Length M_Spec M_Ast M_Token M_Symbols M_Commands M_Env
  M_LatexError M_Lexer M_CustomCmds M_Queue M_Spacing M_Leaf M_TextParser M_Parser
  S_SuperChar S_Run S_Lexer S_Queue S_Store S_Scripts L_Wp L_Ends L_Keep L_Reads L_Leaf L_Scripts.
Local Open Scope nat_scope.

(** The marks after an atom are accepted if and only if there is at most one subscript and at most one
    superscript among them, in any order; the result says what they are. *)
Theorem C47_accepts : forall cfg usize_max s r s',
  ends cfg usize_max (get_bounds None) s (Ok r) s' <->
  exists l, reads_marks cfg usize_max s l s' /\ no_mark_ahead s' /\ single l /\ r = summary l.
Proof.
  intros cfg umax s r s'. rewrite get_bounds_ends. split.
  - intros H. destruct (chain_list _ _ _ _ _ _ H) as (l & s1 & a & R & A & [(N & -> & E)|[(sp & m & _ & _ & E)|[(sp & e & _ & E)|(sp & c & _ & E)]]]); try discriminate E.
    injection E as <-. exists l. split; [exact R|]. split; [exact N|]. split; [apply adds_single; now exists r|]. rewrite <- (adds_summary _ _ A). reflexivity.
  - intros (l & R & N & Si & ->). apply adds_single in Si as (a & A). pose proof (adds_summary _ _ A) as <-. apply (list_chain _ _ _ _ _ R _ _ _ _ A). now apply chain_end.
Qed.
(** Otherwise there is an error: the first mark that is a second one of its kind, or an error in a mark. *)
Theorem C47_rejects : forall cfg usize_max s e s',
  ends cfg usize_max (get_bounds None) s (Err e) s' <->
  exists l s1 sp, reads_marks cfg usize_max s l s1 /\ single l /\
    ((exists m, reads_mark cfg usize_max s1 sp (Ok m) s' /\ ~ single (l ++ [m]) /\ e = mkErr sp E_DuplicateSubOrSup) \/
     reads_mark cfg usize_max s1 sp (Err e) s').
Proof.
  intros cfg umax s e s'. rewrite get_bounds_ends. split.
  - intros H. destruct (chain_list _ _ _ _ _ _ H) as (l & s1 & a & R & A & [(N & -> & E)|[(sp & m & M & D & E)|[(sp & e' & M & E)|(sp & c & _ & E)]]]); try discriminate E.
    + injection E as ->. exists l, s1, sp. split; [exact R|]. split; [apply adds_single; now exists a|]. left. exists m. split; [exact M|]. split; [|reflexivity].
      rewrite adds_single, (adds_app l m _ _ A), D. now intros (x & X).
    + injection E as ->. exists l, s1, sp. split; [exact R|]. split; [apply adds_single; now exists a|]. now right.
  - intros (l & s1 & sp & R & Si & [(m & M & D & ->)|M]); apply adds_single in Si as (a & A); apply (list_chain _ _ _ _ _ R _ _ _ _ A).
    + apply (chain_twice _ _ _ _ _ m); [exact M|]. rewrite adds_single, (adds_app l m _ _ A) in D. destruct (bl_add a m) as [x|]; [destruct D; now exists x|reflexivity].
    + exact (chain_err _ _ _ _ _ _ _ M).
Qed.
(** A script needs something to show: another mark, or the end, is an error. *)
Theorem C47_empty : forall cfg usize_max s t s1, exec cfg usize_max ONext s = (Ok t, s1) ->
  match fst t with T_Underscore | T_Circumflex | T_Prime _ => ends cfg usize_max script_node s (Err (mkErr (snd t) E_BoundFollowedByBound)) s1
  | T_Eoi => ends cfg usize_max script_node s (Err (mkErr (snd t) E_ExpectedArgumentGotEOI)) s1
  | _ => True
  end.
Proof. intros cfg umax s t s1 E. destruct (fst t) eqn:Et; try exact I; apply ends_do; rewrite E, Et; now apply ends_fail. Qed.

(** Primes are one superscript: the tokens that are primes, up to the first one that is not. They are shown
    with the strokes that were typed, and a superscript after them is put behind them. *)
Theorem C47_primes : forall cfg usize_max s k n s', sound_queue cfg (ps_queue s) -> ends cfg usize_max (prime_script k) s (Ok n) s' ->
  exists q1 ts ks nodes,
    prime_toks ts ks /\ fst (q_view cfg (ps_queue s)) = ts ++ fst (q_view cfg q1) /\ prime_tok (q_peek_any q1) = None /\
    flat_map node_strokes nodes = flat_map strokes (k :: ks) /\ Forall prime_like nodes /\
    if is_caret (q_peek_any q1)
    then exists sup, ends cfg usize_max (do_ OPrimeCaret in script_node) (mkPs q1 (ps_view s)) (Ok sup) s' /\ n = one_or_row (nodes ++ [sup])
    else s' = mkPs q1 (ps_view s) /\ n = one_or_row nodes.
Proof.
  intros cfg umax s k n s' Sq H. unfold prime_script in H. apply ends_do in H. cbn [exec] in H. unfold on_queue in H.
  pose proof (primes_sp cfg k (ps_queue s) Sq) as K. unfold sp in K. destruct (read_primes cfg k (ps_queue s)) as [[[g caret]|e|c] q1];
    [|destruct H; discriminate|destruct H; discriminate].
  destruct K as (_ & _ & P & ts & ks & T & V & St & Pn & C). cbn [fst snd] in *. destruct (groups_strokes g P) as [G1 G2].
  exists q1, ts, ks, (flat_map primes_nodes g). split; [exact T|]. split; [exact V|]. split; [exact Pn|]. split; [rewrite G1, St; reflexivity|]. split; [exact G2|].
  rewrite <- C. destruct caret.
  - change (ends cfg umax (pbind (Do OPrimeCaret (fun _ => script_node)) (fun n => Ret (one_or_row (flat_map primes_nodes g ++ [n])))) (mkPs q1 (ps_view s)) (Ok n) s') in H.
    apply ends_bind in H as [(m & s1 & H1 & H2)|[(e & X & _)|(c & X & _)]]; try discriminate X. apply ends_ret in H2 as [H2 ->]. injection H2 as ->. now exists m.
  - apply ends_ret in H as [H ->]. injection H as ->. now split.
Qed.

(** The marks after an atom of a sequence are its scripts, and nothing else becomes of them. *)
Theorem C47_atom : forall cfg usize_max e prev nodes infix s c n s1 l s2 r s', seq_end_matches e (qt_tok (q_peek (ps_queue s))) = false ->
  atom_read cfg usize_max prev s c n s1 -> reads_marks cfg usize_max s1 l s2 -> no_mark_ahead s2 -> single l -> last_limits l = None ->
  ends cfg usize_max (body (CLoop e prev nodes infix)) s r s' <->
  ends cfg usize_max (body (CLoop e c (nodes ++ [attach_bounds n (bl_bounds (summary l))]) infix)) s2 r s'.
Proof.
  intros cfg umax e prev nodes infix s c n s1 l s2 r s' Se At R N Si Li.
  assert (B : ends cfg umax (get_bounds None) s1 (Ok (summary l)) s2) by (apply C47_accepts; now exists l).
  assert (After : ends cfg umax (pbind (get_bounds None) (fun bl => pbind (pres (ensure_no_limits bl)) (fun b => Call (CLoop e c (nodes ++ [attach_bounds n b]) infix) (fun r => Ret r)))) s1 r s' <->
      ends cfg umax (body (CLoop e c (nodes ++ [attach_bounds n (bl_bounds (summary l))]) infix)) s2 r s').
  { rewrite ends_bind. assert (pres (ensure_no_limits (summary l)) = Ret (bl_bounds (summary l))) as P by (unfold summary, ensure_no_limits; cbn [bl_limits]; now rewrite Li).
    split.
    - intros [(a & s3 & H1 & H2)|[(x & -> & H1)|(x & -> & H1)]]; destruct (ends_det _ _ _ _ _ _ _ _ _ B H1) as [E1 E2]; try discriminate E1. injection E1 as <-. subst s3.
      rewrite P in H2. cbn [pbind] in H2. now apply ends_return in H2.
    - intros H. left. exists (summary l), s2. split; [exact B|]. rewrite P. cbn [pbind]. now apply ends_return. }
  rewrite <- After. clear After. cbn [body]. unfold loop_body. rewrite ends_do, peek_exec. unfold qt_tokspan. cbn [fst snd]. rewrite Se, ends_do.
  destruct At as [n s1 E|s3 t s4 c n s1 E1 E2 Si' E3].
  - rewrite E. reflexivity.
  - rewrite E1, ends_do, E2. unfold silent in Si'.
    assert (Tok : forall k, ends cfg umax (Call (CTok t PaSequence prev) k) s4 r s' <-> ends cfg umax (k (c, n)) s1 r s').
    { intros k. rewrite ends_call. split.
      - intros [(a & s5 & H1 & H2)|[(x & -> & H1)|(x & -> & H1)]]; destruct (ends_det _ _ _ _ _ _ _ _ _ E3 H1) as [X1 X2]; try discriminate X1. injection X1 as <-. now subst.
      - intros H. left. now exists (c, n), s1. }
    destruct (fst t); try discriminate Si'; rewrite Tok; reflexivity.
Qed.
Theorem C47_scripted : forall n l, open_prescript n = false ->
  attach_bounds n (bl_bounds (summary l)) = scripted n (hd_error (subs_of l)) (hd_error (sups_of l)).
Proof.
  intros n l H. unfold attach_bounds, summary. cbn [bl_bounds]. unfold wrap_subsup, scripted. cbn [b_sub b_sup].
  destruct n; try reflexivity. cbn [open_prescript] in H. destruct post; [discriminate H|reflexivity].
Qed.
Example C47_nonvacuous :
  let parse s := fst (parse_snippet plain_cfg 1000 100 gs_default s StText) in
  let x := IdentifierChar (sc_from_char 120%N) LDefault in let a := IdentifierChar (sc_from_char 97%N) LDefault in let b := IdentifierChar (sc_from_char 98%N) LDefault in
  parse (lit "x_a^b") = Ok [SubSup x a b] /\ parse (lit "x^b_a") = Ok [SubSup x a b] /\
  parse (lit "x''^b_a") = Ok [SubSup x a (Row [prime_node PrDouble; b] row_attrs_default)] /\
  parse (lit "x^a^b") = Err (mkErr (mkSpan 3 4) E_DuplicateSubOrSup) /\ parse (lit "x^a'") = Err (mkErr (mkSpan 3 4) E_DuplicateSubOrSup) /\
  parse (lit "x_a_b") = Err (mkErr (mkSpan 3 4) E_DuplicateSubOrSup) /\ parse (lit "x_^a") = Err (mkErr (mkSpan 2 3) E_BoundFollowedByBound).
Proof. vm_compute. repeat split. Qed.
Print Assumptions C47_accepts.
Print Assumptions C47_rejects.
Print Assumptions C47_empty.
Print Assumptions C47_primes.
Print Assumptions C47_atom.
Print Assumptions C47_scripted.
