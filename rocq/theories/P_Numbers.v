(** Numbers (C11). *)
From Verif Require Import Str M_SuperChar M_Transform M_Length M_Spec M_Ast M_Emit M_Output M_Token M_Symbols M_Commands M_Env
  M_LatexError M_Lexer M_CustomCmds M_Queue M_Spacing M_Leaf M_TextParser M_Parser M_Api
  S_SuperChar S_Run S_Lexer S_Queue S_Store S_Convert S_Scripts S_Numbers L_Queue L_Ends L_Convert L_Scripts L_Numbers P_Scripts.
Local Open Scope nat_scope.

(** A digit of a sequence is an atom together with the longest number that it starts: the atom is one number
    with all the digits and with the dots between them, and what comes after it is left as it was. *)
Theorem C11_atom : forall cfg usize_max prev s t r d sp, good_queue (ps_queue s) -> no_transform (ps_view s) ->
  q_view cfg (ps_queue s) = (t :: r, LexEoi sp) -> qt_tok t = T_Digit d ->
  exists w rest q', number_split r w rest /\
    atom_read cfg usize_max prev s ClDefault (Number (d :: w)) (mkPs q' (ps_view s)) /\
    q_view cfg q' = (rest, LexEoi sp) /\ good_queue q' /\ stored_as (ps_queue s) q'.
Proof.
  intros cfg umax prev s t r d sp G N V T.
  destruct (number_atom cfg umax prev s t r d G N) as (w & q' & A & Sp & V' & G' & S'); rewrite ?V; cbn [fst snd]; [now apply skip_blank_cons, (digit_not_blank t d)|exact T|discriminate|].
  exists w, (fst (q_view cfg q')), q'. split; [exact Sp|]. split; [exact A|]. split; [|now split]. rewrite V in V'. cbn [snd] in V'. rewrite <- V'. apply surjective_pairing.
Qed.
(** Nothing else becomes of a digit, also when blanks come before it or the input cannot be read to the end. *)
Theorem C11_atom_only : forall cfg usize_max prev s t r d c n s', good_queue (ps_queue s) -> no_transform (ps_view s) ->
  skip_blank (fst (q_view cfg (ps_queue s))) = t :: r -> qt_tok t = T_Digit d -> atom_read cfg usize_max prev s c n s' ->
  exists w, c = ClDefault /\ n = Number (d :: w) /\ ps_view s' = ps_view s /\
    number_split r w (fst (q_view cfg (ps_queue s'))) /\ snd (q_view cfg (ps_queue s')) = snd (q_view cfg (ps_queue s)) /\
    good_queue (ps_queue s') /\ stored_as (ps_queue s) (ps_queue s').
Proof. intros cfg umax prev s t r d c n s' G N E T A. exact (number_atom_only cfg umax prev s t r d c n s' G N E T A). Qed.
(** The longest number is unique. *)
Theorem C11_longest : forall l w rest w' rest', number_split l w rest -> number_split l w' rest' -> w' = w /\ rest' = rest.
Proof. exact number_unique. Qed.
(** In every conversion, all numbers of sequences are read this way. *)
Theorem C11_conversion : forall cfg usize_max f gs input st d b x a, config_ok (pc_custom cfg) -> gs_ok cfg gs -> scalar_text input ->
  In (Performed (ODigits d) b x a) (snippet_trace cfg usize_max f gs input st) ->
  match x with
  | Ok s => exists w, s = d :: w /\ number_split (fst (q_view cfg (ps_queue b))) w (fst (q_view cfg (ps_queue a)))
  | Err e => snd (q_view cfg (ps_queue b)) = LexError e
  | Crash _ => False
  end.
Proof.
  intros cfg umax f gs input st d b x a C D S I0.
  destruct (snippet_good cfg umax (fun _ => True) (fun _ _ _ _ => I) (fun _ _ _ _ _ _ => I) f gs input st C D S (fun _ _ => I)) as [H _].
  rewrite Forall_forall in H. specialize (H _ I0). destruct H as [[[G _] _] _].
  assert (X : exec cfg umax (ODigits d) b = (x, a)).
  { apply in_split in I0 as (l1 & l2 & I0). unfold snippet_trace, parser_new in I0. destruct (queue_new cfg (lexer_new input) gs) as [[[]|e|c] q]; try (destruct l1; discriminate).
    destruct (trun_tracked cfg umax f _ (body (CSeq (SeqEnd EtEoi) ClOpen true)) (mkPs q (mkPv None false env_state_default st None (pc_max_expansions cfg)))) as [T _].
    specialize (T l1 _ l2 I0). exact (proj1 (proj2 T)). }
  cbn [exec] in X. unfold on_queue in X. pose proof (read_digits_spec cfg d (ps_queue b) G) as K.
  destruct (read_digits cfg d (ps_queue b)) as [[w|e|c] q']; injection X as <- <-; [|exact K|exact K]. apply K.
Qed.

(** A number that is typed is one element with the typed text. *)
Theorem C11_typed : forall cfg usize_max gs w st, numeral w = true ->
  exists F, forall f, F <= f -> parse_snippet cfg usize_max f gs w st = (Ok [Number w], gs).
Proof.
  intros cfg umax gs [|d w] st H; [discriminate H|]. cbn [numeral] in H. apply andb_prop in H as [Hd Hw].
  destruct (new_numeral cfg d w gs Hd Hw) as (q & t & ts & sp & E & G & Eg & V & T & Nt).
  set (s := mkPs q (mkPv None false env_state_default st None (pc_max_expansions cfg))).
  destruct (C11_atom cfg umax ClOpen s t ts d sp G ltac:(discriminate) V T) as (w' & rest & q' & Sp & A & V' & G' & S').
  assert (w' = w /\ rest = []) as [-> ->].
  { apply (number_unique ts w [] w' rest); [|exact Sp]. exists ts. split; [now rewrite app_nil_r|]. split; [exact Nt|]. now split. }
  pose proof (peek_ahead cfg q' G') as P'. rewrite V' in P'. destruct P' as (sp' & _ & P').
  assert (Loop : ends cfg umax (body (CLoop (SeqEnd EtEoi) ClOpen [] None)) s (Ok ([Number (d :: w)], None)) (mkPs q' (ps_view s))).
  { apply (C47_atom cfg umax (SeqEnd EtEoi) ClOpen [] None s ClDefault (Number (d :: w)) (mkPs q' (ps_view s)) [] (mkPs q' (ps_view s))).
    - pose proof (peek_ahead cfg q G) as P. rewrite V in P. cbn [fst] in P. rewrite skip_blank_cons in P by exact (digit_not_blank _ _ T). cbn [s ps_queue]. rewrite P, T. reflexivity.
    - exact A.
    - constructor.
    - intros u usp [X _]. cbn [ps_queue] in X. rewrite P' in X. subst u. reflexivity.
    - split; cbn; lia.
    - reflexivity.
    - cbn [body]. unfold loop_body. rewrite ends_do, peek_exec. cbn [ps_queue]. rewrite P'. cbn. now apply ends_ret. }
  assert (Seq : ends cfg umax (body (CSeq (SeqEnd EtEoi) ClOpen true)) s (Ok [Number (d :: w)]) (mkPs q' (ps_view s))).
  { cbn [body]. unfold seq_body. rewrite ends_do. cbn [exec view sget]. rewrite ends_call. left. exists ([Number (d :: w)], None), (mkPs q' (ps_view s)). split; [exact Loop|].
    cbn [infix_node]. rewrite ends_do. cbn. rewrite ends_do. cbn. rewrite ends_ret. split; reflexivity. }
  destruct Seq as (F & R & N). exists F. intros f L. unfold parse_snippet, parser_new. rewrite E. fold s. unfold parse_all. rewrite (run_more cfg umax F _ _ _ _ _ R N f L).
  cbn [ps_queue]. f_equal. destruct S' as [_ ->]. exact Eg.
Qed.
Theorem C11_converted : forall cfg usize_max ec gs w, numeral w = true ->
  ec_annotation ec = false -> ec_xml_namespace ec = false -> is_pretty ec Inline = false ->
  exists F, forall f, F <= f ->
    convert usize_max f ec cfg gs w Inline = (Ok (mkConvertResult (lit "<math><mn>" ++ w ++ lit "</mn></math>") warn_none), gs).
Proof.
  intros cfg umax ec gs w H A X P. destruct (C11_typed cfg umax gs w StText H) as (F & HF). exists F. intros f L. unfold convert, parse. cbn [display_style]. rewrite (HF f L).
  unfold emit_document. rewrite A, X, P. cbn [map concat]. f_equal. f_equal. f_equal. rewrite app_nil_r. cbn [emit nl app]. now rewrite <- !app_assoc.
Qed.
Example C11_nonvacuous :
  let parse s := fst (parse_snippet plain_cfg 1000 100 gs_default s StText) in
  let x := IdentifierChar (sc_from_char 120%N) LDefault in let dot := IdentifierChar (sc_from_char 46%N) LDefault in
  numeral (lit "3.14.5") = true /\ parse (lit "3.14.5") = Ok [Number (lit "3.14.5")] /\ parse (lit "12.x") = Ok [Number (lit "12"); dot; x] /\
  parse (lit "1..2") = Ok [Number (lit "1"); dot; dot; Number (lit "2")] /\ parse (lit ".5") = Ok [dot; Number (lit "5")] /\
  parse (lit "x 1 2. 3") = Ok [x; Number (lit "12.3")] /\ parse (lit "x^12") = Ok [Sup x (Number (lit "1")); Number (lit "2")].
Proof. vm_compute. repeat split. Qed.
Print Assumptions C11_atom.
Print Assumptions C11_atom_only.
Print Assumptions C11_longest.
Print Assumptions C11_conversion.
Print Assumptions C11_typed.
Print Assumptions C11_converted.
