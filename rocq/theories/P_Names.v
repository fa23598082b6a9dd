(** Property C25: the names that can be defined. *)
From Verif Require Import Str M_SuperChar M_Transform M_Length M_Spec M_Ast M_Token M_Symbols M_Commands M_Env
  M_LatexError M_Lexer M_CustomCmds M_Queue M_Spacing M_Colors M_Leaf M_TextParser M_Parser
  S_Lexer S_Queue S_Store S_Run S_Api S_Convert S_Names L_Queue L_Reads L_Keep L_Wp L_Exec L_Run L_Convert L_Names L_Faith.
Local Open Scope nat_scope.

(** A name with its present meaning: [\newcommand] fails at the name if there is a meaning, [\renewcommand] if
    there is none. [\providecommand] reads the definition and changes nothing if there is a meaning. In all other
    cases the definition is read, and made if it can be read. *)
Theorem C25_define_partial : forall cfg m q braced t q1 n, sound_queue cfg q -> reads_name cfg q braced t q1 -> names cfg q t n ->
  define_outcome cfg m q n braced t q1 (define_command cfg m q).
Proof.
  intros cfg m q braced t q1 n Sq R N. pose proof (reads_name_keeps cfg q braced t q1 Sq R) as K.
  pose proof (reads_sound _ _ _ K) as Sq1. pose proof (definition_rest_sp cfg braced q1 Sq1) as D.
  rewrite (define_parts cfg m q braced t q1 R), (target_of cfg m q t n N). unfold define_outcome.
  pose proof (meaning_stored cfg q q1 n (reads_stored _ _ _ K)) as E.
  destruct (has_meaning cfg q n); destruct m; try reflexivity.
  - now apply (then_keep cfg).
  - apply (then_define cfg _ n true false q1 (fun ok => if ok : bool then sret tt else sfail (qt_span t) E_Internal)); easy.
  - apply (then_define cfg _ n false false q1 (fun ok => if ok : bool then sret tt else sfail (qt_span t) E_Internal)); easy.
  - apply (then_define cfg _ n false false q1 (fun ok => if ok : bool then sret tt else sfail (qt_span t) E_Internal)); easy.
Qed.
(** [\def] defines the name in any case. *)
Theorem C25_def_partial : forall cfg is_global q t q1 n, sound_queue cfg q -> q_next_unres cfg q = (Ok t, q1) -> names cfg q t n ->
  then_defined cfg (def_rest cfg) n true is_global q1 (def_command cfg is_global q).
Proof.
  intros cfg g q t q1 n Sq E N. pose proof (next_unres_reads cfg q t q1 Sq E) as K. pose proof (reads_sound _ _ _ K) as Sq1.
  rewrite (def_parts cfg g q n q1 (definition_name_of cfg q q t n q1 N E)).
  apply (then_define cfg _ n true g q1 (fun _ => sret tt)); try easy. now apply def_rest_sp.
Qed.
(** In a conversion: as long as [\newcommand] and the like are only used with names that were typed, every such
    name has its present meaning. *)
Theorem C25_conversion_partial : forall cfg usize_max f gs input st m l1 b x a l2 braced t q1 n,
  config_ok (pc_custom cfg) -> gs_ok cfg gs -> scalar_text input ->
  snippet_trace cfg usize_max f gs input st = l1 ++ Performed (ODefine m) b x a :: l2 -> Forall (typed_define cfg) l1 ->
  reads_name cfg (ps_queue b) braced t q1 -> qt_name t = Some n ->
  define_outcome cfg m (ps_queue b) n braced t q1 (x, ps_queue a).
Proof.
  intros cfg umax f gs input st m l1 b x a l2 braced t q1 n C D S E Ty R Nm.
  destruct (snippet_good cfg umax (fun _ => True) (fun _ _ _ _ => I) (fun _ _ _ _ _ _ => I) f gs input st C D S (fun _ _ => I)) as [H _].
  rewrite E in H. apply Forall_app in H as [_ H]. inversion H as [|x0 y0 H1 _]; subst. destruct H1 as [Hs _]. pose proof (proj1 Hs) as Sq.
  unfold snippet_trace, parser_new in E. pose proof (queue_new_faith cfg (lexer_new input) gs) as F0.
  destruct (queue_new cfg (lexer_new input) gs) as [[[]|e|c] q0]; try (destruct l1; discriminate). cbn [snd] in F0.
  set (s0 := mkPs q0 _) in E. destruct (trun_faith cfg umax f _ (body (CSeq (SeqEnd EtEoi) ClOpen true)) s0 F0) as [_ F].
  specialize (F _ _ _ E Ty). cbn [queue_before] in F.
  destruct (trun_tracked cfg umax f _ (body (CSeq (SeqEnd EtEoi) ClOpen true)) s0) as [T _].
  specialize (T l1 _ l2 E). pose proof (proj1 (proj2 T)) as X. cbn [exec] in X. unfold on_queue in X.
  destruct (define_command cfg m (ps_queue b)) as [r q2] eqn:Ed. injection X as <- <-. cbn [ps_queue]. rewrite <- Ed.
  apply C25_define_partial; [exact Sq|exact R|]. exact (reads_faithful cfg _ _ _ _ F R _ Nm).
Qed.

(** The commands as they are used. *)
Example C25_nonvacuous :
  let p s := is_ok (fst (parse_snippet plain_cfg 1000 100 gs_default s StText)) in
  map p [lit "\newcommand\b{1}\b"; lit "\newcommand{\b}{1}\newcommand\b{2}"; lit "\renewcommand\b{1}"; lit "\def\b{}\renewcommand{\b}{1}"; lit "\providecommand\b{1}\b";
    lit "\newcommand\alpha{}"; lit "\renewcommand\alpha{}"; lit "\def\alpha{}\alpha"] = [true; false; false; true; true; false; true; true] /\
  forallb (fun e => match e with Performed (ODefine _) b _ _ => match qt_name (q_peek (ps_queue b)) with Some _ => true | None => false end | _ => true end)
    (snippet_trace plain_cfg 1000 100 gs_default (lit "\newcommand\b{1}\renewcommand\b{2}\b") StText) = true /\
  existsb (fun e => match e with Performed (ODefine _) _ _ _ => true | _ => false end)
    (snippet_trace plain_cfg 1000 100 gs_default (lit "\newcommand\b{1}\renewcommand\b{2}\b") StText) = true /\
  fst (parse_snippet plain_cfg 1000 100 gs_default (lit "\def\b{1}\providecommand\b{2}\b") StText) = fst (parse_snippet plain_cfg 1000 100 gs_default (lit "\def\b{1}\relax\b") StText).
Proof. vm_compute. auto. Qed.

(** The names in the bodies of macros are looked up when the macro is used. A definition command that is given as
    an argument sees these older meanings. *)
Theorem C25_refuted :
  let p s := fst (parse_snippet plain_cfg 1000 100 gs_default s StText) in
  (* [\b] has no meaning for the rest of the body *)
  p (lit "\newcommand\a[1]{x#1\b{1}\b}\a\def") = Err (mkErr (mkSpan 28 30) (E_UnknownCommand (lit "b"))) /\
  (* [\newcommand] of a name which has a meaning *)
  is_ok (p (lit "\newcommand\a[2]{x#1\b{1}#2\b{2}}\a\gdef\newcommand\b")) = true /\
  (* [\renewcommand] of a name which has a meaning *)
  p (lit "\newcommand\a[2]{x#1\b{1}#2\b{2}}\a\gdef\renewcommand\b") = Err (mkErr (mkSpan 33 35) E_CommandNotDefined) /\
  (* [\def] and [\providecommand] that fail *)
  p (lit "\def\b{1}\newcommand\a[1]{x#1\b{2}}\a\def") = Err (mkErr (mkSpan 0 0) E_ExpectedCommandName) /\
  p (lit "\def\b{1}\newcommand\a[1]{x#1\b{2}}\a\providecommand") = Err (mkErr (mkSpan 0 0) E_ExpectedCommandName).
Proof. vm_compute. repeat split. Qed.

Print Assumptions C25_define_partial.
Print Assumptions C25_def_partial.
Print Assumptions C25_conversion_partial.
Print Assumptions C25_refuted.
