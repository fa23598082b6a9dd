(** C65: ignoring unknown commands and allowing more expansions turns errors into results and changes nothing else. *)
From Verif Require Import Str M_Ast M_Output M_Token M_Env M_LatexError M_Lexer M_CustomCmds M_Queue M_Parser M_Api S_Api S_Queue S_Permit L_Permit.

(** A parse with the narrower settings is the same, or it stops with one of the errors that the wider settings remove. *)
Theorem C65_parsed : forall a b usize_max f gs input st, permits a b ->
  parse_snippet a usize_max f gs input st = parse_snippet b usize_max f gs input st \/
  exists sp k gs', parse_snippet a usize_max f gs input st = (Err (mkErr sp k), gs') /\ lifted a b k.
Proof. exact parsed_lift. Qed.
(** So is every sequence of calls of a converter, with the state that it leaves behind. *)
Theorem C65_calls : forall a b usize_max f c calls, permits a b ->
  (replies usize_max f (with_parser c a) calls = replies usize_max f (with_parser c b) calls /\
   exists c', after usize_max f (with_parser c a) calls = with_parser c' a /\ after usize_max f (with_parser c b) calls = with_parser c' b) \/
  exists r, In r (replies usize_max f (with_parser c a) calls) /\ lifted_reply a b r.
Proof. intros a b um f c calls P. exact (run_lifted um f a b P calls c). Qed.
(** The two settings have no part in what happens when a converter is made. *)
Theorem C65_new : forall a b, allows a b ->
  match converter_new a, converter_new b with
  | NewOk x, NewOk y => y = with_parser x (cv_parser y) /\ permits (cv_parser x) (cv_parser y)
  | NewErr e, NewErr e' => e = e'
  | NewCrash c, NewCrash c' => c = c'
  | _, _ => False
  end.
Proof. exact new_lift. Qed.
(** What is accepted with some number of expansions is accepted with any larger number, with the same result. *)
Theorem C65_expansions : forall cfg n usize_max f gs input st ns gs', (pc_max_expansions cfg <= n)%nat ->
  parse_snippet cfg usize_max f gs input st = (Ok ns, gs') ->
  parse_snippet (mkCfg (pc_custom cfg) (pc_ignore_unknown cfg) (pc_allow_unreliable cfg) (pc_global_group cfg) (pc_conventional cfg) n) usize_max f gs input st = (Ok ns, gs').
Proof.
  intros cfg n um f gs input st ns gs' L E. destruct (C65_parsed cfg (mkCfg (pc_custom cfg) (pc_ignore_unknown cfg) (pc_allow_unreliable cfg) (pc_global_group cfg) (pc_conventional cfg) n) um f gs input st) as [H|(sp & k & g & H & _)].
  - repeat split; auto.
  - now rewrite <- H.
  - rewrite E in H. discriminate H.
Qed.

Example C65_nonvacuous :
  let cfg i n := mkCfg cmds_empty i false false true n in
  let kind i n s := match fst (parse_snippet (cfg i n) 1000 60 gs_default s StText) with Ok l => inl (length l) | Err e => inr (Some (err_kind_of e)) | Crash _ => inr None end in
  permits (cfg false 2%nat) (cfg true 3%nat) /\
  (* a third expansion *)
  kind false 2%nat (lit "\def\a{x}\a\a\a") = inr (Some E_TooManyExpansions) /\ kind false 3%nat (lit "\def\a{x}\a\a\a") = inl 3%nat /\
  (* an unknown command *)
  kind false 2%nat (lit "\foo x") = inr (Some (E_UnknownCommand (lit "foo"))) /\ kind true 2%nat (lit "\foo x") = inl 2%nat /\
  (* other errors stay *)
  kind false 2%nat (lit "{x") = inr (Some (E_UnclosedGroup EtGroupClose)) /\ kind true 3%nat (lit "{x") = kind false 2%nat (lit "{x") /\
  kind false 2%nat (lit "\color[rgb]{\foo}x") = inr (Some E_ExpectedArgumentGotEOI) /\ kind true 2%nat (lit "\color[rgb]{\foo}x") = kind false 2%nat (lit "\color[rgb]{\foo}x").
Proof. cbv zeta. split; [unfold permits; cbn; repeat split; auto|]. vm_compute. repeat split. Qed.

Print Assumptions C65_parsed.
Print Assumptions C65_calls.
Print Assumptions C65_new.
Print Assumptions C65_expansions.
