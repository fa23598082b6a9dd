(** Property C59: the bindings for JavaScript and Python do what the converter does. *)
From Verif Require Import Str M_Escape M_Cli M_Error M_Length M_Emit M_Output M_Token M_LatexError M_Lexer M_CustomCmds M_Queue M_Parser M_Api M_Tool M_Bindings
  S_Html S_Lexer S_Api S_Convert S_Span S_Bindings L_Error L_Api L_Span L_Convert L_Bindings.
Local Open Scope nat_scope.

(** The options make a configuration unless one of them has a wrong value; every configuration with the default class of
    unknown commands and the default indentation can be had, and no other; without options, it is the default. *)
Theorem C59_options : forall dtoa,
  (forall o, (exists c, js_config dtoa o = inl c) <->
    string_pairs (jo_macros o) /\ (forall s, jo_pretty o = Some s -> In s pretty_names) /\ (forall s, jo_unicode o = Some s -> In s unicode_names)) /\
  (forall c, (exists o, js_config dtoa o = inl c) <-> reachable_config dtoa c) /\
  (forall c throw, reachable_config dtoa c -> exists o, js_config dtoa o = inl c /\ jo_throw o = Some throw) /\
  js_config dtoa no_options = inl (default_config dtoa).
Proof.
  intros dtoa. split; [exact (js_config_ok dtoa)|]. split; [|split; [intros c throw; now apply js_reaches|reflexivity]].
  intros c. split; [intros (o & H); now apply js_config_reachable in H|]. intros R. destruct (js_reaches dtoa c true R) as (o & H & _). now exists o.
Qed.
(** The constructor gives an object with the converter of this configuration, or says which option is wrong, or describes
    the error in the definition of a macro; it does nothing else. *)
Theorem C59_construct : forall dtoa o,
  match js_construct dtoa o with
  | JsNew obj => exists cfg, js_config dtoa o = inl cfg /\ converter_new cfg = NewOk (js_inner obj) /\ js_throw obj = or_default (jo_throw o) true
  | JsNewThrow (JsConfigError m) => js_config dtoa o = inr m
  | JsNewThrow (JsLatexError j) => exists cfg e idx def, js_config dtoa o = inl cfg /\ converter_new cfg = NewErr (e, idx, def) /\
      nth_error (map snd (co_macros cfg)) idx = Some def /\ js_describes def None (Some def) e j
  | JsNewCrash _ => False
  end.
Proof.
  intros dtoa o. unfold js_construct. destruct (js_config dtoa o) as [cfg|m]; [|reflexivity]. destruct (converter_new cfg) as [c|[[e idx] def]|k] eqn:E.
  - exists cfg. now repeat split.
  - destruct (new_placed _ _ E) as [N (R1 & R2 & _)]. exists cfg, e, idx, def. split; [reflexivity|]. split; [exact E|]. split; [exact N|].
    apply js_error_right. now split.
  - unfold converter_new in E. pose proof (new_outcome_holds (co_allow_unreliable cfg) (co_conventional cfg) (co_macros cfg)) as N. destruct (parse_custom_commands _ _ _); try discriminate. inversion N.
Qed.
(** In every session, each call is answered with the string that the converter gives; an error is thrown, with its message
    and its position in UTF-16 code units, or, if errors are not to be thrown, it is an HTML element. A batch throws the error of the first
    snippet that has one, with its index. Errors do not disturb the converter. *)
Theorem C59_javascript : forall usize_max dtoa o cfg obj calls,
  js_config dtoa o = inl cfg -> scalar_config cfg -> js_construct dtoa o = JsNew obj -> Forall scalar_bind_call calls ->
  exists F rs, Forall reply_answered rs /\ forall f, F <= f ->
    replies usize_max f (js_inner obj) (map core_call calls) = rs /\
    Forall2 (fun xr j => js_expected (js_throw obj) (fst xr) (snd xr) j) (combine calls rs) (fst (js_run usize_max f obj calls)) /\
    snd (js_run usize_max f obj calls) = mkJsObject (after usize_max f (js_inner obj) (map core_call calls)) (js_throw obj).
Proof.
  intros umax dtoa o cfg obj calls E Sc N F0. unfold js_construct in N. rewrite E in N. destruct (converter_new cfg) as [c|[[e idx] def]|k] eqn:C; [|discriminate|discriminate].
  injection N as <-. cbn [js_inner js_throw]. destruct (session_ends umax cfg c calls Sc C F0) as (F & rs & H1 & H2). exists F, rs. split; [exact H2|].
  intros f L. specialize (H1 f L). split; [exact H1|]. pose proof (js_session umax f (mkJsObject c (or_default (jo_throw o) true)) calls) as J. cbn [js_inner js_throw] in J.
  rewrite H1 in J. exact (J H2).
Qed.
(** The same for Python; without [fancy_error], an exception has the position in characters. *)
Theorem C59_python : forall usize_max dtoa fancy_report o cfg obj calls,
  py_config dtoa o = inl cfg -> scalar_config cfg -> py_construct dtoa fancy_report o = PyNew obj -> Forall scalar_bind_call calls ->
  exists F rs, Forall reply_answered rs /\ forall f, F <= f ->
    replies usize_max f (py_inner obj) (map core_call calls) = rs /\
    Forall2 (fun xr j => py_expected (negb (po_continue o)) fancy_report (po_fancy o) (fst xr) (snd xr) j) (combine calls rs) (fst (py_run usize_max f fancy_report obj calls)) /\
    snd (py_run usize_max f fancy_report obj calls) = mkPyObject (after usize_max f (py_inner obj) (map core_call calls)) (po_continue o) (po_fancy o).
Proof.
  intros umax dtoa fr o cfg obj calls E Sc N F0. unfold py_construct in N. rewrite E in N. destruct (converter_new cfg) as [c|[[e idx] def]|k] eqn:C; [|discriminate|discriminate].
  injection N as <-. cbn [py_inner]. destruct (session_ends umax cfg c calls Sc C F0) as (F & rs & H1 & H2). exists F, rs. split; [exact H2|].
  intros f L. specialize (H1 f L). split; [exact H1|]. pose proof (py_session umax f fr (mkPyObject c (po_continue o) (po_fancy o)) calls) as J. cbn [py_inner py_continue py_fancy] in J.
  rewrite H1 in J. exact (J H2).
Qed.
(** The same settings make the same configuration in both languages, and the objects answer alike: with the same strings, and
    with exceptions in the same places. *)
Theorem C59_alike : forall usize_max fuel dtoa fancy_report o,
  same_new (js_construct dtoa (js_of_py o)) (py_construct dtoa fancy_report o) /\
  forall a b calls, js_construct dtoa (js_of_py o) = JsNew a -> py_construct dtoa fancy_report o = PyNew b ->
    Forall2 same_reply (fst (js_run usize_max fuel a calls)) (fst (py_run usize_max fuel fancy_report b calls)).
Proof.
  intros umax fuel dtoa fr o. assert (K : same_new (js_construct dtoa (js_of_py o)) (py_construct dtoa fr o)).
  { unfold js_construct, py_construct. pose proof (configs_same dtoa o) as C. destruct (js_config dtoa (js_of_py o)) as [c|m], (py_config dtoa o) as [c'|[m'| |m']]; try contradiction; try exact I.
    subst c'. destruct (converter_new c) as [cv|[[e idx] def]|k]; cbn [same_new]; [now split|exact I|reflexivity]. }
  split; [exact K|]. intros a b calls E1 E2. rewrite E1, E2 in K. destruct K as [K1 K2]. now apply sessions_same.
Qed.
(** Every configuration can be had in Python, too. *)
Theorem C59_python_options : forall dtoa c,
  (reachable_config dtoa c -> forall continue_on_error fancy, exists o, py_config dtoa o = inl c /\ po_continue o = continue_on_error /\ po_fancy o = fancy) /\
  py_config dtoa py_default = inl (default_config dtoa).
Proof. intros dtoa c. split; [intros R ct fy; now apply py_reaches|reflexivity]. Qed.

Example C59_nonvacuous :
  let d (_ : f32) := lit "0" in
  let calls := [BGlobal (lit "\gdef\y{z}") false; BGlobal ([233%N; 119938%N] ++ lit "\y\x") true; BLocal (lit "\y") false; BAll [(lit "x", true); ([119938%N] ++ lit "}", false); (lit "\x", false)]; BReset; BGlobal (lit "\y") false] in
  let run throw := match js_construct d (mkJsOptions None (Some [(DStr (lit "w"), DStr (lit "#1"))]) None (Some throw) None None None None None None None) with JsNew o => fst (js_run 1000 100 o calls) | _ => [] end in
  let one k := mkJsError (write_msg k) (error_label k) in
  run true = [JsString (lit "<math></math>");
    JsThrow (JsLatexError (one (E_UnknownCommand (lit "x")) 5%N 7%N None None)); JsThrow (JsLatexError (one (E_UnknownCommand (lit "y")) 0%N 2%N None None));
    JsThrow (JsLatexError (one (E_UnmatchedClose EtGroupClose) 2%N 3%N (Some 1%N) None)); JsUndefined; JsThrow (JsLatexError (one (E_UnknownCommand (lit "y")) 0%N 2%N None None))] /\
  match run false with
  | [_; JsString s; _; JsArray [_; _; _]; JsUndefined; JsString _] =>
      s = lit "<p class=""math-core-error"" title=""4: Unknown command &quot;\x&quot;.""><code>" ++ [233%N; 119938%N] ++ lit "\y\x</code></p>"
  | _ => False
  end /\
  js_construct d (mkJsOptions None (Some [(DStr (lit "v"), DStr (lit "x")); (DStr (lit "w"), DStr ([119938%N] ++ lit "\y"))]) None None None None None None None None None) =
    JsNewThrow (JsLatexError (one (E_UnknownCommand (lit "y")) 2%N 4%N None (Some ([119938%N] ++ lit "\y")))) /\
  js_construct d (mkJsOptions (Some (lit "Always")) None None None None None None None None None None) = JsNewThrow (JsConfigError (lit "Invalid value for prettyPrint")) /\
  match py_construct d (fun _ _ _ => lit "report") (mkPyOptions (lit "never") None false false false false false false false (lit "conventional") 1000 []) with
  | PyNew o => fst (py_run 1000 100 (fun _ _ _ => lit "report") o calls) = [PyStr (lit "<math></math>");
      PyRaise (PyLatexError (lit "4: Unknown command ""\x"".")); PyRaise (PyLatexError (lit "0: Unknown command ""\y""."));
      PyRaise (PyLatexError (lit "input1:1: " ++ write_msg (E_UnmatchedClose EtGroupClose))); PyNone; PyRaise (PyLatexError (lit "0: Unknown command ""\y""."))]
  | _ => False
  end.
Proof. vm_compute. repeat split. Qed.
Print Assumptions C59_options.
Print Assumptions C59_construct.
Print Assumptions C59_javascript.
Print Assumptions C59_python.
Print Assumptions C59_alike.
Print Assumptions C59_python_options.
