(** Vocabulary for the bindings. *)
From Verif Require Import Str M_Escape M_Cli M_Error M_Length M_Emit M_Output M_Token M_LatexError M_Lexer M_CustomCmds M_Queue M_Parser M_Api M_Tool M_Bindings
  S_Html S_Lexer S_Api S_Convert.

(** ** Sessions *)
Definition core_call (x : bind_call) : api_call :=
  match x with
  | BGlobal latex d => ApiGlobal latex (display_of d)
  | BLocal latex d => ApiLocal latex (display_of d)
  | BAll l => ApiAll (map (fun s => (fst s, display_of (snd s))) l)
  | BReset => ApiReset
  end.
Section Sessions.
Context (usize_max : N) (fuel : nat) (fancy_report : latex_error -> str -> str -> str).
Fixpoint js_run (o : js_object) (calls : list bind_call) : list js_reply * js_object :=
  match calls with
  | [] => ([], o)
  | x :: rest =>
      match js_call usize_max fuel o x with
      | (r, o1) => match js_run o1 rest with (rs, o2) => (r :: rs, o2) end
      end
  end.
Fixpoint py_run (o : py_object) (calls : list bind_call) : list py_reply * py_object :=
  match calls with
  | [] => ([], o)
  | x :: rest =>
      match py_call usize_max fuel fancy_report o x with
      | (r, o1) => match py_run o1 rest with (rs, o2) => (r :: rs, o2) end
      end
  end.
End Sessions.
Definition scalar_bind_call (x : bind_call) : Prop := scalar_call (core_call x).

(** ** What should come of a result *)

(** An error as an element of HTML: its text is the source, its title the message with the position. *)
Definition error_element (latex : str) (displaystyle : bool) (e : latex_error) (h : str) : Prop := exists t s before after,
  let tag := if displaystyle then lit "p" else lit "span" in
  h = lit "<" ++ tag ++ lit " class=" ++ [34] ++ lit "math-core-error" ++ [34] ++ lit " title=" ++ [34] ++ t ++ [34] ++ lit "><code>" ++ s ++ lit "</code></" ++ tag ++ lit ">" /\
  attr_safe t /\ content_safe s /\ html_decode s = latex /\
  latex = before ++ after /\ sp_start (err_span e) = blen before /\
  html_decode t = dec (N.of_nat (length before)) ++ lit ": " ++ write_msg (err_kind_of e).
(** The string for one snippet; an error is one only if errors are not thrown. *)
Inductive shown (throw : bool) (latex : str) (displaystyle : bool) : res convert_result -> str -> Prop :=
| sh_ok m : shown throw latex displaystyle (Ok m) (cr_mathml m)
| sh_error e h : throw = false -> error_element latex displaystyle e h -> shown throw latex displaystyle (Err e) h.

(** The error object says what is wrong and where, in UTF-16 code units (which 32 bits can count). *)
Definition js_describes (latex : str) (index : option nat) (context : option str) (e : latex_error) (j : js_error) : Prop :=
  je_message j = write_msg (err_kind_of e) /\ je_label j = error_label (err_kind_of e) /\ je_context j = context /\
  (forall i, index = Some i -> N.of_nat i < 4294967296 -> je_index j = Some (N.of_nat i)) /\ (index = None -> je_index j = None) /\
  exists a b a' b', latex = a ++ b /\ sp_start (err_span e) = blen a /\ latex = a' ++ b' /\ sp_end (err_span e) = blen a' /\
    (N.of_nat (utf16_len latex) < 4294967296 -> je_start j = N.of_nat (utf16_len a) /\ je_end j = N.of_nat (utf16_len a')).
(** The exception names the snippet of a batch, and the position in characters. *)
Definition py_describes (fancy_report : latex_error -> str -> str -> str) (fancy : bool) (latex name : str) (named : bool) (e : latex_error) (message : str) : Prop :=
  if fancy then message = fancy_report e name latex
  else exists a b, latex = a ++ b /\ sp_start (err_span e) = blen a /\
    message = (if named then name ++ lit ":" else []) ++ dec (N.of_nat (length a)) ++ lit ": " ++ write_msg (err_kind_of e).

(** The reply to a call, given the reply of the converter. *)
Section Expected.
Context (throw : bool).
Notation entry := ((str * bool) * res convert_result)%type.
Definition shown_entry (x : entry) (s : str) : Prop := shown throw (fst (fst x)) (snd (fst x)) (snd x) s.
Inductive js_expected : bind_call -> api_reply -> js_reply -> Prop :=
| je_global latex d r s : shown throw latex d r s -> js_expected (BGlobal latex d) (ReplyOne r) (JsString s)
| je_global_throw latex d e j : throw = true -> js_describes latex None None e j -> js_expected (BGlobal latex d) (ReplyOne (Err e)) (JsThrow (JsLatexError j))
| je_local latex d r s : shown throw latex d r s -> js_expected (BLocal latex d) (ReplyOne r) (JsString s)
| je_local_throw latex d e j : throw = true -> js_describes latex None None e j -> js_expected (BLocal latex d) (ReplyOne (Err e)) (JsThrow (JsLatexError j))
| je_all (l : list entry) strings : Forall2 shown_entry l strings -> js_expected (BAll (map fst l)) (ReplyAll (map snd l)) (JsArray strings)
| je_all_throw (l : list entry) latex d e l' j : throw = true -> Forall (fun x => exists m, snd x = Ok m) l -> js_describes latex (Some (length l)) None e j ->
    js_expected (BAll (map fst (l ++ ((latex, d), Err e) :: l'))) (ReplyAll (map snd (l ++ ((latex, d), Err e) :: l'))) (JsThrow (JsLatexError j))
| je_reset : js_expected BReset ReplyNone JsUndefined.
Context (fancy_report : latex_error -> str -> str -> str) (fancy : bool).
Notation py_describes := (py_describes fancy_report fancy).
Inductive py_expected : bind_call -> api_reply -> py_reply -> Prop :=
| pe_global latex d r s : shown throw latex d r s -> py_expected (BGlobal latex d) (ReplyOne r) (PyStr s)
| pe_global_throw latex d e m : throw = true -> py_describes latex (lit "input") false e m -> py_expected (BGlobal latex d) (ReplyOne (Err e)) (PyRaise (PyLatexError m))
| pe_local latex d r s : shown throw latex d r s -> py_expected (BLocal latex d) (ReplyOne r) (PyStr s)
| pe_local_throw latex d e m : throw = true -> py_describes latex (lit "input") false e m -> py_expected (BLocal latex d) (ReplyOne (Err e)) (PyRaise (PyLatexError m))
| pe_all (l : list entry) strings : Forall2 shown_entry l strings -> py_expected (BAll (map fst l)) (ReplyAll (map snd l)) (PyList strings)
| pe_all_throw (l : list entry) latex d e l' m : throw = true -> Forall (fun x => exists m, snd x = Ok m) l ->
    py_describes latex (lit "input" ++ dec (N.of_nat (length l))) true e m ->
    py_expected (BAll (map fst (l ++ ((latex, d), Err e) :: l'))) (ReplyAll (map snd (l ++ ((latex, d), Err e) :: l'))) (PyRaise (PyLatexError m))
| pe_reset : py_expected BReset ReplyNone PyNone.
End Expected.

(** Corresponding replies have the same strings; an error here is an error there. *)
Definition same_reply (j : js_reply) (p : py_reply) : Prop :=
  match j, p with
  | JsString s, PyStr s' => s = s'
  | JsArray l, PyList l' => l = l'
  | JsThrow (JsLatexError _), PyRaise (PyLatexError _) => True
  | JsUndefined, PyNone => True
  | JsCrash k, PyCrash k' => k = k'
  | _, _ => False
  end.

(** ** Options *)

(** What the bindings can set: everything but the class of unknown commands and the indentation. *)
Definition reachable_config (dtoa : f32 -> str) (c : config) : Prop :=
  ec_css_unknown (co_emitter c) = default_css_unknown /\ ec_indentation (co_emitter c) = default_indentation /\ ec_dtoa (co_emitter c) = dtoa.
(** lib.rs:160-232 [MathCoreConfig::default] *)
Definition default_config (dtoa : f32 -> str) : config :=
  mkConfig [] false false false true 1000 (mkEmitterCfg PpNever false false default_css_unknown default_indentation [] dtoa).
Definition no_options : js_options := mkJsOptions None None None None None None None None None None None.
Definition string_pairs (o : option (list (dynamic * dynamic))) : Prop :=
  match o with Some l => Forall (fun p => fst p <> DOther /\ snd p <> DOther) l | None => True end.
Definition pretty_names : list str := [lit "never"; lit "always"; lit "auto"].
Definition unicode_names : list str := [lit "never"; lit "conventional"].
(** The same settings, given to JavaScript and to Python. *)
Definition js_of_py (o : py_options) : js_options :=
  mkJsOptions (Some (po_pretty o)) (po_macros o) (Some (po_xml_namespace o)) (Some (negb (po_continue o))) (Some (po_ignore_unknown o)) (Some (po_annotation o))
    (Some (po_unreliable o)) (Some (po_global_group o)) (Some (po_unicode o)) (Some (po_max_expansions o)) (Some (po_id_prefix o)).
(** Both objects are there, with the same converter, or both fail. *)
Definition same_new (j : js_new) (p : py_new) : Prop :=
  match j, p with
  | JsNew a, PyNew b => js_inner a = py_inner b /\ js_throw a = negb (py_continue b)
  | JsNewThrow (JsConfigError _), PyNewRaise (PyValueError _) => True
  | JsNewThrow (JsConfigError _), PyNewRaise PyTypeError => True
  | JsNewThrow (JsLatexError _), PyNewRaise (PyLatexError _) => True
  | JsNewCrash k, PyNewCrash k' => k = k'
  | _, _ => False
  end.
