(** C62: the message of an error tells which error it is. *)
From Verif Require Import Str M_Error M_Cli M_Token M_Env M_LatexError M_Tool M_Bindings S_Messages L_Messages.

(** Two errors with one message are the same error, with the same names, numbers and units in it. *)
Theorem C62_message : forall a b, write_msg a = write_msg b <-> a = b.
Proof. intros a b. split; [apply message_inj | now intros ->]. Qed.

(** The labels put beside the source tell the kinds apart, except that an argument is missing for two reasons. *)
Theorem C62_label : forall a b, error_label a = error_label b <-> same_label a b.
Proof. exact label_same. Qed.

(** What is printed with a position tells the error and the character it is at. *)
Theorem C62_printed : forall e1 e2 l1 l2,
  to_message [] (sp_start (err_span e1)) (write_msg (err_kind_of e1)) l1 =
  to_message [] (sp_start (err_span e2)) (write_msg (err_kind_of e2)) l2 <->
  error_position e1 l1 = error_position e2 l2 /\ err_kind_of e1 = err_kind_of e2.
Proof.
  intros e1 e2 l1 l2. unfold to_message. split; [apply positioned_inj|].
  unfold error_position. intros [-> ->]. reflexivity.
Qed.

(** What is put into a page tells the error, the character it is at, the source, and whether it was a display. *)
Theorem C62_html : forall e1 e2 l1 l2 d1 d2, error_html e1 l1 d1 = error_html e2 l2 d2 ->
  d1 = d2 /\ l1 = l2 /\ err_kind_of e1 = err_kind_of e2 /\ error_position e1 l1 = error_position e2 l2.
Proof. exact html_inj. Qed.

Example C62_nonvacuous :
  write_msg (E_MismatchedEnvironment EAlign EAlignStar) = lit "Expected ""\end{align}"", but found ""\end{align*}""." /\
  error_label E_ExpectedArgumentGotClose = error_label E_ExpectedArgumentGotEOI /\
  write_msg E_ExpectedArgumentGotClose <> write_msg E_ExpectedArgumentGotEOI /\
  error_html (mkErr (mkSpan 1 2) (E_UnknownCommand (lit "x"""))) (lit "a\x") Inline =
    Some (lit "<span class=""math-core-error"" title=""1: Unknown command &quot;\x&quot;&quot;.""><code>a\x</code></span>") /\
  error_position (mkErr (mkSpan 3 4) E_Internal) [233; 97; 98] = 2%nat.
Proof. repeat split; try (intros H; vm_compute in H; discriminate H); vm_compute; reflexivity. Qed.

Print Assumptions C62_message.
Print Assumptions C62_label.
Print Assumptions C62_printed.
Print Assumptions C62_html.
