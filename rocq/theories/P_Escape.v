(** Property theorems C01-C04, C40 (second half in P_Cli), C43: escaping and positions. *)
From Verif Require Import Str M_Escape S_Html M_Cli S_Cli M_Error L_Escape L_Cli L_Error.

(** C01: whatever the buffer contains, embedding appends text [e] that is pure character
    data and decodes to the source. *)
Theorem C01_source_embedding :
  forall output latex, exists e,
    escape_html_content output latex = Some (output ++ e) /\ content_safe e /\ html_decode e = latex.
Proof. exact escape_html_content_spec. Qed.
Print Assumptions C01_source_embedding.

Example C01_nonvacuous :
  escape_html_content (lit "x") (lit "a<b&&lt;>") = Some (lit "xa&lt;b&amp;&amp;lt;&gt;").
Proof. vm_compute. reflexivity. Qed.

(** C01, injectivity: different sources give different embedded texts. *)
Theorem C01_source_embedding_injective :
  forall output a b, escape_html_content output a = escape_html_content output b -> a = b.
Proof.
  intros output a b H.
  destruct (escape_html_content_spec output a) as (ea & Ea & _ & Da).
  destruct (escape_html_content_spec output b) as (eb & Eb & _ & Db).
  rewrite Ea, Eb in H. injection H as H. apply app_inv_head in H. congruence.
Qed.
Print Assumptions C01_source_embedding_injective.

(** C02: the exact shape of the error HTML. *)
Theorem C02_error_html :
  forall start msg latex d css, exists t s,
    to_html start msg latex d css =
      Some (let tag := match d with Block => lit "p" | Inline => lit "span" end in
            lit "<" ++ tag ++ lit " class=" ++ [34] ++ css ++ [34] ++ lit " title=" ++ [34]
            ++ t ++ [34] ++ lit "><code>" ++ s ++ lit "</code></" ++ tag ++ lit ">") /\
    attr_safe t /\ html_decode t = to_message [] start msg latex /\
    content_safe s /\ html_decode s = latex.
Proof. exact to_html_spec. Qed.
Print Assumptions C02_error_html.

Example C02_nonvacuous :
  to_html 1 (lit "Unknown " ++ [34] ++ lit "&") (lit "a<") Inline (lit "c")
  = Some (lit "<span class=" ++ [34] ++ lit "c" ++ [34] ++ lit " title=" ++ [34]
          ++ lit "1: Unknown &quot;&amp;" ++ [34] ++ lit "><code>a&lt;</code></span>").
Proof. vm_compute. reflexivity. Qed.

(** C03: text written through [EscapeHtml]. *)
Theorem C03_text_escape :
  forall s, content_safe (escape_html s) /\ attr_safe (escape_html s) /\ ~ In 39 (escape_html s) /\
            html_decode (escape_html s) = s.
Proof. exact escape_html_spec. Qed.
Print Assumptions C03_text_escape.

Example C03_nonvacuous : escape_html (lit "<a'&" ++ [34]) = lit "&lt;a&#39;&amp;&quot;".
Proof. vm_compute. reflexivity. Qed.

(** C04: label encoding.  [fragment_byte_ok] excludes controls, blanks, quotes, angle
    brackets, '#', backquote, DEL and everything non-ASCII. *)
Theorem C04_label_encoding :
  forall label, scalar_str label ->
    Forall (fun x => fragment_byte_ok x = true) (percent_encode label) /\
    utf8_decode (percent_decode (percent_encode label)) = Some label.
Proof. exact percent_encode_spec. Qed.
Print Assumptions C04_label_encoding.

Theorem C04_label_encoding_injective :
  forall a b, scalar_str a -> scalar_str b -> percent_encode a = percent_encode b -> a = b.
Proof. exact percent_encode_inj. Qed.
Print Assumptions C04_label_encoding_injective.

Example C04_nonvacuous :
  percent_encode (lit "eq:1 %" ++ [0xE9; 0x1F600]) = lit "eq:1%20%25%C3%A9%F0%9F%98%80".
Proof. vm_compute. reflexivity. Qed.

(** C43: an error at byte offset [blen pre] is reported at character [length pre];
    other offsets are rounded down to the character they fall into. *)
Theorem C43_message_position :
  forall msg pre post,
    to_message [] (blen pre) msg (pre ++ post)
    = dec (N.of_nat (length pre)) ++ lit ": " ++ msg.
Proof. intros. unfold to_message. now rewrite floor_prefix_exact. Qed.
Print Assumptions C43_message_position.

Theorem C43_message_position_rounds_down :
  forall msg input start, exists pre post,
    input = pre ++ post /\ (blen pre <= start)%nat /\
    (forall c post', post = c :: post' -> (start < blen pre + len_utf8 c)%nat) /\
    to_message [] start msg input = dec (N.of_nat (length pre)) ++ lit ": " ++ msg.
Proof.
  intros. destruct (floor_prefix_spec input start) as (post & H1 & H2 & H3).
  exists (floor_prefix input start), post. auto.
Qed.
Print Assumptions C43_message_position_rounds_down.

(** Decimal numbers can be read back, so different positions look different. *)
Theorem C43_decimal_injective : forall a b, dec a = dec b -> a = b.
Proof. exact dec_inj. Qed.
Print Assumptions C43_decimal_injective.

(** The JavaScript binding reports UTF-16 offsets. *)
Theorem C43_utf16_offset :
  forall pre post, byte_offset_to_utf16_offset (pre ++ post) (blen pre) = utf16_len pre.
Proof. intros. unfold byte_offset_to_utf16_offset. now rewrite get_prefix_exact. Qed.
Print Assumptions C43_utf16_offset.

Theorem C43_line_and_col :
  forall pre post,
    line_and_col (blen pre) (pre ++ post)
    = (1 + newlines pre, 1 + N.of_nat (length (last_line pre))).
Proof. exact line_and_col_spec. Qed.
Print Assumptions C43_line_and_col.

Example C43_nonvacuous :
  to_message [] 3 (lit "m") [0xE9; 97; 98] = lit "2: m" /\
  line_and_col 5 ([0xE9; 10; 97; 98] ++ [99]) = (2, 3) /\
  byte_offset_to_utf16_offset [0x1F600; 97] 5 = 3%nat.
Proof. vm_compute. repeat split. Qed.
