(** Property theorems C38-C42: the command line tool. *)
From Verif Require Import Str M_Escape S_Html M_Cli S_Cli L_Escape L_Cli.

(** C39: for every positive initial window the windowed search returns what a search of the
    whole document returns, nearest first and block before inline on ties. *)
Theorem C39_windowed_search_open :
  forall w r doc, (1 <= w)%nat ->
    find_next_delimiter w r doc true =
    match next_open r doc with Some x => SFound x | None => SNone end.
Proof. exact find_next_open. Qed.
Print Assumptions C39_windowed_search_open.

Theorem C39_windowed_search_close :
  forall w r doc, (1 <= w)%nat ->
    find_next_delimiter w r doc false =
    match next_close r doc with Some x => SFound x | None => SNone end.
Proof. exact find_next_close. Qed.
Print Assumptions C39_windowed_search_close.

Definition dollars : replacer :=
  {| inline_open := lit "$"; inline_close := lit "$"; block_open := lit "$$"; block_close := lit "$$";
     ignore_escaped := true |}.

Example C39_nonvacuous :
  find_next_delimiter 3 dollars (lit "a\$ $$b") true = SFound (Block, 4%nat) /\
  next_open dollars (lit "a\$ $$b") = Some (Block, 4%nat).
Proof. vm_compute. split; reflexivity. Qed.

(** Every hit lies on character boundaries of the document, so no slice panics. *)
Theorem C38_slices_on_char_boundaries :
  forall doc delim esc p,
    scalar_str doc -> scalar_str delim -> delim <> [] ->
    search_doc esc (utf8 delim) (utf8 doc) = Some p ->
    exists pre post, doc = pre ++ delim ++ post /\ blen pre = p.
Proof.
  intros doc delim esc p H1 H2 H3 H. apply scan_hit in H as [H _].
  exact (delimiter_on_boundary doc delim p H1 H2 H3 H).
Qed.
Print Assumptions C38_slices_on_char_boundaries.

(** C38: the tool succeeds exactly on the documents described by [processed], and then the
    output is the document with every formula replaced by its conversion. *)
Theorem C38_document_processing :
  forall (S E : Type) (conv : S -> str -> display -> S * (str + E)) r st doc st' out,
    replace conv initial_window r st doc = (st', ROk out) <->
    exists segs tail, processed conv r st doc st' segs tail /\ out = flat_map seg_result segs ++ tail.
Proof.
  intros. apply replace_spec. unfold initial_window. lia.
Qed.
Print Assumptions C38_document_processing.

Theorem C38_text_preserved :
  forall (S E : Type) (conv : S -> str -> display -> S * (str + E)) r st doc st' out,
    replace conv initial_window r st doc = (st', ROk out) ->
    exists segs tail,
      doc = flat_map (seg_source r) segs ++ tail /\ out = flat_map seg_result segs ++ tail.
Proof.
  intros S E conv r st doc st' out H. apply C38_document_processing in H as (segs & tail & H & ->).
  exists segs, tail. split; [|reflexivity]. exact (processed_source _ _ _ _ _ _ _ H).
Qed.
Print Assumptions C38_text_preserved.

Definition demo_conv (n : N) (t : str) (d : display) : N * (str + unit) :=
  (n + 1, inl (lit "[" ++ dec n ++ lit ":" ++ t ++ lit "]")).

Example C38_nonvacuous :
  replace demo_conv initial_window dollars 1 (lit "x $a &lt; b$ y $$c$$ z\$")
  = (3, ROk (lit "x [1:a < b] y [2:c] z\$")).
Proof. vm_compute. reflexivity. Qed.

(** C40: decoding inverts every escaping with the supported entities. *)
Theorem C40_entities_decoded :
  forall plain s, escaped plain s -> replace_html_entities s = Some plain.
Proof. exact replace_html_entities_escaped. Qed.
Print Assumptions C40_entities_decoded.

Theorem C40_inverts_own_escaping :
  forall s e, escape_html_content [] s = Some e -> replace_html_entities e = Some s.
Proof.
  intros s e H. rewrite escape_html_content_eq in H. injection H as <-.
  apply replace_html_entities_escaped, content_escape_escaped.
Qed.
Print Assumptions C40_inverts_own_escaping.

Theorem C40_no_ampersand_untouched :
  forall s, ~ In 38 s -> replace_html_entities s = Some s.
Proof.
  intros s H. unfold replace_html_entities. rewrite position_all_false; [reflexivity|].
  intros d Hd. apply N.eqb_neq. intros <-. contradiction.
Qed.
Print Assumptions C40_no_ampersand_untouched.

Example C40_nonvacuous :
  escaped (lit "a&b<") (lit "a&#38;b&lt;") /\
  replace_html_entities (lit "a&#38;b&lt;") = Some (lit "a&b<").
Proof.
  split; [|vm_compute; reflexivity].
  apply esc_plain; [discriminate|]. apply (esc_entity (lit "#38") 38 (lit "b<") (lit "b&lt;")); [right; split; [cbn; tauto|reflexivity]|].
  apply esc_plain; [discriminate|]. apply (esc_entity (lit "lt") 60 [] []); [left; cbn; tauto|]. constructor.
Qed.

(** A bare ampersand hides a following entity (html_entities.rs:46 looks for the next ';'
    without stopping at another '&'); the stronger claim "every supported entity in the
    text is decoded" is false. *)
Theorem C40_every_entity_decoded_refuted :
  exists a b, replace_html_entities (a ++ lit "&lt;" ++ b) = Some (a ++ lit "&lt;" ++ b).
Proof. exists (lit "x & y "), (lit " z"). vm_compute. reflexivity. Qed.
Print Assumptions C40_every_entity_decoded_refuted.

(** C42: the tool stops for every document and every choice of delimiters, even empty ones. *)
Theorem C42_terminates :
  forall (S E : Type) (conv : S -> str -> display -> S * (str + E)) r st doc,
    snd (replace conv initial_window r st doc) <> RFuel.
Proof. intros. apply replace_loop_stops; [unfold initial_window; lia|lia]. Qed.
Print Assumptions C42_terminates.

Example C42_empty_delimiters :
  replace demo_conv initial_window
    {| inline_open := []; inline_close := []; block_open := []; block_close := []; ignore_escaped := true |}
    1 (lit "abc") = (1, RNested 0).
Proof. vm_compute. reflexivity. Qed.

(** C41, the part that holds for every converter: as long as a conversion that failed fails
    again when repeated, the tool reports errors and never panics. *)
Theorem C41_no_panic_partial :
  forall (S E : Type) (conv : S -> str -> display -> S * (str + E)) r,
    (forall st t d st1 e, conv st t d = (st1, inr e) -> exists st2 e2, conv st1 t d = (st2, inr e2)) ->
    forall st doc, snd (replace conv initial_window r st doc) <> RPanic.
Proof. intros. apply replace_loop_no_panic; [unfold initial_window; lia|assumption]. Qed.
Print Assumptions C41_no_panic_partial.

(** A stateless converter that rejects formulas starting with '!'. *)
Definition demo_fail (n : N) (t : str) (d : display) : N * (str + unit) :=
  match t with 33 :: _ => (n, inr tt) | _ => (n, inl t) end.
Example C41_nonvacuous :
  (forall st t d st1 e, demo_fail st t d = (st1, inr e) -> exists st2 e2, demo_fail st1 t d = (st2, inr e2)) /\
  replace demo_fail initial_window dollars 0 (lit "a $!$") = (0, RLatex 3 tt (lit "!")).
Proof.
  split; [|vm_compute; reflexivity]. intros st t d st1 e H. destruct e.
  exists st1, tt. unfold demo_fail in *. destruct t as [|c t]; [discriminate|].
  repeat match goal with |- context [match ?x with _ => _ end] => destruct x end;
    solve [discriminate | injection H as <-; reflexivity].
Qed.
