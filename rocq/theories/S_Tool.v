(** Vocabulary for the document mode of the tool. *)
From Verif Require Import Str S_Html M_Cli M_Tool.

(** Delimiters given as text; the tool searches their bytes. *)
Record delimiters := mkDelimiters { dl_inline_open : str; dl_inline_close : str; dl_block_open : str; dl_block_close : str; dl_escaped : bool }.
Definition replacer_of (d : delimiters) : replacer :=
  {| inline_open := utf8 (dl_inline_open d); inline_close := utf8 (dl_inline_close d);
     block_open := utf8 (dl_block_open d); block_close := utf8 (dl_block_close d); ignore_escaped := dl_escaped d |}.
Definition scalar_delimiters (d : delimiters) : Prop :=
  scalar_str (dl_inline_open d) /\ scalar_str (dl_inline_close d) /\ scalar_str (dl_block_open d) /\ scalar_str (dl_block_close d).
Definition dollar_delimiters : delimiters := mkDelimiters (lit "$") (lit "$") (lit "$$") (lit "$$") true.

(** An answer about the document: its new text, or what is wrong with its delimiters. *)
Definition delimiters_only {E} (r : rresult E) : Prop :=
  match r with ROk _ | RUnclosed _ | RNested _ | RMismatched _ _ => True | RLatex _ _ _ | RPanic | RFuel => False end.
