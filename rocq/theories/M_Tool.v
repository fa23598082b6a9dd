(** The document mode of the command line tool with the real converter
    (crates/math-core-cli/src/main.rs). *)
From Verif Require Import Str M_Escape S_Html M_Cli M_Error M_Emit M_Output M_Token M_LatexError M_Lexer M_Queue M_Parser M_Api.

(** The two displays of the tool's model and of the converter's model are the same Rust type. *)
Definition tool_display (d : M_Cli.display) : math_display :=
  match d with M_Cli.Inline => M_Output.Inline | M_Cli.Block => M_Output.Block end.

(** An error of the converter, or a crash (which C29 excludes). *)
Inductive tool_error := ToolLatex (e : latex_error) | ToolCrash (c : crash).

(** error.rs:360-376 [to_html] of an error value, without a class *)
Definition error_html (e : latex_error) (latex : str) (d : M_Cli.display) : option str :=
  to_html (sp_start (err_span e)) (write_msg (err_kind_of e)) latex d (lit "math-core-error").

Section Tool.
Context (usize_max : N) (fuel : nat) (continue_on_error : bool).
(** main.rs:249-260: the closure given to [Replacer::replace].  The formula is a byte slice
    of the document with its entities replaced; it is a [&str], i.e. decodable. *)
Definition tool_convert (c : converter) (bytes : str) (d : M_Cli.display) : converter * (str + tool_error) :=
  match utf8_decode bytes with
  | None => (c, inr (ToolCrash Undefined))
  | Some latex =>
      match convert_with_global_state usize_max fuel c latex (tool_display d) with
      | (Ok r, c') => (c', inl (utf8 (cr_mathml r)))
      | (Err e, c') =>
          if continue_on_error then
            match error_html e latex d with
            | Some html => (c', inl (utf8 html))
            | None => (c', inr (ToolCrash OutOfFuel))
            end
          else (c', inr (ToolLatex e))
      | (Crash k, c') => (c', inr (ToolCrash k))
      end
  end.
(** main.rs:239-261 [replace] *)
Definition tool (r : replacer) (c : converter) (doc : str) : converter * rresult tool_error :=
  replace tool_convert initial_window r c doc.
End Tool.
