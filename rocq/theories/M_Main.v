(** The command line program around the document mode (crates/math-core-cli/src/main.rs). Parsing the
    options ([clap]) and the configuration file ([toml]) is not modelled: their results are given. *)
From Verif Require Import Str M_Escape S_Html M_Cli M_Error M_Emit M_Output M_Token M_LatexError M_Lexer M_Queue M_Parser M_Api M_Tool.

(** ** Files *)

(** What happens when a file is written: it cannot be opened for writing, everything is written, or only
    the first bytes are. *)
Inductive writing := WriteRefused | WriteAll | WriteSome (k : nat).
Record file := mkFile { fl_readable : bool; fl_writing : writing; fl_bytes : str }.
(** The entries of a directory are in the order in which [read_dir] gives them, without those it fails to
    give; [Folder _ None] cannot be listed; [Special] is neither a regular file nor a directory. *)
Inductive entry :=
| AFile (name : str) (f : file)
| Folder (name : str) (entries : option (list entry))
| Special (name : str) (f : file).

(** [fs::read_to_string] and [Stdin::read_to_string] want valid UTF-8: the bytes of some text. *)
Definition from_utf8 (b : str) : option str :=
  match utf8_decode b with
  | Some s => if forallb is_scalar s && str_eqb (utf8 s) b then Some s else None
  | None => None
  end.
Definition read_to_string (f : file) : option str :=
  if fl_readable f then match from_utf8 (fl_bytes f) with Some _ => Some (fl_bytes f) | None => None end else None.
Definition with_bytes (f : file) (b : str) : file := mkFile (fl_readable f) (fl_writing f) b.

(** [Path::extension] of a file name: what follows the last full stop, unless that is the first character *)
Fixpoint split_last_dot (s : str) : option (str * str) :=
  match s with
  | [] => None
  | c :: r =>
      match split_last_dot r with
      | Some (a, b) => Some (c :: a, b)
      | None => if c =? 46 then Some ([], r) else None
      end
  end.
Definition extension (name : str) : option str :=
  if str_eqb name (lit "..") then None
  else match split_last_dot name with
       | Some ([], _) => None
       | Some (_, e) => Some e
       | None => None
       end.
Definition is_html (name : str) : bool := match extension name with Some e => str_eqb e (lit "html") | None => false end.

(** ** Ends *)

(** Why the process ends before its time; [ExitCrash] is no behaviour of the program (C29). *)
Inductive exit_reason :=
| ExitIo                                   (* main.rs:349-352 *)
| ExitConversion (r : rresult tool_error)  (* main.rs:340-347 *)
| ExitFormula (e : latex_error)            (* main.rs:212-215 *)
| ExitMacro (e : macro_error)              (* main.rs:154-157 *)
| ExitNoConfig                             (* main.rs:131-142 *)
| ExitBadConfig                            (* main.rs:143-151 *)
| ExitPanic
| ExitCrash (c : crash).
Definition exit_code (x : option exit_reason) : N :=
  match x with
  | None => 0
  | Some ExitIo => 1
  | Some (ExitConversion _) | Some (ExitFormula _) | Some (ExitMacro _) => 2
  | Some ExitNoConfig => 3
  | Some ExitBadConfig => 4
  | Some ExitPanic | Some (ExitCrash _) => 101
  end.

Section Main.
Context (usize_max : N) (fuel : nat).

(** ** Converting files *)

Section Files.
Context (r : replacer) (continue_on_error dry_run : bool).

(** [replace] (main.rs:240-261) and what is made of its result *)
Definition replaced (c : converter) (doc : str) : converter * (str + exit_reason) :=
  match tool usize_max fuel continue_on_error r c doc with
  | (c', ROk out) => (c', inl out)
  | (c', RPanic) => (c', inr ExitPanic)
  | (c', RFuel) => (c', inr (ExitCrash OutOfFuel))
  | (c', RLatex _ (ToolCrash k) _) => (c', inr (ExitCrash k))
  | (c', x) => (c', inr (ExitConversion x))
  end.

(** main.rs:309-331 [convert_html]: the file afterwards, what is printed, the converter, the end of the process *)
Definition convert_html (write : bool) (c : converter) (f : file) : file * str * converter * option exit_reason :=
  match read_to_string f with
  | None => (f, [], c, Some ExitIo)
  | Some original =>
      match replaced c original with
      | (c', inr x) => (f, [], c', Some x)
      | (c', inl converted) =>
          if dry_run then (f, [], c', None)
          else if write then
            if str_eqb original converted then (f, [], c', None)
            else match fl_writing f with
                 | WriteRefused => (f, [], c', Some ExitIo)
                 | WriteAll => (with_bytes f converted, [], c', None)
                 | WriteSome k => (with_bytes f (firstn k converted), [], c', Some ExitIo)
                 end
          else (f, converted, c', None)
      end
  end.

(** main.rs:288-307 [convert_html_recursive] *)
Fixpoint convert_html_recursive (c : converter) (e : entry) : entry * converter * option exit_reason :=
  match e with
  | Folder _ None => (e, c, Some ExitIo)
  | Folder name (Some es) =>
      let fix each (c : converter) (es : list entry) : list entry * converter * option exit_reason :=
        match es with
        | [] => ([], c, None)
        | e :: rest =>
            match convert_html_recursive c e with
            | (e', c', Some x) => (e' :: rest, c', Some x)
            | (e', c', None) => match each c' rest with (rest', c'', x) => (e' :: rest', c'', x) end
            end
        end in
      match each c es with (es', c', x) => (Folder name (Some es'), c', x) end
  | AFile name f =>
      if is_html name then match convert_html true c f with (f', _, c', x) => (AFile name f', c', x) end
      else (e, c, None)
  | Special _ _ => (e, c, None)
  end.
End Files.

(** ** The program *)

(** main.rs:19-117 [Args], the options after parsing; [ar_config_given] is whether there is a [--config-file] *)
Record args := mkArgs {
  ar_file : option str; ar_inline_del : str; ar_block_del : str;
  ar_inline_open : option str; ar_inline_close : option str; ar_block_open : option str; ar_block_close : option str;
  ar_recursive : bool; ar_write : bool; ar_dry_run : bool; ar_ignore_escaped : bool; ar_continue : bool;
  ar_formula : option str; ar_block : bool; ar_config_given : bool }.
(** What [clap] ensures (the [requires] of main.rs:47-77). *)
Definition args_ok (a : args) : Prop :=
  (ar_inline_open a = None <-> ar_inline_close a = None) /\ (ar_block_open a = None <-> ar_block_close a = None).
(** [load_config_file] (config_file.rs:73-77) *)
Inductive loaded := Loaded (c : config) | LoadNotFound | LoadFailed.
(** What is outside: the configuration file, the bytes of the standard input unless it cannot be read, and
    what there is at the path. *)
Record world := mkWorld { wd_config : loaded; wd_default : config; wd_stdin : option str; wd_target : option entry }.
Record outcome := mkOutcome { oc_stdout : str; oc_target : option entry; oc_exit : option exit_reason }.

(** main.rs:160-170: the delimiters; the [unwrap] fails without a closing one *)
Definition delimiter_pair (open close : option str) (del : str) : option (str * str) :=
  match open with
  | Some o => match close with Some c => Some (o, c) | None => None end
  | None => Some (del, del)
  end.
Definition replacer_new (a : args) : option replacer :=
  match delimiter_pair (ar_inline_open a) (ar_inline_close a) (ar_inline_del a), delimiter_pair (ar_block_open a) (ar_block_close a) (ar_block_del a) with
  | Some (io, ic), Some (bo, bc) =>
      Some {| inline_open := utf8 io; inline_close := utf8 ic; block_open := utf8 bo; block_close := utf8 bc; ignore_escaped := ar_ignore_escaped a |}
  | _, _ => None
  end.
(** main.rs:196-202 [read_stdin] *)
Definition read_stdin (w : world) : option str := match wd_stdin w with Some b => option_map (fun _ => b) (from_utf8 b) | None => None end.

(** main.rs:204-217 [convert_and_exit] *)
Definition convert_and_exit (a : args) (w : world) (c : converter) (latex : str) : outcome :=
  match convert_with_global_state usize_max fuel c latex (if ar_block a then M_Output.Block else M_Output.Inline) with
  | (Ok m, _) => mkOutcome (utf8 (cr_mathml m) ++ [10]) (wd_target w) None
  | (Err e, _) => mkOutcome [] (wd_target w) (Some (ExitFormula e))
  | (Crash k, _) => mkOutcome [] (wd_target w) (Some (ExitCrash k))
  end.

(** main.rs:159-193: after the converter is there *)
Definition run_program (a : args) (w : world) (c : converter) : outcome :=
  let stop x := mkOutcome [] (wd_target w) (Some x) in
  match ar_file a with
  | Some path =>
      match replacer_new a with
      | None => stop ExitPanic
      | Some r =>
          if str_eqb path (lit "-") then
            match read_stdin w with
            | None => stop ExitIo
            | Some input =>
                match replaced r (ar_continue a) c input with
                | (_, inl out) => mkOutcome (out ++ [10]) (wd_target w) None
                | (_, inr x) => stop x
                end
            end
          else if ar_recursive a then
            match wd_target w with
            | Some e => match convert_html_recursive r (ar_continue a) (ar_dry_run a) c e with (e', _, x) => mkOutcome [] (Some e') x end
            | None => mkOutcome [] None None
            end
          else
            match wd_target w with
            | Some (AFile name f) => match convert_html r (ar_continue a) (ar_dry_run a) (ar_write a) c f with (f', out, _, x) => mkOutcome out (Some (AFile name f')) x end
            | Some (Special name f) => match convert_html r (ar_continue a) (ar_dry_run a) (ar_write a) c f with (f', out, _, x) => mkOutcome out (Some (Special name f')) x end
            | _ => stop ExitIo
            end
      end
  | None =>
      match ar_formula a with
      | Some formula => convert_and_exit a w c formula
      | None =>
          match read_stdin w with
          | None => stop ExitIo
          | Some b => match from_utf8 b with Some latex => convert_and_exit a w c latex | None => stop ExitIo end
          end
      end
  end.
(** main.rs:119-194 [main] *)
Definition main_program (a : args) (w : world) : outcome :=
  let stop x := mkOutcome [] (wd_target w) (Some x) in
  let start cfg :=
    match converter_new cfg with
    | NewOk c => run_program a w c
    | NewErr e => stop (ExitMacro e)
    | NewCrash k => stop (ExitCrash k)
    end in
  match wd_config w with
  | Loaded cfg => start cfg
  | LoadNotFound => if ar_config_given a then stop ExitNoConfig else start (wd_default w)
  | LoadFailed => stop ExitBadConfig
  end.
End Main.
