(** Vocabulary for the command line program. *)
From Verif Require Import Str S_Html M_Cli M_Error M_Emit M_Output M_Token M_LatexError M_Lexer M_Queue M_Parser M_Api M_Tool M_Main S_Tool.

(** What is visited in a tree, in order: files, and directories that cannot be listed. *)
Inductive visit := VFile (name : str) (f : file) | VUnlisted.
Fixpoint visits (e : entry) : list visit :=
  match e with
  | AFile name f => [VFile name f]
  | Folder _ None => [VUnlisted]
  | Folder _ (Some es) => flat_map visits es
  | Special _ _ => []
  end.
(** A tree without what is in its files. *)
Fixpoint bare_tree (e : entry) : entry :=
  match e with
  | AFile name f => AFile name (with_bytes f [])
  | Folder name es => Folder name (option_map (map bare_tree) es)
  | Special name f => Special name f
  end.

Section Files.
Context (usize_max : N) (fuel : nat) (r : replacer) (continue_on_error dry_run : bool).
Notation replaced := (replaced usize_max fuel r continue_on_error).

(** The file [f] is to have the text [out]. *)
Inductive stored : file -> str -> file -> option exit_reason -> Prop :=
| st_same f out : dry_run = true \/ fl_bytes f = out -> stored f out f None
| st_all f out : dry_run = false -> fl_bytes f <> out -> fl_writing f = WriteAll -> stored f out (with_bytes f out) None
| st_refused f out : dry_run = false -> fl_bytes f <> out -> fl_writing f = WriteRefused -> stored f out f (Some ExitIo)
| st_some f out k : dry_run = false -> fl_bytes f <> out -> fl_writing f = WriteSome k -> stored f out (with_bytes f (firstn k out)) (Some ExitIo).

(** The files are converted one after the other; the first problem ends it, and what comes after it stays as
    it is. *)
Inductive converted : converter -> list visit -> list visit -> converter -> option exit_reason -> Prop :=
| cn_end c : converted c [] [] c None
| cn_other c name f l l' c' x : is_html name = false -> converted c l l' c' x -> converted c (VFile name f :: l) (VFile name f :: l') c' x
| cn_file c name f c1 out f' l l' c' x : is_html name = true -> read_to_string f <> None -> replaced c (fl_bytes f) = (c1, inl out) -> stored f out f' None ->
    converted c1 l l' c' x -> converted c (VFile name f :: l) (VFile name f' :: l') c' x
| cn_unwritten c name f c1 out f' l x : is_html name = true -> read_to_string f <> None -> replaced c (fl_bytes f) = (c1, inl out) -> stored f out f' (Some x) ->
    converted c (VFile name f :: l) (VFile name f' :: l) c1 (Some x)
| cn_failed c name f c1 l x : is_html name = true -> read_to_string f <> None -> replaced c (fl_bytes f) = (c1, inr x) ->
    converted c (VFile name f :: l) (VFile name f :: l) c1 (Some x)
| cn_unread c name f l : is_html name = true -> read_to_string f = None -> converted c (VFile name f :: l) (VFile name f :: l) c (Some ExitIo)
| cn_unlisted c l : converted c (VUnlisted :: l) (VUnlisted :: l) c (Some ExitIo).

(** What may happen to a file. *)
Definition file_kept (v v' : visit) : Prop :=
  match v, v' with
  | VUnlisted, VUnlisted => True
  | VFile name f, VFile name' f' => name' = name /\
      (f' = f \/
       (dry_run = false /\ is_html name = true /\ exists c0 c1 out, replaced c0 (fl_bytes f) = (c1, inl out) /\
         (f' = with_bytes f out \/ exists k, fl_writing f = WriteSome k /\ f' = with_bytes f (firstn k out))))
  | _, _ => False
  end.
(** Every file has the text that its conversion gives, with the state that the files before it leave. *)
Fixpoint all_converted (c : converter) (l l' : list visit) (c' : converter) : Prop :=
  match l, l' with
  | [], [] => c' = c
  | VFile name f :: l, VFile name' f' :: l' => name' = name /\
      (if is_html name then exists c1, replaced c (fl_bytes f) = (c1, inl (fl_bytes f')) /\ all_converted c1 l l' c'
       else f' = f /\ all_converted c l l' c')
  | _, _ => False
  end.
End Files.

(** Every file can be written. *)
Definition writable (v : visit) : Prop := match v with VFile _ f => fl_writing f = WriteAll | VUnlisted => True end.
(** The ends that are no fault of the program. *)
Definition regular (x : option exit_reason) : Prop :=
  match x with
  | None | Some ExitIo | Some (ExitFormula _) | Some (ExitMacro _) | Some ExitNoConfig | Some ExitBadConfig => True
  | Some (ExitConversion x) => delimiters_only x
  | Some ExitPanic | Some (ExitCrash _) => False
  end.
(** The kind of problem: with files, with what is to be converted, with the configuration file (there is none, or it is wrong),
    or with the program. *)
Inductive problem_kind := ProblemFiles | ProblemInput | ProblemNoConfig | ProblemConfig | ProblemProgram.
Definition problem (x : option exit_reason) : option problem_kind :=
  match x with
  | None => None
  | Some ExitIo => Some ProblemFiles
  | Some (ExitConversion _ | ExitFormula _ | ExitMacro _) => Some ProblemInput
  | Some ExitNoConfig => Some ProblemNoConfig
  | Some ExitBadConfig => Some ProblemConfig
  | Some (ExitPanic | ExitCrash _) => Some ProblemProgram
  end.
(** Texts outside are Unicode. *)
Definition scalar_opt (o : option str) : Prop := match o with Some s => scalar_str s | None => True end.
Definition scalar_args (a : args) : Prop :=
  scalar_str (ar_inline_del a) /\ scalar_str (ar_block_del a) /\ scalar_opt (ar_inline_open a) /\ scalar_opt (ar_inline_close a) /\
  scalar_opt (ar_block_open a) /\ scalar_opt (ar_block_close a) /\ scalar_opt (ar_formula a).
(** The program may write to the path. *)
Definition may_write (a : args) : bool :=
  match ar_file a with Some path => negb (str_eqb path (lit "-")) && negb (ar_dry_run a) && (ar_recursive a || ar_write a) | None => false end.

(** For examples. *)
Definition plain_args : args := mkArgs None (lit "$") (lit "$$") None None None None false false false false false None false false.
Definition text_file (name text : string) : entry := AFile (lit name) (mkFile true WriteAll (lit text)).
