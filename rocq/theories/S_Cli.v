(** Specification of the command line tool's document processing. *)
From Verif Require Import Str M_Cli.

(** ** Searching a delimiter in a whole document

    Walk over the document from left to right and stop at the first occurrence of [needle].
    With [esc], an occurrence directly after a backslash is stepped over as a whole.
    [prev] is the previous byte, [skip] the number of bytes still to be stepped over. *)
Fixpoint scan (esc : bool) (needle : str) (skip : nat) (prev : option N) (doc : str) : option nat :=
  match skip, doc with
  | O, _ =>
      if starts_with needle doc then
        if esc && (match prev with Some p => p =? 92 | None => false end)
        then match doc with
             | [] => None
             | c :: rest => option_map S (scan esc needle (List.length needle - 1) (Some c) rest)
             end
        else Some O
      else match doc with
           | [] => None
           | c :: rest => option_map S (scan esc needle O (Some c) rest)
           end
  | S k, [] => None
  | S k, c :: rest => option_map S (scan esc needle k (Some c) rest)
  end.

Definition search_doc (esc : bool) (needle doc : str) : option nat := scan esc needle O None doc.

(** The nearest of the inline and the block delimiter; block wins ties. *)
Definition nearest (i b : option nat) : option (display * nat) :=
  match i, b with
  | Some i, Some b => if (b <=? i)%nat then Some (Block, b) else Some (Inline, i)
  | Some i, None => Some (Inline, i)
  | None, Some b => Some (Block, b)
  | None, None => None
  end.

Definition next_open (r : replacer) (doc : str) : option (display * nat) :=
  nearest (search_doc (ignore_escaped r) (inline_open r) doc)
          (search_doc (ignore_escaped r) (block_open r) doc).
Definition next_close (r : replacer) (doc : str) : option (display * nat) :=
  nearest (search_doc (ignore_escaped r) (inline_close r) doc)
          (search_doc (ignore_escaped r) (block_close r) doc).

Definition open_delim (r : replacer) (d : display) : str :=
  match d with Inline => inline_open r | Block => block_open r end.
Definition close_delim (r : replacer) (d : display) : str :=
  match d with Inline => inline_close r | Block => block_close r end.

(** ** Entities

    The names of the five reserved characters in HTML, and their numbers. *)
Definition entity_names : list (str * N) :=
  [ (lit "quot", 34); (lit "amp", 38); (lit "apos", 39); (lit "lt", 60); (lit "gt", 62) ].
Definition entity (name : str) (c : N) : Prop :=
  In (name, c) entity_names \/ (In c (map snd entity_names) /\ name = 35 :: dec c).
(**

    [escaped plain s]: [s] is [plain] with some characters written as one of the supported
    entities; at least every ['&'] is. *)
Inductive escaped : str -> str -> Prop :=
| esc_nil : escaped [] []
| esc_plain c t s : c <> 38 -> escaped t s -> escaped (c :: t) (c :: s)
| esc_entity name c t s : entity name c -> escaped t s ->
    escaped (c :: t) (38 :: name ++ 59 :: s).

(** ** Processing a document *)

(** One formula with the text before it. *)
Record segment := {
  seg_text : str;          (* copied *)
  seg_open : display;      (* which opening delimiter *)
  seg_content : str;       (* between the delimiters *)
  seg_close : display;     (* which closing delimiter was recognised *)
  seg_out : str            (* what the converter returned *)
}.

Definition seg_source (r : replacer) (g : segment) : str :=
  seg_text g ++ open_delim r (seg_open g) ++ seg_content g ++ close_delim r (seg_close g).
Definition seg_result (g : segment) : str := seg_text g ++ seg_out g.

Section Doc.
  Context {S E : Type}.
  Variable conv : S -> str -> display -> S * (str + E).
  Variable r : replacer.

  (** [processed st doc st' segs tail]: [doc] consists of the segments [segs] followed by
      the plain text [tail]; running the converter over the formulas in order takes the
      state from [st] to [st'].  Every opening delimiter is the nearest one, every closing
      delimiter is the nearest one after it, of the same kind, and formulas contain no
      opening delimiter. *)
  Inductive processed : S -> str -> S -> list segment -> str -> Prop :=
  | pr_end st : processed st [] st [] []
  | pr_tail st doc : next_open r doc = None -> processed st doc st [] doc
  | pr_formula st g rest formula st1 st' segs tail :
      next_open r (seg_source r g ++ rest) = Some (seg_open g, List.length (seg_text g)) ->
      next_close r (seg_content g ++ close_delim r (seg_close g) ++ rest)
        = Some (seg_close g, List.length (seg_content g)) ->
      (inline_close r = block_close r \/ seg_open g = seg_close g) ->
      next_open r (seg_content g) = None ->
      replace_html_entities (seg_content g) = Some formula ->
      conv st formula (seg_open g) = (st1, inl (seg_out g)) ->
      processed st1 rest st' segs tail ->
      processed st (seg_source r g ++ rest) st' (g :: segs) tail.
End Doc.

(** ** Positions in a document: line and column by counting newlines *)

Definition newlines (s : str) : N := N.of_nat (List.length (filter (N.eqb 10) s)).
(** The part of [s] after the last newline. *)
Fixpoint last_line (s : str) : str :=
  match s with
  | [] => []
  | c :: r => if existsb (N.eqb 10) r then last_line r else if c =? 10 then r else s
  end.
