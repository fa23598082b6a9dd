(** Model of the command line tool's document processing (crate math-core-cli).

    Documents are byte lists (the code searches bytes); see [L_Cli] for the fact that
    all slice positions are character boundaries of valid UTF-8 documents. *)
From Verif Require Import Str M_Escape.

(** ** html_entities.rs *)

(** crates/math-core-cli/src/html_entities.rs:3-14 [HTML_RESERVED_MAP] (phf map as an
    association list). *)
Definition html_reserved_map : list (str * N) :=
  [ (lit "#34", 34); (lit "quot", 34); (lit "#38", 38); (lit "amp", 38);
    (lit "#39", 39); (lit "apos", 39); (lit "#60", 60); (lit "lt", 60);
    (lit "#62", 62); (lit "gt", 62) ].

Fixpoint assoc_str {A} (k : str) (m : list (str * A)) : option A :=
  match m with
  | [] => None
  | (k', v) :: r => if str_eqb k k' then Some v else assoc_str k r
  end.

(** crates/math-core-cli/src/html_entities.rs:41-75: the loop and the final push.
    [rest] is [input[last_end..]], [idx] is [next_start - last_end] (the position of an
    ['&'] in [rest]).  [None] is fuel exhaustion or an impossible index. *)
Fixpoint entity_loop (fuel : nat) (buffer rest : str) (idx : nat) : option str :=
  match fuel with
  | O => None
  | S fuel' =>
      let buffer := buffer ++ firstn idx rest in
      let amp := skipn idx rest in                       (* starts with '&' *)
      match amp with
      | [] => None
      | _ :: tl =>
          match position (N.eqb 59) tl with
          | None => Some (buffer ++ amp)
          | Some index =>
              let buffer :=
                match assoc_str (firstn index tl) html_reserved_map with
                | Some r => buffer ++ [r]
                | None => buffer ++ firstn (S (S index)) amp
                end in
              let rest' := skipn (S index) tl in
              match position (N.eqb 38) rest' with
              | Some i => entity_loop fuel' buffer rest' i
              | None => Some (buffer ++ rest')
              end
          end
      end
  end.

(** crates/math-core-cli/src/html_entities.rs:19-76 [replace_html_entities]. *)
Definition replace_html_entities (input : str) : option str :=
  match position (N.eqb 38) input with
  | None => Some input
  | Some i => entity_loop (S (List.length input)) [] input i
  end.

(** ** replace.rs *)

Inductive display := Inline | Block.
Definition display_eqb (a b : display) : bool :=
  match a, b with Inline, Inline | Block, Block => true | _, _ => false end.

(** [memchr::memmem::Finder::find] (external crate): start of the first occurrence. *)
Fixpoint find_sub (needle hay : str) : option nat :=
  if starts_with needle hay then Some O
  else match hay with
       | [] => None
       | _ :: r => option_map S (find_sub needle r)
       end.

(** crates/math-core-cli/src/replace.rs:74-105 [Replacer] (the finders are represented by
    their needles). *)
Record replacer := {
  inline_open : str; inline_close : str;
  block_open : str; block_close : str;
  ignore_escaped : bool
}.

Definition closing_identical (r : replacer) : bool := str_eqb (inline_close r) (block_close r).

(** Results of a search: [SFuel] stands for a loop that does not end. *)
Inductive search {A} := SFound (a : A) | SNone | SFuel.
Arguments search : clear implicits.

(** crates/math-core-cli/src/replace.rs:290-305: the loop over escaped occurrences. *)
Fixpoint find_unescaped_loop (fuel : nat) (input needle : str) (offset : nat) : search nat :=
  match fuel with
  | O => SFuel
  | S fuel' =>
      match find_sub needle (skipn offset input) with
      | None => SNone
      | Some rel =>
          let abs := (offset + rel)%nat in
          if (0 <? abs)%nat && (nth (abs - 1) input 0 =? 92)
          then find_unescaped_loop fuel' input needle (abs + List.length needle)
          else SFound abs
      end
  end.

(** crates/math-core-cli/src/replace.rs:280-306 [find_delimiter_position]. *)
Definition find_delimiter_position (esc : bool) (input needle : str) : search nat :=
  if esc then find_unescaped_loop (S (List.length input)) input needle 0
  else match find_sub needle input with Some p => SFound p | None => SNone end.

(** crates/math-core-cli/src/replace.rs:239-277: the window loop.  [usize] saturation of
    the window is not modelled (a document is shorter than [isize::MAX]). *)
Fixpoint find_next_loop (fuel : nat) (esc : bool) (inl blk input : str) (window : nat)
  : search (display * nat) :=
  match fuel with
  | O => SFuel
  | S fuel' =>
      let end_ := Nat.min window (List.length input) in
      let haystack := firstn end_ input in
      let max_len := Nat.max (List.length inl) (List.length blk) in
      let check (found : display * nat) :=
        let needed := (snd found + max_len)%nat in
        if (end_ <? needed)%nat && (end_ <? List.length input)%nat
        then find_next_loop fuel' esc inl blk input needed
        else SFound found in
      match find_delimiter_position esc haystack inl, find_delimiter_position esc haystack blk with
      | SFuel, _ | _, SFuel => SFuel
      | SFound i, SFound b => if (b <=? i)%nat then check (Block, b) else check (Inline, i)
      | SFound i, SNone => check (Inline, i)
      | SNone, SFound b => check (Block, b)
      | SNone, SNone =>
          if (end_ =? List.length input)%nat then SNone
          else find_next_loop fuel' esc inl blk input (2 * window)
      end
  end.

(** crates/math-core-cli/src/replace.rs:222-277 [find_next_delimiter]; [w] is
    [INITIAL_WINDOW]. *)
Definition find_next_delimiter (w : nat) (r : replacer) (input : str) (opening : bool)
  : search (display * nat) :=
  let '(i, b) := if opening then (inline_open r, block_open r) else (inline_close r, block_close r) in
  find_next_loop (List.length input + 3) (ignore_escaped r) i b input w.

Definition initial_window : nat := N.to_nat 1024.

Definition opening_len (r : replacer) (d : display) : nat :=
  match d with Inline => List.length (inline_open r) | Block => List.length (block_open r) end.
Definition closing_len (r : replacer) (d : display) : nat :=
  match d with Inline => List.length (inline_close r) | Block => List.length (block_close r) end.

(** crates/math-core-cli/src/replace.rs:13-18 [ConvErrKind], with positions; [RPanic] is
    the [unwrap_err] on line 199 hitting an [Ok], [RFuel] a loop that does not end. *)
Inductive rresult {E} :=
| ROk (out : str)
| RUnclosed (open_pos : nat)
| RNested (pos : nat)
| RMismatched (open_pos close_pos : nat)
| RLatex (pos : nat) (e : E) (content : str)
| RPanic
| RFuel.
Arguments rresult : clear implicits.

Section Replace.
  Context {S E : Type}.
  (** The conversion closure (main.rs:249-260): new state and either the text to append
      or an error; it writes to the buffer only on success. *)
  Variable f : S -> str -> display -> S * (str + E).
  Variable w : nat.
  Variable r : replacer.

  (** crates/math-core-cli/src/replace.rs:124-208: the main loop.  [pos] is
      [current_pos], [remaining] is [input[pos..]]. *)
  Fixpoint replace_loop (fuel : nat) (st : S) (result remaining : str) (pos : nat)
    : S * rresult E :=
    match remaining with
    | [] => (st, ROk result)
    | _ =>
      match fuel with
      | O => (st, RFuel)
      | Datatypes.S fuel' =>
        match find_next_delimiter w r remaining true with
        | SFuel => (st, RFuel)
        | SNone => (st, ROk (result ++ remaining))
        | SFound (open_typ, idx) =>
            let open_pos := (pos + idx)%nat in
            let result := result ++ firstn idx remaining in
            let start := (open_pos + opening_len r open_typ)%nat in
            let rem2 := skipn (idx + opening_len r open_typ) remaining in
            match find_next_delimiter w r rem2 false with
            | SFuel => (st, RFuel)
            | SNone => (st, RUnclosed open_pos)
            | SFound (close_typ, idx2) =>
                if negb (closing_identical r) && negb (display_eqb open_typ close_typ)
                then (st, RMismatched open_pos (start + idx2))
                else
                  let content := firstn idx2 rem2 in
                  match find_next_delimiter w r content true with
                  | SFuel => (st, RFuel)
                  | SFound (_, i) => (st, RNested (start + i))
                  | SNone =>
                      match replace_html_entities content with
                      | None => (st, RFuel)
                      | Some replaced =>
                          match f st replaced open_typ with
                          | (st', inl out) =>
                              replace_loop fuel' st' (result ++ out)
                                (skipn (idx2 + closing_len r close_typ) rem2)
                                (start + idx2 + closing_len r close_typ)
                          | (st', inr _) =>
                              match f st' replaced open_typ with
                              | (st'', inr e) => (st'', RLatex start e replaced)
                              | (st'', inl _) => (st'', RPanic)
                              end
                          end
                      end
                  end
            end
        end
      end
    end.

  (** crates/math-core-cli/src/replace.rs:111-211 [replace]. *)
  Definition replace (st : S) (input : str) : S * rresult E :=
    replace_loop (Datatypes.S (List.length input)) st [] input 0.
End Replace.

(** crates/math-core-cli/src/replace.rs:55-72 [line_and_col]; [chars] is the input as
    scalar values, [i] the byte index of the next one. *)
Fixpoint line_and_col_loop (chars : str) (i loc : nat) (line col : N) : N * N :=
  match chars with
  | [] => (line, col)
  | ch :: rest =>
      if (loc <=? i)%nat then (line, col)
      else if ch =? 10 then line_and_col_loop rest (i + len_utf8 ch) loc (line + 1) 1
      else line_and_col_loop rest (i + len_utf8 ch) loc line (col + 1)
  end.
Definition line_and_col (loc : nat) (input : str) : N * N := line_and_col_loop input 0 loc 1 1.
