(** Specification of combined characters: a plain record and its text. *)
From Verif Require Import Str M_SuperChar.

Record cchar := {
  cc_base : N;
  cc_vs : N;            (* 0: none, 1..15: VS1..VS15 *)
  cc_solidus : bool;
  cc_vline : bool
}.

Definition cc_valid (c : cchar) : Prop := is_scalar (cc_base c) = true /\ cc_vs c < 16.

(** The text it stands for. *)
Definition cc_text (c : cchar) : str :=
  cc_base c ::
  (if cc_vs c =? 0 then [] else [0xFDFF + cc_vs c]) ++
  (if cc_solidus c then [0x338] else []) ++
  (if cc_vline c then [0x20D2] else []).

Fixpoint assoc_n (k : N) (m : list (N * N)) : option N :=
  match m with
  | [] => None
  | (k', v) :: r => if k =? k' then Some v else assoc_n k r
  end.

(** Adding a solidus: use the precomposed character of the table if there is no variation
    selector, else mark the overlay. *)
Definition cc_add_solidus (c : cchar) : cchar :=
  match (if cc_vs c =? 0 then assoc_n (cc_base c) solidus_sorted else None) with
  | Some p => {| cc_base := p; cc_vs := cc_vs c; cc_solidus := cc_solidus c; cc_vline := cc_vline c |}
  | None => {| cc_base := cc_base c; cc_vs := cc_vs c; cc_solidus := true; cc_vline := cc_vline c |}
  end.
Definition cc_add_vline (c : cchar) : cchar :=
  {| cc_base := cc_base c; cc_vs := cc_vs c; cc_solidus := cc_solidus c; cc_vline := true |}.

(** The packed representation. *)
Definition cc_pack (c : cchar) : N :=
  cc_base c + 2 ^ 26 * ((if cc_vline c then 1 else 0) + (if cc_solidus c then 2 else 0) + 4 * cc_vs c).

(** [built s r]: the packed character [s] was obtained by the operations that give [r]. *)
Inductive built : superchar -> cchar -> Prop :=
| B_char c : is_scalar c = true ->
    built (sc_from_char c) {| cc_base := c; cc_vs := 0; cc_solidus := false; cc_vline := false |}
| B_vs c v : is_scalar c = true -> v < 16 ->
    built (sc_from_char_with_vs c v) {| cc_base := c; cc_vs := v; cc_solidus := false; cc_vline := false |}
| B_sol s r : built s r -> built (sc_with_overlay s Solidus) (cc_add_solidus r)
| B_vl s r : built s r -> built (sc_with_overlay s VerticalLine) (cc_add_vline r).
