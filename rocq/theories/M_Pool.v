(** Model of crates/math-core/src/string_pool.rs and split_on_ascii.rs, on UTF-8 bytes. *)
From Verif Require Import Str.

(** string_pool.rs:9 [InternedStr] *)
Definition interned := (nat * nat)%type.
(** string_pool.rs:22 [StringPool]: the bytes of the string *)
Definition pool := list N.
(** string_pool.rs:26-30 [intern] *)
Definition intern (p : pool) (s : str) : interned * pool :=
  let p' := p ++ utf8 s in ((length p, length p'), p').
(** string_pool.rs:33-37 [get]: the bytes of the slice; [None] is the panic of a slice out of range *)
Definition pool_get (p : pool) (i : interned) : option (list N) :=
  if ((fst i <=? snd i) && (snd i <=? length p))%nat
  then Some (firstn (snd i - fst i) (skipn (fst i) p)) else None.

(** [slice::split] on bytes *)
Fixpoint split_bytes (sep : N -> bool) (l : list N) : list (list N) :=
  match l with
  | [] => [[]]
  | b :: r => if sep b then [] :: split_bytes sep r
              else match split_bytes sep r with
                   | p :: ps => (b :: p) :: ps
                   | [] => [[b]]
                   end
  end.
(** split_on_ascii.rs:1-7, before the unchecked conversion to [str] *)
Definition split_on_ascii_bytes (s : str) (c : N) : list (list N) :=
  split_bytes (fun b => (c <? 128) && (b =? c)) (utf8 s).

(** The same on characters: what the parser works with once the pieces are strings. *)
Fixpoint split_char (c : N) (s : str) : list str :=
  match s with
  | [] => [[]]
  | x :: r => if x =? c then [] :: split_char c r
              else match split_char c r with
                   | p :: ps => (x :: p) :: ps
                   | [] => [[x]]
                   end
  end.
