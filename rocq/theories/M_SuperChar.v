(** Model of crates/mathml-renderer/src/super_char.rs: a [char] packed with a variation
    selector and overlay flags into a [u32] (here an [N]). *)
From Verif Require Import Str.

(** super_char.rs:31-40 *)
Definition VS_MASK : N := 0xF0000000.
Definition CHAR_MASK : N := 0x001FFFFF.
Definition SOLIDUS_BIT : N := 0x08000000.
Definition VERTICAL_LINE_BIT : N := 0x04000000.
(** [!m] on [u32] *)
Definition u32_not (m : N) : N := 0xFFFFFFFF - m.

Definition superchar := N.

(** super_char.rs:107-109 [from_char] *)
Definition sc_from_char (c : N) : superchar := c.

(** super_char.rs:114-119 [from_char_with_vs] (the [debug_assert!] is not modelled);
    [vs] is the discriminant 1..15 of [VariationSelector]. *)
Definition sc_from_char_with_vs (c vs : N) : superchar := N.lor c (N.shiftl vs 28).

(** super_char.rs:131-133 [has_vs] *)
Definition sc_has_vs (s : superchar) : bool := negb (N.land s VS_MASK =? 0).

(** super_char.rs:138-158 [vs]: the discriminant, [None] for 0.  Values above 15
    ([unreachable!]) cannot occur for a [u32]. *)
Definition sc_vs (s : superchar) : option N :=
  let v := N.shiftr s 28 in if v =? 0 then None else Some v.

(** super_char.rs:188-191 [base_char] *)
Definition sc_base_char (s : superchar) : N := N.land s CHAR_MASK.

(** super_char.rs:197-204 [try_as_char] *)
Definition sc_try_as_char (s : superchar) : option N :=
  if N.land s CHAR_MASK =? s then Some (sc_base_char s) else None.

(** super_char.rs:350-439 [PRECOMPOSED_SOLIDUS_OVERLAY_SORTED] *)
Definition solidus_sorted : list (N * N) :=
  [ (0x003C, 0x226E); (0x003D, 0x2260); (0x003E, 0x226F); (0x2190, 0x219A);
    (0x2192, 0x219B); (0x2194, 0x21AE); (0x219A, 0x219A); (0x219B, 0x219B);
    (0x21AE, 0x21AE); (0x21CD, 0x21CD); (0x21CE, 0x21CE); (0x21CF, 0x21CF);
    (0x21D0, 0x21CD); (0x21D2, 0x21CF); (0x21D4, 0x21CE); (0x2203, 0x2204);
    (0x2204, 0x2204); (0x2208, 0x2209); (0x2209, 0x2209); (0x220B, 0x220C);
    (0x220C, 0x220C); (0x2223, 0x2224); (0x2224, 0x2224); (0x2225, 0x2226);
    (0x2226, 0x2226); (0x223C, 0x2241); (0x2241, 0x2241); (0x2243, 0x2244);
    (0x2244, 0x2244); (0x2245, 0x2247); (0x2247, 0x2247); (0x2248, 0x2249);
    (0x2249, 0x2249); (0x224D, 0x226D); (0x2260, 0x2260); (0x2261, 0x2262);
    (0x2262, 0x2262); (0x2264, 0x2270); (0x2265, 0x2271); (0x226D, 0x226D);
    (0x226E, 0x226E); (0x226F, 0x226F); (0x2270, 0x2270); (0x2271, 0x2271);
    (0x2272, 0x2274); (0x2273, 0x2275); (0x2274, 0x2274); (0x2275, 0x2275);
    (0x2276, 0x2278); (0x2277, 0x2279); (0x2278, 0x2278); (0x2279, 0x2279);
    (0x227A, 0x2280); (0x227B, 0x2281); (0x227C, 0x22E0); (0x227D, 0x22E1);
    (0x2280, 0x2280); (0x2281, 0x2281); (0x2282, 0x2284); (0x2283, 0x2285);
    (0x2284, 0x2284); (0x2285, 0x2285); (0x2286, 0x2288); (0x2287, 0x2289);
    (0x2288, 0x2288); (0x2289, 0x2289); (0x2291, 0x22E2); (0x2292, 0x22E3);
    (0x22A2, 0x22AC); (0x22A8, 0x22AD); (0x22A9, 0x22AE); (0x22AB, 0x22AF);
    (0x22AC, 0x22AC); (0x22AD, 0x22AD); (0x22AE, 0x22AE); (0x22AF, 0x22AF);
    (0x22B2, 0x22EA); (0x22B3, 0x22EB); (0x22B4, 0x22EC); (0x22B5, 0x22ED);
    (0x22E0, 0x22E0); (0x22E1, 0x22E1); (0x22E2, 0x22E2); (0x22E3, 0x22E3);
    (0x22EA, 0x22EA); (0x22EB, 0x22EB); (0x22EC, 0x22EC); (0x22ED, 0x22ED) ].

(** Array update. *)
Fixpoint set_nth {A} (n : nat) (x : A) (l : list A) : list A :=
  match l, n with
  | [], _ => []
  | _ :: r, O => x :: r
  | y :: r, S k => y :: set_nth k x r
  end.

(** super_char.rs:333-341 [eytzingerise]; the recursion depth is at most the number of
    bits of the array length, [fuel] bounds it. *)
Fixpoint eytzingerise (fuel : nat) (data : list (N * N)) (i k : nat) : list (N * N) * nat :=
  match fuel with
  | O => (data, i)
  | S f =>
      if (k <? length data)%nat then
        let '(data, i) := eytzingerise f data i (2 * k) in
        let data := set_nth k (nth i solidus_sorted (0, 0)) data in
        eytzingerise f data (i + 1) (2 * k + 1)
      else (data, i)
  end.

(** super_char.rs:327-345 [PRECOMPOSED_SOLIDUS_OVERLAY_EYTZINGER] *)
Definition solidus_eytzinger : list (N * N) :=
  fst (eytzingerise 8 (repeat (0, 0) (length solidus_sorted + 1)) 0 1).

(** super_char.rs:297-307: the search loop; [k] at least doubles. *)
Fixpoint eytzinger_search (fuel : nat) (bmp : N) (k : nat) : nat :=
  match fuel with
  | O => k
  | S f =>
      if (k <? length solidus_eytzinger)%nat then
        let key := fst (nth k solidus_eytzinger (0, 0)) in
        if key <? bmp then eytzinger_search f bmp (2 * k + 1)
        else if key =? bmp then k
        else eytzinger_search f bmp (2 * k)
      else k
  end.

(** super_char.rs:291-317 [get_precomposed_solidus_overlay] *)
Definition get_precomposed_solidus_overlay (c : N) : option N :=
  if 0xFFFF <? c then None
  else
    let k := eytzinger_search 8 c 1 in
    if (k =? 0)%nat || (length solidus_eytzinger <=? k)%nat then None
    else
      let slot := nth k solidus_eytzinger (0, 0) in
      if fst slot =? c then Some (snd slot) else None.

Inductive overlay := Solidus | VerticalLine.

(** super_char.rs:165-182 [with_overlay] *)
Definition sc_with_overlay (s : superchar) (o : overlay) : superchar :=
  match o with
  | Solidus =>
      match (if negb (sc_has_vs s) then get_precomposed_solidus_overlay (sc_base_char s) else None) with
      | Some p => N.lor (N.land s (u32_not CHAR_MASK)) p
      | None => N.lor s SOLIDUS_BIT
      end
  | VerticalLine => N.lor s VERTICAL_LINE_BIT
  end.

(** super_char.rs:260-286: the iterator's [next]: yielded char and new state. *)
Definition sc_next (s : N) : option (N * N) :=
  let base := N.land s CHAR_MASK in
  if negb (base =? CHAR_MASK) then Some (base, N.lor s CHAR_MASK)
  else match sc_vs s with
       | Some v => Some (0xFDFF + v, N.land s (u32_not VS_MASK))
       | None =>
           if negb (N.land s SOLIDUS_BIT =? 0) then Some (0x338, N.land s (u32_not SOLIDUS_BIT))
           else if negb (N.land s VERTICAL_LINE_BIT =? 0)
                then Some (0x20D2, N.land s (u32_not VERTICAL_LINE_BIT))
                else None
       end.

Fixpoint sc_chars_go (fuel : nat) (s : N) : option str :=
  match fuel with
  | O => None
  | S f => match sc_next s with
           | None => Some []
           | Some (c, s') => option_map (cons c) (sc_chars_go f s')
           end
  end.
(** All characters of a [SuperChar] ([chars], [Display]); [None] would mean more than four. *)
Definition sc_chars (s : superchar) : option str := sc_chars_go 5 s.
