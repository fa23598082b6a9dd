(** Symbols have the characters and the classes that they have in TeX (C63). *)
From Coq Require Import String.
From Verif Require Import Str M_SuperChar M_Length M_Spec M_Ast M_Token M_Symbols M_Commands M_Env M_LatexError M_Lexer M_CustomCmds M_Queue
  M_Spacing M_Leaf M_Parser M_Emit S_Html S_Store S_Emit S_MathML S_Spacing S_Queue S_Scripts S_Formula S_Api S_Dictionary S_UnicodeMath
  L_DictRow L_UnicodeMath P_Formula P_Dictionary.

(** A name of unicode-math that the code knows is the symbol of the table, in each configuration; this fails for exactly
    those that are listed as others. *)
Theorem C63_unicode_math_partial : forall n c k, In (n, (c, k)) unicode_math ->
  listed um_others n = false <->
  forall allow_unreliable conventional t, resolve_builtin allow_unreliable conventional n = Some t -> is_symbol (unwrap_math t) c (um_atom k).
Proof. exact (table_out um_atom um_others unicode_math um_holds). Qed.
(** Likewise for the names of LaTeX. *)
Theorem C63_latex_partial : forall n c a, In (n, (c, a)) latex ->
  listed latex_others n = false <->
  forall allow_unreliable conventional t, resolve_builtin allow_unreliable conventional n = Some t -> is_symbol (unwrap_math t) c a.
Proof. exact (table_out (fun a => a) latex_others latex latex_holds). Qed.
(** And for the characters of unicode-math, if they can be typed. *)
Theorem C63_characters_partial :
  (forall n c k, In (n, (c, k)) unicode_math -> sym_char_ok c = true -> existsb (N.eqb c) um_char_others = false -> is_symbol (unwrap_math (char_token c)) c (um_atom k)) /\
  (forall c, existsb (N.eqb c) um_char_others = true -> exists n k, In (n, (c, k)) unicode_math /\ ~ is_symbol (unwrap_math (char_token c)) c (um_atom k)).
Proof. split; [exact char_out|exact char_exact]. Qed.
(** A symbol with a name is the same as its character, but for those listed. *)
Theorem C63_typed_partial : forall allow_unreliable conventional n t c a, resolve_builtin allow_unreliable conventional n = Some t -> is_symbol (unwrap_math t) c a ->
  listed unlike_typed n = false -> is_symbol (unwrap_math (char_token c)) c a.
Proof. exact typed_out. Qed.
(** Not all: these are relations as commands and letters as characters. *)
Theorem C63_typed_refuted : Forall (fun p =>
    (exists t, resolve_builtin false false (lit (fst p)) = Some t /\ is_symbol (unwrap_math t) (snd p) ARel) /\ is_symbol (unwrap_math (char_token (snd p))) (snd p) AOrd)
  [("therefore", 0x2234); ("because", 0x2235); ("Yleft", 0x2919); ("Yright", 0x291a); ("circlearrowleft", 0x21ba); ("circlearrowright", 0x21bb);
   ("dashleftarrow", 0x21e0); ("dashrightarrow", 0x21e2); ("blacktriangleleft", 0x25c0); ("blacktriangleright", 0x25b6)]%string.
Proof. apply unlike_out. vm_compute. reflexivity. Qed.
(** Symbols of LaTeX with another class: [\bigcirc], [\dag] and [\ddag] are letters instead of operators, [\backepsilon] is a
    letter instead of a relation and [\colon] instead of punctuation, and the triangles are relations instead of operators. *)
Theorem C63_latex_refuted : Forall (fun p => exists c a t, In (lit (fst p), (c, a)) latex /\ a <> snd p /\ resolve_builtin false false (lit (fst p)) = Some t /\ is_symbol (unwrap_math t) c (snd p))
  [("bigcirc", AOrd); ("dag", AOrd); ("ddag", AOrd); ("backepsilon", AOrd); ("colon", AOrd); ("lhd", ARel); ("rhd", ARel); ("unlhd", ARel); ("unrhd", ARel);
   ("ddots", ARel); ("vdots", ARel)]%string.
Proof. apply unlike_latex_out. vm_compute. reflexivity. Qed.
(** In texts without definitions: symbols of the tables are drawn with their characters, and with the spaces that TeX puts between
    atoms of their classes. *)
Theorem C63_text : forall cfg usize_max gs st l ns gs' ys v postfix_first lenient e,
  pc_custom cfg = cmds_empty -> gs_cmds gs = cmds_empty -> forallb (item_known (pc_allow_unreliable cfg) (pc_conventional cfg)) l = true -> forallb usual l = true -> formula_ok l = true ->
  snippet_meaning cfg usize_max gs st l = Some (ns, gs') -> all_some item_symbol l = Some ys -> exceptional st None (map snd ys) = false ->
  exists F, forall f, (F <= f)%nat ->
    exists ns, fst (parse_snippet cfg usize_max f gs (formula_text l) st) = Ok ns /\
      map (fun y => xml_chars (core y)) (flat_map (mathml e) ns) = map fst ys /\
      gaps (row_spaces v postfix_first lenient (flat_map (mathml e) ns)) = tex_spacing st (map snd ys).
Proof.
  intros cfg um gs st l ns gs' ys v pf len e C G K U O E Y X. destruct (symbols_items cfg gs l C G ys K Y) as (A & T & B).
  destruct (C52_parsed cfg um gs st l ns gs' O E) as (F & P). exists F. intros f L. exists ns. rewrite (P f L). split; [reflexivity|]. split.
  - unfold snippet_meaning in E. destruct (_ && _); [|discriminate E]. destruct (den _ _ _ _ _) as [[ns0 d]|] eqn:D; [|discriminate E]. injection E as -> _. unfold den in D.
    destruct (items_shown (name_meaning cfg gs) um e (snippet_ctx st) l eq_refl _ _ _ _ _ _ A B D) as (ns' & -> & Z). cbn [app]. now rewrite Z, T.
  - apply (C61_row cfg um gs st l ns gs' (map snd ys) v pf len e E A); [|exact X]. rewrite forallb_forall in *. intros i I. apply usual_fits; [exact C|exact G|now apply U].
Qed.
Example C63_nonvacuous :
  let sym c := Item (HSym (SChar c) []) [] in
  let l := [i1 "alpha"; sym 0x2264; num "12"; i1 "oplus"; i3 "x" [] [FSup (a1 "2")]; i1 "therefore"; i3 "sum" [] [FSub (a1 "i")]; i1 "lfloor"; sym 0x221e; i1 "rfloor"] in
  let atoms := [AOrd; ARel; AOrd; ABin; AOrd; ARel; AOp; AOpen; AOrd; AClose] in
  formula_ok l = true /\ forallb usual l = true /\ forallb (item_known (pc_allow_unreliable plain_cfg) (pc_conventional plain_cfg)) l = true /\
  all_some item_symbol l = Some (combine [[0x3b1]; [0x2264]; lit "12"; [0x2295]; [120]; [0x2234]; [0x2211]; [0x230a]; [0x221e]; [0x230b]] atoms) /\
  exceptional StDisplay None atoms = false /\ match snippet_meaning plain_cfg 1000 gs_default StDisplay l with Some _ => true | None => false end = true /\
  tex_spacing StDisplay atoms = [5; 5; 4; 4; 5; 5; 0; 0; 0] /\
  (length (filter (fun p => match resolve_builtin false false (fst p) with Some _ => negb (listed um_others (fst p)) | None => false end) unicode_math),
   length um_others, length latex, length latex_others, length um_char_others, length unlike_typed) = (361, 20, 427, 11, 72, 31)%nat.
Proof. cbv zeta. repeat (split; [vm_compute; reflexivity|]). vm_compute. reflexivity. Qed.

Print Assumptions C63_unicode_math_partial.
Print Assumptions C63_latex_partial.
Print Assumptions C63_characters_partial.
Print Assumptions C63_typed_partial.
Print Assumptions C63_typed_refuted.
Print Assumptions C63_latex_refuted.
Print Assumptions C63_text.
Print Assumptions C63_nonvacuous.
