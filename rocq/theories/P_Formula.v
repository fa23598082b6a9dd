(** Parsing gives the meaning of a formula (C52). *)
From Verif Require Import Str M_SuperChar M_Transform M_Length M_Spec M_Ast M_Emit M_Output M_Token M_Symbols M_Commands M_Env
  M_LatexError M_Lexer M_CustomCmds M_Queue M_Spacing M_Leaf M_TextParser M_Parser M_Api
  S_Queue S_Scripts S_Formula S_Api L_FormLex.
Local Open Scope nat_scope.

(** The text of a formula that has a meaning is parsed, and the result is the meaning; the numbers and the labels
    become what the meaning says, and the definitions stay as they are. *)
Theorem C52_parsed : forall cfg usize_max gs st l ns gs', formula_ok l = true -> snippet_meaning cfg usize_max gs st l = Some (ns, gs') ->
  exists F, forall f, F <= f -> parse_snippet cfg usize_max f gs (formula_text l) st = (Ok ns, gs').
Proof. intros cfg um gs st l ns gs' O E. exact (snippet_of_meaning cfg um gs st l (ns, gs') O E). Qed.
(** Its conversion gives the markup of the meaning. *)
Theorem C52_converted : forall cfg usize_max ec gs d l ns gs', formula_ok l = true -> snippet_meaning cfg usize_max gs (display_style d) l = Some (ns, gs') ->
  exists F, forall f, F <= f ->
    convert usize_max f ec cfg gs (formula_text l) d = (Ok (emit_document ec (label_lookup (gs_labels gs')) ns (formula_text l) d), gs').
Proof. intros cfg um ec gs d l ns gs' O E. destruct (C52_parsed cfg um gs _ l ns gs' O E) as (F & H). exists F. intros f L. unfold convert, parse. now rewrite (H f L). Qed.
(** For several formulas that are converted together each gives the markup of its meaning, with the labels of all of them. *)
Theorem C52_all : forall usize_max c l nss gs', forallb (fun s => formula_ok (fst s)) l = true ->
  session_meaning (cv_parser c) usize_max gs_default (map (fun s => (fst s, display_style (snd s))) l) = Some (nss, gs') ->
  exists F, forall f, F <= f ->
    convert_all usize_max f c (map (fun s => (formula_text (fst s), snd s)) l) =
    map (fun p => Ok (emit_document (cv_emitter c) (label_lookup (gs_labels gs')) (fst p) (formula_text (fst (snd p))) (snd (snd p)))) (combine nss l).
Proof.
  intros um c l nss gs' O E.
  assert (H : exists F, forall f, F <= f -> parse_each um f (cv_parser c) gs_default (map (fun s => (formula_text (fst s), snd s)) l) =
    (map (fun p => (Ok (fst p), formula_text (fst (snd p)), snd (snd p))) (combine nss l), gs')).
  { generalize dependent nss. generalize gs_default as gs. induction l as [|[x d] l IH]; intros gs nss E.
    - cbn [map session_meaning] in E. injection E as <- <-. exists 0. reflexivity.
    - cbn [map session_meaning fst snd forallb] in *. apply andb_prop in O as [O1 O2]. destruct (snippet_meaning _ _ _ _ x) as [[ns gs1]|] eqn:E1; [|discriminate]. destruct (session_meaning _ _ gs1 _) as [[rs gs2]|] eqn:E2; [|discriminate]. injection E as <- <-.
      destruct (C52_parsed _ _ _ _ _ _ _ O1 E1) as (F1 & H1). destruct (IH O2 _ _ E2) as (F2 & H2). exists (Nat.max F1 F2). intros f L. cbn [parse_each]. unfold parse. rewrite H1, H2 by lia. reflexivity. }
  destruct H as (F & H). exists F. intros f L. unfold convert_all. rewrite (H f L). rewrite map_map. reflexivity.
Qed.
(** So formulas with the same text have the same meaning. *)
Theorem C52_same_text : forall cfg usize_max gs st l1 l2 r1 r2, formula_ok l1 = true -> formula_ok l2 = true -> formula_text l1 = formula_text l2 ->
  snippet_meaning cfg usize_max gs st l1 = Some r1 -> snippet_meaning cfg usize_max gs st l2 = Some r2 -> r1 = r2.
Proof.
  intros cfg um gs st l1 l2 [n1 g1] [n2 g2] O1 O2 T E1 E2. destruct (C52_parsed _ _ _ _ _ _ _ O1 E1) as (F1 & H1). destruct (C52_parsed _ _ _ _ _ _ _ O2 E2) as (F2 & H2).
  specialize (H1 (Nat.max F1 F2) (Nat.le_max_l _ _)). specialize (H2 (Nat.max F1 F2) (Nat.le_max_r _ _)). rewrite T, H2 in H1. congruence.
Qed.

(** Formulas, their texts, and whether they have a meaning. *)
Example C52_nonvacuous :
  let means l := match snippet_meaning plain_cfg 1000 gs_default StDisplay l with Some (ns, gs) => Some (length ns, gs_count gs, gs_labels gs) | None => None end in
  let f3 := [i2 "genfrac" [a1 "("; AGroup []; ALit (lit "1pt"); AGroup [num "0"]; a1 "a"; AGroup [i1 "b"]]; i2 "cramped" [ABracket [i1 "textstyle"]; a1 "x"]; i2 "raisebox" [ALit (lit "2em"); ALit (lit "up")];
             i1 "foo"; i2 "color" [ABracket [i1 "H"; i1 "T"; i1 "M"; i1 "L"]; ALit (lit "FF8000")]; i1 "y"] in
  let f1 := [i1 "a"; i1 "+"; i2 "frac" [AGroup [i3 "x" [] [FPrimes [c1 "'"] None; FSub (a1 "i")]; i1 "over"; i1 "y"]; a1 "2"]; num "12.5";
             i3 "sum" [] [FSub (AGroup [i1 "i"; i1 "="; num "0"]); FSup (a1 "n")]; i2 "sqrt" [ABracket [i1 "n"]; AGroup [i1 "-"; i1 "x"]]] in
  let f2 := [Item (HEnv EAlign [] [i1 "a"; i1 "&"; i1 "="; Item (HFence (c1 "(") [i1 "b"; i2 "middle" [a1 "|"]; i1 "c"] (c1 ".")) [FSup (a1 "2")]; i2 "label" [ALit (lit "x y")]; next_row;
               i2 "tag" [ALit (lit "q")]; i1 "d"; next_row; i1 "&"; i2 "mathbf" [AGroup [Item (HWord [c1 "e"; c1 "1"]) []; i1 "displaystyle"; i2 "text" [ALit (lit "if x")]]]]) []; i2 "eqref" [ALit (lit "x y")]] in
  formula_text f1 = lit "a+\frac {x'_i\over y}212.5\sum _{i=0}^n\sqrt [n]{-x}" /\ formula_ok f1 = true /\ means f1 = Some (6, 0%N, []) /\
  formula_text f2 = lit "\begin{align}a&=\left (b\middle |c\right .^2\label {x y}\\ \tag {q}d\\ &\mathbf {e1\displaystyle \text {if x}}\end{align}\eqref {x y}" /\ formula_ok f2 = true /\
  means f2 = Some (2, 2%N, [(lit "x y", lit "1")]) /\
  (* unknown commands, which are ignored or not *)
  formula_text f3 = lit "\genfrac ({}{1pt}{0}a{b}\cramped [\textstyle ]x\raisebox {2em}{up}\foo \color [HTML]{FF8000}y" /\ formula_ok f3 = true /\ means f3 = None /\
  option_map (fun r => skipn 3 (fst r)) (snippet_meaning (mkCfg cmds_empty true false false true 1000) 1000 gs_default StDisplay f3) =
    Some [UnknownCommand (lit "foo"); Row [IdentifierChar (sc_from_char 121) LDefault] (mkRowAttrs (Some (255%N, 128%N, 0%N)) None false)] /\
  (* without a meaning: two subscripts; a closing brace without an opening one; an unknown command *)
  means [i3 "x" [] [FSub (a1 "i"); FSub (a1 "j")]] = None /\ means [i1 "}"] = None /\ means [i1 "unknown"] = None.
Proof. vm_compute. repeat split. Qed.
(** Commands with their arguments as arguments without braces: the scripts after them are theirs only if they are operators. *)
Example C52_items_nonvacuous :
  let means l := snippet_meaning plain_cfg 1000 gs_default StDisplay l in
  let has l := match means l with Some _ => true | None => false end in
  let f l := AItem (Item l []) in
  let f1 := [i3 "x" [] [FSub (f (HSym (SName (lit "mathrm")) [AGroup [Item (HWord [c1 "m"; c1 "a"; c1 "x"]) []]]))]; i3 "e" [] [FSup (f (HSym (SName (lit "text")) [ALit (lit "if x")]))];
             i2 "hat" [f (HSym (SName (lit "mathbf")) [a1 "x"])]; i3 "x" [] [FSup (f (HSym (SName (lit "frac")) [a1 "1"; a1 "2"])); FSub (a1 "i")];
             i2 "frac" [f (HFence (c1 "(") [i1 "a"] (c1 ")")); f (HSym (SName (lit "sqrt")) [f (HSym (SName (lit "bar")) [a1 "b"])])]] in
  formula_text f1 = lit "x_\mathrm {max}e^\text {if x}\hat \mathbf xx^\frac 12_i\frac \left (a\right )\sqrt \bar b" /\ formula_ok f1 = true /\ has f1 = true /\
  (* the scripts of an operator that is an argument are read with it *)
  (let g := [i2 "sqrt" [AItem (i3 "sum" [] [FSub (a1 "1"); FSup (a1 "2")])]] in formula_text g = lit "\sqrt \sum _1^2" /\ has g = true) /\
  (let g := [i3 "sqrt" [f (HSym (SName (lit "sum")) [])] [FSub (a1 "1"); FSup (a1 "2")]] in formula_text g = lit "\sqrt \sum _1^2" /\ has g = false) /\
  (* ... and those of another command are not *)
  (let g := [i2 "sqrt" [AItem (i3 "bar" [a1 "x"] [FSub (a1 "1")])]] in formula_text g = lit "\sqrt \bar x_1" /\ has g = false) /\
  (let g := [i3 "sqrt" [f (HSym (SName (lit "bar")) [a1 "x"])] [FSub (a1 "1")]] in formula_text g = lit "\sqrt \bar x_1" /\ has g = true) /\
  (* environments are not read as arguments, except for \overset and similar commands *)
  has [i2 "sqrt" [f (HEnv EMatrix [] [i1 "a"])]] = false /\ has [i2 "overset" [a1 "n"; f (HEnv EMatrix [] [i1 "a"])]] = true.
Proof. vm_compute. repeat split. Qed.
(** The scripts of [\sideset] stand around the operator, what comes after them beside it. *)
Example C52_sideset_nonvacuous :
  let means l := match snippet_meaning plain_cfg 1000 gs_default StDisplay l with Some (ns, _) => Some ns | None => None end in
  let side l r o ms := Item (HSym (SName (lit "sideset")) [l; r; o]) ms in
  let four := (AScripts [FSub (a1 "1"); FSup (a1 "2")] [], AScripts [FSub (a1 "3"); FSup (a1 "4")] []) in
  let f1 := [side (fst four) (snd four) (ASym (SName (lit "prod"))) [FSub (a1 "a"); FSup (a1 "b")]] in
  let f2 := [side (AScripts [] [i1 "x"]) (AScripts [FPrimes [c1 "'"] None] [i1 "y"]) (ASym (SName (lit "sum"))) [FLimits (SName (lit "nolimits")); FSub (a1 "a")]] in
  formula_text f1 = lit "\sideset {_1^2}{_3^4}\prod _a^b" /\ formula_ok f1 = true /\
  match means f1 with
  | Some [UnderOver (Multiscripts (Operator _ _ _ _ _) [(Number n1, Number n2)] [(Number n3, Number n4)]) (IdentifierChar 97%N _) (IdentifierChar 98%N _)] => [n1; n2; n3; n4]
  | _ => []
  end = [lit "1"; lit "2"; lit "3"; lit "4"] /\
  formula_text f2 = lit "\sideset {x}{'y}\sum \nolimits _a" /\ formula_ok f2 = true /\
  match means f2 with
  | Some [Sub (Row [Multiscripts (Row [IdentifierChar x _; Operator _ _ _ _ _] _) [_] [_]; IdentifierChar y _] _) _] => [x; y]
  | _ => []
  end = lit "xy" /\
  (* it wants an operator *)
  means [side (fst four) (snd four) (a1 "a") []] = None.
Proof. vm_compute. repeat split. Qed.
(** Scripts without a base stand at the start of a formula or of a group, on an empty row. *)
Example C52_lone_nonvacuous :
  let means l := match snippet_meaning plain_cfg 1000 gs_default StDisplay l with Some (ns, _) => Some ns | None => None end in
  let lone := i3 "^" [AGroup [num "14"]] [FSub (a1 "6")] in
  formula_text [lone; i1 "C"] = lit "^{14}_6C" /\ formula_ok [lone; i1 "C"] = true /\
  means [lone; i1 "C"] = Some [SubSup EMPTY_ROW (Number (lit "6")) (Number (lit "14")); IdentifierChar (sc_from_char 67) LDefault] /\
  means [i1 "a"; Item (HGroup [i2 "_" [a1 "1"]; i1 "b"]) []] =
    Some [IdentifierChar (sc_from_char 97) LDefault; Row [Sub EMPTY_ROW (Number (lit "1")); IdentifierChar (sc_from_char 98) LDefault] (mkRowAttrs None None false)] /\
  (* elsewhere the script belongs to what is in front of it *)
  means [i1 "C"; lone] = None /\ means [i3 "^" [a1 "1"] [FSup (a1 "2")]] = None.
Proof. vm_compute. repeat split. Qed.

Print Assumptions C52_parsed.
Print Assumptions C52_converted.
Print Assumptions C52_all.
Print Assumptions C52_same_text.
