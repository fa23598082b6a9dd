(** Colors in formulas. *)
From Verif Require Import Str M_SuperChar M_Transform M_Length M_Spec M_Ast M_Emit M_Output M_Token M_Symbols M_Commands M_Env
  M_LatexError M_Lexer M_CustomCmds M_Queue M_Spacing M_Colors M_Leaf M_TextParser M_Parser M_Api
  S_Queue S_Scripts S_Formula S_Color L_FormLex.
Local Open Scope nat_scope.

Lemma known_char c : known (char_token c) = true.
Proof.
  unfold char_token. repeat match goal with |- context [if ?b then _ else _] => destruct b; [reflexivity|] end.
  destruct (get_operator_from_unicode c) as [t|] eqn:E; [|reflexivity].
  unfold get_operator_from_unicode in E. destruct (assoc_n c UNICODE_OPERATORS) as [u|] eqn:A; [injection E as <-|discriminate].
  assert (H : forallb (fun p => known (T_MathOrTextMode (snd p) 0%N)) UNICODE_OPERATORS = true) by (vm_compute; reflexivity).
  clear -A H. induction UNICODE_OPERATORS as [|[d v] r IH]; [discriminate|]. cbn [assoc_n forallb snd] in *. apply andb_prop in H as [H1 H2].
  destruct (_ =? _)%N; [|now apply IH]. injection A as ->. exact H1.
Qed.

Lemma known_lit s : forallb known (map lit_tok s) = true.
Proof. apply forallb_forall. intros t H. apply in_map_iff in H as (c & <- & _). unfold lit_tok. destruct (_ =? _)%N; [reflexivity|apply known_char]. Qed.

Definition letters (s : str) : list item := map (fun c => Item (HSym (SChar c) []) []) s.
Definition color_item (args : list arg) : item := Item (HSym (SName (lit "color")) args) [].

Lemma model_ended mean model desc c k : color_in model desc = Some c -> all_ended (item_toks mean) (item_ended mean) model k = true.
Proof.
  unfold color_in. destruct (all_some _ model) as [m|] eqn:E; [|discriminate]. intros _. revert m E. induction model as [|i l IH]; intros m E; [reflexivity|]. cbn [all_some] in E.
  destruct i as [[[a|?|?] [|? ?]|?|?|?|? ? ?|? ? ?] [|? ?]]; try discriminate E. destruct (is_ascii_alpha a); [|discriminate]. destruct (all_some _ l) as [m'|]; [|discriminate]. exact (IH m' eq_refl).
Qed.
Lemma color_meaning cfg um gs st args c l ns gs' : name_meaning cfg gs (lit "color") = T_Color ->
  forallb known (flat_map (arg_toks (name_meaning cfg gs)) args) = true ->
  ((exists name, args = [ALit name] /\ get_color name = Some c) \/ (exists model desc, args = [ABracket model; ALit desc] /\ color_in model desc = Some c)) ->
  snippet_meaning cfg um gs st l = Some (ns, gs') ->
  snippet_meaning cfg um gs st (color_item args :: l) = Some ([Row ns (mkRowAttrs (Some c) None false)], gs').
Proof.
  intros N K C E. unfold snippet_meaning in *. set (mean := name_meaning cfg gs) in *.
  assert (T : flat_map (item_toks mean) (color_item args :: l) = T_Color :: flat_map (arg_toks mean) args ++ flat_map (item_toks mean) l).
  { cbn [flat_map color_item item_toks head_toks raw app]. rewrite N, app_nil_r. reflexivity. }
  rewrite T. cbn [forallb]. rewrite forallb_app, K. cbn [known unwrap_math andb].
  assert (En : formula_ended mean (color_item args :: l) = formula_ended mean l).
  { change (formula_ended mean (color_item args :: l)) with ((all_ended (arg_toks mean) (arg_ended mean) args ([] ++ flat_map (item_toks mean) l ++ []) && true) && formula_ended mean l).
    destruct C as [(name & -> & _)|(model & desc & -> & C)]; [reflexivity|].
    change (all_ended (arg_toks mean) (arg_ended mean) [ABracket model; ALit desc] ?k) with (all_ended (item_toks mean) (item_ended mean) model (T_SquareBracketClose :: flat_map (arg_toks mean) [ALit desc] ++ k) && true).
    now rewrite (model_ended _ _ _ _ _ C). }
  rewrite En. destruct ((pc_ignore_unknown cfg || _) && _) eqn:B; [|discriminate]. unfold den in *. cbn [den_items color_item]. unfold tok. cbn [raw]. rewrite N. cbn [unwrap_math].
  destruct (den_items mean um (den_item mean um) (snippet_ctx st) ClEnd ClOpen [] None l (snippet_nu gs)) as [[ns0 d]|] eqn:D; [|discriminate]. injection E as -> <-.
  destruct C as [(name & -> & C)|(model & desc & -> & C)]; unfold dguard; cbn [snippet_ctx cx_bracket negb]; unfold dbind, dopt; rewrite C; cbn [dret]; rewrite D; reflexivity.
Qed.

Lemma model_letters model desc : In model color_models -> color_in (letters model) desc = color_of model desc.
Proof. intros [<-|[<-|[<-|[]]]]; reflexivity. Qed.
Lemma model_ok model : In model color_models -> forallb item_ok (letters model) = true /\ flat_map item_text (letters model) = model.
Proof. intros [<-|[<-|[<-|[]]]]; vm_compute; split; reflexivity. Qed.
Lemma model_known mean model : In model color_models -> forallb known (flat_map (item_toks mean) (letters model)) = true.
Proof. intros [<-|[<-|[<-|[]]]]; vm_compute; reflexivity. Qed.

Lemma color_parsed cfg um gs st args c l ns gs' : name_meaning cfg gs (lit "color") = T_Color ->
  forallb known (flat_map (arg_toks (name_meaning cfg gs)) args) = true -> forallb arg_ok args = true ->
  ((exists name, args = [ALit name] /\ get_color name = Some c) \/ (exists model desc, args = [ABracket model; ALit desc] /\ color_in model desc = Some c)) ->
  formula_ok l = true -> snippet_meaning cfg um gs st l = Some (ns, gs') ->
  exists F, forall f, F <= f -> parse_snippet cfg um f gs (formula_text (color_item args :: l)) st = (Ok [Row ns (mkRowAttrs (Some c) None false)], gs').
Proof.
  intros N K A C O E. apply (snippet_of_meaning cfg um gs st _ ([Row ns (mkRowAttrs (Some c) None false)], gs')).
  - unfold formula_ok in *. cbn [forallb color_item item_ok head_ok sym_ok]. rewrite A, O. reflexivity.
  - now apply color_meaning.
Qed.
