(** Sound tokens and stores: what is read is sound, and definitions keep it so. *)
From Verif Require Import Str M_SuperChar M_Ast M_Spec M_Token M_Symbols M_Commands M_Env M_LatexError M_Lexer M_CustomCmds M_Queue
  S_SuperChar S_Lexer S_Queue S_Store L_SuperChar L_Lexer L_Queue L_Args L_Store.
Local Open Scope nat_scope.

(** ** Characters *)

Lemma pack_bits c n : cc_valid c -> (21 <= n)%N -> N.testbit (cc_pack c) n = N.testbit (hi c) (n - 21).
Proof.
  intros [Hs _] Hn. apply scalar_lt21 in Hs. rewrite pack_hi, testbit_split by exact Hs.
  destruct (N.ltb_spec n 21); [lia|reflexivity].
Qed.
Lemma unpack_pack c : cc_valid c -> sc_unpack (cc_pack c) = c.
Proof.
  intros V. unfold sc_unpack. rewrite pack_low_mask, pack_shiftr, !pack_bits by (assumption || lia).
  destruct V as [_ Hv]. destruct c as [b v s l]. cbn [cc_base cc_vs cc_solidus cc_vline] in *.
  assert (X : N.testbit (hi (Build_cchar b v s l)) (27 - 21) = s /\ N.testbit (hi (Build_cchar b v s l)) (26 - 21) = l).
  { unfold hi. cbn [cc_base cc_vs cc_solidus cc_vline]. pose proof (vs_cases v Hv) as I. cbn [In] in I.
    repeat (destruct I as [<-|I]; [destruct s, l; vm_compute; split; reflexivity|]). destruct I. }
  destruct X as [-> ->]. reflexivity.
Qed.
Lemma sc_valid_pack c : cc_valid c -> sc_valid (cc_pack c) = true.
Proof.
  intros V. unfold sc_valid. rewrite unpack_pack by exact V. destruct V as [V1 V2]. rewrite V1, N.eqb_refl. apply N.ltb_lt in V2. now rewrite V2.
Qed.
Lemma sc_valid_inv s : sc_valid s = true -> exists c, cc_valid c /\ s = cc_pack c.
Proof.
  unfold sc_valid. intros H. apply andb_prop in H as [H H3]. apply andb_prop in H as [H1 H2]. exists (sc_unpack s). split.
  - split; [exact H1|]. now apply N.ltb_lt.
  - apply N.eqb_eq in H3. now rewrite H3.
Qed.
Lemma sc_valid_char c : is_scalar c = true -> sc_valid (sc_from_char c) = true.
Proof. intros H. rewrite from_char_pack. apply sc_valid_pack. split; [exact H|reflexivity]. Qed.
Lemma sc_valid_chars s : sc_valid s = true -> exists t, sc_chars s = Some t.
Proof. intros H. apply sc_valid_inv in H as (c & V & ->). rewrite chars_pack by exact V. eauto. Qed.

(** ** Lexed tokens *)

Lemma letter_ok c m : is_scalar c = true -> markup_char c = false -> tok_okb (T_Letter c m) = true.
Proof.
  intros H Hm. cbn [tok_okb]. unfold chars_ok. cbn [tok_superchars tok_text forallb letters_ok]. change c with (sc_from_char c).
  rewrite (sc_valid_char c H). rewrite from_char_pack, unpack_pack by (split; [exact H|reflexivity]). cbn [cc_base]. now rewrite Hm.
Qed.
Lemma char_token_ok c : is_scalar c = true -> tok_okb (char_token c) = true.
Proof.
  intros H. unfold char_token.
  repeat match goal with |- context [if (c =? ?x)%N then _ else _] => destruct (c =? x)%N eqn:?; [vm_compute; reflexivity|] end.
  assert (Hm : markup_char c = false) by (unfold markup_char; repeat match goal with E : (c =? _)%N = false |- _ => rewrite E; clear E end; reflexivity).
  destruct (is_ascii_digit c) eqn:D. { cbn [tok_okb]. unfold chars_ok. cbn [tok_superchars tok_text forallb letters_ok]. now rewrite H, D. }
  destruct (is_ascii_alpha c); [now apply letter_ok|].
  unfold get_operator_from_unicode. destruct (M_Lexer.assoc_n c UNICODE_OPERATORS) eqn:E; [|now apply letter_ok].
  assert (T : tok_okb t = true).
  { destruct tables_ok as (_ & _ & _ & T & _). revert T E. generalize UNICODE_OPERATORS.
    intros m. induction m as [|[k v] m IH]; cbn [M_Lexer.assoc_n forallb fst snd]; [discriminate|].
    intros T. apply andb_prop in T as [T1 T2]. destruct (c =? k)%N; [|now apply IH]. now intros [= <-]. }
  assert (Tp : math_plain t = true).
  { pose proof unicode_plain as U. clear T. revert U E. generalize UNICODE_OPERATORS.
    intros m. induction m as [|[k v] m IH]; cbn [M_Lexer.assoc_n forallb fst snd]; [discriminate|].
    intros U. apply andb_prop in U as [T1 T2]. destruct (c =? k)%N; [|now apply IH]. now intros [= <-]. }
  cbn [tok_okb]. rewrite T, Tp. unfold chars_ok. cbn [tok_superchars tok_text forallb letters_ok]. now rewrite H.
Qed.

Definition out_okb (o : lexer_output) : bool :=
  match o with LexTok (t, _) => tok_okb t | LexCmd n _ => forallb is_scalar n end.
Lemma forallb_suffix {A} (p : A -> bool) l a b : l = a ++ b -> forallb p l = true -> forallb p a = true /\ forallb p b = true.
Proof. intros -> H. rewrite forallb_app in H. now apply andb_prop in H. Qed.

Lemma next_token_sound l : forallb is_scalar (lx_rest l) = true ->
  forallb is_scalar (lx_rest (snd (next_token l))) = true /\
  match fst (next_token l) with inl o => out_okb o = true | inr _ => True end.
Proof.
  intros H. split.
  { destruct (lex_at_any l) as [input A]. destruct (next_token_ok input l A) as [[[a [Ca _]] _] _]. exact (proj2 (forallb_suffix _ _ _ _ Ca H)). }
  rewrite next_token_eq. destruct (skip_whitespace l) as [[w|] l1]; [reflexivity|]. cbn zeta.
  destruct (after_comments_suffix (lx_rest l)) as [pre Hpre].
  match goal with |- context [mkLexer ?a ?b] => set (l2 := mkLexer a b) end.
  pose proof (proj2 (forallb_suffix _ _ _ _ Hpre H)) as H2. clear Hpre.
  destruct (after_comments (lx_rest l)) as [|c r]; [reflexivity|].
  pose proof H2 as H2'. cbn [forallb] in H2'. apply andb_prop in H2' as [Hc Hr]. unfold lex_char.
  destruct (c =? 0)%N; [exact I|].
  destruct (c =? 35)%N.
  { destruct r as [|d r']; [exact I|]. destruct (is_ascii_digit d) eqn:D; [|exact I]. destruct (d =? 48)%N; [exact I|].
    cbn [fst out_okb tok_okb]. apply andb_true_intro. split; [reflexivity|]. apply Nat.ltb_lt. unfold is_ascii_digit in D.
    apply andb_prop in D as [D1 D2]. apply N.leb_le in D1, D2. lia. }
  destruct (c =? 92)%N; [|cbn [fst out_okb]; now apply char_token_ok].
  pose proof (read_command_consumed (lex_advance l2 [c] r)) as [E _]. destruct (read_command (lex_advance l2 [c] r)) as [cmd l3]. cbn [fst snd] in E.
  destruct (skip_whitespace l3) as [o4 l4]. unfold parse_env_marker.
  destruct (str_eqb cmd (lit "begin")); cbn [orb].
  + destruct (skip_whitespace l4) as [o5 l5]. destruct (read_env_name l5) as [[[nm e]|[[ch|] es]] l6]; try exact I.
    destruct (env_from_str nm); [reflexivity|exact I].
  + destruct (str_eqb cmd (lit "end")).
    * destruct (skip_whitespace l4) as [o5 l5]. destruct (read_env_name l5) as [[[nm e]|[[ch|] es]] l6]; try exact I.
      destruct (env_from_str nm); [reflexivity|exact I].
    * cbn [fst out_okb]. exact (proj1 (forallb_suffix _ _ _ _ E Hr)).
Qed.
