(** Proofs about the mathematical alphabets. *)
From Verif Require Import Str M_SuperChar M_Transform S_SuperChar S_Transform L_Escape L_SuperChar.

Definition all_tf : list text_transform :=
  [ TBold; TBoldFraktur; TBoldItalic; TBoldSansSerif; TBoldScript; TDoubleStruck; TFraktur; TItalic;
    TMonospace; TSansSerif; TSansSerifBoldItalic; TSansSerifItalic; TScriptChancery; TScriptRoundhand ].
Lemma all_tf_in tf : In tf all_tf.
Proof. destruct tf; cbn; tauto. Qed.

Definition rule_hi (r : rule) : N := match r with Rng _ hi _ => hi | Pt c _ => c end.

Lemma rules_high tf c : 0x2211 < c -> apply_rules (rules tf) c = None.
Proof.
  intros H. assert (K : forallb (fun r => rule_hi r <=? 0x2211) (rules tf) = true) by (destruct tf; reflexivity).
  revert K. generalize (rules tf). induction l as [|r l IH]; intros K; [reflexivity|].
  cbn [forallb] in K. apply andb_true_iff in K as [K1 K]. apply N.leb_le in K1.
  cbn [apply_rules]. replace (apply_rule r c) with (@None N); [now apply IH|].
  destruct r as [lo hi off|a t]; cbn [apply_rule rule_hi] in *.
  - destruct (N.leb_spec c hi); [lia|]. now rewrite andb_false_r.
  - destruct (N.eqb_spec c a); [lia|reflexivity].
Qed.

Lemma styled_high tf c : 0x2211 < c -> unicode_styled tf c = None.
Proof.
  intros H. unfold unicode_styled.
  destruct (N.leb_spec c 0x5A); [lia|]. rewrite andb_false_r.
  destruct (N.leb_spec c 0x7A); [lia|]. rewrite andb_false_r.
  replace (index_of c greek_order) with (@None N).
  2:{ assert (K : forallb (fun x => x <=? 0x2211) greek_order = true) by reflexivity.
      revert K. generalize greek_order. induction l as [|x l IH]; intros K; [reflexivity|].
      cbn [forallb] in K. apply andb_true_iff in K as [K1 K]. apply N.leb_le in K1.
      cbn [index_of]. destruct (N.eqb_spec c x); [lia|]. now rewrite <- IH. }
  destruct (N.leb_spec c 0x39); [lia|]. rewrite andb_false_r.
  assert (K : forallb (fun p => fst p <=? 0x2211) (singles tf) = true) by (destruct tf; reflexivity).
  revert K. generalize (singles tf). induction l as [|[a b] l IH]; intros K; [reflexivity|].
  cbn [forallb fst] in K. apply andb_true_iff in K as [K1 K]. apply N.leb_le in K1.
  cbn [lookup_n]. destruct (N.eqb_spec c a); [lia|]. now apply IH.
Qed.

Definition oeqb (a b : option N) : bool :=
  match a, b with Some x, Some y => x =? y | None, None => true | _, _ => false end.
Lemma oeqb_eq a b : oeqb a b = true -> a = b.
Proof. destruct a, b; cbn; try discriminate; try reflexivity. intros H. apply N.eqb_eq in H. now subst. Qed.

Definition low_chars : list N := up_to (N.to_nat 0x2212) 0.
Lemma low_chars_in c : c <= 0x2211 -> In c low_chars.
Proof. intros H. apply up_to_in; [lia|]. rewrite N2Nat.id. lia. Qed.

(** Where the code deviates from Unicode: U+03A2 (unassigned, between rho and sigma) and
    fraktur I. *)
Definition exception_to (tf : text_transform) (c : N) : bool :=
  (c =? 0x3A2) || match tf with TFraktur => c =? 0x49 | _ => false end.

Lemma rules_sweep :
  forallb (fun tf => forallb (fun c => exception_to tf c || oeqb (apply_rules (rules tf) c) (unicode_styled tf c)) low_chars) all_tf
  = true.
Proof. vm_compute. reflexivity. Qed.

Lemma rules_follow_unicode tf c : exception_to tf c = false -> apply_rules (rules tf) c = unicode_styled tf c.
Proof.
  intros Hc. destruct (N.ltb_spec 0x2211 c) as [H|H].
  - now rewrite rules_high, styled_high.
  - pose proof rules_sweep as S. rewrite forallb_forall in S. specialize (S tf (all_tf_in tf)).
    cbv beta in S. rewrite forallb_forall in S. specialize (S c (low_chars_in c H)). cbv beta in S.
    rewrite Hc in S. now apply oeqb_eq.
Qed.

(** Repertoire: the characters with an image. *)
Definition image_pairs (tf : text_transform) : list (N * N) :=
  flat_map (fun c => match apply_rules (rules tf) c with Some t => [(c, t)] | None => [] end) low_chars.

Lemma image_pairs_in tf c t : apply_rules (rules tf) c = Some t -> In (c, t) (image_pairs tf).
Proof.
  intros H. unfold image_pairs. rewrite in_flat_map. exists c. split.
  - apply low_chars_in. destruct (N.ltb_spec 0x2211 c) as [K|K]; [|exact K].
    rewrite rules_high in H by exact K. discriminate.
  - rewrite H. now left.
Qed.

Definition pairs_inj (l : list (N * N)) : bool :=
  forallb (fun p => forallb (fun q => negb (snd p =? snd q) || (fst p =? fst q)
     || (fst p =? 0x3A2) || (fst q =? 0x3A2)) l) l.
Definition pairs_ok (l : list (N * N)) : bool :=
  forallb (fun p => is_scalar (snd p) && negb (snd p =? fst p) && (0x2100 <=? snd p)
                    && negb ((0x2200 <=? snd p) && (snd p <=? 0x1D3FF))) l.
Lemma images_sweep : forallb (fun tf => pairs_inj (image_pairs tf) && pairs_ok (image_pairs tf)) all_tf = true.
Proof. vm_compute. reflexivity. Qed.

Lemma image_props tf c t : apply_rules (rules tf) c = Some t ->
  is_scalar t = true /\ t <> c /\ 0x2100 <= t /\ ~ (0x2200 <= t <= 0x1D3FF).
Proof.
  intros H. apply image_pairs_in in H. pose proof images_sweep as S. rewrite forallb_forall in S.
  specialize (S tf (all_tf_in tf)). apply andb_true_iff in S as [_ S]. unfold pairs_ok in S.
  rewrite forallb_forall in S. specialize (S _ H). cbn [fst snd] in S.
  apply andb_true_iff in S as [S S4]. apply andb_true_iff in S as [S S3]. apply andb_true_iff in S as [S1 S2].
  split; [exact S1|]. split; [|split].
  - apply negb_true_iff, N.eqb_neq in S2. exact S2.
  - now apply N.leb_le.
  - apply negb_true_iff, andb_false_iff in S4. rewrite !N.leb_gt in S4. lia.
Qed.

Lemma image_inj tf c d t : apply_rules (rules tf) c = Some t -> apply_rules (rules tf) d = Some t ->
  c <> 0x3A2 -> d <> 0x3A2 -> c = d.
Proof.
  intros Hc Hd Nc Nd. apply image_pairs_in in Hc, Hd. pose proof images_sweep as S. rewrite forallb_forall in S.
  specialize (S tf (all_tf_in tf)). apply andb_true_iff in S as [S _]. unfold pairs_inj in S.
  rewrite forallb_forall in S. specialize (S _ Hc). cbv beta in S. rewrite forallb_forall in S.
  specialize (S _ Hd). cbn [fst snd] in S. rewrite N.eqb_refl in S. cbn [negb orb] in S.
  rewrite !orb_true_iff, !N.eqb_eq in S. destruct S as [[S|S]|S]; [exact S|contradiction|contradiction].
Qed.

(** ** transform_char *)

Definition style_vs (tf : text_transform) : N :=
  match tf with TScriptChancery => 1 | TScriptRoundhand => 2 | _ => 0 end.

Definition transformed (tf : text_transform) (c : N) : cchar :=
  match apply_rules (rules tf) c with
  | Some m => {| cc_base := m; cc_vs := style_vs tf; cc_solidus := false; cc_vline := false |}
  | None => {| cc_base := c; cc_vs := 0; cc_solidus := false; cc_vline := false |}
  end.

Lemma transformed_valid tf c : is_scalar c = true -> cc_valid (transformed tf c).
Proof.
  intros H. unfold transformed. destruct (apply_rules (rules tf) c) as [m|] eqn:E.
  - apply image_props in E as [E _]. split; [exact E|]. cbn. destruct tf; reflexivity.
  - split; [exact H|reflexivity].
Qed.

Lemma transform_char_pack tf c up : is_scalar c = true ->
  transform_char tf c up = cc_pack (transformed (effective tf up) c).
Proof.
  intros H. unfold transform_char, transformed. destruct (apply_rules (rules (effective tf up)) c) as [m|] eqn:E.
  - apply image_props in E as [Em _].
    destruct (effective tf up); cbn [style_vs];
      (apply from_char_pack || (apply from_char_with_vs_pack; [exact Em|reflexivity])).
  - apply from_char_pack.
Qed.

Lemma effective_vs tf up : style_vs (effective tf up) = style_vs tf.
Proof. destruct tf, up; reflexivity. Qed.

(** Characters of the repertoire are mapped by the code too. *)
Definition in_repertoire (tf : text_transform) (c : N) : bool :=
  match unicode_styled tf c with Some _ => true | None => false end.

Lemma repertoire_not_03A2 tf c : in_repertoire tf c = true -> c <> 0x3A2.
Proof. intros H ->. destruct tf; discriminate H. Qed.

Lemma repertoire_mapped tf c : in_repertoire tf c = true -> exists t, apply_rules (rules tf) c = Some t.
Proof.
  intros H. destruct (exception_to tf c) eqn:E.
  - unfold exception_to in E. apply orb_true_iff in E as [E|E].
    + apply N.eqb_eq in E. exfalso. now apply (repertoire_not_03A2 tf c).
    + destruct tf; try discriminate. apply N.eqb_eq in E. subst c. eexists. reflexivity.
  - unfold in_repertoire in H. rewrite (rules_follow_unicode tf c E).
    destruct (unicode_styled tf c) as [t|]; [now exists t|discriminate].
Qed.
Lemma not_repertoire_unmapped tf c : in_repertoire tf c = false -> c <> 0x3A2 -> apply_rules (rules tf) c = None.
Proof.
  intros H Hc. assert (E : exception_to tf c = false).
  { unfold exception_to. apply orb_false_iff. split; [now apply N.eqb_neq|].
    destruct tf; try reflexivity. apply N.eqb_neq. intros ->. discriminate H. }
  rewrite (rules_follow_unicode tf c E). unfold in_repertoire in H. now destruct (unicode_styled tf c).
Qed.
