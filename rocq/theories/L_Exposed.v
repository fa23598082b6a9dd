(** Trees built by the parser are clean, operator names and unknown commands aside. *)
From Verif Require Import Str M_SuperChar M_Transform M_Length M_Spec M_Escape M_Ast M_Emit M_Output M_Token M_Symbols M_Commands M_Env
  M_LatexError M_Lexer M_CustomCmds M_Queue M_Spacing M_Colors M_Leaf M_TextParser M_Parser M_Api
  S_SuperChar S_Html S_Node S_Store S_Emit S_Tree S_Exposed S_Convert
  L_SuperChar L_Escape L_Node L_Emit L_Tree L_Sound L_Leaf L_Convert.

Lemma no_markup_content s : forallb (fun c => negb (markup_char c)) s = true -> content_safe s.
Proof.
  intros H. assert (K : forall c, In c s -> markup_char c = false).
  { intros c Hc. rewrite forallb_forall in H. apply H in Hc. now apply negb_true_iff in Hc. }
  split; [intros X; now apply K in X|]. split; [intros X; now apply K in X|].
  intros a b E. assert (X : In 38 s) by (rewrite E; apply in_or_app; right; now left). now apply K in X.
Qed.
Lemma unmarked s : ~ has_markup s -> content_safe s.
Proof.
  intros H. apply no_markup_content. apply forallb_forall. intros c Hc. apply negb_true_iff. destruct (markup_char c) eqn:E; [|reflexivity].
  destruct H. apply existsb_exists. now exists c.
Qed.
Lemma plain_text c : sc_plain c = true -> content_safe (sc_text c).
Proof.
  unfold sc_plain. intros H. apply andb_prop in H as [V H]. apply negb_true_iff in H. apply sc_valid_inv in V as (x & V & ->).
  rewrite unpack_pack in H by exact V. unfold sc_text. rewrite chars_pack by exact V. apply no_markup_content.
  unfold cc_text. cbn [forallb]. rewrite H. cbn [negb andb]. rewrite !forallb_app. destruct V as [_ V].
  apply andb_true_iff; split; [|apply andb_true_iff; split].
  - destruct (cc_vs x =? 0) eqn:E; [reflexivity|]. cbn [forallb]. rewrite andb_true_r. unfold markup_char.
    destruct (N.eqb_spec (0xFDFF + cc_vs x) 60), (N.eqb_spec (0xFDFF + cc_vs x) 62), (N.eqb_spec (0xFDFF + cc_vs x) 38); try lia; reflexivity.
  - now destruct (cc_solidus x).
  - now destruct (cc_vline x).
Qed.
Lemma digits_text s : forallb digit_or_dot s = true -> content_safe s.
Proof.
  intros H. apply no_markup_content. apply forallb_forall. intros c Hc. rewrite forallb_forall in H. apply H in Hc.
  unfold digit_or_dot, is_ascii_digit in Hc. unfold markup_char. destruct (N.eqb_spec c 60), (N.eqb_spec c 62), (N.eqb_spec c 38); subst; try reflexivity; discriminate.
Qed.
Lemma typed_label l : forallb typed_char l = true -> label_ok l.
Proof.
  intros H. split.
  - apply Forall_forall. intros c Hc. apply typed_scalars in H. rewrite forallb_forall in H. now apply H.
  - intros X. rewrite forallb_forall in H. now apply H in X.
Qed.
Lemma info_clean i : info_scalars i -> info_ok i.
Proof. destruct i as [[t [l|]]|]; cbn; try exact (fun _ => I). intros [_ H]. now apply typed_label. Qed.
Lemma leaf_ok_clean n : leaf_ok n -> ~ exposed n -> leaf_clean n.
Proof.
  destruct n; cbn [leaf_ok exposed leaf_clean]; try exact (fun _ _ => I); intros H K.
  - now apply digits_text.
  - now apply plain_text.
  - now apply unmarked.
  - exact H.
  - now apply typed_label.
  - now apply info_clean.
  - now apply info_clean.
  - now apply info_clean.
  - now apply unmarked.
Qed.
Lemma tree_ok_clean n : tree_ok n -> (forall m, below m n -> ~ exposed m) -> clean n.
Proof.
  induction n as [n IH] using node_ind'. intros T K. apply node_all_inv in T as [T1 T2]. constructor.
  - apply leaf_ok_clean; [exact T1|]. apply K. constructor.
  - intros c Hc. apply IH; [exact Hc|now apply T2|]. intros m Hm. apply K. now apply below_child with c.
Qed.
Lemma trees_clean ast : trees ast -> unexposed ast -> Forall clean ast.
Proof.
  intros T U. rewrite Forall_forall in *. intros n Hn. apply tree_ok_clean; [now apply T|]. intros m Hm. now apply (U n).
Qed.
Lemma parse_trees umax f pc gs latex d ast gs' : config_ok (pc_custom pc) -> gs_ok pc gs -> scalar_text latex ->
  parse umax f pc gs latex d = (Ok ast, gs') -> trees ast.
Proof.
  intros C D S E. destruct (snippet_good pc umax (fun _ => True) (fun _ _ _ _ => I) (fun _ _ _ _ _ _ => I) f gs latex (display_style d) C D S (fun _ _ => I)) as [_ H].
  unfold parse in E. rewrite E in H. apply H.
Qed.
