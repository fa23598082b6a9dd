(** The trees of the parser can be read back (C53). *)
From Verif Require Import Str M_SuperChar M_Transform M_Length M_Spec M_Escape M_Ast M_Emit M_Output M_Token M_Env
  S_SuperChar S_Html S_Node S_Store S_Emit S_Tree S_Exposed S_Convert S_MathML
  L_SuperChar L_Escape L_Node L_Emit L_Tree L_Sound L_Leaf L_Exposed.

Lemma unmarked_all s : forallb (fun c => negb (markup_char c)) s = true -> ~ has_markup s.
Proof.
  intros H X. apply existsb_exists in X as (c & Hc & M). rewrite forallb_forall in H. apply H in Hc. now rewrite M in Hc.
Qed.
Lemma plain_unmarked c : sc_plain c = true -> ~ has_markup (sc_text c).
Proof.
  unfold sc_plain. intros H. apply andb_prop in H as [V H]. apply negb_true_iff in H. apply sc_valid_inv in V as (x & V & ->).
  rewrite unpack_pack in H by exact V. unfold sc_text. rewrite chars_pack by exact V. apply unmarked_all.
  unfold cc_text. cbn [forallb]. rewrite H. cbn [negb andb]. rewrite !forallb_app. destruct V as [_ V].
  apply andb_true_iff; split; [|apply andb_true_iff; split].
  - destruct (cc_vs x =? 0) eqn:E; [reflexivity|]. cbn [forallb]. rewrite andb_true_r. unfold markup_char.
    destruct (N.eqb_spec (0xFDFF + cc_vs x) 60), (N.eqb_spec (0xFDFF + cc_vs x) 62), (N.eqb_spec (0xFDFF + cc_vs x) 38); try lia; reflexivity.
  - now destruct (cc_solidus x).
  - now destruct (cc_vline x).
Qed.
Lemma digits_unmarked s : forallb digit_or_dot s = true -> ~ has_markup s.
Proof.
  intros H. apply unmarked_all. apply forallb_forall. intros c Hc. rewrite forallb_forall in H. apply H in Hc.
  unfold digit_or_dot, is_ascii_digit in Hc. unfold markup_char. destruct (N.eqb_spec c 60), (N.eqb_spec c 62), (N.eqb_spec c 38); subst; try reflexivity; discriminate.
Qed.
Lemma leaf_ok_readable n : leaf_ok n -> ~ exposed n -> leaf_readable n.
Proof.
  destruct n; cbn [leaf_ok exposed leaf_readable]; try exact (fun _ _ => I); intros H K.
  - now apply digits_unmarked.
  - split; [now apply plain_unmarked|]. now apply andb_prop in H.
  - exact K.
  - exact H.
  - now apply typed_label.
  - now apply info_clean.
  - now apply info_clean.
  - now apply info_clean.
  - exact K.
Qed.
Lemma trees_readable ast : trees ast -> unexposed ast -> Forall readable ast.
Proof.
  intros T U. rewrite Forall_forall in *. intros n Hn. specialize (T n Hn).
  assert (K : forall m, below m n -> ~ exposed m) by (intros m Hm; now apply (U n)). clear U Hn ast.
  induction n as [n IH] using node_ind'. apply node_all_inv in T as [T1 T2]. constructor.
  - apply leaf_ok_readable; [exact T1|]. apply K. constructor.
  - intros c Hc. apply IH; [exact Hc|now apply T2|]. intros m Hm. apply K. now apply below_child with c.
Qed.
