(** Copying definitions to the store of the document. *)
From Verif Require Import Str M_SuperChar M_Ast M_Spec M_Token M_Symbols M_Commands M_Env M_LatexError M_Lexer M_CustomCmds M_Queue
  S_SuperChar S_Lexer S_Queue S_Store L_Lexer L_Queue L_Args L_Store L_Sound.
Local Open Scope nat_scope.

Lemma copied_ind2 local document (P : recorded -> recorded -> Prop)
  (H1 : forall r, (forall n cl a b, r <> RTok (T_CustomCmdRef SrcLocal n cl a b)) -> P r r)
  (H2 : forall n cl a b a' b' body body', slice_get local a b = Some body -> slice_get document a' b' = Some body' ->
     Forall2 (copied local document) body body' -> Forall2 P body body' ->
     P (RTok (T_CustomCmdRef SrcLocal n cl a b)) (RTok (T_CustomCmdRef SrcDocument n cl a' b'))) :
  forall r r', copied local document r r' -> P r r'.
Proof.
  fix IH 3. intros r r' [x N|n cl a b a' b' body body' S1 S2 F]; [now apply H1|].
  refine (H2 n cl a b a' b' body body' S1 S2 F _). clear S1 S2. revert body body' F.
  fix IHl 3. intros body body' [|x y l l' Hx Hl]; constructor; [apply IH, Hx|apply IHl, Hl].
Qed.

(** ** Lists *)

Lemma update_length {A} n (x : A) l : length (update_nth n x l) = length l.
Proof. revert n. induction l as [|y l IH]; intros [|n]; cbn [update_nth length]; auto. Qed.
Lemma nth_update {A} n (x : A) l : n < length l -> nth_error (update_nth n x l) n = Some x.
Proof. revert n. induction l as [|y l IH]; intros [|n] H; cbn [update_nth nth_error length] in *; try lia; [reflexivity|]. apply IH. lia. Qed.
Lemma nth_update_other {A} n m (x : A) l : n <> m -> nth_error (update_nth n x l) m = nth_error l m.
Proof. revert n m. induction l as [|y l IH]; intros [|n] [|m] H; cbn [update_nth nth_error]; auto; try lia. Qed.
Lemma nth_ext_list {A} (l l' : list A) : length l = length l' -> (forall i, nth_error l i = nth_error l' i) -> l = l'.
Proof.
  revert l'. induction l as [|x l IH]; intros [|y l'] H K; try discriminate; [reflexivity|].
  pose proof (K 0) as K0. cbn in K0. injection K0 as ->. f_equal. apply IH; [now injection H|]. intros i. exact (K (S i)).
Qed.
Lemma nth_slice {A} (l : list A) a b x i : slice_get l a b = Some x -> i < b - a -> nth_error x i = nth_error l (a + i).
Proof.
  intros H Hi. pose proof (slice_bound _ _ _ _ H) as [B1 B2]. unfold slice_get in H. destruct (_ && _); [|discriminate]. injection H as <-.
  rewrite <- (firstn_skipn a l) at 2. rewrite nth_error_app2; rewrite firstn_length; [|lia].
  replace (a + i - Nat.min a (length l)) with i by lia.
  rewrite <- (firstn_skipn (b - a) (skipn a l)) at 2. rewrite nth_error_app1; [reflexivity|]. rewrite firstn_length, skipn_length. lia.
Qed.
Lemma slice_length {A} (l : list A) a b x : slice_get l a b = Some x -> length x = b - a.
Proof.
  intros H. pose proof (slice_bound _ _ _ _ H) as [B1 B2]. unfold slice_get in H. destruct (_ && _); [|discriminate]. injection H as <-.
  rewrite firstn_length, skipn_length. lia.
Qed.
Lemma slice_some {A} (l : list A) a b : a <= b -> b <= length l -> exists x, slice_get l a b = Some x.
Proof.
  intros H1 H2. unfold slice_get. apply Nat.leb_le in H1, H2. rewrite H1, H2. cbn [andb]. eexists. reflexivity.
Qed.
Lemma Forall2_nth {A B} (R : A -> B -> Prop) l l' : length l = length l' ->
  (forall i x y, nth_error l i = Some x -> nth_error l' i = Some y -> R x y) -> Forall2 R l l'.
Proof.
  revert l'. induction l as [|x l IH]; intros [|y l'] H K; try discriminate; constructor.
  - exact (K 0 x y eq_refl eq_refl).
  - apply IH; [now injection H|]. intros i. exact (K (S i)).
Qed.
Lemma skipn_cons {A} (l : list A) i x : nth_error l i = Some x -> skipn i l = x :: skipn (S i) l.
Proof. revert i. induction l as [|y l IH]; intros [|i] H; cbn in *; try discriminate; [now injection H as ->|]. now apply IH. Qed.

Lemma skipn_update {A} i (x : A) l : skipn (S i) (update_nth i x l) = skipn (S i) l.
Proof.
  revert i. induction l as [|y l IH]; intros [|i]; try reflexivity. exact (IH i).
Qed.

(** ** The number of rounds *)

Section Absorb.
Context (local : custom_cmds).
Notation toks := (cc_tokens local).

(** References inside of the local store lead backwards. *)
Definition ref_end (r : recorded) : nat := match r with RTok (T_CustomCmdRef SrcLocal _ _ _ b) => b | _ => 0 end.
Definition has_body (r : recorded) : Prop :=
  match r with RTok (T_CustomCmdRef SrcLocal _ _ a b) => exists body, slice_get toks a b = Some body | _ => True end.
Definition backward : Prop := forall i r, nth_error toks i = Some r -> has_body r /\ ref_end r <= i.
Context (B : backward).

Lemma body_rank a b body r : slice_get toks a b = Some body -> In r body -> has_body r /\ ref_end r < b.
Proof.
  intros S I. destruct (slice_in _ _ _ _ _ S I) as (i & Hi & N). destruct (B i r N) as [H1 H2]. split; [exact H1|lia].
Qed.
Lemma rounds_stable : forall d d' r, has_body r -> ref_end r < d -> ref_end r < d' -> absorb_rounds d local r = absorb_rounds d' local r.
Proof.
  induction d as [|d IH]; intros d' r Hb H1 H2; [lia|]. destruct d' as [|d']; [lia|]. cbn [absorb_rounds].
  destruct r as [t|nm]; [|reflexivity]. destruct t; try reflexivity. destruct src; try reflexivity.
  unfold cmds_body. destruct (slice_get toks start stop) as [body|] eqn:E; [|reflexivity]. do 2 f_equal. cbn [ref_end] in *.
  apply map_ext_in. intros r I. destruct (body_rank _ _ _ _ E I) as [Hr Hlt]. apply IH; [exact Hr|lia|lia].
Qed.
Definition rounds (r : recorded) : nat := absorb_rounds (S (length toks)) local r.
Lemma ref_end_length r : has_body r -> ref_end r < S (length toks).
Proof.
  destruct r as [t|nm]; [|cbn; lia]. destruct t; try (cbn; lia). destruct src; try (cbn; lia). cbn [has_body ref_end].
  intros [body S]. apply slice_bound in S. lia.
Qed.
Lemma rounds_ref n cl a b body : slice_get toks a b = Some body ->
  rounds (RTok (T_CustomCmdRef SrcLocal n cl a b)) = S (list_sum (map rounds body)).
Proof.
  intros S. unfold rounds at 1. cbn [absorb_rounds]. unfold cmds_body. rewrite S. do 2 f_equal. apply map_ext_in. intros r I.
  destruct (body_rank _ _ _ _ S I) as [Hr Hlt]. pose proof (slice_bound _ _ _ _ S). apply rounds_stable; [exact Hr|lia|]. apply ref_end_length, Hr.
Qed.
Lemma rounds_pos r : 1 <= rounds r.
Proof.
  unfold rounds. cbn [absorb_rounds]. destruct r as [t|nm]; [|lia]. destruct t; try lia. destruct src; try lia.
  destruct (cmds_body local start stop); lia.
Qed.

(** ** The loop *)

Definition is_local (r : recorded) : Prop := exists n cl a b, r = RTok (T_CustomCmdRef SrcLocal n cl a b).
Lemma is_local_dec r : is_local r \/ forall n cl a b, r <> RTok (T_CustomCmdRef SrcLocal n cl a b).
Proof.
  destruct r as [t|nm]; [|right; discriminate]. destruct t; try (right; discriminate). destruct src; try (right; discriminate).
  left. do 4 eexists. reflexivity.
Qed.
(** [src] are the tokens as they were before their references were changed. The new token at [j]: *)
Definition redirected (start : nat) (src : list recorded) (r r' : recorded) : Prop :=
  match r with
  | RTok (T_CustomCmdRef SrcLocal n cl a b) =>
      exists a' b' body, r' = RTok (T_CustomCmdRef SrcDocument n cl a' b') /\ slice_get toks a b = Some body /\ slice_get src a' b' = Some body /\ start <= a'
  | _ => r' = r
  end.
Record going (start i : nat) (src cur : list recorded) : Prop := {
  g_len : length src = length cur;
  g_old : forall j, j < start -> nth_error cur j = nth_error src j;
  g_done : forall j r r', start <= j -> j < i -> nth_error src j = Some r -> nth_error cur j = Some r' -> redirected start src r r';
  g_todo : forall j, i <= j -> nth_error cur j = nth_error src j;
  g_body : forall j r, start <= j -> nth_error src j = Some r -> has_body r;
  g_start : start <= i }.

Lemma redirected_more start src more r r' : redirected start src r r' -> redirected start (src ++ more) r r'.
Proof.
  destruct r as [t|nm]; [|exact (fun x => x)]. destruct t; try exact (fun x => x). destruct src0; try exact (fun x => x).
  cbn [redirected]. intros (a' & b' & body & -> & H1 & H2 & H3). exists a', b', body. split; [reflexivity|]. split; [exact H1|]. split; [|exact H3].
  now apply slice_prefix.
Qed.
Lemma list_sum_app l l' : list_sum (l ++ l') = list_sum l + list_sum l'.
Proof. induction l as [|x l IH]; [reflexivity|]. change (x + list_sum (l ++ l') = x + list_sum l + list_sum l'). lia. Qed.

Lemma absorb_loop_spec start : forall fuel i src cur, going start i src cur -> i <= length cur ->
  list_sum (map rounds (skipn i cur)) <= fuel ->
  exists src' cur', absorb_loop fuel local cur i = Some cur' /\ extends src src' /\ going start (length cur') src' cur' /\
    (forall j, length src <= j -> forall r, nth_error src' j = Some r -> exists k, nth_error toks k = Some r).
Proof.
  induction fuel as [|f IH]; intros i src cur G Hi Hf.
  - assert (i = length cur) as ->.
    { destruct (Nat.eq_dec i (length cur)) as [E|E]; [exact E|exfalso]. destruct (nth_error cur i) as [r|] eqn:N; [|apply nth_error_None in N; lia].
      rewrite (skipn_cons _ _ _ N) in Hf. change (rounds r + list_sum (map rounds (skipn (S i) cur)) <= 0) in Hf. pose proof (rounds_pos r). lia. }
    exists src, cur. cbn [absorb_loop]. rewrite Nat.ltb_irrefl. split; [reflexivity|]. split; [apply extends_refl|]. split; [exact G|].
    intros j Hj r Hr. assert (j < length src) by (apply nth_error_Some; congruence). lia.
  - cbn [absorb_loop]. destruct (i <? length cur) eqn:L.
    2: { apply Nat.ltb_ge in L. assert (i = length cur) as -> by lia. exists src, cur. split; [reflexivity|]. split; [apply extends_refl|]. split; [exact G|].
         intros j Hj r Hr. assert (j < length src) by (apply nth_error_Some; congruence). lia. }
    apply Nat.ltb_lt in L. destruct (nth_error cur i) as [r|] eqn:N; [|apply nth_error_None in N; lia].
    pose proof N as Ns. rewrite (g_todo _ _ _ _ G i (le_n _)) in Ns.
    rewrite (skipn_cons _ _ _ N) in Hf. change (rounds r + list_sum (map rounds (skipn (S i) cur)) <= S f) in Hf.
    destruct (is_local_dec r) as [(n & cl & a & b & ->)|Nl].
    + pose proof (g_body _ _ _ _ G i _ (g_start _ _ _ _ G) Ns) as [body Hb]. rewrite (rounds_ref _ _ _ _ _ Hb) in Hf.
      unfold cmds_body. rewrite Hb. set (new := RTok (T_CustomCmdRef SrcDocument n cl (length cur) (length (cur ++ body)))).
      assert (G' : going start (S i) (src ++ body) (update_nth i new (cur ++ body))).
      { destruct G as [G1 G2 G3 G4 G5 G6]. constructor.
        - rewrite update_length, !app_length. lia.
        - intros j Hj. rewrite nth_update_other by lia. rewrite !nth_error_app1 by lia. now apply G2.
        - intros j r r' Hj1 Hj2 Hs Hc. destruct (Nat.eq_dec j i) as [->|Ne].
          + rewrite nth_error_app1 in Hs by lia. rewrite Ns in Hs. injection Hs as <-.
            rewrite nth_update in Hc by (rewrite app_length; lia). injection Hc as <-. cbn [redirected].
            exists (length cur), (length (cur ++ body)), body. split; [reflexivity|]. split; [exact Hb|]. split; [|lia].
            rewrite app_length, <- G1. unfold slice_get. rewrite app_length.
            assert (X : (length src <=? length src + length body) && (length src + length body <=? length src + length body) = true).
            { apply andb_true_intro. split; apply Nat.leb_le; lia. }
            rewrite X. f_equal. rewrite skipn_app, skipn_all, Nat.sub_diag. cbn [app skipn]. rewrite firstn_all2; [reflexivity|lia].
          + rewrite nth_update_other in Hc by lia. rewrite nth_error_app1 in Hs, Hc by lia.
            apply redirected_more. apply (G3 j); [lia|lia|assumption|assumption].
        - intros j Hj. rewrite nth_update_other by lia. destruct (Nat.lt_ge_cases j (length cur)) as [Hl|Hl].
          + rewrite !nth_error_app1 by lia. apply G4. lia.
          + rewrite !nth_error_app2 by lia. now rewrite G1.
        - intros j r Hj Hs. destruct (Nat.lt_ge_cases j (length src)) as [Hl|Hl].
          + rewrite nth_error_app1 in Hs by lia. now apply (G5 j).
          + rewrite nth_error_app2 in Hs by lia. apply nth_error_In in Hs. exact (proj1 (body_rank _ _ _ _ Hb Hs)).
        - lia. }
      assert (Hsk : skipn (S i) (update_nth i new (cur ++ body)) = skipn (S i) cur ++ body).
      { replace (skipn (S i) cur ++ body) with (skipn (S i) (cur ++ body)).
        2: { rewrite skipn_app. replace (S i - length cur) with 0 by lia. reflexivity. }
        apply skipn_update. }
      destruct (IH (S i) (src ++ body) _ G') as (src' & cur' & E & X & G2 & K).
      * rewrite update_length, app_length. lia.
      * rewrite Hsk, map_app, list_sum_app. lia.
      * exists src', cur'. split; [exact E|]. split; [eapply extends_trans; [apply extends_app|exact X]|]. split; [exact G2|].
        intros j Hj r Hr. destruct (Nat.lt_ge_cases j (length (src ++ body))) as [Hl|Hl]; [|exact (K j Hl r Hr)].
        destruct X as [more ->]. rewrite nth_error_app1 in Hr by lia. rewrite nth_error_app2 in Hr by lia. apply nth_error_In in Hr.
        destruct (slice_in _ _ _ _ _ Hb Hr) as (k & _ & Hk). now exists k.
    + assert (G' : going start (S i) src cur).
      { destruct G as [G1 G2 G3 G4 G5 G6]. constructor; auto; [|intros; apply G4; lia].
        intros j r0 r' Hj1 Hj2 Hs Hc. destruct (Nat.eq_dec j i) as [->|Ne]; [|apply (G3 j); auto; lia].
        rewrite Ns in Hs. rewrite N in Hc. injection Hs as <-. injection Hc as <-. destruct r as [t|nm]; [|reflexivity]. destruct t; try reflexivity.
        destruct src0; try reflexivity. destruct (Nl _ _ _ _ eq_refl). }
      match goal with |- exists _ _, ?m = _ /\ _ => assert (El : m = absorb_loop f local cur (S i)) end.
      { destruct r as [t|nm]; [|reflexivity]. destruct t; try reflexivity. destruct src0; try reflexivity. destruct (Nl _ _ _ _ eq_refl). }
      rewrite El. pose proof (rounds_pos r). destruct (IH (S i) src cur G') as (src' & cur' & E & X & G2 & K); [lia|lia|]. eauto 8.
Qed.

(** ** The result *)

Lemma absorb_copied start src cur : going start (length cur) src cur -> forall m j r r', start <= j -> nth_error src j = Some r -> nth_error cur j = Some r' ->
  ref_end r < m -> copied toks cur r r'.
Proof.
  intros G. induction m as [|m IH]; intros j r r' Hj Hs Hc Hm; [lia|].
  assert (Hjl : j < length cur) by (apply nth_error_Some; congruence).
  pose proof (g_done _ _ _ _ G j r r' Hj Hjl Hs Hc) as R.
  destruct (is_local_dec r) as [(n & cl & a & b & ->)|Nl].
  - destruct R as (a' & b' & body & -> & S1 & S2 & Ha). pose proof (slice_bound _ _ _ _ S2) as [B1 B2].
    destruct (slice_some cur a' b' B1) as [body' S3]; [now rewrite <- (g_len _ _ _ _ G)|].
    apply (copied_ref _ _ _ _ _ _ _ _ body body'); [exact S1|exact S3|]. apply Forall2_nth.
    + now rewrite (slice_length _ _ _ _ S2), (slice_length _ _ _ _ S3).
    + intros i x y Hx Hy. assert (i < b' - a') by (rewrite <- (slice_length _ _ _ _ S2); apply nth_error_Some; congruence).
      assert (Rx : ref_end x < b) by exact (proj2 (body_rank _ _ _ _ S1 (nth_error_In _ _ Hx))).
      rewrite (nth_slice _ _ _ _ _ S2) in Hx by exact H. rewrite (nth_slice _ _ _ _ _ S3) in Hy by exact H.
      apply (IH (a' + i)); [lia|exact Hx|exact Hy|]. cbn [ref_end] in Hm. lia.
  - assert (r' = r) as ->.
    { destruct r as [t|nm]; [|exact R]. destruct t; try exact R. destruct src0; try exact R. destruct (Nl _ _ _ _ eq_refl). }
    now apply copied_same.
Qed.

Lemma absorb_spec c body : Forall has_body body ->
  exists new, absorb c local body = Some (mkCmds (cc_tokens c ++ new) (cc_map c), length (cc_tokens c), length (cc_tokens c) + length body) /\
  exists src, Forall2 (copied toks (cc_tokens c ++ new)) src new /\ extends body src /\
    (forall r, In r src -> In r body \/ In r toks).
Proof.
  intros F. unfold absorb. set (start := length (cc_tokens c)). set (cur := cc_tokens c ++ body).
  assert (G : going start start cur cur).
  { constructor; auto; [intros; lia|]. intros j r Hj Hr. unfold cur in Hr. rewrite nth_error_app2 in Hr by exact Hj. apply nth_error_In in Hr.
    rewrite Forall_forall in F. now apply F. }
  destruct (absorb_loop_spec start (absorb_fuel local body) start cur cur G) as (src' & cur' & E & X & G2 & K).
  - unfold cur, start. rewrite app_length. lia.
  - unfold cur, start. rewrite skipn_app, skipn_all, Nat.sub_diag. cbn [skipn app]. unfold absorb_fuel. apply le_n.
  - fold cur. rewrite E.
    assert (P1 : firstn start src' = cc_tokens c).
    { destruct X as [more ->]. unfold cur, start. rewrite <- app_assoc. rewrite firstn_app, Nat.sub_diag, firstn_all. cbn [firstn]. apply app_nil_r. }
    assert (Le : start <= length src').
    { destruct X as [more ->]. unfold cur, start. rewrite !app_length. lia. }
    assert (P2 : firstn start cur' = cc_tokens c).
    { rewrite <- P1. apply nth_ext_list; [rewrite !firstn_length, (g_len _ _ _ _ G2); reflexivity|].
      intros i. destruct (Nat.lt_ge_cases i start) as [Hl|Hl].
      - pose proof (g_old _ _ _ _ G2 i Hl) as O. rewrite <- (firstn_skipn start cur'), <- (firstn_skipn start src') in O.
        rewrite !nth_error_app1 in O by (rewrite firstn_length, ?(g_len _ _ _ _ G2); rewrite ?(g_len _ _ _ _ G2) in Le; lia). exact O.
      - rewrite (proj2 (nth_error_None _ _)), (proj2 (nth_error_None _ _)); [reflexivity| |]; rewrite firstn_length; lia. }
    assert (Ec : cc_tokens c ++ skipn start cur' = cur'). { rewrite <- P2. apply firstn_skipn. }
    exists (skipn start cur'). rewrite Ec. split. { unfold cur, start. now rewrite app_length. }
    exists (skipn start src'). split; [|split].
    + apply Forall2_nth; [rewrite !skipn_length, (g_len _ _ _ _ G2); reflexivity|]. intros i x y Hx Hy.
      assert (Nx : nth_error src' (start + i) = Some x). { rewrite <- (firstn_skipn start src'). rewrite nth_error_app2; rewrite firstn_length; [|lia]. rewrite <- Hx. f_equal. lia. }
      assert (Ny : nth_error cur' (start + i) = Some y).
      { pose proof (g_len _ _ _ _ G2). rewrite <- (firstn_skipn start cur'). rewrite nth_error_app2; rewrite firstn_length; [|lia]. rewrite <- Hy. f_equal. lia. }
      apply (absorb_copied start src' cur' G2 (S (ref_end x)) (start + i)); [lia|exact Nx|exact Ny|lia].
    + destruct X as [more ->]. exists more. unfold cur, start. rewrite <- app_assoc, skipn_app, skipn_all, Nat.sub_diag. reflexivity.
    + intros r Hr. destruct X as [more ->]. unfold cur, start in Hr. rewrite <- app_assoc, skipn_app, skipn_all, Nat.sub_diag in Hr. cbn [skipn app] in Hr.
      apply in_app_or in Hr as [Hr|Hr]; [now left|right]. apply In_nth_error in Hr as [k Hk].
      destruct (K (length cur + k)) with (r := r) as [k' Hk']; [lia| |exact (nth_error_In _ _ Hk')].
      rewrite nth_error_app2 by lia. rewrite <- Hk. f_equal. lia.
Qed.
End Absorb.
