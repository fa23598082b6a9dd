(** Proofs about environments and equation numbering. *)
From Verif Require Import Str M_Spec M_Ast M_Token M_Env S_Env.

Lemma env_eqb_eq a b : env_eqb a b = true <-> a = b.
Proof. destruct a, b; cbn; split; intros H; try discriminate; reflexivity. Qed.

Lemma env_round_trip e : env_from_str (env_as_str e) = Some e.
Proof. destruct e; vm_compute; reflexivity. Qed.

Lemma assoc_in {A} k (m : list (str * A)) v : assoc_str k m = Some v -> In (k, v) m.
Proof.
  induction m as [|[k' v'] m IH]; cbn [assoc_str]; [discriminate|].
  destruct (str_eqb k k') eqn:E; intros H.
  - injection H as ->. apply str_eqb_eq in E as ->. now left.
  - right; auto.
Qed.

Lemma env_from_name s e : env_from_str s = Some e -> env_as_str e = s.
Proof.
  intros H. apply assoc_in in H. revert H. unfold ENVIRONMENTS. cbn [In].
  intros H. repeat (destruct H as [H|H]; [injection H as <- <-; vm_compute; reflexivity|]). destruct H.
Qed.

(** ** Commands of one row *)

Lemma run_cmds_spec r : forall ne ne', run_cmds ne r = Some ne' ->
  ne_mode ne' = ne_mode ne /\ ne_suppress ne' = ne_suppress ne || row_notag r /\
  ne_custom_tag ne' = match row_tag r with Some t => Some t | None => ne_custom_tag ne end /\
  ne_label ne' = match ne_label ne with Some l => Some l | None => row_label r end /\
  ne_num_rows ne' = ne_num_rows ne.
Proof.
  induction r as [|c r IH]; cbn [run_cmds row_notag row_tag row_label]; intros ne ne' H.
  - injection H as <-. rewrite orb_false_r. repeat split. now destruct (ne_label ne).
  - destruct c as [|t|l].
    + apply IH in H. cbn in H. destruct H as (H1 & H2 & H3 & H4 & H5). rewrite orb_true_r. repeat split; auto.
    + apply IH in H. cbn in H. destruct H as (H1 & H2 & H3 & H4 & H5). repeat split; auto.
      rewrite H3. now destruct (row_tag r).
    + unfold numbered_label in H. destruct (ne_label ne) eqn:El; [discriminate|].
      apply IH in H. cbn in H. destruct H as (H1 & H2 & H3 & H4 & H5). repeat split; auto.
Qed.

Lemma run_cmds_ok r : forall ne,
  (row_label_count r + match ne_label ne with Some _ => 1 | None => 0 end <= 1)%nat <-> exists ne', run_cmds ne r = Some ne'.
Proof.
  induction r as [|c r IH]; cbn [run_cmds row_label_count]; intros ne.
  - split; [eauto|]. intros _. destruct (ne_label ne); lia.
  - destruct c as [|t|l]; [apply (IH (numbered_notag ne))|apply (IH (numbered_tag t ne))|].
    unfold numbered_label. destruct (ne_label ne).
    + split; [lia|]. intros [x H]; discriminate.
    + rewrite <- IH. cbn. lia.
Qed.

(** ** Rows outside [multline] *)

(** The code's exact behaviour: [pend] is the leaked suppress flag. *)
Fixpoint exact_rows (star pend : bool) (c : N) (rows : list (list row_cmd)) : list (option row_label_info) * N :=
  match rows with
  | [] => ([], c)
  | r :: rest =>
      match row_tag r with
      | Some t => let (is', c') := exact_rows star (pend || row_notag r) c rest in
                  (Some (mkLabelInfo t (row_label r)) :: is', c')
      | None =>
          if pend || row_notag r || star then let (is', c') := exact_rows star false c rest in (None :: is', c')
          else let (is', c') := exact_rows star false (c + 1) rest in
               (Some (mkLabelInfo (mkTag (dec (c + 1)) true) (row_label r)) :: is', c')
      end
  end.

(** The label table after rows with these results. *)
Fixpoint record_labels (infos : list (option row_label_info)) (m : label_map) : label_map :=
  match infos with
  | [] => m
  | i :: infos' =>
      record_labels infos' (match i with
                            | Some (mkLabelInfo t (Some l)) => label_insert l (tag_text t) m
                            | _ => m
                            end)
  end.

Definition mode_star (m : numbering_mode) : bool := match m with NoneByDefault => true | _ => false end.

Lemma finish_row_exact umax ne c ls last : ne_mode ne <> OnlyLast \/ last = true ->
  finish_row umax ne c ls last =
    match ne_custom_tag ne with
    | Some t => Some (Some (mkLabelInfo t (ne_label ne)),
                      mkNumbered (ne_mode ne) (ne_suppress ne) None None (ne_num_rows ne), c,
                      record_labels [Some (mkLabelInfo t (ne_label ne))] ls)
    | None =>
        if ne_suppress ne || mode_star (ne_mode ne)
        then Some (None, mkNumbered (ne_mode ne) false None None (ne_num_rows ne), c, ls)
        else if c + 1 <=? umax
             then let i := mkLabelInfo (mkTag (dec (c + 1)) true) (ne_label ne) in
                  Some (Some i, mkNumbered (ne_mode ne) (ne_suppress ne) None None (ne_num_rows ne), c + 1,
                        record_labels [Some i] ls)
             else None
    end.
Proof.
  intros H. unfold finish_row, next_equation_tag.
  replace (match ne_mode ne with OnlyLast => negb last | _ => false end) with false
    by (destruct H as [H| ->]; destruct (ne_mode ne); try reflexivity; contradiction).
  destruct (ne_custom_tag ne) eqn:Et.
  - cbn. destruct (ne_label ne); reflexivity.
  - fold (mode_star (ne_mode ne)). destruct (ne_suppress ne || mode_star (ne_mode ne)); [reflexivity|].
    destruct (c + 1 <=? umax); [|reflexivity]. unfold numbered_clear_label. rewrite Et. cbn [record_labels tag_text]. now destruct (ne_label ne).
Qed.

Lemma record_labels_app a b m : record_labels (a ++ b) m = record_labels b (record_labels a m).
Proof. revert m; induction a as [|i a IH]; intros m; cbn [record_labels app]; auto. Qed.

Lemma exact_rows_mono star rows : forall pend c, c <= snd (exact_rows star pend c rows).
Proof.
  induction rows as [|r rest IH]; intros pend c; cbn [exact_rows snd]; [lia|].
  destruct (row_tag r); [|destruct (pend || row_notag r || star)].
  - specialize (IH (pend || row_notag r) c). destruct (exact_rows star (pend || row_notag r) c rest). exact IH.
  - specialize (IH false c). destruct (exact_rows star false c rest). exact IH.
  - specialize (IH false (c + 1)). destruct (exact_rows star false (c + 1) rest). cbn in *. lia.
Qed.

Lemma exact_rows_length star rows : forall pend c, length (fst (exact_rows star pend c rows)) = length rows.
Proof.
  induction rows as [|r rest IH]; intros pend c; cbn [exact_rows fst length]; [reflexivity|].
  destruct (row_tag r); [|destruct (pend || row_notag r || star)].
  - specialize (IH (pend || row_notag r) c). destruct (exact_rows star (pend || row_notag r) c rest). cbn in *; now f_equal.
  - specialize (IH false c). destruct (exact_rows star false c rest). cbn in *; now f_equal.
  - specialize (IH false (c + 1)). destruct (exact_rows star false (c + 1) rest). cbn in *; now f_equal.
Qed.

Definition one_label (r : list row_cmd) : bool := (row_label_count r <=? 1)%nat.

Lemma exact_rows_cons star pend c r rest :
  exact_rows star pend c (r :: rest) =
    match row_tag r with
    | Some t => let (is', c') := exact_rows star (pend || row_notag r) c rest in
                (Some (mkLabelInfo t (row_label r)) :: is', c')
    | None =>
        if pend || row_notag r || star then let (is', c') := exact_rows star false c rest in (None :: is', c')
        else let (is', c') := exact_rows star false (c + 1) rest in
             (Some (mkLabelInfo (mkTag (dec (c + 1)) true) (row_label r)) :: is', c')
    end.
Proof. reflexivity. Qed.

Lemma one_label_run r ne : ne_label ne = None ->
  match run_cmds ne r with Some _ => one_label r = true | None => one_label r = false end.
Proof.
  intros Hl. pose proof (run_cmds_ok r ne) as H. rewrite Hl in H. unfold one_label.
  destruct (run_cmds ne r).
  - apply Nat.leb_le. assert (K : exists x, Some n = Some x) by eauto. apply H in K. lia.
  - apply Nat.leb_gt. destruct (Nat.le_gt_cases (row_label_count r) 1) as [K|K]; [|exact K].
    assert (exists x : numbered_env, None = Some x) as [x Hx] by (apply H; lia). discriminate.
Qed.

Lemma run_rows_exact umax : forall rest r ne c ls,
  ne_mode ne <> OnlyLast -> ne_custom_tag ne = None -> ne_label ne = None -> ne_num_rows ne = None ->
  run_rows umax ne c ls r rest =
    let (infos, c') := exact_rows (mode_star (ne_mode ne)) (ne_suppress ne) c (r :: rest) in
    if forallb one_label (r :: rest) && ((c' <=? umax) || (c' =? c))
    then Some (infos, None, c', record_labels infos ls) else None.
Proof.
  induction rest as [|r2 rest IH]; intros r ne c ls Hm Ht Hl Hn; cbn [run_rows]; rewrite exact_rows_cons;
    cbn [forallb]; pose proof (one_label_run r ne Hl) as H1; destruct (run_cmds ne r) as [ne1|] eqn:Er; rewrite H1; cbn [andb].
  2,4: match goal with |- None = (let (_, _) := ?x in None) => now destruct x end.
  all: apply run_cmds_spec in Er as (E1 & E2 & E3 & E4 & E5); rewrite Ht in E3; rewrite Hl in E4; rewrite Hn in E5.
  - rewrite finish_row_exact by auto. rewrite E3, E1, E2, E4. cbn [exact_rows].
    destruct (row_tag r) as [t|].
    + cbn [ne_num_rows record_labels]. rewrite E5, N.eqb_refl, orb_true_r. reflexivity.
    + destruct (ne_suppress ne || row_notag r || mode_star (ne_mode ne)).
      * cbn [ne_num_rows]. now rewrite E5, N.eqb_refl, orb_true_r.
      * replace (c + 1 =? c) with false by lia. rewrite orb_false_r.
        destruct (c + 1 <=? umax); [|reflexivity]. cbn [ne_num_rows]. now rewrite E5.
  - unfold bump_rows. rewrite E5. rewrite finish_row_exact by (left; congruence). rewrite E3, E1, E2, E4. cbn [andb].
    assert (K : forall ne3 c2 ls2 i is0 c',
      ne_mode ne3 = ne_mode ne -> ne_custom_tag ne3 = None -> ne_label ne3 = None -> ne_num_rows ne3 = None ->
      exact_rows (mode_star (ne_mode ne)) (ne_suppress ne3) c2 (r2 :: rest) = (is0, c') ->
      (c2 = c \/ c2 = c + 1 /\ c + 1 <= umax) -> ls2 = record_labels [i] ls ->
      match run_rows umax ne3 c2 ls2 r2 rest with
      | Some (is', n, c', ls') => Some (i :: is', n, c', ls')
      | None => None
      end = (if forallb one_label (r2 :: rest) && ((c' <=? umax) || (c' =? c))
             then Some (i :: is0, None, c', record_labels (i :: is0) ls) else None)).
    { intros ne3 c2 ls2 i is0 c' M1 M2 M3 M4 Hex Hc Hls. rewrite IH by congruence. rewrite M1, Hex.
      pose proof (exact_rows_mono (mode_star (ne_mode ne)) (r2 :: rest) (ne_suppress ne3) c2) as Hmono. rewrite Hex in Hmono. cbn [snd] in Hmono.
      replace ((c' <=? umax) || (c' =? c2)) with ((c' <=? umax) || (c' =? c)).
      2: { destruct Hc as [-> | [-> Hc]]; [reflexivity|]. destruct (c' <=? umax) eqn:E; [reflexivity|]. cbn [orb]. lia. }
      destruct (forallb one_label (r2 :: rest) && ((c' <=? umax) || (c' =? c))); [|reflexivity].
      rewrite Hls. reflexivity. }
    destruct (row_tag r) as [t|].
    + destruct (exact_rows (mode_star (ne_mode ne)) (ne_suppress ne || row_notag r) c (r2 :: rest)) as [is0 c'] eqn:Hex.
      apply K; cbn; auto.
    + destruct (ne_suppress ne || row_notag r || mode_star (ne_mode ne)) eqn:Es.
      * destruct (exact_rows (mode_star (ne_mode ne)) false c (r2 :: rest)) as [is0 c'] eqn:Hex.
        apply K; cbn; auto.
      * apply orb_false_iff in Es as [Es _]. rewrite Es.
        destruct (exact_rows (mode_star (ne_mode ne)) false (c + 1) (r2 :: rest)) as [is0 c'] eqn:Hex.
        pose proof (exact_rows_mono (mode_star (ne_mode ne)) (r2 :: rest) false (c+1)) as Hmono. rewrite Hex in Hmono. cbn [snd] in Hmono.
        destruct (c + 1 <=? umax) eqn:Eu.
        -- apply K; cbn; auto. right; split; [reflexivity|lia].
        -- replace ((c' <=? umax) || (c' =? c)) with false by lia. now rewrite andb_false_r.
Qed.

(** ** [multline] *)

Lemma row_tag_app a b : row_tag (a ++ b) = match row_tag b with Some t => Some t | None => row_tag a end.
Proof.
  induction a as [|x a IH]; cbn [app row_tag]; [now destruct (row_tag b)|].
  destruct x; rewrite IH; auto. now destruct (row_tag b).
Qed.
Lemma row_notag_app a b : row_notag (a ++ b) = row_notag a || row_notag b.
Proof. induction a as [|x a IH]; cbn [app row_notag]; [reflexivity|]. destruct x; auto. Qed.

Definition multline_info (umax : N) (sup : bool) (tag : option equation_tag) (c : N) (label : option str)
  : option (option row_label_info * N) :=
  match tag with
  | Some t => Some (Some (mkLabelInfo t label), c)
  | None => if sup then Some (None, c)
            else if c + 1 <=? umax then Some (Some (mkLabelInfo (mkTag (dec (c + 1)) true) label), c + 1) else None
  end.

Lemma last_cons2 {A} (x y : A) l d : last (x :: y :: l) d = last (y :: l) d.
Proof. reflexivity. Qed.

Lemma run_multline umax : forall rest r ne c ls n,
  ne_mode ne = OnlyLast -> ne_label ne = None -> ne_num_rows ne = Some n ->
  run_rows umax ne c ls r rest =
    match multline_info umax (ne_suppress ne || row_notag (concat (r :: rest)))
            (match row_tag (concat (r :: rest)) with Some t => Some t | None => ne_custom_tag ne end)
            c (row_label (last (r :: rest) [])) with
    | Some (i, c') =>
        if forallb one_label (r :: rest) && ((n + N.of_nat (length rest) <=? U16_MAX) || (length rest =? 0)%nat)
        then Some (repeat None (length rest) ++ [i], Some (n + N.of_nat (length rest)), c', record_labels [i] ls)
        else None
    | None => None
    end.
Proof.
  induction rest as [|r2 rest IH]; intros r ne c ls n Hm Hl Hn; cbn [run_rows];
    pose proof (one_label_run r ne Hl) as H1; destruct (run_cmds ne r) as [ne1|] eqn:Er; cbn [forallb]; rewrite H1; cbn [andb].
  2,4: now destruct (multline_info _ _ _ _ _) as [[? ?]|].
  all: apply run_cmds_spec in Er as (E1 & E2 & E3 & E4 & E5); rewrite Hl in E4; rewrite Hn in E5; rewrite Hm in E1.
  - rewrite finish_row_exact by auto. rewrite E3, E1, E2, E4. cbn [mode_star concat last length]. rewrite app_nil_r, orb_false_r.
    rewrite N.add_0_r, orb_true_r. cbn [repeat app]. unfold multline_info.
    destruct (match row_tag r with Some t => Some t | None => ne_custom_tag ne end).
    + cbn [ne_num_rows]. now rewrite E5.
    + destruct (ne_suppress ne || row_notag r); [cbn [ne_num_rows]; now rewrite E5|].
      destruct (c + 1 <=? umax); [|reflexivity]. cbn [ne_num_rows]. now rewrite E5.
  - unfold bump_rows. rewrite E5. destruct (n + 1 <=? U16_MAX) eqn:Eb.
    + unfold finish_row, next_equation_tag. cbn [ne_mode]. rewrite E1. cbn [negb ne_label].
      unfold numbered_clear_label. cbn [ne_mode ne_suppress ne_custom_tag ne_num_rows].
      rewrite (IH r2 _ c ls (n + 1)) by reflexivity. cbn [ne_suppress ne_custom_tag].
      rewrite last_cons2. cbn [concat]. rewrite !row_tag_app, !row_notag_app. rewrite E2, E3.
      replace (ne_suppress ne || row_notag r || (row_notag r2 || row_notag (concat rest)))
        with (ne_suppress ne || (row_notag r || (row_notag r2 || row_notag (concat rest)))) by (now rewrite !orb_assoc).
      replace (match match row_tag (concat rest) with Some t => Some t | None => row_tag r2 end with
               | Some t => Some t
               | None => match row_tag r with Some t => Some t | None => ne_custom_tag ne end end)
        with (match match match row_tag (concat rest) with Some t => Some t | None => row_tag r2 end with
               | Some t => Some t | None => row_tag r end with Some t => Some t | None => ne_custom_tag ne end)
        by (now destruct (row_tag (concat rest)), (row_tag r2), (row_tag r)).
      destruct (multline_info _ _ _ _ _) as [[i c']|]; [|reflexivity].
      cbn [length forallb]. replace (n + 1 + N.of_nat (length rest)) with (n + N.of_nat (S (length rest))) by lia.
      assert (((n + N.of_nat (S (length rest)) <=? U16_MAX) || (length rest =? 0)%nat) = (n + N.of_nat (S (length rest)) <=? U16_MAX)) as ->.
      { destruct rest; [|cbn [length Nat.eqb]; now rewrite orb_false_r]. cbn [length Nat.eqb]. rewrite orb_true_r. symmetry. lia. }
      replace (S (length rest) =? 0)%nat with false by reflexivity. rewrite orb_false_r.
      destruct (_ && _); reflexivity.
    + replace (n + N.of_nat (length (r2 :: rest)) <=? U16_MAX) with false by (cbn [length]; lia). cbn [length Nat.eqb orb].
      rewrite andb_false_r. now destruct (multline_info _ _ _ _ _) as [[? ?]|].
Qed.

(** ** Automatic numbers *)

Lemma numbers_from_app c n m : numbers_from c (n + m) = numbers_from c n ++ numbers_from (c + N.of_nat n) m.
Proof.
  revert c; induction n as [|n IH]; intros c; cbn [numbers_from Nat.add app].
  - now rewrite N.add_0_r.
  - rewrite IH. do 2 f_equal. f_equal. lia.
Qed.

Lemma exact_automatic star rows : forall pend c infos c', exact_rows star pend c rows = (infos, c') ->
  exists n, automatic rows infos = numbers_from c n /\ c' = c + N.of_nat n.
Proof.
  induction rows as [|r rest IH]; intros pend c infos c' H.
  - cbn in H. injection H as <- <-. exists O. cbn. split; [reflexivity|lia].
  - rewrite exact_rows_cons in H. destruct (row_tag r) eqn:Et; [|destruct (pend || row_notag r || star)].
    + destruct (exact_rows star (pend || row_notag r) c rest) as [is0 c0] eqn:Ex. injection H as <- <-.
      cbn [automatic]. rewrite Et. eauto.
    + destruct (exact_rows star false c rest) as [is0 c0] eqn:Ex. injection H as <- <-. cbn [automatic]. eauto.
    + destruct (exact_rows star false (c + 1) rest) as [is0 c0] eqn:Ex. injection H as <- <-. cbn [automatic]. rewrite Et.
      apply IH in Ex as (n & E1 & E2). exists (S n). cbn [numbers_from tag_text li_tag]. rewrite E1. split; [reflexivity|lia].
Qed.

Lemma exact_unmixed star rows : forall c, Forall unmixed rows ->
  exact_rows star false c rows = intended_rows star c rows.
Proof.
  induction rows as [|r rest IH]; intros c H; [reflexivity|]. inversion H as [|? ? Hr Hrest]; subst.
  rewrite exact_rows_cons. cbn [intended_rows orb]. unfold intended_row.
  destruct (row_tag r) eqn:Et.
  - assert (row_notag r = false) as -> by (destruct Hr; [congruence|assumption]). now rewrite IH.
  - rewrite (orb_comm (row_notag r)). destruct (star || row_notag r); now rewrite IH.
Qed.

Lemma record_labels_newest infos : forall m l,
  assoc_str l (record_labels infos m) = match newest_tag l infos with Some t => Some t | None => assoc_str l m end.
Proof.
  induction infos as [|i infos IH]; intros m l; cbn [record_labels newest_tag]; [reflexivity|].
  rewrite IH. destruct (newest_tag l infos); [reflexivity|].
  destruct i as [[t [l'|]]|]; try reflexivity. unfold label_insert. cbn [assoc_str].
  now destruct (str_eqb l l').
Qed.

Lemma newest_repeat_none n i l : newest_tag l (repeat None n ++ [i]) = newest_tag l [i].
Proof. induction n as [|n IH]; [reflexivity|]. cbn [repeat app newest_tag] in *. rewrite IH. cbn. now destruct i as [[t [l'|]]|]; [destruct (str_eqb l l')|..]. Qed.

Lemma record_repeat_none n i m : record_labels (repeat None n ++ [i]) m = record_labels [i] m.
Proof. induction n as [|n IH]; [reflexivity|]. exact IH. Qed.

Lemma last_repeat {A} n (i : option A) : last (repeat None n ++ [i]) None = i.
Proof. apply last_last. Qed.

Definition numbered_mode (e : env) : option numbering_mode :=
  match numbered_env_state e with Some ne => Some (ne_mode ne) | None => None end.

Lemma run_env_cases umax e c ls rows res : run_env umax e c ls rows = Some res ->
  (e = EMultLine /\ run_rows umax (mkNumbered OnlyLast false None None (Some 1)) c ls (fst rows) (snd rows) = Some res) \/
  (is_multline e = false /\ (e = EAlign \/ e = EEquation \/ e = EGather \/ starred e = true) /\
   run_rows umax (mkNumbered (if starred e then NoneByDefault else AllByDefault) false None None None) c ls (fst rows) (snd rows) = Some res).
Proof.
  unfold run_env. destruct e; cbn; intros H; try discriminate; tauto.
Qed.

Lemma run_env_exact umax e c ls rows infos n c' ls' :
  run_env umax e c ls rows = Some (infos, n, c', ls') -> is_multline e = false ->
  exact_rows (starred e) false c (all_rows rows) = (infos, c') /\ ls' = record_labels infos ls /\
  (c' <= umax \/ c' = c).
Proof.
  intros H Hm. apply run_env_cases in H as [[-> H]|(_ & _ & H)]; [discriminate|].
  rewrite run_rows_exact in H; [|destruct (starred e); discriminate|reflexivity..].
  cbn [ne_mode ne_suppress] in H.
  replace (mode_star (if starred e then NoneByDefault else AllByDefault)) with (starred e) in H by now destruct (starred e).
  fold (all_rows rows) in H.
  destruct (exact_rows (starred e) false c (all_rows rows)) as [is0 c0].
  destruct (_ && _) eqn:E; [|discriminate]. injection H as <- <- <- <-. repeat split. lia.
Qed.

Lemma run_env_multline umax c ls rows infos n c' ls' :
  run_env umax EMultLine c ls rows = Some (infos, n, c', ls') ->
  exists i, infos = repeat None (length (snd rows)) ++ [i] /\ ls' = record_labels [i] ls /\
    n = Some (N.of_nat (length (all_rows rows))) /\
    multline_info umax (row_notag (concat (all_rows rows))) (row_tag (concat (all_rows rows))) c
      (row_label (last (all_rows rows) [])) = Some (i, c').
Proof.
  intros H. apply run_env_cases in H as [[_ H]|(Hm & _ & H)]; [|discriminate].
  rewrite (run_multline umax _ _ _ _ _ 1) in H by reflexivity. cbn [ne_suppress ne_custom_tag orb] in H.
  fold (all_rows rows) in H.
  destruct (multline_info _ _ _ _ _) as [[i c0]|] eqn:E; [|discriminate].
  destruct (_ && _); [|discriminate]. injection H as <- <- <- <-. exists i. repeat split.
  - unfold all_rows. cbn [length]. rewrite Nat2N.inj_succ, <- N.add_1_l. reflexivity.
  - rewrite <- E. f_equal. now destruct (row_tag (concat (all_rows rows))).
Qed.

Lemma run_env_automatic umax e c ls rows infos n c' ls' :
  run_env umax e c ls rows = Some (infos, n, c', ls') ->
  (exists k, automatic (lines e rows) (offered e infos) = numbers_from c k /\ c' = c + N.of_nat k) /\
  (c' <= umax \/ c' = c) /\ ls' = record_labels infos ls.
Proof.
  intros H. unfold lines, offered. destruct (is_multline e) eqn:Em.
  - destruct e; try discriminate. apply run_env_multline in H as (i & -> & -> & _ & H).
    rewrite last_repeat, record_repeat_none. unfold multline_info in H. cbn [automatic].
    destruct (row_tag (concat (all_rows rows))); [|destruct (row_notag (concat (all_rows rows)))].
    + injection H as <- <-. repeat split; auto. exists O. split; [reflexivity|lia].
    + injection H as <- <-. repeat split; auto. exists O. split; [reflexivity|lia].
    + destruct (c + 1 <=? umax) eqn:E; [|discriminate]. injection H as <- <-. repeat split; [|left; lia].
      exists 1%nat. split; [reflexivity|lia].
  - apply run_env_exact in H as (H & -> & Hu); [|exact Em]. repeat split; auto. eapply exact_automatic; eauto.
Qed.

Lemma run_envs_automatic umax l : forall c ls infos c' ls',
  run_envs umax c ls l = Some (infos, c', ls') ->
  (exists k, automatic_envs l infos = numbers_from c k /\ c' = c + N.of_nat k) /\
  (c' <= umax \/ c' = c) /\ ls' = record_labels (concat infos) ls /\ length infos = length l.
Proof.
  induction l as [|[e rows] l IH]; intros c ls infos c' ls' H; cbn [run_envs] in H.
  - injection H as <- <- <-. repeat split; auto. exists O. split; [reflexivity|lia].
  - destruct (run_env umax e c ls rows) as [[[[i n] c1] ls1]|] eqn:E1; [|discriminate].
    destruct (run_envs umax c1 ls1 l) as [[[is2 c2] ls2]|] eqn:E2; [|discriminate]. injection H as <- <- <-.
    apply IH in E2 as ((k2 & A2 & B2) & U2 & L2 & N2). apply run_env_automatic in E1 as ((k1 & A1 & B1) & U1 & L1).
    repeat split.
    + exists (k1 + k2)%nat. cbn [automatic_envs]. rewrite A1, A2, numbers_from_app. subst c1. split; [reflexivity|lia].
    + lia.
    + cbn [concat]. now rewrite record_labels_app, <- L1.
    + cbn [length]. now f_equal.
Qed.
