(** Proofs about column and length specifications. *)
From Verif Require Import Str S_Html M_Length M_Spec S_Spec L_Escape.

Lemma utf8_char_ascii c : c < 128 -> utf8_char c = [c].
Proof. intros H. unfold utf8_char. destruct (N.ltb_spec c 0x80); [reflexivity|lia]. Qed.
Lemma utf8_char_high c : 128 <= c -> exists b bs, utf8_char c = b :: bs /\ 128 <= b.
Proof.
  intros H. unfold utf8_char. destruct (N.ltb_spec c 0x80); [lia|].
  destruct (c <? 0x800); [|destruct (c <? 0x10000)]; do 2 eexists; (split; [reflexivity|lia]).
Qed.

(** ** Columns *)

Lemma align_of_high c : 128 <= c -> align_of c = None.
Proof.
  intros H. unfold align_of.
  destruct (N.eqb_spec c 108); [lia|]. destruct (N.eqb_spec c 99); [lia|]. destruct (N.eqb_spec c 114); [lia|reflexivity].
Qed.
Lemma line_of_high c : 128 <= c -> line_of c = None.
Proof.
  intros H. unfold line_of. destruct (N.eqb_spec c 124); [lia|]. destruct (N.eqb_spec c 58); [lia|reflexivity].
Qed.
Lemma ascii_ws_high c : 128 <= c -> is_ascii_ws c = false.
Proof.
  intros H. unfold is_ascii_ws. rewrite !orb_false_iff. repeat split; apply N.eqb_neq; lia.
Qed.

Lemma colspec_loop_utf8 s : forall cols bl hc,
  colspec_loop (utf8 s) cols bl hc = colspec_loop s cols bl hc.
Proof.
  induction s as [|c s IH]; intros cols bl hc; [reflexivity|].
  unfold utf8. cbn [flat_map]. fold (utf8 s). destruct (N.ltb_spec c 128) as [H|H].
  - rewrite utf8_char_ascii by exact H. cbn [app colspec_loop].
    destruct (align_of c); [apply IH|]. destruct (line_of c) as [l|].
    + destruct (add_line l bl cols). apply IH.
    + destruct (is_ascii_ws c); [apply IH|reflexivity].
  - destruct (utf8_char_high c H) as (b & bs & -> & Hb). cbn [app colspec_loop].
    rewrite !align_of_high, !line_of_high, !ascii_ws_high by assumption. reflexivity.
Qed.

Definition olb (o : option line_type) : bool := match o with Some _ => true | None => false end.

(** Whether the last entry carries a line. *)
Fixpoint last_line_flag (b : bool) (cols : list col_entry) : bool :=
  match cols with
  | [] => b
  | WithContent _ br :: r => last_line_flag (olb br) r
  | OnlyLine _ :: r => last_line_flag true r
  end.

Lemma last_line_flag_app b x y : last_line_flag b (x ++ y) = last_line_flag (last_line_flag b x) y.
Proof. revert b; induction x as [|[a br|l] x IH]; intros b; cbn; auto. Qed.
Lemma canonical_app b x y : canonical_cols b (x ++ y) <-> canonical_cols b x /\ canonical_cols (last_line_flag b x) y.
Proof.
  revert b; induction x as [|[a br|l] x IH]; intros b; cbn [app canonical_cols last_line_flag].
  - tauto.
  - fold (olb br). apply IH.
  - rewrite IH. tauto.
Qed.

Definition st_str (bl : option line_type) (cols : list col_entry) : str :=
  oline_str bl ++ flat_map entry_str cols.

Lemma rev_cases {A} (l : list A) : l = [] \/ exists l' x, l = l' ++ [x].
Proof. destruct l using rev_ind; [now left|right; now exists l, x]. Qed.

Lemma add_line_spec l bl cols bl' cols' :
  canonical_cols (olb bl) cols -> add_line l bl cols = (bl', cols') ->
  canonical_cols (olb bl') cols' /\ st_str bl' cols' = st_str bl cols ++ [line_char l] /\
  content_aligns cols' = content_aligns cols /\ (cols <> [] -> cols' <> []).
Proof.
  intros C E. unfold add_line in E. destruct (rev_cases cols) as [->|(before & x & ->)].
  - cbn [rev] in E. destruct bl as [b|]; injection E as <- <-; cbn; repeat split; auto; discriminate.
  - rewrite rev_app_distr in E. cbn [rev app] in E. apply canonical_app in C as [C1 C2].
    assert (CA : forall (p q : list col_entry), content_aligns (p ++ q) = content_aligns p ++ content_aligns q).
    { intros p q; induction p as [|[? ?|?] p IH]; cbn; [reflexivity|now f_equal|exact IH]. }
    destruct x as [a [b|]|b].
    + injection E as <- <-. repeat split.
      * apply canonical_app. split; [apply canonical_app; now split|]. rewrite last_line_flag_app. cbn. auto.
      * unfold st_str. rewrite !flat_map_app. cbn. now rewrite <- !app_assoc.
      * rewrite !CA. cbn. now rewrite app_nil_r.
      * intros _. now destruct before.
    + rewrite rev_involutive in E. injection E as <- <-. repeat split.
      * apply canonical_app. cbn. auto.
      * unfold st_str. rewrite !flat_map_app. cbn. now rewrite <- !app_assoc.
      * rewrite !CA. reflexivity.
      * intros _. now destruct before.
    + injection E as <- <-. repeat split.
      * apply canonical_app. split; [apply canonical_app; now split|]. rewrite last_line_flag_app. cbn. auto.
      * unfold st_str. rewrite !flat_map_app. cbn. now rewrite <- !app_assoc.
      * rewrite !CA. cbn. now rewrite app_nil_r.
      * intros _. now destruct before.
Qed.

Definition not_ws (c : N) : bool := negb (is_ascii_ws c).

Lemma align_of_char c a : align_of c = Some a -> c = align_char a /\ is_ascii_ws c = false.
Proof.
  unfold align_of. destruct (N.eqb_spec c 108) as [->|]; [|destruct (N.eqb_spec c 99) as [->|];
    [|destruct (N.eqb_spec c 114) as [->|]; [|discriminate]]]; intros H; injection H as <-; auto.
Qed.
Lemma line_of_char c l : line_of c = Some l -> c = line_char l /\ is_ascii_ws c = false.
Proof.
  unfold line_of. destruct (N.eqb_spec c 124) as [->|]; [|destruct (N.eqb_spec c 58) as [->|];
    [|discriminate]]; intros H; injection H as <-; auto.
Qed.

Lemma content_aligns_app (p q : list col_entry) : content_aligns (p ++ q) = content_aligns p ++ content_aligns q.
Proof. induction p as [|[? ?|?] p IH]; cbn; [reflexivity|now f_equal|exact IH]. Qed.

Lemma colspec_loop_sound s : forall cols bl hc cols' bl' hc',
  canonical_cols (olb bl) cols ->
  colspec_loop s cols bl hc = Some (cols', bl', hc') ->
  canonical_cols (olb bl') cols' /\
  st_str bl' cols' = st_str bl cols ++ filter not_ws s /\
  content_aligns cols' = content_aligns cols ++ aligns_of s /\
  hc' = (hc || existsb is_align s)%bool /\
  forallb colspec_char s = true /\ (cols <> [] -> cols' <> []).
Proof.
  induction s as [|c s IH]; intros cols bl hc cols' bl' hc' C E; cbn [colspec_loop] in E.
  - injection E as <- <- <-. cbn. rewrite !app_nil_r, orb_false_r. auto 10.
  - cbn [filter existsb forallb aligns_of].
    unfold colspec_char at 1, is_align at 1, not_ws at 1.
    destruct (align_of c) as [a|] eqn:Ea.
    + destruct (align_of_char _ _ Ea) as [-> W]. apply IH in E.
      * destruct E as (E1 & E2 & E3 & E4 & E5 & E6). repeat split; auto.
        -- rewrite E2, W. unfold st_str. rewrite flat_map_app. cbn. now rewrite <- !app_assoc.
        -- rewrite E3, content_aligns_app. cbn. now rewrite <- app_assoc.
        -- rewrite E4. now rewrite orb_true_r.
        -- intros Hn. apply E6. now destruct cols.
      * apply canonical_app. cbn. auto.
    + destruct (line_of c) as [l|] eqn:El.
      * destruct (line_of_char _ _ El) as [-> W]. destruct (add_line l bl cols) as [bl1 cols1] eqn:Eadd.
        destruct (add_line_spec _ _ _ _ _ C Eadd) as (A1 & A2 & A3 & A4).
        apply IH in E; [|exact A1]. destruct E as (E1 & E2 & E3 & E4 & E5 & E6). repeat split; auto.
        -- rewrite E2, A2, W. cbn. now rewrite <- app_assoc.
        -- now rewrite E3, A3.
      * destruct (is_ascii_ws c) eqn:W; [|discriminate].
        apply IH in E; [|exact C]. destruct E as (E1 & E2 & E3 & E4 & E5 & E6). repeat split; auto.
Qed.

Lemma colspec_loop_total s : forall cols bl hc, forallb colspec_char s = true ->
  exists r, colspec_loop s cols bl hc = Some r.
Proof.
  induction s as [|c s IH]; intros cols bl hc H; cbn [colspec_loop]; [now eexists|].
  cbn [forallb] in H. apply andb_true_iff in H as [Hc H]. unfold colspec_char in Hc.
  destruct (align_of c); [now apply IH|]. destruct (line_of c) as [l|].
  - destruct (add_line l bl cols). now apply IH.
  - rewrite Hc. now apply IH.
Qed.

Lemma aligns_of_nonempty s : existsb is_align s = true -> aligns_of s <> [].
Proof.
  induction s as [|c s IH]; cbn; [discriminate|]. unfold is_align at 1.
  destruct (align_of c); [discriminate|exact IH].
Qed.

Lemma parse_colspec_iff s :
  (exists a, parse_column_specification s = Some a) <->
  forallb colspec_char s = true /\ existsb is_align s = true.
Proof.
  unfold parse_column_specification. rewrite colspec_loop_utf8. split.
  - intros [a E]. destruct (colspec_loop s [] None false) as [[[cols bl] hc]|] eqn:El; [|discriminate].
    apply colspec_loop_sound in El; [|exact I]. destruct El as (E1 & E2 & E3 & E4 & E5 & E6).
    split; [exact E5|]. cbn [orb] in E4. rewrite <- E4. destruct hc; [reflexivity|].
    rewrite orb_true_r in E. discriminate.
  - intros [H1 H2]. destruct (colspec_loop_total s [] None false H1) as [[[cols bl] hc] El]. rewrite El.
    apply colspec_loop_sound in El; [|exact I]. destruct El as (E1 & E2 & E3 & E4 & E5 & E6).
    cbn [orb] in E4. rewrite H2 in E4. subst hc. destruct cols as [|x cols].
    + cbn in E3. symmetry in E3. now apply aligns_of_nonempty in E3.
    + eexists. reflexivity.
Qed.

Lemma parse_colspec_sound s a : parse_column_specification s = Some a ->
  canonical_spec a /\ spec_str a = filter not_ws s /\ content_aligns (as_columns a) = aligns_of s /\
  as_border_top a = None /\ as_is_sub a = false.
Proof.
  unfold parse_column_specification. rewrite colspec_loop_utf8.
  destruct (colspec_loop s [] None false) as [[[cols bl] hc]|] eqn:El; [|discriminate].
  apply colspec_loop_sound in El; [|exact I]. destruct El as (E1 & E2 & E3 & E4 & E5 & E6).
  match goal with |- (if ?b then _ else _) = _ -> _ => destruct b; [discriminate|] end. intros E. injection E as <-. repeat split; assumption.
Qed.

Lemma align_of_align_char a : align_of (align_char a) = Some a.
Proof. destruct a; reflexivity. Qed.
Lemma align_of_line_char l : align_of (line_char l) = None.
Proof. destruct l; reflexivity. Qed.
Lemma line_of_line_char l : line_of (line_char l) = Some l.
Proof. destruct l; reflexivity. Qed.

Lemma add_line_full l bl cols : last_line_flag (olb bl) cols = true ->
  add_line l bl cols = (bl, cols ++ [OnlyLine l]).
Proof.
  intros H. unfold add_line. destruct (rev_cases cols) as [->|(before & x & ->)].
  - cbn in *. destruct bl; [reflexivity|discriminate].
  - rewrite rev_app_distr. cbn [rev app]. rewrite last_line_flag_app in H.
    destruct x as [a [b|]|b]; try reflexivity. discriminate.
Qed.

Lemma colspec_loop_entries cols2 : forall cols1 bl hc,
  canonical_cols (last_line_flag (olb bl) cols1) cols2 ->
  colspec_loop (flat_map entry_str cols2) cols1 bl hc =
  Some (cols1 ++ cols2, bl, (hc || match content_aligns cols2 with [] => false | _ => true end)%bool).
Proof.
  induction cols2 as [|[a br|l] cols2 IH]; intros cols1 bl hc C.
  - cbn. now rewrite app_nil_r, orb_false_r.
  - cbn [canonical_cols] in C. fold (olb br) in C. cbn [flat_map entry_str app colspec_loop].
    rewrite align_of_align_char. destruct br as [l|]; cbn [oline_str app].
    + cbn [colspec_loop]. rewrite align_of_line_char, line_of_line_char.
      assert (Hadd : add_line l bl (cols1 ++ [WithContent a None]) = (bl, cols1 ++ [WithContent a (Some l)])).
      { unfold add_line. rewrite rev_app_distr. cbn [rev app]. now rewrite rev_involutive. }
      rewrite Hadd, IH.
      * rewrite <- app_assoc. cbn. now rewrite orb_true_r.
      * rewrite last_line_flag_app. exact C.
    + rewrite IH.
      * rewrite <- app_assoc. cbn. now rewrite orb_true_r.
      * rewrite last_line_flag_app. exact C.
  - cbn [canonical_cols] in C. destruct C as [C1 C]. cbn [flat_map entry_str app colspec_loop].
    rewrite align_of_line_char, line_of_line_char, add_line_full by exact C1. rewrite IH.
    + now rewrite <- app_assoc.
    + rewrite last_line_flag_app. exact C.
Qed.

Lemma parse_colspec_complete a :
  canonical_spec a -> content_aligns (as_columns a) <> [] -> as_border_top a = None -> as_is_sub a = false ->
  parse_column_specification (spec_str a) = Some a.
Proof.
  intros C Hn Ht Hs. unfold parse_column_specification. rewrite colspec_loop_utf8.
  destruct a as [bl bt sub cols]. cbn [as_border_left as_border_top as_is_sub as_columns] in *. subst bt sub.
  unfold spec_str, canonical_spec in *. cbn [as_border_left as_columns] in *.
  assert (Hl : colspec_loop (oline_str bl ++ flat_map entry_str cols) [] None false = Some (cols, bl, true)).
  { destruct bl as [l|]; cbn [oline_str app].
    - cbn [colspec_loop]. rewrite align_of_line_char, line_of_line_char. cbn [add_line rev].
      rewrite colspec_loop_entries by exact C. cbn [app orb]. now destruct (content_aligns cols).
    - rewrite colspec_loop_entries by exact C. cbn [app orb]. now destruct (content_aligns cols). }
  rewrite Hl. destruct cols; [contradiction|reflexivity].
Qed.

(** ** Numbers *)

Lemma digit_sub b : is_ascii_digit b = true -> u8_wrapping_sub b 48 = b - 48 /\ b - 48 <= 9 /\ b <> 46 /\ b < 128.
Proof.
  unfold is_ascii_digit, u8_wrapping_sub. rewrite andb_true_iff, !N.leb_le. intros [H1 H2].
  split; [|lia]. replace (b + 256 - 48) with ((b - 48) + 1 * 256) by lia.
  rewrite N.mod_add by lia. apply N.mod_small. lia.
Qed.

Lemma nondigit_sub b : b < 256 -> is_ascii_digit b = false -> 9 <? u8_wrapping_sub b 48 = true.
Proof.
  unfold is_ascii_digit, u8_wrapping_sub. intros Hb H. apply N.ltb_lt.
  rewrite andb_false_iff, !N.leb_gt in H. destruct H as [H|H].
  - rewrite N.mod_small by lia. lia.
  - replace (b + 256 - 48) with ((b - 48) + 1 * 256) by lia. rewrite N.mod_add by lia.
    rewrite N.mod_small by lia. lia.
Qed.

Lemma high_sub b : 128 <= b -> b < 256 -> 9 <? u8_wrapping_sub b 48 = true.
Proof.
  intros H1 H2. apply nondigit_sub; [exact H2|]. unfold is_ascii_digit. apply andb_false_iff. right.
  apply N.leb_gt. lia.
Qed.

Definition value_from (m : N) (s : str) : N := fold_left (fun m c => 10 * m + (c - 48)) s m.

Lemma value_from_ge s : forall m, m <= value_from m s.
Proof.
  induction s as [|c s IH]; intros m; unfold value_from; cbn [fold_left]; [lia|]. fold (value_from (10 * m + (c - 48)) s).
  pose proof (IH (10 * m + (c - 48))). lia.
Qed.

Definition div_from (d : f64) (n : nat) : f64 := Nat.iter n (fun d => f64_mul d f64_ten) d.
Lemma div_from_S d n : div_from (f64_mul d f64_ten) n = div_from d (S n).
Proof. unfold div_from. induction n as [|n IH]; [reflexivity|]. cbn [Nat.iter nat_rect]. apply (f_equal (fun d => f64_mul d f64_ten)). exact IH. Qed.

(** Digits only. *)
Lemma float_loop_digits ds : forall m d dot dig rest, all_digits ds ->
  float_loop (ds ++ rest) m d dot dig =
  if value_from m ds <=? U64_MAX
  then float_loop rest (value_from m ds) (if dot then div_from d (length ds) else d) dot
         (match ds with [] => dig | _ => true end)
  else if match ds with [] => true | _ => false end then float_loop rest m d dot dig else None.
Proof.
  induction ds as [|c ds IH]; intros m d dot dig rest H.
  - cbn. destruct (m <=? U64_MAX), dot; reflexivity.
  - pose proof (Forall_inv H) as Hc. apply Forall_inv_tail in H. cbv beta in Hc.
    destruct (digit_sub c Hc) as (E & E1 & E2 & E3). cbn [app float_loop value_from fold_left].
    fold (value_from (10 * m + (c - 48)) ds).
    destruct (N.eqb_spec c 46); [contradiction|]. rewrite E.
    destruct (N.ltb_spec 9 (c - 48)); [lia|].
    pose proof (value_from_ge ds (10 * m + (c - 48))) as G.
    unfold u64_checked_mul, u64_checked_add.
    destruct (N.leb_spec (m * 10) U64_MAX) as [K|K].
    + destruct (N.leb_spec (m * 10 + (c - 48)) U64_MAX) as [K2|K2].
      * rewrite IH by exact H. replace (m * 10 + (c - 48)) with (10 * m + (c - 48)) in * by lia.
        destruct (N.leb_spec (value_from (10 * m + (c - 48)) ds) U64_MAX) as [K3|K3].
        -- f_equal; [destruct dot; [apply div_from_S|reflexivity]|now destruct ds].
        -- destruct ds; [unfold value_from in K3; cbn [fold_left] in K3; lia|reflexivity].
      * destruct (N.leb_spec (value_from (10 * m + (c - 48)) ds) U64_MAX); [lia|reflexivity].
    + destruct (N.leb_spec (value_from (10 * m + (c - 48)) ds) U64_MAX); [lia|reflexivity].
Qed.

(** A successful run splits its input. *)
Lemma float_loop_split bytes : forall m d dot dig r, Forall (fun b => b < 256) bytes ->
  float_loop bytes m d dot dig = Some r ->
  exists ip fp (dt : bool), bytes = ip ++ (if dt then 46 :: fp else []) /\ all_digits ip /\ all_digits fp /\
    (dt = false -> fp = []) /\ (dot = true -> dt = false).
Proof.
  induction bytes as [|b bytes IH]; intros m d dot dig r Hb E.
  - exists [], [], false. repeat split; auto; constructor.
  - pose proof (Forall_inv Hb) as Hb0. apply Forall_inv_tail in Hb. cbn [float_loop] in E.
    destruct (N.eqb_spec b 46) as [->|Hne].
    + destruct dot; [discriminate|]. apply IH in E; [|exact Hb].
      destruct E as (ip & fp & dt & E1 & E2 & E3 & E4 & E5). specialize (E5 eq_refl). subst dt.
      rewrite (E4 eq_refl) in *. rewrite app_nil_r in E1. subst bytes.
      exists [], ip, true. repeat split; auto; try constructor; discriminate.
    + destruct (9 <? u8_wrapping_sub b 48) eqn:E9; [discriminate|].
      destruct (u64_checked_mul m 10); [|discriminate]. destruct (u64_checked_add _ _); [|discriminate].
      apply IH in E; [|exact Hb]. destruct E as (ip & fp & dt & -> & E2 & E3 & E4 & E5).
      exists (b :: ip), fp, dt. repeat split; auto. constructor; [|exact E2].
      destruct (is_ascii_digit b) eqn:Ed; [reflexivity|].
      rewrite nondigit_sub in E9 by assumption. discriminate.
Qed.

Lemma digits_utf8 s : Forall (fun c => c < 128) s -> utf8 s = s.
Proof.
  induction s as [|c s IH]; intros H; [reflexivity|]. unfold utf8. cbn [flat_map]. fold (utf8 s).
  pose proof (Forall_inv H) as Hc. apply Forall_inv_tail in H. rewrite utf8_char_ascii by exact Hc. cbn. now rewrite IH.
Qed.

(** ASCII bytes come from the same ASCII characters. *)
Lemma utf8_ascii_inv s : Forall (fun b => b < 128) (utf8 s) -> utf8 s = s.
Proof.
  induction s as [|c s IH]; intros H; [reflexivity|]. unfold utf8 in *. cbn [flat_map] in *.
  destruct (N.ltb_spec c 128) as [Hc|Hc].
  - rewrite utf8_char_ascii in * by exact Hc. cbn [app] in *. apply Forall_inv_tail in H. now rewrite IH.
  - destruct (utf8_char_high c Hc) as (b & bs & E & Hb). rewrite E in H. apply Forall_inv in H. lia.
Qed.

Lemma all_digits_ascii s : all_digits s -> Forall (fun c => c < 128) s.
Proof.
  apply Forall_impl. intros c H. unfold is_ascii_digit in H. apply andb_true_iff in H as [_ H].
  apply N.leb_le in H. lia.
Qed.

Lemma decimal_ascii neg ip dot fp : all_digits ip -> all_digits fp ->
  Forall (fun c => c < 128) (decimal neg ip dot fp).
Proof.
  intros H1 H2. apply all_digits_ascii in H1, H2. unfold decimal. repeat rewrite Forall_app. repeat split; auto.
  - destruct neg; constructor; [lia|constructor].
  - destruct dot; constructor; [lia|assumption].
Qed.

Lemma digits_not_minus ip r b rest : all_digits ip -> (ip <> [] \/ r = [] \/ exists t, r = 46 :: t) ->
  ip ++ r = b :: rest -> b <> 45.
Proof.
  intros Hd Hr E. destruct ip as [|x ip].
  - cbn in E. destruct Hr as [?|[->|[t ->]]]; [contradiction|discriminate|]. injection E as <- _. discriminate.
  - injection E as <- _. apply Forall_inv in Hd. intros ->. discriminate.
Qed.

Lemma value_from_app a b m : value_from m (a ++ b) = value_from (value_from m a) b.
Proof. unfold value_from. now rewrite fold_left_app. Qed.

(** The loop on a number. *)
Lemma float_loop_decimal ip dot fp : all_digits ip -> all_digits fp -> (dot = false -> fp = []) ->
  ip ++ fp <> [] ->
  float_loop (ip ++ (if dot then 46 :: fp else [])) 0 f64_one false false =
  if digits_value (ip ++ fp) <=? U64_MAX
  then Some (digits_value (ip ++ fp), pow10_f64 (length fp), true) else None.
Proof.
  intros Hi Hf Hd Hn. unfold digits_value. fold (value_from 0 (ip ++ fp)). rewrite value_from_app.
  rewrite float_loop_digits by exact Hi. pose proof (value_from_ge fp (value_from 0 ip)) as G.
  destruct (N.leb_spec (value_from 0 ip) U64_MAX) as [K|K].
  - destruct dot.
    + cbn [float_loop]. rewrite N.eqb_refl. rewrite <- (app_nil_r fp) at 1.
      rewrite float_loop_digits by exact Hf.
      destruct (N.leb_spec (value_from (value_from 0 ip) fp) U64_MAX) as [K2|K2].
      * cbn [float_loop]. destruct fp; [|reflexivity]. rewrite app_nil_r in Hn. destruct ip; [contradiction|reflexivity].
      * destruct fp; [change (value_from (value_from 0 ip) []) with (value_from 0 ip) in K2; lia|reflexivity].
    + rewrite (Hd eq_refl) in *. cbn [float_loop value_from fold_left]. fold (value_from 0 ip).
      destruct (N.leb_spec (value_from 0 ip) U64_MAX); [|lia].
      rewrite app_nil_r in Hn. destruct ip; [contradiction|reflexivity].
  - destruct ip as [|x ip]; [cbn in K; unfold U64_MAX in K; lia|].
    destruct (N.leb_spec (value_from (value_from 0 (x :: ip)) fp) U64_MAX); [lia|reflexivity].
Qed.

Lemma float_loop_empty dot : float_loop (if dot : bool then [46] else []) 0 f64_one false false
  = Some (0, f64_one, false).
Proof. destruct dot; reflexivity. Qed.


(** Acceptance and value of [limited_float_parse]. *)
Lemma float_parse_decimal neg ip dot fp :
  all_digits ip -> all_digits fp -> (dot = false -> fp = []) -> ip ++ fp <> [] ->
  limited_float_parse (decimal neg ip dot fp) =
  if digits_value (ip ++ fp) <=? U64_MAX
  then Some (decimal_f32 neg (digits_value (ip ++ fp)) (length fp)) else None.
Proof.
  intros Hi Hf Hd Hn. unfold limited_float_parse. rewrite digits_utf8 by (now apply decimal_ascii).
  pose proof (float_loop_decimal ip dot fp Hi Hf Hd Hn) as L.
  unfold decimal. destruct neg; cbn [app].
  - rewrite N.eqb_refl. cbn iota. rewrite L. destruct (_ <=? U64_MAX); reflexivity.
  - destruct (ip ++ (if dot then 46 :: fp else [])) as [|b rest] eqn:E.
    + rewrite L. destruct (_ <=? U64_MAX); reflexivity.
    + destruct (N.eqb_spec b 45) as [->|_].
      * exfalso. apply (digits_not_minus ip (if dot then 46 :: fp else []) 45 rest Hi); [|exact E|reflexivity].
        destruct dot; [right; right; now exists fp|now right; left].
      * rewrite L. destruct (_ <=? U64_MAX); reflexivity.
Qed.

Lemma float_parse_shape s v : scalar_str s -> limited_float_parse s = Some v ->
  exists neg ip dot fp, s = decimal neg ip dot fp /\ all_digits ip /\ all_digits fp /\
    (dot = false -> fp = []) /\ ip ++ fp <> [].
Proof.
  intros Hs E. unfold limited_float_parse in E. pose proof (utf8_bytes s Hs) as Hb.
  assert (K : exists neg bytes, utf8 s = (if neg : bool then [45] else []) ++ bytes /\
    match float_loop bytes 0 f64_one false false with
    | None => None
    | Some (mantissa, divisor, seen_digit) =>
        if negb seen_digit then None
        else Some (if neg then SFopp (f32_of_f64 (f64_div (f64_of_N mantissa) divisor))
                   else f32_of_f64 (f64_div (f64_of_N mantissa) divisor))
    end = Some v).
  { destruct (utf8 s) as [|b rest]; [exists false, []; now split|].
    destruct (N.eqb_spec b 45) as [->|_]; [exists true, rest|exists false, (b :: rest)]; now split. }
  clear E. destruct K as (neg & bytes & Eb & K). rewrite Eb in Hb. apply Forall_app in Hb as [_ Hb].
  destruct (float_loop bytes 0 f64_one false false) as [[[m d] sd]|] eqn:El; [|discriminate].
  destruct (float_loop_split _ _ _ _ _ _ Hb El) as (ip & fp & dt & -> & Hi & Hf & Hd & _).
  exists neg, ip, dt, fp. change (utf8 s = decimal neg ip dt fp) in Eb.
  assert (Es : s = decimal neg ip dt fp).
  { rewrite <- Eb. symmetry. apply utf8_ascii_inv. rewrite Eb. now apply decimal_ascii. }
  repeat split; auto. intros Hn. apply app_eq_nil in Hn as [-> ->].
  cbn [app] in El. rewrite float_loop_empty in El. injection El as <- <- <-. discriminate.
Qed.

(** ** Lengths *)

Lemma split_at_checked_spec s : forall n a b, split_at_checked n s = Some (a, b) <-> s = a ++ b /\ blen a = n.
Proof.
  induction s as [|c s IH]; intros n a b.
  - destruct n as [|n]; cbn [split_at_checked].
    + split; [intros E; injection E as <- <-; auto|]. intros [E1 E2].
      symmetry in E1. apply app_eq_nil in E1 as [-> ->]. reflexivity.
    + split; [discriminate|]. intros [E1 E2]. symmetry in E1. apply app_eq_nil in E1 as [-> ->]. discriminate.
  - destruct n as [|n]; cbn [split_at_checked].
    + split; [intros E; injection E as <- <-; auto|]. intros [E1 E2].
      destruct a as [|x a]; [cbn in E1; now rewrite E1|].
      cbn [blen] in E2. pose proof (len_utf8_pos x). lia.
    + pose proof (len_utf8_pos c) as P. destruct (Nat.leb_spec (len_utf8 c) (S n)) as [L|L].
      * split.
        -- intros E. destruct (split_at_checked (S n - len_utf8 c) s) as [[a' b']|] eqn:E2; [|discriminate].
           cbn in E. injection E as <- <-. apply IH in E2 as [-> E2]. split; [reflexivity|]. cbn [blen]. lia.
        -- intros [E1 E2]. destruct a as [|x a]; [discriminate|]. injection E1 as <- ->. cbn [blen] in E2.
           assert (E : split_at_checked (S n - len_utf8 c) (a ++ b) = Some (a, b)) by (apply IH; split; [reflexivity|lia]).
           now rewrite E.
      * split; [discriminate|]. intros [E1 E2]. destruct a as [|x a]; [discriminate|].
        injection E1 as <- ->. cbn [blen] in E2. lia.
Qed.

Definition all_ws (s : str) : Prop := Forall (fun c => is_ascii_ws c = true) s.

Lemma trim_end_split s : exists w, s = trim_ascii_end s ++ w /\ all_ws w.
Proof.
  induction s as [|c s (w & E & W)]; [exists []; split; [reflexivity|constructor]|].
  cbn [trim_ascii_end]. destruct (trim_ascii_end s) as [|t ts].
  - destruct (is_ascii_ws c) eqn:Ec.
    + exists (c :: w). cbn in E |- *. subst s. split; [reflexivity|now constructor].
    + exists w. cbn in E |- *. subst s. now split.
  - exists w. split; [cbn; now f_equal|exact W].
Qed.

Lemma trim_end_ws w : all_ws w -> trim_ascii_end w = [].
Proof.
  induction w as [|c w IH]; intros H; [reflexivity|]. cbn [trim_ascii_end]. rewrite IH by (now apply Forall_inv_tail in H).
  apply Forall_inv in H. now rewrite H.
Qed.
Lemma trim_end_app n w x : all_ws w -> is_ascii_ws x = false -> trim_ascii_end ((n ++ [x]) ++ w) = n ++ [x].
Proof.
  intros W X. induction n as [|c n IH].
  - cbn [app trim_ascii_end]. rewrite trim_end_ws by exact W. now rewrite X.
  - cbn [app trim_ascii_end] in *. rewrite IH. destruct (n ++ [x]) eqn:E; [now destruct n|reflexivity].
Qed.

Lemma decimal_last neg ip dot fp : all_digits ip -> all_digits fp -> (dot = false -> fp = []) -> ip ++ fp <> [] ->
  exists n x, decimal neg ip dot fp = n ++ [x] /\ is_ascii_ws x = false.
Proof.
  intros Hi Hf Hd Hn. destruct (rev_cases (decimal neg ip dot fp)) as [E|(n & x & E)].
  - unfold decimal in E. destruct neg; [discriminate|]. cbn in E. apply app_eq_nil in E as [-> E].
    destruct dot; [discriminate|]. rewrite (Hd eq_refl) in Hn. now elim Hn.
  - exists n, x. split; [exact E|].
    assert (Hx : In x (decimal neg ip dot fp)) by (rewrite E; apply in_or_app; right; now left).
    assert (D : forall c, is_ascii_digit c = true -> is_ascii_ws c = false).
    { intros c Hc. unfold is_ascii_digit in Hc. apply andb_true_iff in Hc as [H1 H2]. apply N.leb_le in H1, H2.
      unfold is_ascii_ws. rewrite !orb_false_iff. repeat split; apply N.eqb_neq; lia. }
    unfold all_digits in *. rewrite Forall_forall in Hi, Hf.
    unfold decimal in Hx. rewrite !in_app_iff in Hx. destruct Hx as [Hx|[Hx|Hx]].
    + destruct neg; [|contradiction]. destruct Hx as [<-|[]]. reflexivity.
    + apply D, Hi, Hx.
    + destruct dot; [|contradiction]. destruct Hx as [<-|Hx]; [reflexivity|apply D, Hf, Hx].
Qed.

Lemma assoc_str_iff {A} (k : str) (v : A) m : NoDup (map fst m) -> assoc_str k m = Some v <-> In (k, v) m.
Proof.
  induction m as [|[k' v'] m IH]; intros ND; cbn [assoc_str In]; [split; [discriminate|contradiction]|].
  cbn [map fst] in ND. inversion ND as [|x l Hx Hm]; subst.
  destruct (str_eqb k k') eqn:E.
  - apply str_eqb_eq in E. subst k'. split.
    + intros H. injection H as ->. now left.
    + intros [H|H]; [now injection H as ->|]. elim Hx. apply (in_map fst) in H. exact H.
  - apply str_eqb_neq in E. rewrite IH by exact Hm. split; [now right|].
    intros [H|H]; [injection H as -> ->; contradiction|exact H].
Qed.

Lemma unit_try_from_spec s u : latex_unit_try_from s = Some u <-> unit_spelling s u.
Proof.
  assert (L : forall c n, 97 <= n -> n <= 122 -> to_ascii_lower c = n <-> (c = n \/ c = n - 32)).
  { intros c n H1 H2. unfold to_ascii_lower, is_ascii_upper.
    destruct (N.leb_spec 65 c), (N.leb_spec c 90); cbn [andb]; lia. }
  assert (M : forall name, Forall (fun n => 97 <= n /\ n <= 122) name -> forall s,
     map to_ascii_lower s = name <-> Forall2 (fun c n => c = n \/ c = n - 32) s name).
  { induction name as [|n name IH]; intros Hn t.
    - split; [destruct t; [constructor|discriminate]|]. intros H. inversion H. reflexivity.
    - pose proof (Forall_inv Hn) as [H1 H2]. apply Forall_inv_tail in Hn. destruct t as [|c t].
      + split; [discriminate|]. intros H. inversion H.
      + cbn [map]. split.
        * intros E. injection E as E1 E2. constructor; [now apply L|now apply IH].
        * intros H. inversion H; subst. f_equal; [now apply L|now apply IH]. }
  assert (A : Forall (fun p => Forall (fun n => 97 <= n /\ n <= 122) (fst p)) all_latex_units).
  { repeat constructor; cbn; lia. }
  assert (ND : NoDup (map fst all_latex_units)).
  { repeat constructor; cbn; intros K; repeat (destruct K as [K|K]; [discriminate|]); exact K. }
  unfold latex_unit_try_from, unit_spelling. rewrite assoc_str_iff by exact ND. split.
  - intros H. exists (map to_ascii_lower s). split; [exact H|]. apply M; [|reflexivity].
    rewrite Forall_forall in A. apply (A _ H).
  - intros (name & H & F). apply M in F; [now rewrite F|]. rewrite Forall_forall in A. apply (A _ H).
Qed.

Lemma unit_spelling_ascii s u : unit_spelling s u -> exists a b, s = [a; b] /\ a < 128 /\ b < 128.
Proof.
  intros (name & H & F). cbn in H.
  assert (K : exists x y, name = [x; y] /\ x < 128 /\ y < 128).
  { repeat (destruct H as [H|H]; [injection H as <- _; do 2 eexists; split; [reflexivity|lia]|]). contradiction. }
  destruct K as (x & y & -> & Hx & Hy). inversion F as [|a ? t ? H1 F1]; subst. inversion F1 as [|b ? t' ? H2 F2]; subst.
  inversion F2; subst. exists a, b. split; [reflexivity|]. lia.
Qed.

Lemma parse_length_iff s l unit mu : scalar_str s ->
  parse_length_specification s = Some (l, unit, mu) <->
  exists num ws u v, s = num ++ ws ++ unit /\ all_ws ws /\ unit_spelling unit u /\
    limited_float_parse num = Some v /\ l = length_with_unit u v /\ mu = is_math_unit u.
Proof.
  intros Hs. unfold parse_length_specification. split.
  - destruct (Nat.ltb_spec (blen s) 2) as [L|L]; [discriminate|].
    destruct (split_at_checked (blen s - 2) s) as [[digits un]|] eqn:E; [|discriminate].
    destruct (limited_float_parse (trim_ascii_end digits)) as [v|] eqn:Ev; [|discriminate].
    destruct (latex_unit_try_from un) as [u|] eqn:Eu; [|discriminate].
    intros H. injection H as <- <- <-. apply split_at_checked_spec in E as [-> _].
    destruct (trim_end_split digits) as (w & Ew & W).
    exists (trim_ascii_end digits), w, u, v. apply unit_try_from_spec in Eu.
    repeat split; auto. rewrite app_assoc. now rewrite <- Ew.
  - intros (num & ws & u & v & -> & W & U & V & -> & ->).
    destruct (unit_spelling_ascii _ _ U) as (a & b & -> & Ha & Hb).
    assert (B : blen [a; b] = 2%nat).
    { cbn [blen]. unfold len_utf8. destruct (N.ltb_spec a 0x80); [|lia]. destruct (N.ltb_spec b 0x80); [|lia]. reflexivity. }
    rewrite !blen_app, B. destruct (Nat.ltb_spec (blen num + (blen ws + 2)) 2); [lia|].
    assert (E : split_at_checked (blen num + (blen ws + 2) - 2) (num ++ ws ++ [a; b]) = Some (num ++ ws, [a; b])).
    { apply split_at_checked_spec. rewrite app_assoc, blen_app. split; [reflexivity|lia]. }
    rewrite E. apply Forall_app in Hs as [Hn _].
    destruct (float_parse_shape num v Hn V) as (neg & ip & dot & fp & -> & Hi & Hf & Hd & Hne).
    destruct (decimal_last neg ip dot fp Hi Hf Hd Hne) as (n & x & En & X).
    rewrite En, trim_end_app by assumption. rewrite <- En, V.
    apply unit_try_from_spec in U. now rewrite U.
Qed.
