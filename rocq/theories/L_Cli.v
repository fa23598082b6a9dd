(** Proofs about the command line tool's document processing. *)
From Verif Require Import Str M_Escape S_Html M_Cli S_Cli L_Escape.
Local Open Scope nat_scope.

(** ** Prefix facts *)

Lemma starts_with_length p s : starts_with p s = true -> length p <= length s.
Proof. intros H. apply starts_with_spec in H as [r ->]. rewrite app_length. lia. Qed.

Lemma starts_with_firstn p s e : starts_with p (firstn e s) = true -> starts_with p s = true.
Proof.
  intros H. apply starts_with_spec in H as [r H]. apply starts_with_spec.
  exists (r ++ skipn e s). rewrite app_assoc, <- H. symmetry. apply firstn_skipn.
Qed.

Lemma starts_with_firstn_conv p s e :
  starts_with p s = true -> length p <= e -> starts_with p (firstn e s) = true.
Proof.
  intros H He. apply starts_with_spec in H as [r ->]. apply starts_with_spec.
  exists (firstn (e - length p) r). rewrite firstn_app.
  f_equal. apply firstn_all2. lia.
Qed.

Lemma starts_with_split p s : starts_with p s = true -> s = p ++ skipn (length p) s.
Proof.
  intros H. apply starts_with_spec in H as [r ->].
  rewrite skipn_app, skipn_all, Nat.sub_diag. reflexivity.
Qed.

(** ** scan *)

Lemma scan_cons0 esc n prev c s :
  scan esc n 0 prev (c :: s) =
  (if starts_with n (c :: s) then
     if esc && (match prev with Some p => N.eqb p 92 | None => false end)
     then option_map S (scan esc n (length n - 1) (Some c) s) else Some 0
   else option_map S (scan esc n 0 (Some c) s)).
Proof. destruct esc, n; reflexivity. Qed.

Lemma scan_consS esc n k prev c s :
  scan esc n (S k) prev (c :: s) = option_map S (scan esc n k (Some c) s).
Proof. reflexivity. Qed.

Lemma option_map_S_inv o p : option_map S o = Some p -> exists q, o = Some q /\ p = S q.
Proof. destruct o as [q|]; cbn; [|discriminate]. intros H. injection H as <-. exists q; auto. Qed.

(** A hit is an occurrence. *)
Lemma scan_hit esc n : forall s skip prev p,
  scan esc n skip prev s = Some p -> starts_with n (skipn p s) = true /\ p <= length s.
Proof.
  induction s as [|c s IH]; intros skip prev p H.
  - destruct skip; [|discriminate]. cbn in H. destruct n; [|discriminate].
    cbn in H. destruct (esc && _); [discriminate|]. injection H as <-. cbn. split; [reflexivity|lia].
  - destruct skip as [|k].
    + rewrite scan_cons0 in H. destruct (starts_with n (c :: s)) eqn:E.
      * destruct (esc && _).
        -- apply option_map_S_inv in H as (q & H & ->). apply IH in H as [H1 H2]. cbn. split; [exact H1|lia].
        -- injection H as <-. split; [exact E|cbn; lia].
      * apply option_map_S_inv in H as (q & H & ->). apply IH in H as [H1 H2]. cbn. split; [exact H1|lia].
    + rewrite scan_consS in H. apply option_map_S_inv in H as (q & H & ->).
      apply IH in H as [H1 H2]. cbn. split; [exact H1|lia].
Qed.

Lemma scan_hit_len esc n s skip prev p :
  scan esc n skip prev s = Some p -> p + length n <= length s.
Proof.
  intros H. apply scan_hit in H as [H1 H2]. apply starts_with_length in H1.
  rewrite skipn_length in H1. lia.
Qed.

(** Scanning a window: hits persist in the whole document ... *)
Lemma scan_window_sound esc n : forall s skip prev e p,
  scan esc n skip prev (firstn e s) = Some p -> scan esc n skip prev s = Some p.
Proof.
  induction s as [|c s IH]; intros skip prev e p H.
  - rewrite firstn_nil in H. exact H.
  - destruct e as [|e].
    + (* empty window *)
      cbn [firstn] in H. destruct skip; [|discriminate]. cbn in H.
      destruct n as [|x n]; [|discriminate]. cbn in H. rewrite scan_cons0. cbn [starts_with].
      destruct (esc && _); [discriminate|exact H].
    + cbn [firstn] in H. destruct skip as [|k].
      * rewrite scan_cons0 in *.
        destruct (starts_with n (c :: firstn e s)) eqn:E.
        -- change (c :: firstn e s) with (firstn (S e) (c :: s)) in E.
           rewrite (starts_with_firstn _ _ _ E).
           destruct (esc && _); [|exact H].
           apply option_map_S_inv in H as (q & H & ->). rewrite (IH _ _ _ _ H). reflexivity.
        -- apply option_map_S_inv in H as (q & H & ->).
           destruct (starts_with n (c :: s)) eqn:E2.
           ++ (* the occurrence is cut off: nothing else fits in the window *)
              exfalso. pose proof (scan_hit_len _ _ _ _ _ _ H) as HL.
              rewrite firstn_length in HL.
              assert (length n <= S e) by lia.
              change (c :: firstn e s) with (firstn (S e) (c :: s)) in E.
              rewrite (starts_with_firstn_conv _ _ _ E2 H0) in E. discriminate.
           ++ rewrite (IH _ _ _ _ H). reflexivity.
      * rewrite scan_consS in *. apply option_map_S_inv in H as (q & H & ->).
        rewrite (IH _ _ _ _ H). reflexivity.
Qed.

(** ... and a hit that lies completely in the window is found in it. *)
Lemma scan_window_complete esc n : forall s skip prev e p,
  scan esc n skip prev s = Some p -> p + length n <= e ->
  scan esc n skip prev (firstn e s) = Some p.
Proof.
  induction s as [|c s IH]; intros skip prev e p H He.
  - rewrite firstn_nil. exact H.
  - destruct e as [|e].
    + assert (p = 0) by lia. subst p. assert (n = []) by (destruct n; [reflexivity|cbn in He; lia]). subst n.
      cbn [firstn]. destruct skip as [|k].
      * rewrite scan_cons0 in H. cbn [starts_with] in H. cbn.
        destruct (esc && _); [apply option_map_S_inv in H as (q & _ & ?); discriminate|reflexivity].
      * rewrite scan_consS in H. apply option_map_S_inv in H as (q & _ & ?). discriminate.
    + cbn [firstn]. destruct skip as [|k].
      * rewrite scan_cons0 in *.
        destruct (starts_with n (c :: s)) eqn:E.
        -- assert (length n <= S e) by lia.
           pose proof (starts_with_firstn_conv _ _ _ E H0) as E2. cbn [firstn] in E2. rewrite E2.
           destruct (esc && _); [|exact H].
           apply option_map_S_inv in H as (q & H & ->). rewrite (IH _ _ e _ H) by lia. reflexivity.
        -- destruct (starts_with n (c :: firstn e s)) eqn:E2.
           ++ change (c :: firstn e s) with (firstn (S e) (c :: s)) in E2.
              rewrite (starts_with_firstn _ _ _ E2) in E. discriminate.
           ++ apply option_map_S_inv in H as (q & H & ->). rewrite (IH _ _ e _ H) by lia. reflexivity.
      * rewrite scan_consS in *. apply option_map_S_inv in H as (q & H & ->).
        rewrite (IH _ _ e _ H) by lia. reflexivity.
Qed.

(** ** find_sub and find_delimiter_position *)

Lemma find_sub_scan n s prev : find_sub n s = scan false n 0 prev s.
Proof.
  revert prev; induction s as [|c s IH]; intros prev.
  - cbn. destruct n; reflexivity.
  - rewrite scan_cons0. cbn [find_sub andb]. rewrite (IH (Some c)). destruct n; reflexivity.
Qed.

Definition of_option {A} (o : option A) : search A :=
  match o with Some a => SFound a | None => SNone end.

(** The previous byte at an offset. *)
Definition prev_at (input : str) (offset : nat) : option N :=
  match offset with O => None | S k => nth_error input k end.

(** Skipping. *)
Lemma scan_skip esc n : forall k prev s, k <= length s ->
  scan esc n k prev s =
  option_map (Nat.add k) (scan esc n 0 (match k with O => prev | S j => nth_error s j end) (skipn k s)).
Proof.
  induction k as [|k IH]; intros prev s Hk.
  - cbn [skipn]. destruct (scan esc n 0 prev s); reflexivity.
  - destruct s as [|c s]; [cbn in Hk; lia|]. cbn in Hk.
    rewrite scan_consS, IH by lia. cbn [skipn nth_error].
    destruct k as [|k]; cbn [nth_error].
    + destruct (scan esc n 0 (Some c) (skipn 0 s)); reflexivity.
    + destruct (scan esc n 0 _ (skipn (S k) s)); reflexivity.
Qed.

Lemma option_map_S_add k (o : option nat) :
  option_map S (option_map (Nat.add k) o) = option_map (Nat.add (S k)) o.
Proof. destruct o; reflexivity. Qed.

(** Unescaped scan up to the first occurrence. *)
Lemma scan_first n : forall s prev,
  match find_sub n s with
  | None => scan true n 0 prev s = None
  | Some rel =>
      starts_with n (skipn rel s) = true /\
      scan true n 0 prev s =
      option_map (Nat.add rel)
        (scan true n 0 (match rel with O => prev | S j => nth_error s j end) (skipn rel s))
  end.
Proof.
  induction s as [|c s IH]; intros prev.
  - destruct n; cbn; [split; [reflexivity|]|reflexivity].
    destruct prev as [p|]; [destruct (N.eqb p 92)|]; reflexivity.
  - cbn [find_sub]. destruct (starts_with n (c :: s)) eqn:E.
    + cbn [skipn]. split; [exact E|]. destruct (scan true n 0 prev (c :: s)); reflexivity.
    + specialize (IH (Some c)). destruct (find_sub n s) as [rel|]; cbn [option_map].
      * destruct IH as [IH1 IH2]. split; [exact IH1|].
        rewrite scan_cons0, E, IH2. cbn [skipn].
        destruct rel as [|rel]; cbn [nth_error]; apply option_map_S_add.
      * rewrite scan_cons0, E, IH. reflexivity.
Qed.

Lemma prev_at_skipn input offset rel :
  match rel with O => prev_at input offset | S j => nth_error (skipn offset input) j end
  = prev_at input (offset + rel).
Proof.
  destruct rel as [|j]; [now rewrite Nat.add_0_r|].
  rewrite Nat.add_succ_r. cbn [prev_at].
  revert input; induction offset as [|o IH]; intros input; [reflexivity|].
  destruct input as [|c input]; cbn [skipn Nat.add nth_error].
  - destruct j; reflexivity.
  - apply IH.
Qed.

Lemma find_sub_le n s rel : find_sub n s = Some rel -> rel + length n <= length s.
Proof. rewrite (find_sub_scan n s None). apply scan_hit_len. Qed.

Lemma skipn_skipn' {A} (l : list A) a b : skipn a (skipn b l) = skipn (b + a) l.
Proof.
  revert l; induction b as [|b IH]; intros l; [reflexivity|].
  destruct l as [|x l]; cbn [skipn Nat.add]; [now rewrite !skipn_nil | apply IH].
Qed.

Lemma find_unescaped_loop_scan n : forall fuel input offset,
  n <> [] -> offset <= length input -> length input - offset < fuel ->
  find_unescaped_loop fuel input n offset =
  of_option (option_map (Nat.add offset) (scan true n 0 (prev_at input offset) (skipn offset input))).
Proof.
  intros fuel. induction fuel as [|fuel IH]; intros input offset Hn Ho Hf; [lia|].
  cbn [find_unescaped_loop].
  pose proof (scan_first n (skipn offset input) (prev_at input offset)) as F.
  destruct (find_sub n (skipn offset input)) as [rel|] eqn:E.
  - destruct F as [F1 F2]. rewrite F2. clear F2.
    pose proof (find_sub_le _ _ _ E) as HL. rewrite skipn_length in HL.
    rewrite prev_at_skipn, skipn_skipn' in *.
    assert (HN : 0 < length n) by (destruct n; [contradiction|cbn; lia]).
    remember (offset + rel) as abs eqn:Habs.
    assert (HA : abs + length n <= length input) by lia.
    destruct (skipn abs input) as [|c rest] eqn:Es.
    { pose proof (starts_with_length _ _ F1). cbn in H. lia. }
    rewrite scan_cons0, F1.
    assert (PV : ((0 <? abs)%nat && N.eqb (nth (abs - 1) input 0%N) 92)
                 = match prev_at input abs with Some p => N.eqb p 92 | None => false end).
    { destruct abs as [|a]; [reflexivity|]. cbn [prev_at]. cbn [Nat.ltb Nat.leb andb].
      replace (S a - 1) with a by lia.
      destruct (nth_error input a) as [x|] eqn:Ex.
      - now rewrite (nth_error_nth _ _ 0%N Ex).
      - apply nth_error_None in Ex. lia. }
    cbn [andb]. rewrite PV.
    destruct (match prev_at input abs with Some p => N.eqb p 92 | None => false end) eqn:Ep.
    + rewrite IH by (try assumption; lia).
      rewrite (scan_skip true n (length n - 1) (Some c) rest).
      2:{ assert (length (c :: rest) = length input - abs) by (rewrite <- Es; apply skipn_length). cbn in H. lia. }
      assert (Er : skipn (length n - 1) rest = skipn (abs + length n) input).
      { replace (abs + length n) with (abs + S (length n - 1)) by lia.
        rewrite <- skipn_skipn', Es. reflexivity. }
      rewrite Er.
      assert (Epv : match length n - 1 with O => Some c | S j => nth_error rest j end
                    = prev_at input (abs + length n)).
      { rewrite <- (prev_at_skipn input abs (length n)), Es.
        destruct (length n) as [|m]; [lia|]. cbn [Nat.sub]. rewrite Nat.sub_0_r.
        destruct m; reflexivity. }
      rewrite Epv.
      destruct (scan true n 0 (prev_at input (abs + length n)) (skipn (abs + length n) input)) as [q|];
        cbn; [f_equal; lia|reflexivity].
    + cbn. f_equal. lia.
  - rewrite F. reflexivity.
Qed.

Lemma find_delimiter_position_scan esc input n :
  find_delimiter_position esc input n = of_option (search_doc esc n input).
Proof.
  unfold find_delimiter_position, search_doc. destruct esc.
  - destruct n as [|x n].
    + cbn. destruct input; reflexivity.
    + rewrite find_unescaped_loop_scan; [|discriminate|lia|lia].
      cbn [skipn prev_at]. destruct (scan true (x :: n) 0 None input); reflexivity.
  - rewrite (find_sub_scan n input None). destruct (scan false n 0 None input); reflexivity.
Qed.

(** ** The window loop *)

Lemma find_next_loop_spec esc inl blk input : forall fuel window,
  1 <= window -> length input - window < fuel ->
  find_next_loop fuel esc inl blk input window =
  of_option (nearest (search_doc esc inl input) (search_doc esc blk input)).
Proof.
  induction fuel as [|fuel IH]; intros window Hw Hf; [lia|].
  cbn [find_next_loop].
  set (e := Nat.min window (length input)).
  rewrite !find_delimiter_position_scan.
  set (si := search_doc esc inl input). set (sb := search_doc esc blk input).
  assert (Si : forall p, search_doc esc inl (firstn e input) = Some p -> si = Some p)
    by (intros p; apply scan_window_sound).
  assert (Sb : forall p, search_doc esc blk (firstn e input) = Some p -> sb = Some p)
    by (intros p; apply scan_window_sound).
  assert (Ci : forall p, si = Some p -> p + length inl <= e -> search_doc esc inl (firstn e input) = Some p)
    by (intros p; apply scan_window_complete).
  assert (Cb : forall p, sb = Some p -> p + length blk <= e -> search_doc esc blk (firstn e input) = Some p)
    by (intros p; apply scan_window_complete).
  assert (Li : forall p, si = Some p -> p + length inl <= length input)
    by (intros p; apply scan_hit_len).
  assert (Lb : forall p, sb = Some p -> p + length blk <= length input)
    by (intros p; apply scan_hit_len).
  destruct (search_doc esc inl (firstn e input)) as [i|] eqn:Ei;
    destruct (search_doc esc blk (firstn e input)) as [b|] eqn:Eb; cbn [of_option].
  - specialize (Si i eq_refl). specialize (Sb b eq_refl).
    rewrite Si, Sb. cbn [nearest]. destruct (b <=? i) eqn:Ebi; cbn [snd of_option];
      (destruct ((e <? _) && (e <? length input)) eqn:Ew; [|reflexivity]);
      apply andb_true_iff in Ew as [Ew1 Ew2]; apply Nat.ltb_lt in Ew1, Ew2;
      rewrite IH by lia; fold si sb; rewrite Si, Sb; cbn [nearest]; rewrite Ebi; reflexivity.
  - specialize (Si i eq_refl). rewrite Si. cbn [snd].
    destruct ((e <? _) && (e <? length input)) eqn:Ew.
    + apply andb_true_iff in Ew as [Ew1 Ew2]; apply Nat.ltb_lt in Ew1, Ew2.
      rewrite IH by lia. fold si sb. rewrite Si. reflexivity.
    + destruct sb as [b|]; [|reflexivity]. cbn [nearest].
      destruct (Nat.leb_spec b i) as [Hbi|Hbi]; [|reflexivity]. exfalso.
      specialize (Cb b eq_refl). specialize (Lb b eq_refl).
      apply andb_false_iff in Ew as [Ew|Ew]; apply Nat.ltb_ge in Ew;
        assert (HX : b + length blk <= e) by lia; specialize (Cb HX); discriminate.
  - specialize (Sb b eq_refl). rewrite Sb. cbn [snd].
    destruct ((e <? _) && (e <? length input)) eqn:Ew.
    + apply andb_true_iff in Ew as [Ew1 Ew2]; apply Nat.ltb_lt in Ew1, Ew2.
      rewrite IH by lia. fold si sb. rewrite Sb. reflexivity.
    + destruct si as [i|]; [|reflexivity]. cbn [nearest].
      destruct (Nat.leb_spec b i) as [Hbi|Hbi]; [reflexivity|]. exfalso.
      specialize (Ci i eq_refl). specialize (Li i eq_refl).
      apply andb_false_iff in Ew as [Ew|Ew]; apply Nat.ltb_ge in Ew;
        assert (HX : i + length inl <= e) by lia; specialize (Ci HX); discriminate.
  - destruct (Nat.eqb_spec e (length input)) as [Ee|Ee].
    + destruct si as [i|].
      { specialize (Ci i eq_refl). specialize (Li i eq_refl). assert (HX : i + length inl <= e) by lia. specialize (Ci HX). discriminate. }
      destruct sb as [b|].
      { specialize (Cb b eq_refl). specialize (Lb b eq_refl). assert (HX : b + length blk <= e) by lia. specialize (Cb HX). discriminate. }
      reflexivity.
    + rewrite IH by lia. reflexivity.
Qed.

Lemma find_next_open w r doc : 1 <= w ->
  find_next_delimiter w r doc true = of_option (next_open r doc).
Proof. intros Hw. unfold find_next_delimiter. apply find_next_loop_spec; lia. Qed.

Lemma find_next_close w r doc : 1 <= w ->
  find_next_delimiter w r doc false = of_option (next_close r doc).
Proof. intros Hw. unfold find_next_delimiter. apply find_next_loop_spec; lia. Qed.

(** ** Entities *)

Lemma position_app_hit p a c b :
  (forall d, In d a -> p d = false) -> p c = true -> position p (a ++ c :: b) = Some (length a).
Proof.
  induction a as [|d a IH]; intros Ha Hc; cbn [app position length].
  - now rewrite Hc.
  - rewrite (Ha d (or_introl eq_refl)), IH; auto. intros x Hx. apply Ha. now right.
Qed.

Lemma position_all_false p s : (forall d, In d s -> p d = false) -> position p s = None.
Proof.
  induction s as [|d s IH]; intros H; [reflexivity|]. cbn [position].
  rewrite (H d (or_introl eq_refl)), IH; [reflexivity|]. intros x Hx. apply H. now right.
Qed.

Lemma reserved_name name c : entity name c ->
  (forall d, In d name -> N.eqb 59 d = false) /\ assoc_str name html_reserved_map = Some c.
Proof.
  set (p := fun e : str * N => forallb (fun d => negb (N.eqb 59 d)) (fst e) &&
    match assoc_str (fst e) html_reserved_map with Some x => N.eqb x (snd e) | None => false end).
  assert (P : forallb p (entity_names ++ map (fun c => (35%N :: dec c, c)) (map snd entity_names)) = true) by (vm_compute; reflexivity).
  rewrite forallb_forall in P. intros H. specialize (P (name, c)).
  assert (I0 : In (name, c) (entity_names ++ map (fun c => (35%N :: dec c, c)) (map snd entity_names))).
  { apply in_or_app. destruct H as [H|[H ->]]; [now left|right]. now apply (in_map (fun c => (35%N :: dec c, c))). }
  apply P in I0. unfold p in I0. cbn [fst snd] in I0. apply andb_prop in I0 as [I1 I2]. split.
  - intros d Hd. rewrite forallb_forall in I1. apply I1 in Hd. now apply negb_true_iff in Hd.
  - destruct (assoc_str name html_reserved_map) as [x|]; [|discriminate]. apply N.eqb_eq in I2. now subst.
Qed.

(** Any escaped text is a plain prefix followed by an entity, or has no '&'. *)
Lemma escaped_cases t s : escaped t s ->
  (t = s /\ forall d, In d s -> N.eqb 38 d = false) \/
  (exists a name c t' s', s = a ++ 38%N :: name ++ 59%N :: s' /\ t = a ++ c :: t' /\
     (forall d, In d a -> N.eqb 38 d = false) /\
     entity name c /\ escaped t' s').
Proof.
  induction 1 as [|c t s Hc H IH|name c t s Hin H IH].
  - left. split; [reflexivity|]. intros d [].
  - destruct IH as [[-> IH]|(a & name & c' & t' & s' & -> & -> & Ha & Hin & He)].
    + left. split; [reflexivity|]. intros d [<-|Hd]; [apply N.eqb_neq; congruence|auto].
    + right. exists (c :: a), name, c', t', s'. repeat split; auto.
      intros d [<-|Hd]; [apply N.eqb_neq; congruence|auto].
  - right. exists [], name, c, t, s. repeat split; auto. intros d [].
Qed.

Lemma firstn_exact {A} (a b : list A) : firstn (length a) (a ++ b) = a.
Proof. rewrite firstn_app, Nat.sub_diag, firstn_all. cbn. apply app_nil_r. Qed.
Lemma skipn_exact {A} (a b : list A) : skipn (length a) (a ++ b) = b.
Proof. rewrite skipn_app, Nat.sub_diag, skipn_all. reflexivity. Qed.

Lemma entity_loop_escaped : forall fuel buffer a name c t' s',
  (forall d, In d a -> N.eqb 38 d = false) ->
  entity name c -> escaped t' s' ->
  length (a ++ 38%N :: name ++ 59%N :: s') < fuel ->
  entity_loop fuel buffer (a ++ 38%N :: name ++ 59%N :: s') (length a) = Some (buffer ++ a ++ c :: t').
Proof.
  induction fuel as [|fuel IH]; intros buffer a name c t' s' Ha Hin He Hf; [lia|].
  cbn [entity_loop]. rewrite firstn_exact, skipn_exact.
  destruct (reserved_name _ _ Hin) as [Hn Hassoc].
  rewrite (position_app_hit (N.eqb 59) name 59%N s' Hn (N.eqb_refl _)).
  rewrite firstn_exact, Hassoc.
  replace (skipn (S (length name)) (name ++ 59%N :: s')) with s'.
  2:{ replace (S (length name)) with (length (name ++ [59%N])) by (rewrite app_length; cbn; lia).
      change (name ++ 59%N :: s') with (name ++ [59%N] ++ s'). rewrite app_assoc, skipn_exact. reflexivity. }
  destruct (escaped_cases _ _ He) as [[-> Hs]|(a2 & name2 & c2 & t2 & s2 & -> & -> & Ha2 & Hin2 & He2)].
  - rewrite position_all_false by exact Hs. rewrite <- !app_assoc. reflexivity.
  - rewrite (position_app_hit (N.eqb 38) a2 38%N _ Ha2 (N.eqb_refl _)).
    rewrite (IH _ a2 name2 c2 t2 s2); auto.
    + rewrite <- !app_assoc. reflexivity.
    + repeat (rewrite app_length in * || cbn [length] in * ). lia.
Qed.

Lemma replace_html_entities_escaped t s : escaped t s -> replace_html_entities s = Some t.
Proof.
  intros H. unfold replace_html_entities.
  destruct (escaped_cases _ _ H) as [[-> Hs]|(a & name & c & t' & s' & -> & -> & Ha & Hin & He)].
  - now rewrite position_all_false.
  - rewrite (position_app_hit (N.eqb 38) a 38%N _ Ha (N.eqb_refl _)).
    rewrite entity_loop_escaped with (c := c) (t' := t'); auto.
Qed.

Lemma entity_loop_some : forall fuel buffer rest idx,
  position (N.eqb 38) rest = Some idx -> length rest < fuel ->
  exists out, entity_loop fuel buffer rest idx = Some out.
Proof.
  induction fuel as [|fuel IH]; intros buffer rest idx Hp Hf; [lia|].
  cbn [entity_loop]. destruct (position_some _ _ _ Hp) as (c & r & H1 & H2 & _ & _ & H5).
  rewrite H1. destruct (position (N.eqb 59) r) as [j|] eqn:Ej; [|eauto].
  destruct (position (N.eqb 38) (skipn (S j) r)) as [i|] eqn:Ei; [|eauto].
  apply IH; [exact Ei|]. rewrite skipn_length. lia.
Qed.

Lemma replace_html_entities_total s : exists t, replace_html_entities s = Some t.
Proof.
  unfold replace_html_entities. destruct (position (N.eqb 38) s) as [i|] eqn:E; [|eauto].
  apply entity_loop_some; [exact E|lia].
Qed.

Lemma content_escape_escaped s : escaped s (flat_map esc_content s).
Proof.
  induction s as [|c s IH]; [constructor|]. cbn [flat_map]. unfold esc_content at 1.
  destruct (N.eqb_spec c 38) as [->|H1].
  { apply (esc_entity (lit "amp") 38%N s _); [left; cbn; tauto|exact IH]. }
  destruct (N.eqb_spec c 60) as [->|H2].
  { apply (esc_entity (lit "lt") 60%N s _); [left; cbn; tauto|exact IH]. }
  destruct (N.eqb_spec c 62) as [->|H3].
  { apply (esc_entity (lit "gt") 62%N s _); [left; cbn; tauto|exact IH]. }
  constructor; assumption.
Qed.

(** ** The replacement loop *)

Lemma search_doc_empty esc doc : search_doc esc [] doc = Some 0.
Proof. destruct esc, doc; reflexivity. Qed.

Lemma next_open_none_nonempty r doc : next_open r doc = None ->
  0 < length (inline_open r) /\ 0 < length (block_open r).
Proof.
  unfold next_open. intros H. split.
  - destruct (inline_open r); [|cbn; lia]. exfalso. rewrite search_doc_empty in H.
    cbn [nearest] in H. destruct (search_doc _ (block_open r) doc) as [b|]; [destruct (b <=? 0)|]; discriminate.
  - destruct (block_open r); [|cbn; lia]. exfalso. rewrite search_doc_empty in H.
    destruct (search_doc _ (inline_open r) doc) as [i|]; discriminate.
Qed.

Lemma nearest_hit i b d p : nearest i b = Some (d, p) ->
  match d with Inline => i = Some p | Block => b = Some p end.
Proof.
  destruct i as [i|], b as [b|]; cbn; try discriminate.
  - destruct (b <=? i); intros H; injection H as <- <-; reflexivity.
  - intros H; injection H as <- <-; reflexivity.
  - intros H; injection H as <- <-; reflexivity.
Qed.

Lemma next_open_hit r doc d p : next_open r doc = Some (d, p) ->
  doc = firstn p doc ++ open_delim r d ++ skipn (p + opening_len r d) doc /\ p <= length doc.
Proof.
  intros H. apply nearest_hit in H.
  destruct d; apply scan_hit in H as [H Hp]; split; auto; cbn [open_delim opening_len];
    rewrite <- skipn_skipn', <- (starts_with_split _ _ H), firstn_skipn; reflexivity.
Qed.

Lemma next_close_hit r doc d p : next_close r doc = Some (d, p) ->
  doc = firstn p doc ++ close_delim r d ++ skipn (p + closing_len r d) doc /\ p <= length doc.
Proof.
  intros H. apply nearest_hit in H.
  destruct d; apply scan_hit in H as [H Hp]; split; auto; cbn [close_delim closing_len];
    rewrite <- skipn_skipn', <- (starts_with_split _ _ H), firstn_skipn; reflexivity.
Qed.

Section Loop.
  Context {St E : Type}.
  Variable f : St -> str -> display -> St * (str + E).
  Variable w : nat.
  Hypothesis Hw : 1 <= w.
  Variable r : replacer.

  Lemma replace_loop_unfold fuel st result remaining pos : remaining <> [] ->
    replace_loop f w r (S fuel) st result remaining pos =
    match next_open r remaining with
    | None => (st, ROk (result ++ remaining))
    | Some (open_typ, idx) =>
        let open_pos := pos + idx in
        let start := open_pos + opening_len r open_typ in
        let rem2 := skipn (idx + opening_len r open_typ) remaining in
        match next_close r rem2 with
        | None => (st, RUnclosed open_pos)
        | Some (close_typ, idx2) =>
            if negb (closing_identical r) && negb (display_eqb open_typ close_typ)
            then (st, RMismatched open_pos (start + idx2))
            else
              let content := firstn idx2 rem2 in
              match next_open r content with
              | Some (_, i) => (st, RNested (start + i))
              | None =>
                  match replace_html_entities content with
                  | None => (st, RFuel)
                  | Some replaced =>
                      match f st replaced open_typ with
                      | (st', inl out) =>
                          replace_loop f w r fuel st' ((result ++ firstn idx remaining) ++ out)
                            (skipn (idx2 + closing_len r close_typ) rem2)
                            (start + idx2 + closing_len r close_typ)
                      | (st', inr _) =>
                          match f st' replaced open_typ with
                          | (st'', inr e) => (st'', RLatex start e replaced)
                          | (st'', inl _) => (st'', RPanic)
                          end
                      end
                  end
              end
        end
    end.
  Proof.
    intros Hr. destruct remaining as [|c0 rem]; [contradiction|]. cbn [replace_loop].
    rewrite find_next_open by exact Hw.
    destruct (next_open r (c0 :: rem)) as [[d p]|]; cbn [of_option]; [|reflexivity].
    rewrite find_next_close by exact Hw.
    destruct (next_close r _) as [[d2 p2]|]; cbn [of_option]; [|reflexivity].
    destruct (negb _ && negb _); [reflexivity|].
    rewrite find_next_open by exact Hw.
    destruct (next_open r (firstn p2 _)) as [[d3 p3]|]; cbn [of_option]; reflexivity.
  Qed.

  Lemma display_eqb_eq a b : display_eqb a b = true <-> a = b.
  Proof. destruct a, b; cbn; split; congruence. Qed.

  (** Soundness: a successful run is a processing in the sense of the specification. *)
  Lemma replace_loop_sound : forall fuel st result remaining pos st' out,
    replace_loop f w r fuel st result remaining pos = (st', ROk out) ->
    exists segs tail,
      processed f r st remaining st' segs tail /\
      remaining = flat_map (seg_source r) segs ++ tail /\
      out = result ++ flat_map seg_result segs ++ tail.
  Proof.
    induction fuel as [|fuel IH]; intros st result remaining pos st' out H.
    - destruct remaining; [|discriminate]. cbn in H. injection H as <- <-.
      exists [], []. cbn. rewrite app_nil_r. repeat split. constructor.
    - destruct remaining as [|c0 rem0].
      { cbn in H. injection H as <- <-. exists [], []. cbn. rewrite app_nil_r. repeat split. constructor. }
      remember (c0 :: rem0) as remaining eqn:Er.
      rewrite replace_loop_unfold in H by (subst; discriminate). clear Er.
      destruct (next_open r remaining) as [[d p]|] eqn:Eo.
      2:{ injection H as <- <-. exists [], remaining. cbn. repeat split. now constructor. }
      cbn zeta in H. set (rem2 := skipn (p + opening_len r d) remaining) in *.
      destruct (next_close r rem2) as [[d2 p2]|] eqn:Ec; [|discriminate].
      destruct (negb (closing_identical r) && negb (display_eqb d d2)) eqn:Em; [discriminate|].
      destruct (next_open r (firstn p2 rem2)) as [[d3 p3]|] eqn:En; [discriminate|].
      destruct (replace_html_entities (firstn p2 rem2)) as [formula|] eqn:Ee; [|discriminate].
      destruct (f st formula d) as [st1 [o|e]] eqn:Ef.
      2:{ destruct (f st1 formula d) as [st2 [o2|e2]]; discriminate. }
      destruct (IH _ _ _ _ _ _ H) as (segs & tail & P1 & P2 & P3).
      set (rest := skipn (p2 + closing_len r d2) rem2) in *.
      destruct (next_open_hit _ _ _ _ Eo) as [Do Lo]. fold rem2 in Do.
      destruct (next_close_hit _ _ _ _ Ec) as [Dc Lc]. fold rest in Dc.
      pose (g := {| seg_text := firstn p remaining; seg_open := d; seg_content := firstn p2 rem2;
                    seg_close := d2; seg_out := o |}).
      assert (Dg : remaining = seg_source r g ++ rest).
      { unfold seg_source. cbn [seg_text seg_open seg_content seg_close g].
        rewrite <- !app_assoc. rewrite <- Dc. exact Do. }
      exists (g :: segs), tail. repeat split.
      + rewrite Dg. apply pr_formula with (formula := formula) (st1 := st1).
        * rewrite <- Dg, Eo. cbn. now rewrite firstn_length_le.
        * cbn [seg_content seg_close g]. rewrite <- Dc, Ec. now rewrite firstn_length_le.
        * cbn [seg_open seg_close g]. apply andb_false_iff in Em as [Em|Em]; apply negb_false_iff in Em.
          -- left. now apply str_eqb_eq in Em.
          -- right. now apply display_eqb_eq in Em.
        * exact En.
        * exact Ee.
        * exact Ef.
        * exact P1.
      + cbn [flat_map]. rewrite <- app_assoc, <- P2. exact Dg.
      + cbn [flat_map]. rewrite P3. change (seg_result g) with (firstn p remaining ++ o).
        rewrite <- !app_assoc. reflexivity.
  Qed.

  Lemma processed_source st doc st' segs tail :
    processed f r st doc st' segs tail -> doc = flat_map (seg_source r) segs ++ tail.
  Proof.
    induction 1 as [| |st g rest formula st1 st' segs tail _ _ _ _ _ _ _ IH]; [reflexivity|reflexivity|].
    cbn [flat_map]. now rewrite <- app_assoc, <- IH.
  Qed.

  Lemma open_delim_len d : length (open_delim r d) = opening_len r d.
  Proof. destruct d; reflexivity. Qed.
  Lemma close_delim_len d : length (close_delim r d) = closing_len r d.
  Proof. destruct d; reflexivity. Qed.

  (** Completeness: the tool finds every processing. *)
  Lemma replace_loop_complete st doc st' segs tail :
    processed f r st doc st' segs tail ->
    forall fuel result pos, length doc <= fuel ->
    replace_loop f w r fuel st result doc pos = (st', ROk (result ++ flat_map seg_result segs ++ tail)).
  Proof.
    induction 1 as [st|st doc Hn|st g rest formula st1 st' segs tail H1 H2 H3 H4 H5 H6 H7 IH];
      intros fuel result pos Hf.
    - cbn. destruct fuel; cbn; now rewrite app_nil_r.
    - destruct doc as [|c doc].
      { cbn. destruct fuel; cbn; now rewrite app_nil_r. }
      destruct fuel as [|fuel]; [cbn in Hf; lia|].
      rewrite replace_loop_unfold by discriminate. rewrite Hn. reflexivity.
    - destruct (next_open_none_nonempty _ _ H4) as [Hi Hb].
      assert (HL : 0 < length (open_delim r (seg_open g))) by (destruct (seg_open g); assumption).
      assert (Hne : seg_source r g ++ rest <> []).
      { unfold seg_source. intros E0. apply (f_equal (@length N)) in E0.
        rewrite !app_length in E0. cbn [length] in E0. lia. }
      assert (Hrest : length rest < length (seg_source r g ++ rest)).
      { unfold seg_source. rewrite !app_length. lia. }
      destruct fuel as [|fuel]; [lia|].
      rewrite replace_loop_unfold by exact Hne. rewrite H1. cbn zeta.
      assert (E1 : skipn (length (seg_text g) + opening_len r (seg_open g)) (seg_source r g ++ rest)
                   = seg_content g ++ close_delim r (seg_close g) ++ rest).
      { unfold seg_source. rewrite <- !app_assoc, <- skipn_skipn', skipn_exact, <- open_delim_len, skipn_exact.
        reflexivity. }
      rewrite E1, H2, firstn_exact, H4, H5, H6.
      assert (E2 : negb (closing_identical r) && negb (display_eqb (seg_open g) (seg_close g)) = false).
      { unfold closing_identical. destruct H3 as [-> | ->].
        - now rewrite str_eqb_refl.
        - rewrite (proj2 (display_eqb_eq _ _) eq_refl). apply andb_false_r. }
      rewrite E2.
      assert (E3 : skipn (length (seg_content g) + closing_len r (seg_close g))
                     (seg_content g ++ close_delim r (seg_close g) ++ rest) = rest).
      { rewrite <- skipn_skipn', skipn_exact, <- close_delim_len, skipn_exact. reflexivity. }
      rewrite E3, IH by lia. cbn [flat_map].
      change (seg_result g) with (seg_text g ++ seg_out g).
      unfold seg_source. rewrite <- !app_assoc, firstn_exact. reflexivity.
  Qed.

  (** The tool always stops. *)
  Lemma replace_loop_stops : forall fuel st result remaining pos,
    length remaining <= fuel ->
    snd (replace_loop f w r fuel st result remaining pos) <> RFuel.
  Proof.
    induction fuel as [|fuel IH]; intros st result remaining pos Hf.
    - destruct remaining; [cbn; discriminate|cbn in Hf; lia].
    - destruct remaining as [|c0 rem0]; [cbn; discriminate|].
      remember (c0 :: rem0) as remaining eqn:Er.
      rewrite replace_loop_unfold by (subst; discriminate).
      assert (Hlen : 0 < length remaining) by (subst; cbn; lia). clear Er.
      destruct (next_open r remaining) as [[d p]|] eqn:Eo; [|cbn; discriminate].
      cbn zeta. set (rem2 := skipn (p + opening_len r d) remaining).
      destruct (next_close r rem2) as [[d2 p2]|]; [|cbn; discriminate].
      destruct (negb _ && negb _); [cbn; discriminate|].
      destruct (next_open r (firstn p2 rem2)) as [[d3 p3]|] eqn:En; [cbn; discriminate|].
      destruct (next_open_none_nonempty _ _ En) as [Hi Hb].
      assert (HL : 0 < opening_len r d) by (destruct d; assumption).
      destruct (replace_html_entities_total (firstn p2 rem2)) as [t ->].
      destruct (f st t d) as [st1 [o|e]].
      + apply IH. unfold rem2. rewrite !skipn_length. lia.
      + destruct (f st1 t d) as [st2 [o2|e2]]; cbn; discriminate.
  Qed.

  Lemma replace_spec st doc st' out :
    replace f w r st doc = (st', ROk out) <->
    exists segs tail, processed f r st doc st' segs tail /\ out = flat_map seg_result segs ++ tail.
  Proof.
    unfold replace. split.
    - intros H. apply replace_loop_sound in H as (segs & tail & H1 & H2 & H3).
      exists segs, tail. split; [exact H1|]. exact H3.
    - intros (segs & tail & H & ->). rewrite (replace_loop_complete _ _ _ _ _ H) by lia. reflexivity.
  Qed.

  (** Panics happen exactly when a failing conversion succeeds on retry. *)
  Lemma replace_loop_no_panic :
    (forall st t d st1 e, f st t d = (st1, inr e) -> exists st2 e2, f st1 t d = (st2, inr e2)) ->
    forall fuel st result remaining pos, snd (replace_loop f w r fuel st result remaining pos) <> RPanic.
  Proof.
    intros Hretry. induction fuel as [|fuel IH]; intros st result remaining pos.
    - destruct remaining; cbn; discriminate.
    - destruct remaining as [|c0 rem0]; [cbn; discriminate|].
      remember (c0 :: rem0) as remaining eqn:Er.
      rewrite replace_loop_unfold by (subst; discriminate). clear Er.
      destruct (next_open r remaining) as [[d p]|]; [|cbn; discriminate].
      cbn zeta. destruct (next_close r _) as [[d2 p2]|]; [|cbn; discriminate].
      destruct (negb _ && negb _); [cbn; discriminate|].
      destruct (next_open r _) as [[d3 p3]|]; [cbn; discriminate|].
      destruct (replace_html_entities _) as [t|]; [|cbn; discriminate].
      destruct (f st t d) as [st1 [o|e]] eqn:Ef; [apply IH|].
      destruct (Hretry _ _ _ _ _ Ef) as (st2 & e2 & ->). cbn. discriminate.
  Qed.
End Loop.

(** ** Character boundaries *)

Definition is_cont (b : N) : bool := (128 <=? b)%N && (b <? 192)%N.

Lemma utf8_char_head c : exists b r, utf8_char c = b :: r /\
  (is_scalar c = true -> is_cont b = false /\ forallb is_cont r = true).
Proof.
  unfold utf8_char.
  destruct (N.ltb_spec c 0x80).
  { eexists _, _. split; [reflexivity|]. intros _. split; [unfold is_cont; lia|reflexivity]. }
  destruct (N.ltb_spec c 0x800).
  { eexists _, _. split; [reflexivity|]. intros _. pose proof (N.mod_lt c 64).
    split; [unfold is_cont; lia|]. cbn [forallb]. unfold is_cont. lia. }
  destruct (N.ltb_spec c 0x10000).
  { eexists _, _. split; [reflexivity|]. intros _. pose proof (N.mod_lt c 64).
    pose proof (N.mod_lt (c / 64) 64).
    split; [unfold is_cont; lia|]. cbn [forallb]. unfold is_cont. lia. }
  eexists _, _. split; [reflexivity|]. intros _. pose proof (N.mod_lt c 64).
  pose proof (N.mod_lt (c / 64) 64). pose proof (N.mod_lt (c / 4096) 64).
  split; [unfold is_cont; lia|]. cbn [forallb]. unfold is_cont. lia.
Qed.

(** A suffix of valid UTF-8 that starts with a non-continuation byte starts at a character. *)
Lemma boundary_of_head : forall s a b rest, scalar_str s -> utf8 s = a ++ b :: rest -> is_cont b = false ->
  exists s1 s2, s = s1 ++ s2 /\ utf8 s1 = a /\ utf8 s2 = b :: rest.
Proof.
  induction s as [|c s IH]; intros a b rest Hs E Hb.
  - destruct a; discriminate.
  - inversion Hs as [|? ? Hc Hs']; subst.
    destruct a as [|x a].
    + exists [], (c :: s). repeat split. exact E.
    + cbn [utf8 flat_map] in E. fold (utf8 s) in E.
      destruct (app_eq_app_cases _ _ _ _ _ E) as [(l & E1 & E2)|(l & E1 & E2)].
      * exfalso. destruct (utf8_char_head c) as (h & tl & Eh & Hh). destruct (Hh Hc) as [_ Ht].
        rewrite Eh in E1. cbn [app] in E1. injection E1 as _ E1.
        rewrite forallb_forall in Ht.
        assert (In b tl) by (rewrite E1; apply in_or_app; right; now left).
        rewrite (Ht b H) in Hb. discriminate.
      * destruct (IH l b rest Hs' E2 Hb) as (s1 & s2 & -> & H1 & H2).
        exists (c :: s1), s2. repeat split; auto. cbn [utf8 flat_map]. fold (utf8 s1). now rewrite H1, E1.
Qed.

Lemma utf8_decode_app d x : scalar_str d -> utf8_decode (utf8 d ++ x) = option_map (app d) (utf8_decode x).
Proof.
  induction d as [|c d IH]; intros H.
  - cbn. destruct (utf8_decode x); reflexivity.
  - inversion H; subst. cbn [utf8 flat_map]. fold (utf8 d). rewrite <- app_assoc, utf8_decode_char by assumption.
    rewrite IH by assumption. destruct (utf8_decode x); reflexivity.
Qed.

(** An occurrence of a delimiter in a document lies on character boundaries. *)
Lemma delimiter_on_boundary s d p : scalar_str s -> scalar_str d -> d <> [] ->
  starts_with (utf8 d) (skipn p (utf8 s)) = true ->
  exists s1 s2, s = s1 ++ d ++ s2 /\ blen s1 = p.
Proof.
  intros Hs Hd Hne H. apply starts_with_spec in H as [x Hx].
  destruct d as [|c d]; [contradiction|]. inversion Hd as [|? ? Hc Hd']; subst.
  destruct (utf8_char_head c) as (b & tl & Eb & Hb). destruct (Hb Hc) as [Hb1 _].
  assert (E : utf8 s = firstn p (utf8 s) ++ b :: (tl ++ utf8 d) ++ x).
  { rewrite <- (firstn_skipn p (utf8 s)) at 1. rewrite Hx. cbn [utf8 flat_map]. fold (utf8 d).
    rewrite Eb. cbn [app]. rewrite <- !app_assoc. reflexivity. }
  destruct (boundary_of_head _ _ _ _ Hs E Hb1) as (s1 & s2 & -> & H1 & H2).
  assert (Hs2 : scalar_str s2).
  { unfold scalar_str in *. apply Forall_app in Hs. tauto. }
  assert (E2 : utf8 s2 = utf8 (c :: d) ++ x).
  { rewrite H2. cbn [utf8 flat_map]. fold (utf8 d). rewrite Eb. cbn [app]. now rewrite <- !app_assoc. }
  pose proof (utf8_roundtrip s2 Hs2) as R. rewrite E2 in R.
  rewrite utf8_decode_app in R by exact Hd.
  destruct (utf8_decode x) as [y|]; [|discriminate]. cbn in R. injection R as R.
  exists s1, y. split; [now rewrite <- R|].
  rewrite blen_utf8, H1. apply firstn_length_le.
  assert (length (skipn p (utf8 (s1 ++ s2))) > 0).
  { rewrite Hx, app_length. cbn [utf8 flat_map]. rewrite Eb. cbn. lia. }
  rewrite skipn_length in H. lia.
Qed.

(** ** line_and_col *)

Lemma last_line_cons_nl c s : existsb (N.eqb 10) s = true -> last_line (c :: s) = last_line s.
Proof. intros H. cbn [last_line]. now rewrite H. Qed.

Lemma last_line_no_nl s : existsb (N.eqb 10) s = false -> last_line s = s.
Proof.
  destruct s as [|c s]; [reflexivity|]. cbn [existsb last_line]. intros H.
  apply orb_false_iff in H as [H1 H2]. rewrite H2. rewrite N.eqb_sym, H1. reflexivity.
Qed.

Lemma newlines_cons c s : newlines (c :: s) = ((if N.eqb 10 c then 1 else 0) + newlines s)%N.
Proof. unfold newlines. cbn [filter]. destruct (N.eqb 10 c); cbn [length]; lia. Qed.

Lemma existsb_newlines s : existsb (N.eqb 10) s = false -> newlines s = 0%N.
Proof.
  induction s as [|c s IH]; [reflexivity|]. cbn [existsb]. intros H.
  apply orb_false_iff in H as [H1 H2]. rewrite newlines_cons, H1, IH; [reflexivity|assumption].
Qed.

Lemma line_and_col_loop_spec : forall pre post i line col,
  line_and_col_loop (pre ++ post) i (i + blen pre) line col =
  ((line + newlines pre)%N,
   if existsb (N.eqb 10) pre then (1 + N.of_nat (length (last_line pre)))%N
   else (col + N.of_nat (length pre))%N).
Proof.
  induction pre as [|c pre IH]; intros post i line col.
  - cbn [app blen newlines filter existsb length]. unfold newlines. cbn [filter length].
    destruct post as [|p post]; cbn [line_and_col_loop].
    + f_equal; lia.
    + replace (i + 0 <=? i) with true by (symmetry; apply Nat.leb_le; lia). f_equal; lia.
  - cbn [app line_and_col_loop blen].
    pose proof (len_utf8_pos c).
    replace (i + (len_utf8 c + blen pre) <=? i) with false by (symmetry; apply Nat.leb_gt; lia).
    rewrite Nat.add_assoc. rewrite newlines_cons. cbn [existsb].
    rewrite (N.eqb_sym 10 c). destruct (N.eqb_spec c 10) as [->|Hc].
    + rewrite IH. cbn [orb]. apply f_equal2; [lia|].
      destruct (existsb (N.eqb 10) pre) eqn:E.
      * now rewrite last_line_cons_nl.
      * cbn [last_line]. rewrite E, N.eqb_refl. reflexivity.
    + rewrite IH. cbn [orb]. apply f_equal2; [lia|].
      destruct (existsb (N.eqb 10) pre) eqn:E.
      * now rewrite last_line_cons_nl.
      * cbn [length]. lia.
Qed.

Lemma line_and_col_spec pre post :
  line_and_col (blen pre) (pre ++ post) =
  ((1 + newlines pre)%N, (1 + N.of_nat (length (last_line pre)))%N).
Proof.
  unfold line_and_col. pose proof (line_and_col_loop_spec pre post 0 1%N 1%N) as H.
  cbn [Nat.add] in H. rewrite H. f_equal.
  destruct (existsb (N.eqb 10) pre) eqn:E; [reflexivity|].
  now rewrite last_line_no_nl.
Qed.
