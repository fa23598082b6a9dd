(** The command line program: proofs. *)
From Verif Require Import Str M_Escape S_Html M_Cli S_Cli M_Error M_Emit M_Output M_Token M_LatexError M_Lexer M_Queue M_Parser M_Api M_Tool M_Main S_Tool S_Main
  S_Api S_Convert L_Escape L_Cli L_Convert L_Api L_Tool.
Local Open Scope nat_scope.

Section Entry.
Variable P : entry -> Prop.
Hypothesis file_case : forall name f, P (AFile name f).
Hypothesis special_case : forall name f, P (Special name f).
Hypothesis closed_case : forall name, P (Folder name None).
Hypothesis folder_case : forall name es, Forall P es -> P (Folder name (Some es)).
Fixpoint entry_rect' (e : entry) : P e :=
  match e with
  | AFile name f => file_case name f
  | Special name f => special_case name f
  | Folder name None => closed_case name
  | Folder name (Some es) => folder_case name es ((fix go es : Forall P es := match es with [] => Forall_nil _ | e :: r => Forall_cons _ (entry_rect' e) (go r) end) es)
  end.
End Entry.

Lemma with_bytes_twice f a b : with_bytes (with_bytes f a) b = with_bytes f b.
Proof. reflexivity. Qed.
Lemma from_utf8_some b s : from_utf8 b = Some s -> scalar_str s /\ b = utf8 s.
Proof.
  unfold from_utf8. destruct (utf8_decode b) as [t|]; [|discriminate]. destruct (forallb is_scalar t) eqn:F; [|discriminate]. destruct (str_eqb (utf8 t) b) eqn:E; [|discriminate].
  cbn [andb]. intros H. injection H as <-. split; [apply Forall_forall; now apply forallb_forall|symmetry; now apply str_eqb_eq].
Qed.
Lemma from_utf8_utf8 s : scalar_str s -> from_utf8 (utf8 s) = Some s.
Proof.
  intros H. unfold from_utf8. rewrite utf8_roundtrip by exact H. rewrite (proj2 (str_eqb_eq _ _) eq_refl). assert (forallb is_scalar s = true) as -> by (apply forallb_forall; now apply Forall_forall). reflexivity.
Qed.
Lemma read_some f b : read_to_string f = Some b -> b = fl_bytes f /\ exists s, scalar_str s /\ fl_bytes f = utf8 s.
Proof.
  unfold read_to_string. destruct (fl_readable f); [|discriminate]. destruct (from_utf8 (fl_bytes f)) as [s|] eqn:E; [|discriminate]. intros H. injection H as <-. split; [reflexivity|]. exists s. now apply from_utf8_some.
Qed.

Section Files.
Context (usize_max : N) (fuel : nat) (r : replacer) (cont dry : bool).
Notation convert_html := (convert_html usize_max fuel r cont).
Notation convert_all_files := (convert_html_recursive usize_max fuel r cont).
Notation converted := (converted usize_max fuel r cont).
Notation replaced := (replaced usize_max fuel r cont).

(** The loop over the entries of a directory. *)
Fixpoint each (c : converter) (es : list entry) : list entry * converter * option exit_reason :=
  match es with
  | [] => ([], c, None)
  | e :: rest =>
      match convert_all_files dry c e with
      | (e', c', Some x) => (e' :: rest, c', Some x)
      | (e', c', None) => match each c' rest with (rest', c'', x) => (e' :: rest', c'', x) end
      end
  end.
Lemma folder_eq c name es : convert_all_files dry c (Folder name (Some es)) = match each c es with (es', c', x) => (Folder name (Some es'), c', x) end.
Proof. cbn [M_Main.convert_html_recursive]. reflexivity. Qed.

(** One file. *)
Lemma file_stored f c1 out c0 : read_to_string f = Some (fl_bytes f) -> replaced c0 (fl_bytes f) = (c1, inl out) ->
  exists f' x, convert_html dry true c0 f = (f', [], c1, x) /\ stored dry f out f' x /\ with_bytes f' [] = with_bytes f [].
Proof.
  intros Rd R. unfold M_Main.convert_html. rewrite Rd, R. destruct dry eqn:D; [do 2 eexists; split; [reflexivity|]; split; [now constructor; left|reflexivity]|].
  destruct (str_eqb (fl_bytes f) out) eqn:E; [apply str_eqb_eq in E; do 2 eexists; split; [reflexivity|]; split; [now constructor; right|reflexivity]|].
  assert (Ne : fl_bytes f <> out) by (intros X; apply str_eqb_eq in X; congruence).
  destruct (fl_writing f) eqn:W; do 2 eexists; (split; [reflexivity|]); (split; [now econstructor|reflexivity]).
Qed.

(** Lists of visits put together. *)
Lemma converted_app c l1 l1' c1 l2 l2' c2 x : converted dry c l1 l1' c1 None -> converted dry c1 l2 l2' c2 x -> converted dry c (l1 ++ l2) (l1' ++ l2') c2 x.
Proof.
  intros H. remember None as y eqn:Ey. revert Ey. induction H; intros Ey K; try discriminate; cbn [app]; [exact K| |].
  - constructor; auto.
  - econstructor; eauto.
Qed.
Lemma converted_stop c l1 l1' c1 x l2 : converted dry c l1 l1' c1 (Some x) -> converted dry c (l1 ++ l2) (l1' ++ l2) c1 (Some x).
Proof.
  intros H. remember (Some x) as y eqn:Ey. revert Ey. induction H; intros Ey; try discriminate; cbn [app].
  - constructor; auto.
  - eapply cn_file; eauto.
  - injection Ey as ->. eapply cn_unwritten; eauto.
  - injection Ey as ->. eapply cn_failed; eauto.
  - injection Ey as <-. now apply cn_unread.
  - injection Ey as <-. apply cn_unlisted.
Qed.

(** The whole tree. *)
Lemma tree_converted e : forall c e' c' x, convert_all_files dry c e = (e', c', x) -> converted dry c (visits e) (visits e') c' x /\ bare_tree e' = bare_tree e.
Proof.
  induction e as [name f|name f|name|name es IH] using entry_rect'; intros c e' c' x E.
  - cbn [M_Main.convert_html_recursive] in E. destruct (is_html name) eqn:H.
    + destruct (read_to_string f) as [b|] eqn:Rd.
      * destruct (read_some _ _ Rd) as [-> _]. destruct (replaced c (fl_bytes f)) as [c1 [out|y]] eqn:R.
        -- destruct (file_stored f c1 out c Rd R) as (f' & x' & E' & St & Bf). rewrite E' in E. injection E as <- <- <-. cbn [visits bare_tree]. rewrite Bf. split; [|reflexivity].
           destruct x' as [x'|]; [eapply cn_unwritten; eauto; congruence|]. eapply cn_file; eauto; [congruence|constructor].
        -- unfold M_Main.convert_html in E. rewrite Rd, R in E. injection E as <- <- <-. split; [|reflexivity]. apply cn_failed; auto. congruence.
      * unfold M_Main.convert_html in E. rewrite Rd in E. injection E as <- <- <-. split; [|reflexivity]. now apply cn_unread.
    + injection E as <- <- <-. split; [|reflexivity]. constructor; [exact H|constructor].
  - injection E as <- <- <-. split; [constructor|reflexivity].
  - injection E as <- <- <-. split; [constructor|reflexivity].
  - rewrite folder_eq in E. destruct (each c es) as [[es' c1] x1] eqn:Ee. injection E as <- <- <-. cbn [visits bare_tree option_map].
    enough (K : converted dry c (flat_map visits es) (flat_map visits es') c1 x1 /\ map bare_tree es' = map bare_tree es) by (destruct K as [K ->]; now split).
    clear name. revert c es' c1 x1 Ee. induction IH as [|e es He _ IHes]; intros c es' c1 x1 Ee; cbn [each] in Ee.
    { injection Ee as <- <- <-. split; [constructor|reflexivity]. }
    destruct (convert_all_files dry c e) as [[e' c'] [y|]] eqn:E1; destruct (He _ _ _ _ E1) as [K1 K2].
    + injection Ee as <- <- <-. cbn [flat_map map]. rewrite K2. split; [now apply converted_stop|reflexivity].
    + destruct (each c' es) as [[rest' c''] x'] eqn:E2. injection Ee as <- <- <-. destruct (IHes _ _ _ _ E2) as [K3 K4]. cbn [flat_map map]. rewrite K2, K4. split; [eapply converted_app; eauto|reflexivity].
Qed.

(** What follows from it. *)
Lemma stored_kept f out f' x name c0 c1 : is_html name = true -> replaced c0 (fl_bytes f) = (c1, inl out) -> stored dry f out f' x ->
  file_kept usize_max fuel r cont dry (VFile name f) (VFile name f').
Proof.
  intros H R St. split; [reflexivity|]. destruct St; [now left| |now left|]; right; (split; [assumption|]); (split; [exact H|]); exists c0, c1, out; (split; [exact R|]); [now left|right; now exists k].
Qed.
Lemma kept_same v : file_kept usize_max fuel r cont dry v v.
Proof. destruct v; cbn; auto. Qed.
Lemma kept_all l : Forall2 (file_kept usize_max fuel r cont dry) l l.
Proof. induction l; constructor; auto using kept_same. Qed.
Lemma converted_kept c l l' c' x : converted dry c l l' c' x -> Forall2 (file_kept usize_max fuel r cont dry) l l'.
Proof. intros H. induction H; try (constructor; eauto using kept_same, kept_all, stored_kept); auto. Qed.
Lemma stored_bytes f out f' : dry = false -> stored dry f out f' None -> fl_bytes f' = out.
Proof. intros D St. remember None as x. destruct St; try discriminate; [destruct H; [congruence|assumption]|reflexivity]. Qed.
Lemma converted_all c l l' c' : dry = false -> converted dry c l l' c' None -> all_converted usize_max fuel r cont c l l' c'.
Proof.
  intros D H. remember None as x eqn:Ex. induction H; try discriminate; cbn [all_converted].
  - reflexivity.
  - rewrite H. auto.
  - rewrite H. split; [reflexivity|]. exists c1. rewrite (stored_bytes _ _ _ D H2). auto.
Qed.
End Files.

Section Dry.
Context (usize_max : N) (fuel : nat) (r : replacer) (cont : bool).
Lemma dry_same_entry e : forall c e' c' x, convert_html_recursive usize_max fuel r cont true c e = (e', c', x) -> e' = e.
Proof.
  induction e as [name f|name f|name|name es IH] using entry_rect'; intros c e' c' x E.
  - cbn [M_Main.convert_html_recursive] in E. destruct (is_html name); [|injection E as <- _ _; reflexivity]. unfold convert_html in E. destruct (read_to_string f); [|injection E as <- _ _; reflexivity].
    destruct (replaced _ _ _ _ _ _) as [c1 [out|y]]; injection E as <- _ _; reflexivity.
  - now injection E as <- _ _.
  - now injection E as <- _ _.
  - rewrite folder_eq in E. destruct (each _ _ _ _ _ _ _) as [[es' c1] x1] eqn:Ee. injection E as <- _ _. enough (es' = es) by congruence.
    clear - IH Ee. revert c es' c1 x1 Ee. induction IH as [|e es He _ IHes]; intros c es' c1 x1 Ee; cbn [each] in Ee; [now injection Ee as <- _ _|].
    destruct (convert_html_recursive _ _ _ _ _ _ e) as [[e' c'] [y|]] eqn:E1; pose proof (He _ _ _ _ E1) as ->.
    + now injection Ee as <- _ _.
    + destruct (each _ _ _ _ _ c' es) as [[rest' c''] x'] eqn:E2. injection Ee as <- _ _. now rewrite (IHes _ _ _ _ E2).
Qed.
(** A dry run ends as the real one. *)
Lemma dry_same_end l : Forall writable l -> forall c l1 c1 x1 l2 c2 x2, converted usize_max fuel r cont true c l l1 c1 x1 -> converted usize_max fuel r cont false c l l2 c2 x2 -> x1 = x2 /\ c1 = c2.
Proof.
  induction 1 as [|v l W _ IH]; intros c l1 c1 x1 l2 c2 x2 A B.
  { inversion A; inversion B; subst. now split. }
  destruct v as [name f|].
  2:{ inversion A; inversion B; subst. now split. }
  cbn in W. inversion A; subst; inversion B; subst; try congruence; try (eapply IH; eassumption);
    repeat match goal with H : replaced _ _ _ _ _ _ = _, K : replaced _ _ _ _ _ _ = _ |- _ => rewrite H in K; injection K as; subst end; try (eapply IH; eassumption); try (split; congruence); try congruence;
    match goal with H : stored _ _ _ _ (Some _) |- _ => inversion H; subst; congruence end.
Qed.
End Dry.

(** ** The program goes on to the end *)
Section Ends.
Context (usize_max : N) (dl : delimiters) (D : scalar_delimiters dl).
Notation r := (replacer_of dl).

Lemma replaced_ends c doc : cv_ok c -> scalar_str doc -> exists F c' out, (forall f, F <= f -> replaced usize_max f r true c (utf8 doc) = (c', out)) /\ cv_ok c' /\
  match out with inl _ => True | inr x => regular (Some x) end.
Proof.
  intros Hc Hs. destruct (tool_halts usize_max dl D (Datatypes.S (length (utf8 doc))) c [] doc 0 Hc Hs ltac:(lia)) as (F & [c' out] & H1 & H2 & H3). cbn [fst snd] in *.
  assert (K : forall f, F <= f -> tool usize_max f true r c (utf8 doc) = (c', out)) by (intros f L; unfold tool, replace; now apply H1).
  exists F, c', (match out with ROk o => inl o | x => inr (ExitConversion x) end). split; [|split; [exact H3|]].
  - intros f L. unfold replaced. rewrite (K f L). destruct out; try destruct H2; reflexivity.
  - destruct out; try destruct H2; exact I.
Qed.
Lemma convert_html_ends dry write c fl : cv_ok c -> exists F out, (forall f, F <= f -> convert_html usize_max f r true dry write c fl = out) /\ cv_ok (snd (fst out)) /\ regular (snd out).
Proof.
  intros Hc. unfold convert_html. destruct (read_to_string fl) as [b|] eqn:Rd.
  2:{ exists 0. eexists. split; [reflexivity|]. now split. }
  destruct (read_some _ _ Rd) as [-> (s & Hs & ->)]. destruct (replaced_ends c s Hc Hs) as (F & c' & out & H1 & H2 & H3). exists F. eexists. split; [intros f L; rewrite (H1 f L); reflexivity|].
  destruct out as [o|x]; [|now split]. destruct dry; [now split|]. destruct write; [|now split]. destruct (str_eqb _ _); [now split|]. destruct (fl_writing fl); now split.
Qed.
Lemma tree_ends dry e : forall c, cv_ok c -> exists F out, (forall f, F <= f -> convert_html_recursive usize_max f r true dry c e = out) /\ cv_ok (snd (fst out)) /\ regular (snd out).
Proof.
  induction e as [name fl|name fl|name|name es IH] using entry_rect'; intros c Hc.
  - cbn [convert_html_recursive]. destruct (is_html name); [|exists 0; eexists; split; [reflexivity|]; now split].
    destruct (convert_html_ends dry true c fl Hc) as (F & [[[f' o] c'] x] & H1 & H2 & H3). exists F. eexists. split; [intros f L; rewrite (H1 f L); reflexivity|]. now split.
  - exists 0, (Special name fl, c, None). split; [reflexivity|]. now split.
  - exists 0, (Folder name None, c, Some ExitIo). split; [reflexivity|]. now split.
  - assert (K : exists F out, (forall f, F <= f -> each usize_max f r true dry c es = out) /\ cv_ok (snd (fst out)) /\ regular (snd out)).
    { clear name. revert c Hc. induction IH as [|e es He _ IHes]; intros c Hc; cbn [each]; [exists 0; eexists; split; [reflexivity|]; now split|].
      destruct (He c Hc) as (F1 & [[e' c'] x] & H1 & H2 & H3). cbn [fst snd] in *. destruct x as [x|].
      - exists F1. eexists. split; [intros f L; rewrite (H1 f L); reflexivity|]. now split.
      - destruct (IHes c' H2) as (F2 & [[es' c''] x] & H4 & H5 & H6). cbn [fst snd] in *. exists (F1 + F2). eexists. split; [intros f L; rewrite (H1 f ltac:(lia)), (H4 f ltac:(lia)); reflexivity|]. now split. }
    destruct K as (F & [[es' c'] x] & H1 & H2 & H3). exists F. eexists. split; [intros f L; rewrite folder_eq, (H1 f L); reflexivity|]. now split.
Qed.
End Ends.

Lemma pair_given o c del : (o = None <-> c = None) -> scalar_opt o -> scalar_opt c -> scalar_str del -> exists a b, delimiter_pair o c del = Some (a, b) /\ scalar_str a /\ scalar_str b.
Proof.
  intros K A B C. unfold delimiter_pair. destruct o as [o|]; [|now exists del, del]. destruct c as [c|]; [now exists o, c|]. destruct K as [_ K]. discriminate (K eq_refl).
Qed.
Lemma replacer_given a : args_ok a -> scalar_args a -> exists dl, scalar_delimiters dl /\ replacer_new a = Some (replacer_of dl).
Proof.
  intros [O1 O2] (S1 & S2 & S3 & S4 & S5 & S6 & _). destruct (pair_given _ _ _ O1 S3 S4 S1) as (io & ic & E1 & A1 & A2). destruct (pair_given _ _ _ O2 S5 S6 S2) as (bo & bc & E2 & A3 & A4).
  exists (mkDelimiters io ic bo bc (ar_ignore_escaped a)). split; [now repeat split|]. unfold replacer_new. rewrite E1, E2. reflexivity.
Qed.
Lemma formula_ends umax a w c latex : cv_ok c -> scalar_str latex -> exists F out, (forall f, F <= f -> convert_and_exit umax f a w c latex = out) /\ regular (oc_exit out).
Proof.
  intros [C D] S. unfold convert_and_exit, convert_with_global_state.
  destruct (convert_halts umax (cv_emitter c) _ _ latex (if ar_block a then M_Output.Block else M_Output.Inline) C D (scalar_text_of _ S)) as (F & [x gs] & H1 & H2 & _).
  exists F. eexists. split; [intros f L; rewrite (H1 f L); reflexivity|]. destruct x; [exact I|exact I|destruct H2].
Qed.
Lemma run_ends umax a w c : args_ok a -> scalar_args a -> ar_continue a = true \/ ar_file a = None -> cv_ok c ->
  exists F out, (forall f, F <= f -> run_program umax f a w c = out) /\ regular (oc_exit out).
Proof.
  intros O S Ct Hc. unfold run_program. cbv zeta. destruct (ar_file a) as [path|].
  - destruct Ct as [->|]; [|discriminate]. destruct (replacer_given a O S) as (dl & Sd & ->). destruct (str_eqb path (lit "-")).
    + unfold read_stdin. destruct (wd_stdin w) as [b|]; [|exists 0; eexists; split; [reflexivity|exact I]]. destruct (from_utf8 b) as [s|] eqn:E; cbn [option_map]; [|exists 0; eexists; split; [reflexivity|exact I]].
      apply from_utf8_some in E as [Hs ->]. destruct (replaced_ends umax dl Sd c s Hc Hs) as (F & c' & out & H1 & _ & H3). exists F. eexists. split; [intros f L; rewrite (H1 f L); reflexivity|]. destruct out; [exact I|exact H3].
    + destruct (ar_recursive a).
      * destruct (wd_target w) as [e|]; [|exists 0; eexists; split; [reflexivity|exact I]]. destruct (tree_ends umax dl Sd (ar_dry_run a) e c Hc) as (F & [[e' c'] x] & H1 & _ & H3).
        exists F. eexists. split; [intros f L; rewrite (H1 f L); reflexivity|exact H3].
      * destruct (wd_target w) as [[name fl|name es|name fl]|]; try (exists 0; eexists; split; [reflexivity|exact I]);
          destruct (convert_html_ends umax dl Sd (ar_dry_run a) (ar_write a) c fl Hc) as (F & [[[f' o] c'] x] & H1 & _ & H3); exists F; eexists; (split; [intros f L; rewrite (H1 f L); reflexivity|exact H3]).
  - destruct S as (_ & _ & _ & _ & _ & _ & S). destruct (ar_formula a) as [fm|]; [now apply formula_ends|]. unfold read_stdin. destruct (wd_stdin w) as [b|]; [|exists 0; eexists; split; [reflexivity|exact I]].
    destruct (from_utf8 b) as [s|] eqn:E; cbn [option_map]; [|exists 0; eexists; split; [reflexivity|exact I]]. rewrite E. apply formula_ends; [exact Hc|]. now apply from_utf8_some in E.
Qed.
Lemma main_ends umax a w : args_ok a -> scalar_args a -> scalar_config (wd_default w) -> (forall cfg, wd_config w = Loaded cfg -> scalar_config cfg) -> ar_continue a = true \/ ar_file a = None ->
  exists F out, (forall f, F <= f -> main_program umax f a w = out) /\ regular (oc_exit out).
Proof.
  intros O S Cd Cl Ct.
  assert (K : forall cfg, scalar_config cfg -> exists F out, (forall f, F <= f -> match converter_new cfg with NewOk c => run_program umax f a w c | NewErr e => mkOutcome [] (wd_target w) (Some (ExitMacro e)) | NewCrash k => mkOutcome [] (wd_target w) (Some (ExitCrash k)) end = out) /\ regular (oc_exit out)).
  { intros cfg Sc. destruct (converter_new cfg) as [c|e|k] eqn:E.
    - apply run_ends; auto. exact (new_cv_ok cfg c Sc E).
    - exists 0. eexists. split; [reflexivity|exact I].
    - unfold converter_new in E. pose proof (new_outcome_holds (co_allow_unreliable cfg) (co_conventional cfg) (co_macros cfg)) as N. destruct (parse_custom_commands _ _ _); try discriminate. inversion N. }
  unfold main_program. cbv zeta. destruct (wd_config w) as [cfg| |].
  - apply K. now apply Cl.
  - destruct (ar_config_given a); [exists 0; eexists; split; [reflexivity|exact I]|now apply K].
  - exists 0. eexists. split; [reflexivity|exact I].
Qed.
(** Nothing is written without the permission. *)
Lemma run_reads_only umax f a w c : may_write a = false -> oc_target (run_program umax f a w c) = wd_target w.
Proof.
  unfold may_write, run_program. cbv zeta. intros M. unfold convert_and_exit. destruct (ar_file a) as [path|].
  - destruct (replacer_new a) as [r|]; [|reflexivity]. destruct (str_eqb path (lit "-")).
    + destruct (read_stdin w); [|reflexivity]. destruct (replaced _ _ _ _ _ _) as [? [?|?]]; reflexivity.
    + cbn [negb andb] in M. destruct (ar_recursive a).
      * cbn [orb] in M. rewrite andb_true_r in M. apply negb_false_iff in M. destruct (wd_target w) as [e|]; [|reflexivity]. rewrite M.
        destruct (convert_html_recursive umax f r (ar_continue a) true c e) as [[e' c'] x] eqn:E. cbn [oc_target]. now rewrite (dry_same_entry _ _ _ _ _ _ _ _ _ E).
      * cbn [orb] in M. assert (K : forall fl, fst (fst (fst (convert_html umax f r (ar_continue a) (ar_dry_run a) (ar_write a) c fl))) = fl).
        { intros fl. unfold convert_html. destruct (read_to_string fl); [|reflexivity]. destruct (replaced _ _ _ _ _ _) as [? [?|?]]; [|reflexivity]. destruct (ar_dry_run a); [reflexivity|]. cbn [negb andb] in M. rewrite M. reflexivity. }
        destruct (wd_target w) as [[name fl|name es|name fl]|]; try reflexivity; specialize (K fl); destruct (convert_html _ _ _ _ _ _ _ _) as [[[f' o] c'] x]; cbn [fst] in K; now subst f'.
  - destruct (ar_formula a).
    + destruct (convert_with_global_state _ _ _ _ _) as [[?|?|?] ?]; reflexivity.
    + destruct (read_stdin w) as [b|]; [|reflexivity]. destruct (from_utf8 b); [|reflexivity]. destruct (convert_with_global_state _ _ _ _ _) as [[?|?|?] ?]; reflexivity.
Qed.
Lemma main_reads_only umax f a w : may_write a = false -> oc_target (main_program umax f a w) = wd_target w.
Proof.
  intros M. unfold main_program. cbv zeta. destruct (wd_config w) as [cfg| |]; [| |reflexivity].
  - destruct (converter_new cfg); [now apply run_reads_only|reflexivity|reflexivity].
  - destruct (ar_config_given a); [reflexivity|]. destruct (converter_new _); [now apply run_reads_only|reflexivity|reflexivity].
Qed.

(** Names. *)
Lemma split_last_dot_some s a b : split_last_dot s = Some (a, b) <-> s = a ++ 46%N :: b /\ ~ In 46%N b.
Proof.
  revert a b. induction s as [|c r IH]; intros a b.
  - split; [discriminate|]. intros [E _]. now destruct a.
  - cbn [split_last_dot]. destruct (split_last_dot r) as [[a' b']|] eqn:E.
    + destruct (proj1 (IH a' b') eq_refl) as [-> N']. split.
      * intros [= <- <-]. now split.
      * intros [H N]. destruct a as [|x a].
        { injection H as -> <-. elim N. apply in_app_iff. right. now left. }
        injection H as -> H. assert (X : Some (a', b') = Some (a, b)) by (apply IH; now split). now injection X as -> ->.
    + assert (D : ~ In 46%N r).
      { intros I. clear -E I. induction r as [|x r IH]; [exact I|]. cbn [split_last_dot] in E. destruct (split_last_dot r) as [[]|]; [discriminate E|].
        destruct (N.eqb_spec x 46); [discriminate E|]. destruct I as [->|I]; [contradiction|]. now apply IH. }
      destruct (N.eqb_spec c 46) as [->|Nc].
      * split; [intros [= <- <-]; now split|]. intros [H N]. destruct a as [|x a]; [now injection H as ->|]. injection H as _ H. elim D. rewrite H. apply in_app_iff. right. now left.
      * split; [discriminate|]. intros [H N]. destruct a as [|x a]; [injection H as -> _; contradiction|]. injection H as -> H. elim D. rewrite H. apply in_app_iff. right. now left.
Qed.
Lemma is_html_name name : is_html name = true <-> exists stem, stem <> [] /\ name = stem ++ lit ".html".
Proof.
  unfold is_html, extension. split.
  - destruct (str_eqb name (lit "..")); [discriminate|]. destruct (split_last_dot name) as [[a e]|] eqn:E; [|discriminate]. apply split_last_dot_some in E as [-> _].
    destruct a as [|x a]; [discriminate|]. intros H. apply str_eqb_eq in H as ->. exists (x :: a). now split.
  - intros (stem & Ne & ->). assert (X : split_last_dot (stem ++ lit ".html") = Some (stem, lit "html")).
    { apply split_last_dot_some. split; [reflexivity|]. intros I. vm_compute in I. repeat destruct I as [I|I]; try discriminate I; exact I. }
    rewrite X. destruct (str_eqb (stem ++ lit ".html") (lit "..")) eqn:D.
    + apply str_eqb_eq in D. apply (f_equal (@length char)) in D. rewrite app_length in D. change (length (lit ".html")) with 5 in D. change (length (lit "..")) with 2 in D. lia.
    + destruct stem; [contradiction|]. now apply str_eqb_eq.
Qed.
