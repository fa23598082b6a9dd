(** The message of an error can be read back. *)
From Coq Require Import Lia.
From Verif Require Import Str M_Escape S_Html M_Error M_Cli M_Token M_Env M_LatexError M_Tool M_Bindings L_Error P_Escape P_Env S_Messages.

Lemma split_at {sep : N} : forall u v x y, ~ In sep u -> ~ In sep v ->
  u ++ sep :: x = v ++ sep :: y -> u = v /\ x = y.
Proof.
  induction u as [|a u IH]; intros [|b v] x y U V E; cbn in E; injection E.
  - auto.
  - intros _ ->. destruct V. now left.
  - intros _ ->. destruct U. now left.
  - intros E' ->. destruct (IH v x y) as [-> ->]; try assumption; auto.
    + intros I. apply U. now right.
    + intros I. apply V. now right.
Qed.

Lemma tail_eq {l a b : str} : a ++ l = b ++ l -> a = b.
Proof. apply app_inv_tail. Qed.

(** The opening words of a message *)
Definition opening (k : err_kind) : str :=
  match k with
  | E_UnclosedGroup _ => lit "Expected closing token "
  | E_UnmatchedClose _ => lit "Unmatched"
  | E_ExpectedDelimiter _ => lit "There"
  | E_DisallowedChar _ => lit "Disallowed"
  | E_UnknownEnvironment _ => lit "Unknown environment "
  | E_UnknownCommand _ => lit "Unknown command "
  | E_UnknownColor _ => lit "Unknown color "
  | E_MismatchedEnvironment _ _ => lit "Expected ""\end{"
  | E_CannotBeUsedHere _ _ => lit "Found """
  | E_ExpectedLength _ => lit "Expected length "
  | E_IllegalUnit _ true => lit "Text unit"
  | E_IllegalUnit _ false => lit "Math unit"
  | E_InvalidUnit _ => lit "Found invalid"
  | E_ExpectedColSpec _ => lit "Expected column "
  | E_InvalidMacroName _ => lit "Invalid macro"
  | E_ParameterNumberOutOfRange _ _ => lit "Parameter"
  | E_UnexpectedParameterNumber _ _ => lit "Expected parameter #"
  | k => write_msg k
  end.
Lemma opens k : exists r, write_msg k = opening k ++ r.
Proof. destruct k; try (exists []; now rewrite app_nil_r); try (eexists; reflexivity). destruct math_unit_expected; eexists; reflexivity. Qed.

Fixpoint starts (p s : str) : bool :=
  match p, s with
  | [], _ => true
  | _ :: _, [] => false
  | a :: p, b :: s => (a =? b)%N && starts p s
  end.
Lemma openings : forall p q x y, p ++ x = q ++ y -> starts p q = true \/ starts q p = true.
Proof.
  induction p as [|a p IH]; intros [|b q] x y E; cbn [starts]; auto.
  cbn in E. injection E as -> E. rewrite N.eqb_refl. cbn. eauto.
Qed.

(** One error for each kind *)
Definition head_kind (k : err_kind) : err_kind :=
  match k with
  | E_UnclosedGroup _ => E_UnclosedGroup EtEnd
  | E_UnmatchedClose _ => E_UnmatchedClose EtEnd
  | E_ExpectedDelimiter _ => E_ExpectedDelimiter DmLeft
  | E_DisallowedChar _ => E_DisallowedChar 0
  | E_UnknownEnvironment _ => E_UnknownEnvironment []
  | E_UnknownCommand _ => E_UnknownCommand []
  | E_UnknownColor _ => E_UnknownColor []
  | E_MismatchedEnvironment _ _ => E_MismatchedEnvironment EArray EArray
  | E_CannotBeUsedHere _ _ => E_CannotBeUsedHere LtTag TableEnv
  | E_ExpectedLength _ => E_ExpectedLength []
  | E_IllegalUnit _ b => E_IllegalUnit [] b
  | E_InvalidUnit _ => E_InvalidUnit []
  | E_ExpectedColSpec _ => E_ExpectedColSpec []
  | E_InvalidMacroName _ => E_InvalidMacroName []
  | E_ParameterNumberOutOfRange _ _ => E_ParameterNumberOutOfRange 0 0
  | E_UnexpectedParameterNumber _ _ => E_UnexpectedParameterNumber 0 0
  | k => k
  end.
Lemma opening_head k : opening (head_kind k) = opening k.
Proof. now destruct k. Qed.
Definition heads : list err_kind :=
  [E_UnclosedGroup EtEnd; E_UnmatchedClose EtEnd; E_ExpectedArgumentGotClose; E_ExpectedArgumentGotEOI; E_ExpectedDelimiter DmLeft;
   E_DisallowedChar 0; E_UnknownEnvironment []; E_UnknownCommand []; E_UnknownColor []; E_MismatchedEnvironment EArray EArray;
   E_CannotBeUsedHere LtTag TableEnv; E_ExpectedRelation; E_ExpectedLargeOp; E_ExpectedAtMostOneToken; E_ExpectedExactlyOneToken;
   E_BoundFollowedByBound; E_DuplicateSubOrSup; E_CannotBeUsedAsArgument; E_ExpectedAscii; E_ExpectedLength []; E_IllegalUnit [] true;
   E_IllegalUnit [] false; E_InvalidUnit []; E_ExpectedColSpec []; E_ExpectedStyle; E_NotValidInTextMode; E_NotValidInMathMode;
   E_NestedMathModeUnimplemented; E_UnexpectedDollar; E_CouldNotExtractText; E_MoreThanOneLabel; E_MoreThanOneInfixCmd;
   E_InvalidMacroName []; E_ExpectedCommandName; E_CommandAlreadyDefined; E_CommandNotDefined; E_InvalidParameterNumber;
   E_ParameterNumberOutOfRange 0 0; E_DelimitedParameters; E_UnexpectedParameterNumber 0 0; E_MacroParameterOutsideCustomCommand;
   E_ExpectedParamNumberGotEOI; E_HardLimitExceeded; E_TooManyExpansions; E_Internal].
Lemma in_heads k : exists i, nth_error heads i = Some (head_kind k).
Proof.
  assert (I : In (head_kind k) heads).
  { destruct k; try destruct math_unit_expected; cbn [head_kind heads In]; repeat (first [left; reflexivity | right]). }
  now apply In_nth_error in I.
Qed.
Definition apart_b (l : list str) : bool :=
  forallb (fun i => forallb (fun j => Nat.eqb i j || negb (starts (nth i l []) (nth j l []))) (seq 0 (length l))) (seq 0 (length l)).
Lemma heads_apart : apart_b (map opening heads) = true.
Proof. vm_compute. reflexivity. Qed.
Lemma nth_opening i k : nth_error heads i = Some k -> nth i (map opening heads) [] = opening k.
Proof. intros H. apply nth_error_nth. rewrite nth_error_map, H. reflexivity. Qed.
Lemma starts_same i j a b : nth_error heads i = Some a -> nth_error heads j = Some b -> starts (opening a) (opening b) = true -> i = j.
Proof.
  intros A B S. pose proof heads_apart as F. unfold apart_b in F. rewrite forallb_forall in F.
  assert (Hi : (i < length heads)%nat) by (apply nth_error_Some; congruence).
  assert (Hj : (j < length heads)%nat) by (apply nth_error_Some; congruence).
  specialize (F i). rewrite map_length in F. rewrite in_seq in F. specialize (F ltac:(lia)).
  rewrite forallb_forall in F. specialize (F j). rewrite in_seq in F. specialize (F ltac:(lia)).
  rewrite (nth_opening _ _ A), (nth_opening _ _ B), S in F. cbn in F. rewrite Bool.orb_false_r in F. now apply Nat.eqb_eq.
Qed.
Lemma same_head a b : write_msg a = write_msg b -> head_kind a = head_kind b.
Proof.
  intros E. destruct (opens a) as [x X], (opens b) as [y Y]. rewrite X, Y in E.
  destruct (in_heads a) as [i A], (in_heads b) as [j B].
  rewrite <- (opening_head a), <- (opening_head b) in E.
  destruct (openings _ _ _ _ E) as [S|S].
  - rewrite (starts_same _ _ _ _ A B S) in A. congruence.
  - rewrite (starts_same _ _ _ _ B A S) in B. congruence.
Qed.

Lemma env_inj a b : env_as_str a = env_as_str b -> a = b.
Proof. intros E. apply C37_end_matches in E. destruct a, b; try reflexivity; discriminate E. Qed.
Lemma env_no_brace e : ~ In 125%N (env_as_str e).
Proof. destruct e; vm_compute; intuition discriminate. Qed.
Lemma limited_no_quote t : ~ In 34%N (limited_token_name t).
Proof. destruct t; vm_compute; intuition discriminate. Qed.
Lemma dec_only n c : is_ascii_digit c = false -> ~ In c (dec n).
Proof. intros D I. pose proof (dec_all_digits n) as F. rewrite Forall_forall in F. specialize (F _ I). congruence. Qed.
Lemma limited_inj a b : limited_token_name a = limited_token_name b -> a = b.
Proof. intros E. destruct a, b; try reflexivity; vm_compute in E; discriminate E. Qed.
Lemma place_inj a b : place_name a = place_name b -> a = b.
Proof. intros E. destruct a, b; try reflexivity; vm_compute in E; discriminate E. Qed.
Lemma end_inj a b : end_token_name a = end_token_name b -> a = b.
Proof. intros E. destruct a, b; try reflexivity; vm_compute in E; discriminate E. Qed.
Lemma modifier_inj a b : delimiter_modifier_name a = delimiter_modifier_name b -> a = b.
Proof. intros E. destruct a, b; try reflexivity; vm_compute in E; discriminate E. Qed.

Ltac strip E := first [apply app_inv_head in E | apply app_inv_tail in E].

Lemma message_inj a b : write_msg a = write_msg b -> a = b.
Proof.
  intros E. pose proof (same_head a b E) as H.
  destruct a; destruct b; try (vm_compute in H; discriminate H); try reflexivity;
  try (destruct math_unit_expected, math_unit_expected0; try (vm_compute in H; discriminate H));
  cbn [write_msg] in E; repeat strip E; try (f_equal; first [now apply end_inj | now apply modifier_inj | exact E]).
  - now injection E as ->.
  - cbn [lit] in E. destruct (split_at (sep := 125) _ _ _ _ (env_no_brace _) (env_no_brace _) E) as [E1 E2].
    injection E2 as E2. apply app_inv_tail in E2. apply env_inj in E1, E2. now subst.
  - destruct (split_at (sep := 34) _ _ _ _ (limited_no_quote _) (limited_no_quote _) E) as [E1 E2].
    injection E2 as E2. apply app_inv_tail in E2. apply limited_inj in E1. apply place_inj in E2. now subst.
  - destruct (split_at (sep := 32) _ _ _ _ (dec_only _ 32 eq_refl) (dec_only _ 32 eq_refl) E) as [E1 E2].
    injection E2 as E2. apply app_inv_tail in E2. apply dec_inj, Nat2N.inj in E1, E2. now subst.
  - destruct (split_at (sep := 44) _ _ _ _ (dec_only _ 44 eq_refl) (dec_only _ 44 eq_refl) E) as [E1 E2].
    injection E2 as E2. apply app_inv_tail in E2. apply dec_inj, Nat2N.inj in E1, E2. now subst.
Qed.

Lemma label_same a b : error_label a = error_label b <-> same_label a b.
Proof.
  split.
  - intros E. destruct a, b; try exact I; try reflexivity; vm_compute in E; discriminate E.
  - destruct a, b; cbn [same_label]; intros E; try reflexivity; try discriminate E.
Qed.

Lemma positioned_inj n m a b : dec (N.of_nat n) ++ lit ": " ++ write_msg a = dec (N.of_nat m) ++ lit ": " ++ write_msg b -> n = m /\ a = b.
Proof.
  intros E. destruct (split_at (sep := 58) _ _ _ _ (dec_only _ 58 eq_refl) (dec_only _ 58 eq_refl) E) as [E1 E2].
  injection E2 as E2. split; [now apply Nat2N.inj, dec_inj | now apply message_inj].
Qed.

Lemma html_inj e1 e2 l1 l2 d1 d2 : error_html e1 l1 d1 = error_html e2 l2 d2 ->
  d1 = d2 /\ l1 = l2 /\ err_kind_of e1 = err_kind_of e2 /\ error_position e1 l1 = error_position e2 l2.
Proof.
  unfold error_html, error_position. intros E.
  match type of E with to_html ?a ?b ?c ?d ?e = to_html ?a' ?b' ?c' ?d' ?e' =>
    destruct (C02_error_html a b c d e) as (t1 & s1 & H1 & [A1 _] & T1 & C1 & S1);
    destruct (C02_error_html a' b' c' d' e') as (t2 & s2 & H2 & [A2 _] & T2 & C2 & S2) end.
  rewrite H1, H2 in E. clear H1 H2.
  assert (D : d1 = d2).
  { destruct d1, d2; try reflexivity; cbn in E; discriminate E. }
  subst d2. split; [reflexivity|]. cbv zeta in E. injection E as E.
  apply app_inv_head in E. repeat (cbn [app lit] in E; first [apply app_inv_head in E | injection E as E]).
  destruct (split_at (sep := 34) t1 t2 _ _ A1 A2 E) as [Et E2]. injection E2 as E2.
  destruct C1 as (L1 & _), C2 as (L2 & _).
  destruct (split_at (sep := 60) s1 s2 _ _ L1 L2 E2) as [Es _].
  split; [now rewrite <- S1, <- S2, Es|].
  rewrite Et, T2 in T1. unfold to_message in T1. cbn [app] in T1.
  apply positioned_inj in T1. intuition congruence.
Qed.
