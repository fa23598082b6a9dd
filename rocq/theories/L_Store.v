(** Sound tokens and stores. *)
From Verif Require Import Str M_SuperChar M_Ast M_Spec M_Token M_Symbols M_Commands M_Env M_LatexError M_Lexer M_CustomCmds M_Queue
  S_SuperChar S_Lexer S_Queue S_Store L_Lexer L_Queue L_Args.
Local Open Scope nat_scope.

(** ** Tokens *)

Lemma tok_ok_mono (P P' : cmd_source -> nat -> nat -> nat -> Prop) : (forall src n a b, P src n a b -> P' src n a b) ->
  forall t, tok_ok P t -> tok_ok P' t.
Proof. intros H t. destruct t; try exact (fun x => x). apply H. Qed.
Lemma rec_ok_mono (P P' : cmd_source -> nat -> nat -> nat -> Prop) : (forall src n a b, P src n a b -> P' src n a b) ->
  forall r, rec_ok P r -> rec_ok P' r.
Proof.
  intros H [t|name] K; [|exact K]. destruct t; try exact I; destruct K as [K1 K2]; (split; [|exact K2]); exact (tok_ok_mono P P' H _ K1).
Qed.
Lemma tok_okb_ok P : forall t, tok_okb t = true -> tok_ok P t.
Proof. intros t. destruct t; try exact (fun x => x). intros K. cbn [tok_okb] in K. apply andb_prop in K as [_ K]. discriminate. Qed.
Lemma tables_ok :
  forallb (fun p => tok_okb (snd p)) UNRELIABLE = true /\ forallb (fun p => tok_okb (snd p)) SUBSTITUTED = true /\
  forallb (fun p => tok_okb (snd p)) COMMANDS = true /\ forallb (fun p => tok_okb (snd p)) UNICODE_OPERATORS = true /\
  forallb (fun n => forallb is_scalar n && forallb (fun c => negb (markup_char c)) n) FUNCTIONS = true /\ forallb tok_okb PRE_DOTS = true /\ forallb tok_okb PRE_CDOTS = true.
Proof. repeat split; vm_compute; reflexivity. Qed.
Lemma assoc_okb m name t : forallb (fun p => tok_okb (snd p)) m = true -> assoc_str name m = Some t -> tok_okb t = true.
Proof.
  induction m as [|[n x] m IH]; cbn [assoc_str forallb fst snd]; [discriminate|]. intros H. apply andb_prop in H as [H1 H2].
  destruct (str_eqb name n); [now intros [= <-]|auto].
Qed.
Lemma resolve_builtin_ok u c name t : resolve_builtin u c name = Some t -> tok_okb t = true.
Proof.
  destruct tables_ok as (B1 & B2 & B3 & _ & B4 & _). unfold resolve_builtin.
  destruct u, c;
  repeat match goal with |- context [assoc_str name ?m] => destruct (assoc_str name m) eqn:?; [intros X; injection X as X; subst; eauto using assoc_okb|] end;
  destruct (existsb (str_eqb name) FUNCTIONS) eqn:E; try discriminate; intros X; injection X as X; subst;
  apply existsb_exists in E as (x & E1 & E2); apply str_eqb_eq in E2; subst x;
  rewrite forallb_forall in B4; specialize (B4 _ E1); apply andb_prop in B4 as [B4 B5]; cbn [tok_okb chars_ok tok_superchars tok_text forallb]; unfold chars_ok;
  cbn [tok_superchars tok_text forallb letters_ok]; now rewrite B4, B5.
Qed.
Lemma tok_ok_unwrap P t : tok_ok P t -> tok_ok P (unwrap_math t).
Proof.
  destruct t; try exact (fun x => x). cbn [tok_ok tok_okb unwrap_math]. intros K. apply andb_prop in K as [_ K]. apply andb_prop in K as [_ K]. now apply tok_okb_ok.
Qed.
Lemma unwrap_plain P t : tok_ok P t -> t <> T_Whitespace -> math_plain (unwrap_math t) = true.
Proof.
  destruct t; try reflexivity; [now intros _ []|]. cbn [tok_ok tok_okb unwrap_math]. intros K _. apply andb_prop in K as [_ K]. now apply andb_prop in K as [K _].
Qed.
Lemma unicode_plain : forallb (fun p => math_plain (snd p)) UNICODE_OPERATORS = true.
Proof. vm_compute. reflexivity. Qed.

(** ** References *)

Lemma slice_prefix {A} (l l' : list A) a b x : slice_get l a b = Some x -> slice_get (l ++ l') a b = Some x.
Proof.
  unfold slice_get. destruct ((a <=? b) && (b <=? length l)) eqn:E; [|discriminate]. apply andb_prop in E as [E1 E2].
  apply Nat.leb_le in E1. apply Nat.leb_le in E2. intros [= <-].
  assert (X : (a <=? b) && (b <=? length (l ++ l')) = true). { rewrite app_length. apply andb_true_intro. split; apply Nat.leb_le; lia. }
  rewrite X. f_equal. rewrite skipn_app. replace (a - length l) with 0 by lia. cbn [skipn]. rewrite firstn_app.
  replace (b - a - length (skipn a l)) with 0 by (rewrite skipn_length; lia). cbn [firstn]. now rewrite app_nil_r.
Qed.
Lemma slice_bound {A} (l : list A) a b x : slice_get l a b = Some x -> a <= b /\ b <= length l.
Proof.
  unfold slice_get. destruct ((a <=? b) && (b <=? length l)) eqn:E; [|discriminate]. apply andb_prop in E as [E1 E2].
  apply Nat.leb_le in E1. apply Nat.leb_le in E2. auto.
Qed.
Lemma slice_in {A} (l : list A) a b x y : slice_get l a b = Some x -> In y x -> exists i, a <= i < b /\ nth_error l i = Some y.
Proof.
  intros H. pose proof (slice_bound _ _ _ _ H) as [B1 B2]. unfold slice_get in H. destruct (_ && _); [|discriminate]. injection H as <-.
  intros I. apply In_nth_error in I as [k K].
  assert (k < length (firstn (b - a) (skipn a l))) by (apply nth_error_Some; congruence).
  rewrite firstn_length, skipn_length in H. exists (a + k). split; [lia|].
  rewrite <- (firstn_skipn a l) at 1. rewrite nth_error_app2; rewrite firstn_length; [|lia].
  replace (a + k - Nat.min a (length l)) with k by lia. rewrite <- K.
  rewrite <- (firstn_skipn (b - a) (skipn a l)) at 1. rewrite nth_error_app1; [reflexivity|]. rewrite firstn_length, skipn_length. lia.
Qed.
Lemma body_at_prefix l l' n a b : body_at l n a b -> body_at (l ++ l') n a b.
Proof. intros (H & body & S & K). split; [exact H|]. exists body. split; [now apply slice_prefix|exact K]. Qed.
Lemma body_at_new l n body : n <= 9 -> params_below n body -> body_at (l ++ body) n (length l) (length (l ++ body)).
Proof.
  intros Hn Hb. split; [exact Hn|]. exists body. split; [|exact Hb]. unfold slice_get. rewrite app_length.
  assert (X : (length l <=? length l + length body) && (length l + length body <=? length l + length body) = true).
  { apply andb_true_intro. split; apply Nat.leb_le; lia. }
  rewrite X. f_equal. rewrite skipn_app, skipn_all, Nat.sub_diag. cbn [app skipn]. rewrite firstn_all2; [reflexivity|lia].
Qed.
Lemma extends_refl {A} (l : list A) : extends l l.
Proof. exists []. now rewrite app_nil_r. Qed.
Lemma extends_trans {A} (l1 l2 l3 : list A) : extends l1 l2 -> extends l2 l3 -> extends l1 l3.
Proof. intros [x ->] [y ->]. exists (x ++ y). now rewrite app_assoc. Qed.
Lemma extends_app {A} (l x : list A) : extends l (l ++ x).
Proof. now exists x. Qed.
Lemma ref_ok_mono c d l c' d' l' src n a b : extends c c' -> extends d d' -> extends l l' -> ref_ok c d l src n a b -> ref_ok c' d' l' src n a b.
Proof. intros [x ->] [y ->] [z ->]. unfold ref_ok. destruct src; apply body_at_prefix. Qed.
Lemma map_ok_body c name d : map_ok c -> assoc_str name (cc_map c) = Some d -> body_at (cc_tokens c) (cd_args d) (cd_start d) (cd_end d).
Proof.
  unfold map_ok. induction 1 as [|[n x] m H F IH]; cbn [assoc_str]; [discriminate|].
  destruct (str_eqb name n); [now intros [= <-]|exact IH].
Qed.

(** ** Names *)
Section Q.
Context (cfg : parser_cfg).

Lemma meaning_ok q name : stores_ok cfg q -> forallb is_scalar name = true -> tok_ok (q_refs cfg q) (q_meaning cfg q name).
Proof.
  intros ((_ & C) & (_ & D) & (_ & L)) S. unfold q_meaning, q_resolve, resolve_command, cmds_get.
  destruct (assoc_str name (cc_map (q_local q))) as [d|] eqn:E1.
  { exact (map_ok_body _ _ _ L E1). }
  destruct (assoc_str name (cc_map (gs_cmds (q_gs q)))) as [d|] eqn:E2.
  { exact (map_ok_body _ _ _ D E2). }
  destruct (assoc_str name (cc_map (pc_custom cfg))) as [d|] eqn:E3.
  { exact (map_ok_body _ _ _ C E3). }
  destruct (resolve_builtin _ _ name) as [t|] eqn:E4.
  - apply tok_okb_ok. exact (resolve_builtin_ok _ _ _ _ E4).
  - cbn [tok_ok tok_okb]. unfold chars_ok. cbn [tok_superchars tok_text forallb andb letters_ok]. now rewrite S.
Qed.
End Q.
