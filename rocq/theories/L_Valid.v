(** The elements of separated trees have the children that MathML prescribes (C54). *)
From Verif Require Import Str M_SuperChar M_Length M_Spec M_Escape M_Ast M_Emit M_Output
  S_SuperChar S_Html S_Node S_Store S_Emit S_Tree S_MathML S_Valid L_Node.
Local Open Scope nat_scope.

(** Expressions with valid content. *)
Definition good (x : xml) : bool := expression x && valid x.
Notation all_good := (forallb good).
Lemma good_parts l : all_good l = true -> forallb expression l = true /\ forallb valid l = true.
Proof.
  induction l as [|x l IH]; [now split|]. cbn [forallb]. intros H. apply andb_prop in H as [H1 H2]. apply IH in H2 as [H2 H3].
  apply andb_prop in H1 as [H0 H1]. now rewrite H0, H1, H2, H3.
Qed.
Lemma good_app a b : all_good (a ++ b) = all_good a && all_good b.
Proof. apply forallb_app. Qed.
Lemma data_text s : forallb (fun x => match x with XText _ => true | XElem _ _ _ => false end) (data s) = true /\ forallb phrase (data s) = true /\ forallb valid (data s) = true.
Proof. unfold data. now destruct (blank s). Qed.

(** Elements by content model. *)
Ltac mem := unfold html_names; cbn [map In]; repeat first [left; reflexivity | right].
Ltac model := unfold good, el, expression, named; cbn [valid]; 
  match goal with |- context [M_Spec.assoc_str ?n models] => let r := eval vm_compute in (M_Spec.assoc_str n models) in change (M_Spec.assoc_str n models) with r end;
  match goal with |- context [existsb ?f expressions] => let r := eval vm_compute in (existsb f expressions) in change (existsb f expressions) with r end; cbn [fits andb].
Lemma any_good n a l : In n (map lit ["mrow"; "msqrt"; "merror"; "mpadded"; "mphantom"; "menclose"]%string) -> all_good l = true -> good (XElem n a l) = true.
Proof.
  intros H G. apply good_parts in G as [G1 G2]. cbn [map In] in H. repeat (destruct H as [<-|H]; [model; now rewrite G1, G2|]). destruct H.
Qed.
Lemma two_good n a x y : In n (map lit ["mfrac"; "mroot"; "msub"; "msup"; "munder"; "mover"]%string) -> good x = true -> good y = true -> good (XElem n a [x; y]) = true.
Proof.
  intros H G1 G2. apply andb_prop in G1 as [A1 B1]. apply andb_prop in G2 as [A2 B2].
  cbn [map In] in H. repeat (destruct H as [<-|H]; [model; cbn [forallb length Nat.eqb]; now rewrite A1, A2, B1, B2|]). destruct H.
Qed.
Lemma three_good n a x y z : In n (map lit ["msubsup"; "munderover"]%string) -> good x = true -> good y = true -> good z = true -> good (XElem n a [x; y; z]) = true.
Proof.
  intros H G1 G2 G3. apply andb_prop in G1 as [A1 B1]. apply andb_prop in G2 as [A2 B2]. apply andb_prop in G3 as [A3 B3].
  cbn [map In] in H. repeat (destruct H as [<-|H]; [model; cbn [forallb length Nat.eqb]; now rewrite A1, A2, A3, B1, B2, B3|]). destruct H.
Qed.
Lemma chars_good n a s : In n (map lit ["mi"; "mn"; "mo"]%string) -> good (XElem n a (data s)) = true.
Proof.
  intros H. destruct (data_text s) as (D1 & _ & D3). cbn [map In] in H. repeat (destruct H as [<-|H]; [model; now rewrite D1, D3|]). destruct H.
Qed.
Lemma text_good a l : forallb phrase l = true -> forallb valid l = true -> good (el "mtext" a l) = true.
Proof. intros H1 H2. model. now rewrite H1, H2. Qed.
Lemma space_good a : good (el "mspace" a []) = true.
Proof. model. reflexivity. Qed.
Lemma html_valid n a l : In n html_names -> forallb phrase l = true -> forallb valid l = true -> phrase (XElem n a l) = true /\ valid (XElem n a l) = true.
Proof.
  intros H P V. unfold html_names in H. cbn [map In] in H.
  repeat (destruct H as [<-|H]; [split; [reflexivity|]; cbn [valid];
    match goal with |- context [M_Spec.assoc_str ?n models] => let r := eval vm_compute in (M_Spec.assoc_str n models) in change (M_Spec.assoc_str n models) with r end; cbn [fits]; now rewrite P, V|]). destruct H.
Qed.

(** ** Tables *)

Definition part_good (p : table_part) : Prop := match p with Content c => all_good c = true | _ => True end.
Definition row_good (r : xrow) : Prop := Forall (fun c => all_good c = true) (snd (fst r)).
Lemma xrows_good last l : forall top cells cur, Forall part_good l -> Forall (fun c => all_good c = true) cells -> all_good cur = true ->
  Forall row_good (xrows top cells cur last l).
Proof.
  induction l as [|p l IH]; intros top cells cur P C U; cbn [xrows].
  - constructor; [|constructor]. unfold row_good. cbn [fst snd]. apply Forall_app. split; [exact C|now constructor].
  - inversion P as [|? ? P1 P2]; subst. destruct p as [c| |i b].
    + apply IH; [exact P2|exact C|]. rewrite good_app, U. exact P1.
    + apply IH; [exact P2| |reflexivity]. apply Forall_app. split; [exact C|now constructor].
    + constructor; [|apply IH; [exact P2|constructor|reflexivity]]. unfold row_good. cbn [fst snd]. apply Forall_app. split; [exact C|now constructor].
Qed.
Definition cell_good (x : xml) : bool := named [lit "mtd"] x && valid x.
Lemma cells_parts l : forallb cell_good l = true -> forallb (named [lit "mtd"]) l = true /\ forallb valid l = true.
Proof.
  induction l as [|x l IH]; [now split|]. cbn [forallb]. intros H. apply andb_prop in H as [H1 H2]. apply IH in H2 as [H2 H3].
  apply andb_prop in H1 as [H0 H1]. now rewrite H0, H1, H2, H3.
Qed.
Lemma mtd_good a l : all_good l = true -> cell_good (el "mtd" a l) = true.
Proof.
  intros H. apply good_parts in H as [H1 H2]. unfold cell_good, el. cbn [named existsb valid]. rewrite str_eqb_refl. cbn [orb andb].
  match goal with |- context [M_Spec.assoc_str ?n models] => let r := eval vm_compute in (M_Spec.assoc_str n models) in change (M_Spec.assoc_str n models) with r end.
  cbn [fits]. now rewrite H1, H2.
Qed.
Lemma xcell_good t top i j c : all_good c = true -> forallb cell_good (xcell t top i j c) = true.
Proof.
  intros H. unfold xcell. rewrite forallb_app. apply andb_true_intro. split.
  - destruct t; try reflexivity. apply forallb_forall. intros x Hx. apply in_map_iff in Hx as (l & <- & _). now apply mtd_good.
  - cbn [forallb]. rewrite andb_true_r. now apply mtd_good.
Qed.
Lemma mapi_all {A B} (f : nat -> A -> B) (P : A -> Prop) (R : B -> Prop) l : (forall i x, P x -> R (f i x)) -> forall i, Forall P l -> Forall R (mapi f i l).
Proof. intros H. induction l as [|x l IH]; intros i F; cbn [mapi]; [constructor|]. inversion F; subst. constructor; auto. Qed.
Lemma xnumber_good e nc i : cell_good (xnumber e nc i) = true.
Proof.
  unfold xnumber. destruct i as [i|]; apply mtd_good; [|reflexivity]. cbn [forallb]. rewrite andb_true_r.
  match goal with |- context [data ?s] => destruct (data_text s) as (_ & D2 & D3) end. now apply text_good.
Qed.
Lemma opt_good {A} (f : A -> list xml) o : (forall x, forallb cell_good (f x) = true) -> forallb cell_good (opt f o) = true.
Proof. intros H. destruct o; [apply H|reflexivity]. Qed.
Lemma xtable_good e t nc a rows : Forall row_good rows -> good (xtable e t nc a rows) = true.
Proof.
  intros F. unfold xtable. set (f := fun (i : nat) (r : xrow) => _).
  assert (R : Forall (fun x => named [lit "mtr"] x = true /\ valid x = true) (mapi f 0 rows)).
  { apply (mapi_all f row_good); [|exact F]. intros i [[top cells] info] C. unfold row_good in C. cbn [fst snd] in C. unfold f.
    unfold el. cbn [named existsb valid]. rewrite str_eqb_refl. split; [reflexivity|].
    match goal with |- context [M_Spec.assoc_str ?n models] => let r := eval vm_compute in (M_Spec.assoc_str n models) in change (M_Spec.assoc_str n models) with r end.
    cbn [fits]. match goal with |- forallb _ ?l && _ = true => assert (G : forallb cell_good l = true) end.
    { rewrite !forallb_app. apply andb_true_intro. split; [|apply andb_true_intro; split].
      - apply opt_good. intros x. cbn [forallb]. rewrite andb_true_r. now apply mtd_good.
      - apply forallb_forall. intros x Hx. apply in_concat in Hx as (y & Hy & Hx).
        assert (Y : Forall (fun l => forallb cell_good l = true) (mapi (fun j c => xcell t top i j c) 0 cells)).
        { apply (mapi_all _ (fun c => all_good c = true)); [|exact C]. intros j c. apply xcell_good. }
        rewrite Forall_forall in Y. specialize (Y _ Hy). rewrite forallb_forall in Y. now apply Y.
      - apply opt_good. intros x. cbn [forallb]. rewrite andb_true_r. apply xnumber_good. }
    apply cells_parts in G as [G1 G2]. now rewrite G1, G2. }
  model. rewrite Forall_forall in R. apply andb_true_intro. split; apply forallb_forall; intros x Hx; now apply R.
Qed.

(** ** Texts *)

Lemma styled_good s l : forallb phrase l = true -> forallb valid l = true -> forallb phrase (styled s l) = true /\ forallb valid (styled s l) = true.
Proof.
  intros P V. assert (H : forall n a l, In n html_names -> forallb phrase l = true -> forallb valid l = true -> forallb phrase [XElem n a l] = true /\ forallb valid [XElem n a l] = true).
  { intros n a l' I1 P' V'. destruct (html_valid n a l' I1 P' V') as [A B]. cbn [forallb]. now rewrite A, B. }
  unfold styled, el. destruct s as [[]|]; try (now split); try (apply H; [mem|assumption|assumption]).
  destruct (H (lit "i") [] l) as [A B]; [mem|exact P|exact V|]. apply H; [mem|exact A|exact B].
Qed.

(** ** Scripts *)

Lemma pairs_good marker l rest : Forall (fun p => good (fst p) = true /\ good (snd p) = true) l ->
  script_pairs marker (flat_map (fun p => [fst p; snd p]) l ++ rest) = script_pairs marker rest.
Proof.
  induction 1 as [|[a b] l [A B] F IH]; [reflexivity|]. cbn [flat_map app fst snd] in *. apply andb_prop in A as [A _]. apply andb_prop in B as [B _].
  cbn [script_pairs]. assert (N : named [lit "mprescripts"] a = false).
  { destruct a as [n at_ c|s]; [|discriminate]. unfold expression, named in *. destruct (existsb (str_eqb n) [lit "mprescripts"]) eqn:E; [|reflexivity].
    cbn [existsb] in E. rewrite orb_false_r in E. apply str_eqb_eq in E. subst. discriminate A. }
  rewrite N. rewrite A, B, IH. reflexivity.
Qed.

(** ** Trees *)

Section Tree.
Context (e : emit_env).
Definition one_good (n : node) : Prop := is_sep n = false -> exists x, mathml e n = [x] /\ good x = true.

Lemma padded_good o : forall a c, all_good c = true -> good (xpadded e o a c) = true.
Proof.
  induction o as [|l o IH]; intros a c G; cbn [xpadded]; [now apply any_good; [mem|]|].
  destruct o as [|l' o]; (apply any_good; [mem|]); [exact G|]. cbn [forallb]. now rewrite IH.
Qed.
Lemma parts_good l : Forall one_good l ->
  Forall part_good (map (fun n => match n with ColumnSeparator => NextCell | RowSeparator i b => NextRow i b | _ => Content (mathml e n) end) l).
Proof.
  induction 1 as [|n l H F IH]; [constructor|]. cbn [map]. constructor; [|exact IH].
  assert (G : is_sep n = false -> part_good (Content (mathml e n))).
  { intros S. destruct (H S) as (x & -> & G). cbn. now rewrite G. }
  destruct n; try exact I; apply G; reflexivity.
Qed.
Lemma list_good l : Forall one_good l -> Forall (fun c => is_sep c = false) l -> all_good (flat_map (mathml e) l) = true.
Proof.
  induction 1 as [|n l H F IH]; intros S; [reflexivity|]. inversion S as [|? ? S1 S2]; subst. cbn [flat_map].
  destruct (H S1) as (x & -> & G). cbn [app forallb]. now rewrite G, IH.
Qed.
Lemma pair_list l : Forall (fun p => one_good (fst p) /\ one_good (snd p)) l -> Forall (fun p : node * node => is_sep (fst p) = false /\ is_sep (snd p) = false) l ->
  exists k, flat_map (fun p : node * node => match p with (x, y) => mathml e x ++ mathml e y end) l = flat_map (fun p => [fst p; snd p]) k /\
    Forall (fun p => good (fst p) = true /\ good (snd p) = true) k.
Proof.
  induction 1 as [|[a b] l [Ha Hb] F IH]; intros S; [now exists []|]. inversion S as [|? ? [S1 S2] S3]; subst. cbn [fst snd] in *.
  destruct (IH S3) as (k & E & G). destruct (Ha S1) as (x & Ex & Gx). destruct (Hb S2) as (y & Ey & Gy).
  exists ((x, y) :: k). cbn [flat_map fst snd app]. rewrite Ex, Ey, E. split; [reflexivity|]. constructor; [now split|exact G].
Qed.
Lemma flat_pairs_valid k : Forall (fun p : xml * xml => good (fst p) = true /\ good (snd p) = true) k -> forallb valid (flat_map (fun p => [fst p; snd p]) k) = true.
Proof.
  induction 1 as [|[a b] k [A B] F IH]; [reflexivity|]. cbn [flat_map app fst snd forallb] in *. apply andb_prop in A as [_ A]. apply andb_prop in B as [_ B]. now rewrite A, B, IH.
Qed.

Lemma tree_good n : separated n -> one_good n.
Proof.
  induction n as [n IH] using node_ind'. intros Sn. apply node_all_inv in Sn as [S1 S2].
  assert (K : forall c, In c (children n) -> one_good c) by (intros c Hc; exact (IH c Hc (S2 c Hc))). clear IH S2.
  assert (Kl : Forall one_good (children n)) by now apply Forall_forall. intros Sep.
  destruct n; try discriminate Sep; cbn [children separated_here] in S1, Kl; cbn [mathml];
    repeat match goal with H : Forall _ (_ :: _) |- _ => inversion H; clear H; subst end;
    repeat match goal with H : one_good ?n, S : is_sep ?n = false |- _ => let x := fresh "x" in let E := fresh "E" in let G := fresh "G" in
      destruct (H S) as (x & E & G); rewrite ?E; clear H end; cbn [app].
  all: try (eexists; split; [reflexivity|];
    match goal with
    | |- good (el _ _ [_; _; _]) = true => apply three_good; [mem|assumption..]
    | |- good (el _ _ [el _ _ _; _]) = true => fail
    | |- good (el _ _ [_; _]) = true => apply two_good; [mem|assumption|assumption]
    | |- good (el _ _ [_]) = true => apply any_good; [mem|cbn [forallb]; rewrite G; reflexivity]
    | |- good (el _ _ (data _)) = true => apply chars_good; mem
    end).
  - (* IdentifierChar *) assert (M : forall a, good (el "mrow" [] [el "mspace" [] []; el "mi" a (data (sc_text c))]) = true).
    { intros b. apply any_good; [mem|]. cbn [forallb]. rewrite space_good. unfold el. now rewrite chars_good by (mem). }
    destruct a; [destruct (lone _)|]; eexists; (split; [reflexivity|]); try apply M. apply chars_good. mem.
  - (* IdentifierStr *) eexists. split; [reflexivity|]. apply any_good; [mem|]. cbn [forallb]. rewrite space_good. unfold el. now rewrite chars_good by (mem).
  - (* Space *) destruct (length_is_negative l); eexists; (split; [reflexivity|apply space_good]).
  - (* OverAccent *) eexists. split; [reflexivity|]. apply two_good; [mem|assumption|]. apply chars_good. mem.
  - (* UnderAccent *) eexists. split; [reflexivity|]. apply two_good; [mem|assumption|]. apply chars_good. mem.
  - (* Row *) eexists. split; [reflexivity|]. apply any_good; [mem|]. now apply list_good.
  - (* Padded *) eexists. split; [reflexivity|]. apply padded_good. cbn [forallb]. now rewrite G.
  - (* Text *) eexists. split; [reflexivity|]. destruct (data_text text) as (_ & D2 & D3). destruct (styled_good ts _ D2 D3). now apply text_good.
  - (* AHref *) eexists. split; [reflexivity|]. destruct (data_text text) as (_ & D2 & D3).
    destruct (html_valid (lit "a") [att "href" href] (data text)) as [A B]; [mem|exact D2|exact D3|]. apply text_good; unfold el; cbn [forallb]; now rewrite ?A, ?B.
  - (* EqRef *) eexists. split; [reflexivity|]. match goal with |- context [data ?s] => destruct (data_text s) as (_ & D2 & D3) end.
    match goal with |- context [el "a" ?x ?y] => destruct (html_valid (lit "a") x y) as [A B]; [mem|exact D2|exact D3|] end. apply text_good; unfold el; cbn [forallb]; now rewrite ?A, ?B.
  - (* Table *) eexists. split; [reflexivity|]. apply xtable_good, xrows_good; [now apply parts_good|constructor|reflexivity].
  - (* EquationArray *) eexists. split; [reflexivity|]. apply xtable_good, xrows_good; [now apply parts_good|constructor|reflexivity].
  - (* MultLine *) eexists. split; [reflexivity|]. apply xtable_good, xrows_good; [now apply parts_good|constructor|reflexivity].
  - (* ArrayN *) eexists. split; [reflexivity|]. apply xtable_good, xrows_good; [now apply parts_good|constructor|reflexivity].
  - (* Enclose *) eexists. split; [reflexivity|]. apply any_good; [mem|]. cbn [forallb]. rewrite G. rewrite !forallb_app.
    now destruct (has_attr _ N_PHASOR_ANGLE), (has_attr _ N_UP_DIAGONAL), (has_attr _ N_DOWN_DIAGONAL).
  - (* Multiscripts *) eexists. split; [reflexivity|].
    assert (P : forall l, (forall p, In p l -> In p (post ++ pre)) -> Forall (fun p => one_good (fst p) /\ one_good (snd p)) l /\ Forall (fun p : node * node => is_sep (fst p) = false /\ is_sep (snd p) = false) l).
    { intros l I1. match goal with A : Forall one_good (flat_map _ _), B : Forall _ (flat_map _ _) |- _ => rewrite Forall_flat_map in A, B; rewrite Forall_forall in A, B;
        split; apply Forall_forall; intros p Hp; specialize (A p (I1 p Hp)); specialize (B p (I1 p Hp)) end;
      repeat match goal with H : Forall _ (_ :: _) |- _ => inversion H; clear H; subst end; now split. }
    destruct (P post) as [Po1 Po2]; [intros; apply in_or_app; now left|]. destruct (P pre) as [Pr1 Pr2]; [intros; apply in_or_app; now right|].
    destruct (pair_list post Po1 Po2) as (k1 & E1 & G1). destruct (pair_list pre Pr1 Pr2) as (k2 & E2 & G2).
    cbv zeta. rewrite E1, E2. apply andb_prop in G as [Ga Gb].
    match goal with |- context [el "mmultiscripts" [] (_ :: ?l)] => assert (V : script_pairs true l = true /\ forallb valid l = true) end.
    { destruct pre as [|p pre].
      - rewrite app_nil_r. split; [|now apply flat_pairs_valid]. rewrite <- (app_nil_r (flat_map _ _)). rewrite pairs_good by exact G1. reflexivity.
      - split; [rewrite pairs_good by exact G1; cbn [script_pairs]; change (named [lit "mprescripts"] (el "mprescripts" [] [])) with true; cbn [andb]; rewrite <- (app_nil_r (flat_map _ k2)); now rewrite pairs_good by exact G2|].
        rewrite forallb_app, flat_pairs_valid by exact G1. cbn [forallb andb]. rewrite flat_pairs_valid by exact G2. reflexivity. }
    destruct V as [V1 V2]. unfold el in V1, V2. model. cbn [forallb]. now rewrite Ga, Gb, V1, V2.
  - (* UnknownCommand *) eexists. split; [reflexivity|]. apply any_good; [mem|]. cbn [forallb]. rewrite andb_true_r.
    match goal with |- context [data ?s] => destruct (data_text s) as (_ & D2 & D3) end. now apply text_good.
Qed.
End Tree.

Lemma document_valid c labels ast latex d : all_separated ast -> valid (document_xml c labels ast latex d) = true.
Proof.
  intros F. unfold document_xml. set (e := env_of c labels).
  assert (G : all_good (flat_map (mathml e) ast) = true).
  { apply list_good; [|eapply Forall_impl; [|exact F]; now intros n [H _]]. eapply Forall_impl; [|exact F]. intros n [_ H]. now apply tree_good. }
  cbn [valid el]. match goal with |- context [M_Spec.assoc_str ?n models] => let r := eval vm_compute in (M_Spec.assoc_str n models) in change (M_Spec.assoc_str n models) with r end. cbn [fits].
  destruct (ec_annotation c).
  - assert (X : exists x, match ast with [n] => mathml e n | _ => [el "mrow" [] (flat_map (mathml e) ast)] end = [x] /\ good x = true).
    { assert (R : exists x, [el "mrow" [] (flat_map (mathml e) ast)] = [x] /\ good x = true) by (eexists; split; [reflexivity|]; apply any_good; [mem|exact G]).
      destruct ast as [|n [|m r]]; try exact R. inversion F as [|? ? [H1 H2] _]; subst. now apply tree_good. }
    destruct X as (x & -> & Gx). apply andb_prop in Gx as [G1 G2]. destruct (data_text latex) as (D1 & _ & D3).
    assert (S : good (el "semantics" [] [x; el "annotation" [att "encoding" (lit "application/x-tex")] (data latex)]) = true).
    { model. rewrite G1. cbn [forallb]. rewrite G2. cbn [andb]. cbn [named el existsb]. rewrite str_eqb_refl. cbn [orb andb valid].
      match goal with |- context [M_Spec.assoc_str ?n models] => let r := eval vm_compute in (M_Spec.assoc_str n models) in change (M_Spec.assoc_str n models) with r end. cbn [fits]. now rewrite D1, D3. }
    cbn [app]. apply andb_prop in S as [S1 S2]. cbn [forallb]. now rewrite S1, S2.
  - apply good_parts in G as [G1 G2]. now rewrite G1, G2.
Qed.
