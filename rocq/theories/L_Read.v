(** The XML reader on elements, attributes and text. *)
From Verif Require Import Str M_SuperChar M_Length M_Spec M_Escape M_Ast M_Emit M_Output.
From Verif Require Import S_Html S_Xml S_SuperChar S_Node S_Store S_Emit S_Exposed S_MathML L_Escape L_Node L_Emit.

Lemma read_app r a b : read_from r (a ++ b) = read_from (read_from r a) b.
Proof. apply fold_left_app. Qed.

Lemma text_run t : ~ In 60 t -> forall o d raw, read_from (InText o d raw) t = InText o d (raw ++ t).
Proof.
  induction t as [|c t IH]; intros H o d raw; [cbn; now rewrite app_nil_r|].
  cbn [read_from fold_left read_char]. destruct (N.eqb_spec c 60) as [->|]; [destruct H; now left|].
  fold (read_from (InText o d (raw ++ [c])) t). rewrite IH by (intros X; apply H; now right). now rewrite <- app_assoc.
Qed.
Definition tag_char (c : N) : bool := negb ((c =? 60) || (c =? 34) || (c =? 62)).
Lemma tag_run t : forallb tag_char t = true -> forall o d raw, read_from (InTag o d raw false) t = InTag o d (raw ++ t) false.
Proof.
  induction t as [|c t IH]; intros H o d raw; [cbn; now rewrite app_nil_r|].
  cbn [forallb] in H. apply andb_prop in H as [Hc H]. unfold tag_char in Hc. apply negb_true_iff in Hc.
  apply orb_false_iff in Hc as [Hc C3]. apply orb_false_iff in Hc as [C1 C2].
  cbn [read_from fold_left read_char]. rewrite C1, C2, C3. cbn [andb].
  fold (read_from (InTag o d (raw ++ [c]) false) t). rewrite IH by exact H. now rewrite <- app_assoc.
Qed.
Lemma value_run t : ~ In 60 t -> ~ In 34 t -> forall o d raw, read_from (InTag o d raw true) t = InTag o d (raw ++ t) true.
Proof.
  induction t as [|c t IH]; intros H K o d raw; [cbn; now rewrite app_nil_r|].
  cbn [read_from fold_left read_char]. destruct (N.eqb_spec c 60) as [->|]; [destruct H; now left|].
  destruct (N.eqb_spec c 34) as [->|]; [destruct K; now left|]. cbn [negb]. rewrite andb_false_r.
  fold (read_from (InTag o d (raw ++ [c]) true) t). rewrite IH; [now rewrite <- app_assoc| |]; intros X; [apply H|apply K]; now right.
Qed.

(** ** Decoding *)

Lemma decode_plain s : ~ In 38 s -> html_decode s = s.
Proof.
  unfold html_decode. induction s as [|c s IH]; intros H; [reflexivity|]. cbn [html_decode_go].
  rewrite match_entity_plain by (intros ->; apply H; now left). now rewrite IH by (intros X; apply H; now right).
Qed.
Lemma decode_plain_app a t : ~ In 38 a -> html_decode (a ++ t) = a ++ html_decode t.
Proof.
  unfold html_decode. induction a as [|c a IH]; intros H; [reflexivity|]. cbn [app html_decode_go].
  rewrite (match_entity_plain c) by (intros ->; apply H; now left).
  now rewrite IH by (intros X; apply H; now right).
Qed.
Lemma blank_amp s : blank s = true -> ~ In 38 s.
Proof.
  destruct s as [|c s]; [intros _ []|]. cbn [blank]. intros H. apply andb_prop in H as [H1 H2]. apply N.eqb_eq in H1. subst c.
  intros [X|X]; [discriminate|]. rewrite forallb_forall in H2. now apply H2 in X.
Qed.
Lemma blank_lt s : blank s = true -> ~ In 60 s.
Proof.
  destruct s as [|c s]; [intros _ []|]. cbn [blank]. intros H. apply andb_prop in H as [H1 H2]. apply N.eqb_eq in H1. subst c.
  intros [X|X]; [discriminate|]. rewrite forallb_forall in H2. now apply H2 in X.
Qed.
Lemma blank_data s : blank s = true -> data (html_decode s) = [].
Proof. intros H. rewrite decode_plain by (now apply blank_amp). unfold data. now rewrite H. Qed.
Lemma blank_ws s : blank s = true -> forallb (fun c => (c =? 10) || (c =? 32) || (c =? 9)) s = true.
Proof.
  destruct s as [|c s]; [reflexivity|]. cbn [blank forallb]. intros H. apply andb_prop in H as [-> ->]. reflexivity.
Qed.
Lemma blank_app a b : blank a = true -> blank b = true -> blank (a ++ b) = true.
Proof.
  intros H K. destruct a as [|c a]; [exact K|]. cbn [app blank] in *. apply andb_prop in H as [H1 H2]. rewrite H1. cbn [andb].
  rewrite forallb_app, H2. now apply blank_ws.
Qed.
Lemma nl_blank e n : blank (nl e n) = true.
Proof.
  destruct n as [|n]; [reflexivity|]. unfold nl. cbn [blank]. apply andb_true_iff. split; [reflexivity|].
  assert (H : forallb (fun c => (c =? 10) || (c =? 32) || (c =? 9)) (indent_unit (ee_indentation e)) = true).
  { destruct (ee_indentation e) as [k|]; cbn [indent_unit]; [|reflexivity]. induction k as [|k IH]; [reflexivity|exact IH]. }
  generalize (S n) as m. induction m as [|m IH]; [reflexivity|]. cbn [repeat concat]. rewrite forallb_app. now rewrite H, IH.
Qed.

(** ** Attributes *)

Definition name_ok (s : str) : Prop := s <> [] /\ forallb (fun c => (97 <=? c) && (c <=? 122)) s = true.
Inductive attr_text : str -> list (str * str) -> Prop :=
| at_nil : attr_text [] []
| at_cons nm v w r l : name_ok nm -> ~ In 34 v -> ~ In 60 v -> html_decode v = w -> attr_text r l ->
    attr_text (32 :: nm ++ [61; 34] ++ v ++ [34] ++ r) ((nm, w) :: l).

Lemma at_app a b l m : attr_text a l -> attr_text b m -> attr_text (a ++ b) (l ++ m).
Proof.
  intros Ha Hb. induction Ha as [|nm v w r l Hn Hv Hw Hd Hr IH]; [exact Hb|].
  assert (E : (32 :: nm ++ [61; 34] ++ v ++ [34] ++ r) ++ b = 32 :: nm ++ [61; 34] ++ v ++ [34] ++ (r ++ b)).
  { cbn [app]. now rewrite <- !app_assoc, <- !app_comm_cons, <- !app_assoc. }
  rewrite E. cbn [app]. now constructor.
Qed.
Lemma at_one nm v w s : name_ok nm -> ~ In 34 v -> ~ In 60 v -> html_decode v = w ->
  s = 32 :: nm ++ [61; 34] ++ v ++ [34] -> attr_text s [(nm, w)].
Proof. intros H1 H2 H3 H4 ->. apply (at_cons nm v w []); auto. constructor. Qed.
Lemma at_plain nm v s : name_ok nm -> plain v -> s = 32 :: nm ++ [61; 34] ++ v ++ [34] -> attr_text s [(nm, v)].
Proof.
  intros H1 H2 E. apply (at_one nm v v); [exact H1| | | |exact E].
  - now apply (plain_not_in v).
  - now apply (plain_not_in v).
  - apply decode_plain. now apply (plain_not_in v).
Qed.
Lemma at_opt {A} (f : A -> str) (g : A -> list (str * str)) o : (forall a, attr_text (f a) (g a)) -> attr_text (opt_str f o) (opt g o).
Proof. intros H. destruct o; [apply H|constructor]. Qed.
Lemma at_if (b : bool) s l : attr_text s l -> attr_text (if b then s else []) (if b then l else []).
Proof. intros H. destruct b; [exact H|constructor]. Qed.

Fixpoint attr_b (fuel : nat) (s : str) : option (list (str * str)) :=
  match fuel with
  | O => None
  | S f =>
      match s with
      | [] => Some []
      | x :: r =>
          match cut 61 r with
          | Some (nm, y :: r') =>
              match cut 34 r' with
              | Some (v, rest) =>
                  if (x =? 32) && (y =? 34) && negb (str_eqb nm []) && forallb (fun c => (97 <=? c) && (c <=? 122)) nm && forallb plain_char v
                  then option_map (cons (nm, v)) (attr_b f rest) else None
              | None => None
              end
          | _ => None
          end
      end
  end.
Lemma attr_b_ok fuel : forall s l, attr_b fuel s = Some l -> attr_text s l.
Proof.
  induction fuel as [|f IH]; intros s l H; [discriminate|]. cbn [attr_b] in H.
  destruct s as [|x r]; [injection H as <-; constructor|].
  destruct (cut 61 r) as [[nm r1]|] eqn:E1; [|discriminate]. destruct r1 as [|y r']; [discriminate|].
  destruct (cut 34 r') as [[v rest]|] eqn:E2; [|discriminate].
  destruct (_ && _)%bool eqn:E; [|discriminate]. destruct (attr_b f rest) as [m|] eqn:E3; [|discriminate]. cbn [option_map] in H. injection H as <-.
  repeat (apply andb_true_iff in E as [E ?E]).
  apply N.eqb_eq in E, E6. subst x y. apply cut_eq in E1. apply cut_eq in E2. subst r r'.
  change (nm ++ 61 :: 34 :: v ++ 34 :: rest) with (nm ++ [61; 34] ++ v ++ [34] ++ rest). constructor.
  - split; [|exact E4]. intros ->. discriminate.
  - now apply (plain_not_in v).
  - now apply (plain_not_in v).
  - apply decode_plain. now apply (plain_not_in v).
  - now apply IH.
Qed.
Ltac at_lit := apply (attr_b_ok 9); vm_compute; reflexivity.
Ltac nm_ok := split; [discriminate|vm_compute; reflexivity].

(** Characters of a tag. *)
Lemma name_chars nm : name_ok nm -> forallb tag_char nm = true.
Proof.
  intros [_ H]. apply forallb_forall. intros c Hc. rewrite forallb_forall in H. apply H in Hc.
  apply andb_prop in Hc as [H1 H2]. apply N.leb_le in H1, H2. unfold tag_char.
  destruct (N.eqb_spec c 60), (N.eqb_spec c 34), (N.eqb_spec c 62); try lia; reflexivity.
Qed.
Lemma quote_run o d raw qd : read_from (InTag o d raw qd) [34] = InTag o d (raw ++ [34]) (negb qd).
Proof. reflexivity. Qed.
Lemma attrs_run a l : attr_text a l -> forall o d raw, read_from (InTag o d raw false) a = InTag o d (raw ++ a) false.
Proof.
  induction 1 as [|nm v w r l Hn Hv Hw Hd Hr IH]; intros o d raw; [cbn; now rewrite app_nil_r|].
  assert (E : 32 :: nm ++ [61; 34] ++ v ++ [34] ++ r = (32 :: nm ++ [61]) ++ [34] ++ v ++ [34] ++ r) by (cbn [app]; now rewrite <- app_assoc).
  rewrite E, read_app, tag_run.
  2:{ cbn [forallb]. apply andb_true_iff. split; [reflexivity|]. rewrite forallb_app. rewrite (name_chars nm Hn). reflexivity. }
  rewrite read_app, quote_run, read_app, value_run by assumption. rewrite read_app, quote_run. cbn [negb]. rewrite IH. f_equal.
  rewrite <- !app_assoc. cbn [app]. rewrite <- !app_assoc. cbn [app]. now rewrite <- ?app_assoc.
Qed.

Lemma up_to_app p a x r : forallb (fun c => negb (p c)) a = true -> p x = true -> up_to p (a ++ x :: r) = (a, x :: r).
Proof.
  induction a as [|c a IH]; intros H Hx; cbn [app up_to]; [now rewrite Hx|].
  cbn [forallb] in H. apply andb_prop in H as [H1 H2]. apply negb_true_iff in H1. rewrite H1, IH by assumption. reflexivity.
Qed.
Lemma up_to_all p a : forallb (fun c => negb (p c)) a = true -> up_to p a = (a, []).
Proof.
  induction a as [|c a IH]; intros H; cbn [up_to]; [reflexivity|].
  cbn [forallb] in H. apply andb_prop in H as [H1 H2]. apply negb_true_iff in H1. now rewrite H1, IH.
Qed.
Lemma not_in_up p v x : ~ In x v -> (forall c, p c = (x =? c)) -> forallb (fun c => negb (p c)) v = true.
Proof.
  intros H K. apply forallb_forall. intros c Hc. rewrite K. apply negb_true_iff. apply N.eqb_neq. intros ->. contradiction.
Qed.
Lemma name_no nm p : name_ok nm -> (forall c, 97 <= c <= 122 -> p c = false) -> forallb (fun c => negb (p c)) nm = true.
Proof.
  intros [_ H] K. apply forallb_forall. intros c Hc. rewrite forallb_forall in H. apply H in Hc. apply andb_prop in Hc as [H1 H2].
  apply N.leb_le in H1, H2. now rewrite K.
Qed.
Definition ending (b : bool) : str := if b then [47] else [].
Lemma attrs_read b a l : attr_text a l -> forall fuel, (length a < fuel)%nat -> read_attributes fuel (a ++ ending b) = Some (l, b).
Proof.
  induction 1 as [|nm v w r l Hn Hv Hw Hd Hr IH]; intros fuel Hf.
  - destruct fuel; [inversion Hf|]. now destruct b.
  - destruct fuel as [|fuel]; [inversion Hf|]. 
    assert (E : (32 :: nm ++ [61; 34] ++ v ++ [34] ++ r) ++ ending b = 32 :: nm ++ 61 :: 34 :: v ++ 34 :: r ++ ending b).
    { cbn [app]. rewrite <- !app_assoc. cbn [app]. rewrite <- !app_assoc. reflexivity. }
    rewrite E. assert (L : (length r < fuel)%nat).
    { cbn [length] in Hf. rewrite !app_length in Hf. cbn [length] in Hf. lia. }
    specialize (IH fuel L). clear E Hf L Hr.
    assert (X : exists c s, nm ++ 61 :: 34 :: v ++ 34 :: r ++ ending b = c :: s) by (destruct nm; cbn; eauto).
    destruct X as (c & s & X). cbn [read_attributes]. rewrite X. cbn [N.eqb Pos.eqb negb]. rewrite <- X. clear X.
    rewrite up_to_app; [| |reflexivity].
    2:{ apply name_no; [exact Hn|]. intros k Hk. apply N.eqb_neq. lia. }
    change (34 =? 34) with true. cbn [negb].
    rewrite up_to_app; [| |reflexivity].
    2:{ apply (not_in_up _ v 34); [exact Hv|reflexivity]. }
    rewrite IH. cbn [option_map fst snd]. now rewrite Hd.
Qed.

(** ** Elements *)

(** [s] is markup for the sequence [f], line breaks aside. *)
Definition blocks (s : str) (f : list xml) : Prop :=
  forall o d raw, blank raw = true -> exists raw', blank raw' = true /\ read_from (InText o d raw) s = InText o (d ++ f) raw'.
(** [s] as the content of an element is the sequence [f]. *)
Definition holds (s : str) (f : list xml) : Prop :=
  forall o d, exists d1 raw, read_from (InText o d []) s = InText o d1 raw /\ d1 ++ data (html_decode raw) = d ++ f.

Lemma blocks_holds s f : blocks s f -> holds s f.
Proof.
  intros H o d. destruct (H o d [] eq_refl) as (raw & B & E). exists (d ++ f), raw. split; [exact E|]. rewrite blank_data by exact B. apply app_nil_r.
Qed.
Lemma text_holds s w : ~ In 60 s -> html_decode s = w -> holds s (data w).
Proof. intros H <- o d. exists d, s. split; [now rewrite text_run by exact H|reflexivity]. Qed.

Lemma bl_nil : blocks [] [].
Proof. intros o d raw B. exists raw. split; [exact B|]. cbn. now rewrite app_nil_r. Qed.
Lemma bl_nl e n : blocks (nl e n) [].
Proof.
  intros o d raw B. exists (raw ++ nl e n). split; [apply blank_app; [exact B|apply nl_blank]|].
  rewrite text_run by (apply blank_lt, nl_blank). now rewrite app_nil_r.
Qed.
Lemma bl_app a b f g : blocks a f -> blocks b g -> blocks (a ++ b) (f ++ g).
Proof.
  intros A B o d raw R. destruct (A o d raw R) as (r1 & R1 & E1). destruct (B o (d ++ f) r1 R1) as (r2 & R2 & E2).
  exists r2. split; [exact R2|]. now rewrite read_app, E1, E2, app_assoc.
Qed.
Lemma bl_app_nl e n a f : blocks a f -> blocks (a ++ nl e n) f.
Proof. intros H. rewrite <- (app_nil_r f). apply bl_app; [exact H|apply bl_nl]. Qed.
Lemma bl_nl_app e n a f : blocks a f -> blocks (nl e n ++ a) f.
Proof. intros H. apply (bl_app (nl e n) a [] f); [apply bl_nl|exact H]. Qed.
Lemma bl_concat l m : Forall2 blocks l m -> blocks (concat l) (concat m).
Proof. induction 1; [apply bl_nil|]. cbn [concat]. now apply bl_app. Qed.
Lemma bl_if (b : bool) s f : blocks s f -> blocks (if b then s else []) (if b then f else []).
Proof. intros H. destruct b; [exact H|apply bl_nil]. Qed.

Lemma lt_run o d raw : read_from (InText o d raw) [60] = InTag o (d ++ data (html_decode raw)) [] false.
Proof. reflexivity. Qed.
Lemma start_tag nm a l o d raw : name_ok nm -> attr_text a l -> blank raw = true ->
  read_from (InText o d raw) ([60] ++ nm ++ a) = InTag o d (nm ++ a) false.
Proof.
  intros Hn Ha B. rewrite read_app, lt_run, blank_data, app_nil_r by exact B.
  rewrite read_app, tag_run by (now apply name_chars). now rewrite (attrs_run a l Ha).
Qed.
Lemma read_start nm a l b o d : name_ok nm -> attr_text a l ->
  read_tag o d (nm ++ a ++ ending b) = if b then InText o (d ++ [XElem nm l []]) [] else InText ((nm, l, d) :: o) [] [].
Proof.
  intros Hn Ha. unfold read_tag.
  assert (U : up_to (fun c => (c =? 32) || (c =? 47)) (nm ++ a ++ ending b) = (nm, a ++ ending b)).
  { assert (K : forallb (fun c => negb ((c =? 32) || (c =? 47))) nm = true).
    { apply name_no; [exact Hn|]. intros c Hc. apply orb_false_iff. split; apply N.eqb_neq; lia. }
    assert (C : a ++ ending b = [] \/ exists x r, a ++ ending b = x :: r /\ (x =? 32) || (x =? 47) = true).
    { destruct Ha; [destruct b; [right|left]; [exists 47, []; split; reflexivity|reflexivity]|]. right. eexists 32, _. split; reflexivity. }
    destruct C as [->|(x & r & -> & Hx)]; [rewrite app_nil_r; now apply up_to_all|now apply up_to_app]. }
  rewrite U, (attrs_read b a l Ha) by (rewrite app_length; lia).
  destruct nm as [|c nm]; [destruct Hn as [X _]; now destruct X|]. cbn [app].
  assert (C : c =? 47 = false).
  { destruct Hn as [_ Hn]. cbn [forallb] in Hn. apply andb_prop in Hn as [Hn _]. apply andb_prop in Hn as [Hn _]. apply N.leb_le in Hn. apply N.eqb_neq. lia. }
  rewrite C. now destruct b.
Qed.
Lemma bl_elem nm a l body f : name_ok nm -> attr_text a l -> holds body f -> blocks (elem nm a body) [XElem nm l f].
Proof.
  intros Hn Ha Hb o d raw B. exists []. split; [reflexivity|]. unfold elem.
  assert (E : [60] ++ nm ++ a ++ [62] ++ body ++ [60; 47] ++ nm ++ [62] = ([60] ++ nm ++ a) ++ [62] ++ body ++ ([60; 47] ++ nm ++ [62]))
    by (cbn [app]; now rewrite <- !app_assoc).
  rewrite E, read_app, (start_tag nm a l) by assumption. rewrite read_app.
  change (read_from (InTag o d (nm ++ a) false) [62]) with (read_tag o d (nm ++ a)).
  pose proof (read_start nm a l false o d Hn Ha) as R. cbn [ending] in R. rewrite app_nil_r in R. rewrite R.
  rewrite read_app. destruct (Hb ((nm, l, d) :: o) []) as (d1 & r1 & E1 & E2). rewrite E1.
  change ([60; 47] ++ nm ++ [62]) with ([60] ++ (47 :: nm) ++ [62]). rewrite read_app, lt_run, E2, read_app, tag_run.
  2:{ cbn [forallb]. rewrite (name_chars nm Hn). reflexivity. }
  cbn [app]. change (read_from (InTag ((nm, l, d) :: o) f (47 :: nm) false) [62]) with (read_tag ((nm, l, d) :: o) f (47 :: nm)).
  unfold read_tag. change (47 =? 47) with true. cbv iota. now rewrite str_eqb_refl.
Qed.
Lemma bl_elem0 nm a l : name_ok nm -> attr_text a l -> blocks (elem0 nm a) [XElem nm l []].
Proof.
  intros Hn Ha o d raw B. exists []. split; [reflexivity|]. unfold elem0.
  assert (E : [60] ++ nm ++ a ++ [47; 62] = ([60] ++ nm ++ a) ++ [47] ++ [62]) by (cbn [app]; now rewrite <- !app_assoc).
  rewrite E, read_app, (start_tag nm a l) by assumption. rewrite read_app, tag_run by reflexivity. rewrite <- app_assoc.
  change (read_from (InTag o d (nm ++ a ++ [47]) false) [62]) with (read_tag o d (nm ++ a ++ [47])).
  exact (read_start nm a l true o d Hn Ha).
Qed.
Lemma bl_elem_eq nm a l body f s g : s = elem nm a body -> g = [XElem nm l f] -> name_ok nm -> attr_text a l -> holds body f -> blocks s g.
Proof. intros -> ->. apply bl_elem. Qed.

Lemma read_blocks s f : blocks s f -> read_xml s = Some f.
Proof.
  intros H. destruct (H [] [] [] eq_refl) as (raw & B & E). unfold read_xml. rewrite E. rewrite blank_data by exact B. now rewrite app_nil_r.
Qed.
