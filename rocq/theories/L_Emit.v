(** Proofs about the emitter. *)
From Verif Require Import Str M_SuperChar M_Length M_Spec M_Escape M_Ast M_Emit M_Output.
From Verif Require Import S_Html S_Xml S_Node S_Emit L_Escape L_Node.

Ltac lits := repeat match goal with |- context [lit ?s] =>
  let v := eval vm_compute in (lit s) in change (lit s) with v end.
Ltac norm := unfold elem, elem0, q; lits; cbn [app]; repeat rewrite <- ?app_assoc, <- ?app_comm_cons; cbn [app];
  repeat rewrite <- app_assoc; cbn [app]; try reflexivity.

(** ** Safe strings *)

Lemma plain_app a b : plain (a ++ b) <-> plain a /\ plain b.
Proof. unfold plain. rewrite forallb_app, andb_true_iff. tauto. Qed.

Lemma plain_not_in s c : plain s -> plain_char c = false -> ~ In c s.
Proof.
  intros H Hc Hin. unfold plain in H. rewrite forallb_forall in H. apply H in Hin. congruence.
Qed.

Lemma no_amp s : ~ In 38 s -> every_amp_is_entity s.
Proof. intros H a b ->. exfalso. apply H. apply in_or_app. right. left. reflexivity. Qed.

Lemma plain_value s : plain s -> value_safe s.
Proof.
  intros H. repeat split; try (now apply (plain_not_in s)).
  apply no_amp. now apply (plain_not_in s).
Qed.
Lemma plain_content s : plain s -> content_safe s.
Proof.
  intros H. repeat split; try (now apply (plain_not_in s)).
  apply no_amp. now apply (plain_not_in s).
Qed.

Lemma amp_app a b : every_amp_is_entity a -> every_amp_is_entity b -> every_amp_is_entity (a ++ b).
Proof.
  intros Ha Hb x y E. apply app_eq_app in E. destruct E as [l [[E1 E2]|[E1 E2]]].
  - destruct l as [|z l].
    + cbn in E2. apply Hb with (a := []). now rewrite E2.
    + cbn in E2. injection E2 as <- ->. destruct (Ha _ _ E1) as (e & c & He & Hs).
      exists e, c. split; [exact He|]. apply starts_with_spec in Hs as [r Hr].
      apply starts_with_spec. exists (r ++ b). rewrite app_assoc, <- Hr. reflexivity.
  - apply (Hb l). exact E2.
Qed.

Lemma value_app a b : value_safe a -> value_safe b -> value_safe (a ++ b).
Proof.
  intros (A1 & A2 & A3 & A4) (B1 & B2 & B3 & B4).
  repeat split; try (intros H; apply in_app_or in H; tauto). now apply amp_app.
Qed.
Lemma content_app a b : content_safe a -> content_safe b -> content_safe (a ++ b).
Proof.
  intros (A1 & A2 & A3) (B1 & B2 & B3).
  repeat split; try (intros H; apply in_app_or in H; tauto). now apply amp_app.
Qed.
Lemma value_content a : value_safe a -> content_safe a.
Proof. intros (A1 & A2 & A3 & A4). repeat split; assumption. Qed.

Lemma escape_html_value s : value_safe (escape_html s).
Proof.
  rewrite escape_html_eq. repeat split.
  - apply not_in_flat_map. intros c. apply esc_html_clean. cbn. tauto.
  - apply not_in_flat_map. intros c. apply esc_html_clean. cbn. tauto.
  - apply not_in_flat_map. intros c. apply esc_html_clean. cbn. tauto.
  - apply amp_flat_map. apply esc_html_escaper.
Qed.

Lemma escape_html_content_safe s : content_safe (escape_html s).
Proof. apply value_content, escape_html_value. Qed.

Definition esc_op (c : N) : str :=
  if c =? 60 then lit "&lt;" else if c =? 62 then lit "&gt;" else if c =? 38 then lit "&amp;" else [c].
Lemma escape_op_eq s : escape_op s = flat_map esc_op s.
Proof. induction s as [|c s IH]; [reflexivity|]. cbn [escape_op flat_map]. now rewrite IH. Qed.
Lemma esc_op_escaper : escaper esc_op.
Proof.
  intros c. unfold esc_op.
  destruct (N.eqb_spec c 60) as [->|]; [right; cbn; tauto|].
  destruct (N.eqb_spec c 62) as [->|]; [right; cbn; tauto|].
  destruct (N.eqb_spec c 38) as [->|]; [right; cbn; tauto|].
  left. split; [reflexivity|assumption].
Qed.
Lemma esc_op_clean x c : x = 60 \/ x = 62 -> ~ In x (esc_op c).
Proof.
  intros Hx. unfold esc_op.
  destruct (N.eqb_spec c 60) as [->|]; [lits; cbn [In]; lia|].
  destruct (N.eqb_spec c 62) as [->|]; [lits; cbn [In]; lia|].
  destruct (N.eqb_spec c 38) as [->|]; [lits; cbn [In]; lia|].
  cbn [In]. lia.
Qed.
Lemma op_text_safe c : content_safe (op_text c).
Proof.
  unfold op_text. rewrite escape_op_eq. repeat split.
  - apply not_in_flat_map. intros x. apply esc_op_clean. tauto.
  - apply not_in_flat_map. intros x. apply esc_op_clean. tauto.
  - apply amp_flat_map, esc_op_escaper.
Qed.

Lemma percent_bytes_amp bs : Forall (fun b => b < 256) bs -> ~ In 38 bs -> ~ In 38 (percent_encode_bytes bs).
Proof.
  induction bs as [|b bs IH]; intros H Hn; cbn [percent_encode_bytes]; [intros []|].
  pose proof (Forall_inv H) as Hb. cbn beta in Hb. intros Hin. apply in_app_or in Hin as [Hin|Hin].
  - assert (K : (b =? 38) || negb (existsb (N.eqb 38) (if fragment_encode_byte b then [37; hex_digit (b / 16); hex_digit (b mod 16)] else [b])) = true).
    { revert b Hb H Hn Hin. intros b Hb _ _ _. revert b Hb.
      apply (byte_forall (fun b => (b =? 38) || negb (existsb (N.eqb 38) (if fragment_encode_byte b then [37; hex_digit (b / 16); hex_digit (b mod 16)] else [b])))).
      vm_compute. reflexivity. }
    apply orb_true_iff in K as [K|K].
    + apply N.eqb_eq in K. apply Hn. left. exact K.
    + apply negb_true_iff in K. assert (HE : existsb (N.eqb 38) (if fragment_encode_byte b then [37; hex_digit (b / 16); hex_digit (b mod 16)] else [b]) = true).
      { apply existsb_exists. exists 38. split; [exact Hin|reflexivity]. }
      congruence.
  - apply IH in Hin; [exact Hin|now inversion H|]. intros X. apply Hn. now right.
Qed.

Lemma utf8_amp s : ~ In 38 s -> ~ In 38 (utf8 s).
Proof.
  intros H Hin. unfold utf8 in Hin. apply in_flat_map in Hin as (c & Hc & Hin).
  unfold utf8_char in Hin.
  destruct (N.ltb_spec c 0x80).
  - destruct Hin as [Hin|[]]. subst c. contradiction.
  - destruct (c <? 0x800); [cbn [In] in Hin; lia|]. destruct (c <? 0x10000); cbn [In] in Hin; lia.
Qed.

Lemma label_plain l : label_ok l -> plain (percent_encode l).
Proof.
  intros [Hs Ha]. pose proof (proj1 (percent_encode_spec l Hs)) as HF.
  assert (HA : ~ In 38 (percent_encode l)).
  { unfold percent_encode. apply percent_bytes_amp; [now apply utf8_bytes|now apply utf8_amp]. }
  unfold plain. apply forallb_forall. intros x Hx. rewrite Forall_forall in HF. pose proof (HF x Hx) as Hk.
  unfold fragment_byte_ok in Hk. unfold plain_char.
  destruct (N.eqb_spec x 38) as [->|]; [contradiction|].
  cbn [existsb] in Hk. apply andb_true_iff in Hk as [_ Hk]. apply negb_true_iff in Hk.
  repeat (apply orb_false_iff in Hk as [?Hk Hk]). 
  repeat match goal with H : (_ =? _) = false |- _ => rewrite H end. reflexivity.
Qed.

(** ** Attributes *)

Lemma attrs_app a b : attrs a -> attrs b -> attrs (a ++ b).
Proof.
  intros Ha Hb. induction Ha as [|nm v r Hn Hv Hr IH]; [exact Hb|].
  assert (E : (32 :: nm ++ [61; 34] ++ v ++ [34] ++ r) ++ b = 32 :: nm ++ [61; 34] ++ v ++ [34] ++ (r ++ b)).
  { cbn [app]. now rewrite <- !app_assoc, <- !app_comm_cons, <- !app_assoc. }
  rewrite E. now constructor.
Qed.

Lemma attrs_one nm v s : In nm attribute_names -> value_safe v ->
  s = 32 :: nm ++ [61; 34] ++ v ++ [34] -> attrs s.
Proof. intros Hn Hv ->. apply (attrs_cons nm v []); [exact Hn|exact Hv|constructor]. Qed.

Fixpoint cut (c : N) (s : str) : option (str * str) :=
  match s with
  | [] => None
  | x :: r => if x =? c then Some ([], r) else match cut c r with Some (a, b) => Some (x :: a, b) | None => None end
  end.
Lemma cut_eq c s a b : cut c s = Some (a, b) -> s = a ++ c :: b.
Proof.
  revert a b; induction s as [|x r IH]; intros a b H; cbn [cut] in H; [discriminate|].
  destruct (N.eqb_spec x c) as [->|].
  - injection H as <- <-. reflexivity.
  - destruct (cut c r) as [[a' b']|]; [|discriminate]. injection H as <- <-. cbn [app]. now rewrite (IH a' b').
Qed.
Fixpoint attrs_b (fuel : nat) (s : str) : bool :=
  match fuel with
  | O => false
  | S f =>
      match s with
      | [] => true
      | x :: r =>
          match cut 61 r with
          | Some (nm, y :: r') =>
              match cut 34 r' with
              | Some (v, rest) =>
                  (x =? 32) && (y =? 34) && existsb (str_eqb nm) attribute_names && forallb plain_char v && attrs_b f rest
              | None => false
              end
          | _ => false
          end
      end
  end.
Lemma attrs_b_ok fuel : forall s, attrs_b fuel s = true -> attrs s.
Proof.
  induction fuel as [|f IH]; intros s H; [discriminate|]. cbn [attrs_b] in H.
  destruct s as [|x r]; [constructor|].
  destruct (cut 61 r) as [[nm r1]|] eqn:E1; [|discriminate]. destruct r1 as [|y r']; [discriminate|].
  destruct (cut 34 r') as [[v rest]|] eqn:E2; [|discriminate].
  repeat (apply andb_true_iff in H as [H ?H]).
  apply N.eqb_eq in H, H3. subst x y. apply cut_eq in E1. apply cut_eq in E2. subst r r'.
  change (nm ++ 61 :: 34 :: v ++ 34 :: rest) with (nm ++ [61; 34] ++ v ++ [34] ++ rest). constructor.
  - apply existsb_exists in H2 as (n & Hn & He). apply str_eqb_eq in He. now subst n.
  - now apply plain_value.
  - now apply IH.
Qed.

Ltac attr_lit := apply (attrs_b_ok 9); vm_compute; reflexivity.

Lemma attrs_opt {A} (f : A -> str) o : (forall a, attrs (f a)) -> attrs (opt_str f o).
Proof. intros H. destruct o; [apply H|constructor]. Qed.
Lemma attrs_if (b : bool) s : attrs s -> attrs (if b then s else []).
Proof. intros H. destruct b; [exact H|constructor]. Qed.

Lemma str_in_b nm l : existsb (str_eqb nm) l = true -> In nm l.
Proof. intros H. apply existsb_exists in H as (x & H1 & H2). apply str_eqb_eq in H2. now subst. Qed.
Ltac in_names := apply str_in_b; vm_compute; reflexivity.

Lemma op_attrs_attrs a : attrs (op_attrs_str a).
Proof.
  unfold op_attrs_str. repeat (apply attrs_app; [apply attrs_if; attr_lit|]). apply attrs_if. attr_lit.
Qed.
Lemma style_attrs s : attrs (style_str s).
Proof. destruct s; attr_lit. Qed.
Lemma frac_attrs s : attrs (frac_attr_str s).
Proof. destruct s; attr_lit. Qed.
Lemma spacing_plain s : plain (spacing_str s).
Proof. destruct s; vm_compute; reflexivity. Qed.
Lemma size_plain s : plain (size_str s).
Proof. destruct s; vm_compute; reflexivity. Qed.
Lemma text_size_plain s : plain (text_size_str s).
Proof. destruct s; vm_compute; reflexivity. Qed.

Definition mo_attrs (a : op_attrs) (l r : option math_spacing) : str :=
  op_attrs_str a ++
  opt_str (fun l => lit " lspace=""" ++ spacing_str l ++ q) l ++
  opt_str (fun r => lit " rspace=""" ++ spacing_str r ++ q) r.
Lemma mo_attrs_attrs a l r : attrs (mo_attrs a l r).
Proof.
  unfold mo_attrs. apply attrs_app; [apply op_attrs_attrs|]. apply attrs_app; apply attrs_opt; intros s; destruct s; attr_lit.
Qed.
Lemma sizes_attrs o : attrs (opt_str (fun s => lit " minsize=""" ++ size_str s ++ lit """ maxsize=""" ++ size_str s ++ q) o).
Proof. apply attrs_opt. intros s. destruct s; attr_lit. Qed.

Lemma hex_u8_plain b : b < 256 -> plain (hex_u8 b).
Proof.
  intros H. unfold plain. revert b H. apply (byte_forall (fun b => forallb plain_char (hex_u8 b))). vm_compute. reflexivity.
Qed.

Lemma row_attrs_attrs a : color_ok a -> attrs (row_attrs_str a).
Proof.
  intros Hc. unfold row_attrs_str. apply attrs_app; [|apply attrs_opt, style_attrs].
  unfold color_ok in Hc. destruct (ra_color a) as [[[r g] b]|]; [|destruct (ra_math_shift_compact a); [attr_lit|constructor]].
  destruct Hc as (Hr & Hg & Hb).
  set (m := ra_math_shift_compact a).
  apply (attrs_one (lit "style")
           ((lit "color:#" ++ hex_u8 r ++ hex_u8 g ++ hex_u8 b ++ lit ";") ++ (if m then lit "math-shift:compact;" else []))).
  - in_names.
  - apply plain_value. rewrite !plain_app. repeat split; try (now apply hex_u8_plain); destruct m; vm_compute; reflexivity.
  - cbn [opt_str]. destruct m; norm.
Qed.

Lemma firstn_plain n s : plain s -> plain (firstn n s).
Proof. intros H. rewrite <- (firstn_skipn n s) in H. apply plain_app in H. tauto. Qed.

Lemma length_text_plain dtoa l : (forall x, plain (dtoa x)) -> plain (length_text dtoa l).
Proof.
  intros H. unfold length_text. apply plain_app. split.
  - unfold strip_suffix. destruct (str_eqb _ _); [apply firstn_plain, H|apply H].
  - destruct (f32_is_zero _); [reflexivity|]. destruct (len_unit l); vm_compute; reflexivity.
Qed.

Lemma padded_attrs_attrs w h l r : attrs (padded_attrs_str w h l r).
Proof.
  unfold padded_attrs_str. apply attrs_app; [apply attrs_if; attr_lit|]. apply attrs_app; [apply attrs_if; attr_lit|].
  destruct l as [[]|], r as [[]|]; attr_lit || constructor.
Qed.

Lemma array_attrs_attrs sp : attrs (array_attrs_str sp).
Proof. unfold array_attrs_str. destruct (as_border_left sp) as [[]|], (as_border_top sp) as [[]|]; attr_lit || constructor. Qed.

(** ** Markup *)

Lemma nl_plain e n : plain (nl e n).
Proof.
  destruct n as [|n]; [reflexivity|]. unfold nl, plain. cbn [forallb]. apply andb_true_iff. split; [reflexivity|].
  assert (H : forallb plain_char (indent_unit (ee_indentation e)) = true).
  { destruct (ee_indentation e) as [k|]; cbn [indent_unit]; [|reflexivity]. induction k as [|k IH]; [reflexivity|exact IH]. }
  generalize (S n) as m. induction m as [|m IH]; [reflexivity|]. cbn [repeat concat]. rewrite forallb_app. now rewrite H, IH.
Qed.
Lemma markup_nl e n : markup (nl e n).
Proof. apply mk_text, plain_content, nl_plain. Qed.

Lemma markup_concat l : Forall markup l -> markup (concat l).
Proof. induction 1 as [|x l Hx Hl IH]; [constructor|]. cbn [concat]. now apply mk_app. Qed.
Lemma markup_opt {A} (f : A -> str) o : (forall a, markup (f a)) -> markup (opt_str f o).
Proof. intros H. destruct o; [apply H|constructor]. Qed.
Lemma markup_if (b : bool) s : markup s -> markup (if b then s else []).
Proof. intros H. destruct b; [exact H|constructor]. Qed.

(** [c = true]: the text is one element of our vocabulary (used on literals). *)
Lemma mk_elem_eq nm a body s : In nm element_names -> attrs a -> markup body -> s = elem nm a body -> markup s.
Proof. intros H1 H2 H3 ->. now constructor. Qed.

(** The shape of each node's output. *)
Section Shape.
  Variable e : emit_env.
  Let ch (b : nat) : nat := match b with O => O | S _ => S b end.

  Lemma sh_number s b : emit e (Number s) b = nl e b ++ elem (lit "mn") [] s.
  Proof. reflexivity. Qed.
  Lemma sh_identstr s b : emit e (IdentifierStr s) b
    = nl e b ++ elem (lit "mrow") [] (elem0 (lit "mspace") [] ++ elem (lit "mi") [] (escape_html s)).
  Proof. cbn [emit]. apply f_equal2; [reflexivity|]. norm. Qed.
  Definition identchar_text (c : superchar) (a : letter_attr) : str :=
    match a, sc_try_as_char c with
    | ForcedUpright, _ => elem (lit "mrow") [] (elem0 (lit "mspace") [] ++ elem (lit "mi") (lit " mathvariant=""normal""") (sc_text c))
    | LDefault, None => elem (lit "mrow") [] (elem0 (lit "mspace") [] ++ elem (lit "mi") [] (sc_text c))
    | LDefault, Some _ => elem (lit "mi") [] (sc_text c)
    end.
  Lemma sh_identchar c a b : emit e (IdentifierChar c a) b = nl e b ++ identchar_text c a.
  Proof.
    cbn [emit]. apply f_equal2; [reflexivity|]. unfold identifier_char_str, identchar_text.
    destruct a; [destruct (sc_try_as_char c)|]; norm.
  Qed.
  Lemma sh_operator op a sz l r b : emit e (Operator op a sz l r) b
    = nl e b ++ elem (lit "mo") (mo_attrs a l r ++ opt_str (fun s => lit " minsize=""" ++ size_str s ++ lit """ maxsize=""" ++ size_str s ++ q) sz) (op_text op).
  Proof. cbn [emit]. apply f_equal2; [reflexivity|]. unfold emit_operator_attributes, mo_attrs. norm. Qed.
  Lemma sh_pseudo a l r s b : emit e (PseudoOp a l r s) b = nl e b ++ elem (lit "mo") (mo_attrs a l r) s.
  Proof. cbn [emit]. apply f_equal2; [reflexivity|]. unfold emit_operator_attributes, mo_attrs. norm. Qed.
  Definition space_attrs (l : length_t) : str :=
    let t := length_text (ee_dtoa e) l in
    if length_is_negative l then lit " style=""margin-left:" ++ t ++ lit ";" ++ q
    else lit " width=""" ++ t ++ q ++ match len_unit l with Rem => lit " style=""width:" ++ t ++ q | _ => [] end.
  Lemma sh_space l b : emit e (Space l) b = nl e b ++ elem0 (lit "mspace") (space_attrs l).
  Proof.
    cbn [emit]. apply f_equal2; [reflexivity|]. unfold space_str, space_attrs.
    destruct (length_is_negative l); [norm|]. destruct (len_unit l); norm.
  Qed.
  Lemma sh_sub x y b : emit e (Sub x y) b = nl e b ++ elem (lit "msub") [] (emit e x (ch b) ++ emit e y (ch b) ++ nl e b).
  Proof. cbn [emit]. apply f_equal2; [reflexivity|]. norm. Qed.
  Lemma sh_sup x y b : emit e (Sup x y) b = nl e b ++ elem (lit "msup") [] (emit e x (ch b) ++ emit e y (ch b) ++ nl e b).
  Proof. cbn [emit]. apply f_equal2; [reflexivity|]. norm. Qed.
  Lemma sh_over x y b : emit e (Over x y) b = nl e b ++ elem (lit "mover") [] (emit e y (ch b) ++ emit e x (ch b) ++ nl e b).
  Proof. cbn [emit]. apply f_equal2; [reflexivity|]. norm. Qed.
  Lemma sh_under x y b : emit e (Under x y) b = nl e b ++ elem (lit "munder") [] (emit e y (ch b) ++ emit e x (ch b) ++ nl e b).
  Proof. cbn [emit]. apply f_equal2; [reflexivity|]. norm. Qed.
  Lemma sh_root x y b : emit e (Root x y) b = nl e b ++ elem (lit "mroot") [] (emit e y (ch b) ++ emit e x (ch b) ++ nl e b).
  Proof. cbn [emit]. apply f_equal2; [reflexivity|]. norm. Qed.
  Lemma sh_subsup x y z b : emit e (SubSup x y z) b
    = nl e b ++ elem (lit "msubsup") [] (emit e x (ch b) ++ emit e y (ch b) ++ emit e z (ch b) ++ nl e b).
  Proof. cbn [emit]. apply f_equal2; [reflexivity|]. norm. Qed.
  Lemma sh_underover x y z b : emit e (UnderOver x y z) b
    = nl e b ++ elem (lit "munderover") [] (emit e x (ch b) ++ emit e y (ch b) ++ emit e z (ch b) ++ nl e b).
  Proof. cbn [emit]. apply f_equal2; [reflexivity|]. norm. Qed.
  Lemma sh_overaccent op a x b : emit e (OverAccent op a x) b
    = nl e b ++ elem (lit "mover") (lit " accent=""true""")
        (emit e x (ch b) ++ nl e (ch b) ++ elem (lit "mo") (op_attrs_str a) (op_text op) ++ nl e b).
  Proof. cbn [emit]. apply f_equal2; [reflexivity|]. norm. Qed.
  Lemma sh_underaccent op a x b : emit e (UnderAccent op a x) b
    = nl e b ++ elem (lit "munder") (lit " accentunder=""true""")
        (emit e x (ch b) ++ nl e (ch b) ++ elem (lit "mo") (op_attrs_str a) (op_text op) ++ nl e b).
  Proof. cbn [emit]. apply f_equal2; [reflexivity|]. norm. Qed.
  Lemma sh_sqrt x b : emit e (Sqrt x) b = nl e b ++ elem (lit "msqrt") [] (emit e x (ch b) ++ nl e b).
  Proof. cbn [emit]. apply f_equal2; [reflexivity|]. norm. Qed.
  Lemma sh_phantom x b : emit e (Phantom x) b = nl e b ++ elem (lit "mphantom") [] (emit e x (ch b) ++ nl e b).
  Proof. cbn [emit]. apply f_equal2; [reflexivity|]. norm. Qed.
  Definition frac_attrs_text (v : f32) (u : length_unit) (a : option frac_attr) : str :=
    opt_str (fun l => lit " linethickness=""" ++ length_text (ee_dtoa e) l ++ q) (length_from_parts v u) ++ opt_str frac_attr_str a.
  Lemma sh_frac x y v u a b : emit e (Frac x y v u a) b
    = nl e b ++ elem (lit "mfrac") (frac_attrs_text v u a) (emit e x (ch b) ++ emit e y (ch b) ++ nl e b).
  Proof. cbn [emit]. apply f_equal2; [reflexivity|]. unfold frac_attrs_text. norm. Qed.
  Lemma sh_row l a b : emit e (Row l a) b
    = nl e b ++ elem (lit "mrow") (row_attrs_str a)
        (concat (map (fun x => emit e x (ch b)) l) ++ match l with [] => [] | _ => nl e b end).
  Proof. cbn [emit]. apply f_equal2; [reflexivity|]. destruct l; norm. Qed.
  Lemma sh_text s z t b : emit e (Text s z t) b
    = nl e b ++ elem (lit "mtext") (opt_str (fun s => lit " style=""font-size:" ++ text_size_str s ++ q) z)
        (text_style_open s ++ escape_html t ++ text_style_close s).
  Proof. cbn [emit]. apply f_equal2; [reflexivity|]. norm. Qed.
  Lemma sh_ahref h t b : emit e (AHref h t) b
    = nl e b ++ elem (lit "mtext") [] (elem (lit "a") (lit " href=""" ++ escape_html h ++ q) (escape_html t)).
  Proof. cbn [emit]. apply f_equal2; [reflexivity|]. norm. Qed.
  Lemma sh_eqref l b : emit e (EqRef l) b
    = nl e b ++ elem (lit "mtext") []
        (elem (lit "a") (lit " href=""#" ++ ee_id_prefix e ++ percent_encode l ++ q)
          (lit "(" ++ escape_html (match ee_labels e l with Some t => t | None => lit "??" end) ++ lit ")")).
  Proof. cbn [emit]. apply f_equal2; [reflexivity|]. norm. Qed.
  Lemma sh_enclose x no b : emit e (Enclose x no) b
    = nl e b ++ elem (lit "menclose") (lit " notation=""" ++ sep_concat (lit " ") (notation_names no) ++ q)
        (emit e x (ch b) ++ enclose_extras e (ch b) no ++ nl e b).
  Proof. cbn [emit]. apply f_equal2; [reflexivity|]. norm. Qed.
  Lemma sh_multi x pre post b : emit e (Multiscripts x pre post) b
    = nl e b ++ elem (lit "mmultiscripts") []
        (emit e x (ch b) ++
         concat (map (fun p : node * node => match p with (x, y) => emit e x (ch b) ++ emit e y (ch b) end) post) ++
         match pre with
         | [] => []
         | _ => nl e (ch b) ++ elem0 (lit "mprescripts") [] ++
                concat (map (fun p : node * node => match p with (x, y) => emit e x (ch b) ++ emit e y (ch b) end) pre)
         end ++ nl e b).
  Proof. cbn [emit]. apply f_equal2; [reflexivity|]. destruct pre; norm. Qed.
  Lemma sh_unknown s b : emit e (UnknownCommand s) b
    = nl e b ++ elem (lit "merror") (lit " class=""" ++ ee_css_unknown e ++ q) (elem (lit "mtext") [] (lit "\" ++ s)).
  Proof. cbn [emit]. apply f_equal2; [reflexivity|]. norm. Qed.
  (** nested boxes, one per vertical offset *)
  Definition padded_attr (l : length_t) : str := lit " voffset=""" ++ length_text (ee_dtoa e) l ++ q.
  Fixpoint padded_text (ls : list length_t) (a body : str) : str :=
    match ls with
    | [] => elem (lit "mpadded") a body
    | [l] => elem (lit "mpadded") (padded_attr l ++ a) body
    | l :: r => elem (lit "mpadded") (padded_attr l) (padded_text r a body)
    end.
  Lemma padded_text_eq ls a body :
    padded_text ls a body =
    lit "<mpadded" ++
    match ls with
    | [] => []
    | l :: r => padded_attr l ++ concat (map (fun l => lit "><mpadded" ++ padded_attr l) r)
    end ++ a ++ lit ">" ++ body ++ lit "</mpadded>" ++ concat (map (fun _ => lit "</mpadded>") (tl ls)).
  Proof.
    induction ls as [|l ls IH]; [cbn [padded_text tl map concat]; norm; now rewrite ?app_nil_r|].
    destruct ls as [|l2 ls].
    - cbn [padded_text tl map concat]. rewrite app_nil_r. norm.
    - cbn [padded_text tl map concat] in *. fold (padded_text (l2 :: ls) a body). rewrite IH. clear IH. 
      assert (HC : forall (A : Type) (l : list A) (x : str), concat (map (fun _ => x) l) ++ x = x ++ concat (map (fun _ => x) l)).
      { intros A l0 x. induction l0 as [|y l0 IH0]; cbn [map concat app]; [now rewrite app_nil_r|].
        rewrite <- app_assoc, IH0, app_assoc. reflexivity. }
      unfold elem. rewrite <- !app_assoc.
      rewrite <- (HC _ ls (lit "</mpadded>")). norm.
  Qed.
  Lemma sh_padded x w h l r v b : emit e (Padded x w h l r v) b
    = nl e b ++ padded_text (voffset_items v) (padded_attrs_str w h l r) (emit e x (ch b) ++ nl e b).
  Proof.
    cbn [emit]. apply f_equal2; [reflexivity|]. rewrite padded_text_eq. fold (ch b).
    unfold voffset_str. destruct (voffset_items v) as [|i is]; [norm|].
    cbn [tl]. unfold padded_attr.
    assert (E : map (fun l0 => lit "><mpadded voffset=""" ++ length_text (ee_dtoa e) l0 ++ q) is
              = map (fun l0 => lit "><mpadded" ++ lit " voffset=""" ++ length_text (ee_dtoa e) l0 ++ q) is).
    { apply map_ext. intros z. norm. }
    rewrite E. norm.
  Qed.
  Lemma sh_table al st bt l b : emit e (Table al st bt l) b
    = nl e b ++ lit "<mtable" ++ (opt_str (fun l => lit " style=""" ++ border_top_str l ++ q) bt ++ opt_str style_str st) ++ lit ">" ++
      emit_table e (emit e) b (ch b) l (col_gen_new (Predefined al)) None None.
  Proof. cbn [emit]. fold (ch b). now rewrite <- !app_assoc. Qed.
  Lemma sh_array st sp l b : emit e (ArrayN st sp l) b
    = nl e b ++ lit "<mtable" ++ (array_attrs_str sp ++ opt_str style_str st) ++ lit ">" ++
      emit_table e (emit e) b (ch b) l (col_gen_new (Custom sp)) None None.
  Proof. cbn [emit]. fold (ch b). now rewrite <- !app_assoc. Qed.
  Definition eqn_attrs := lit " displaystyle=""true"" scriptlevel=""0"" style=""width: 100%""".
  Lemma sh_eqarray al li l b : emit e (EquationArray al li l) b
    = nl e b ++ lit "<mtable" ++ eqn_attrs ++ lit ">" ++
      emit_table e (emit e) b (ch b) l (col_gen_new (Predefined al)) (Some Wide) li.
  Proof. reflexivity. Qed.
  Lemma sh_multline k li l b : emit e (MultLine k li l) b
    = nl e b ++ lit "<mtable" ++ eqn_attrs ++ lit ">" ++
      emit_table e (emit e) b (ch b) l (col_gen_new (CgMultLine k)) (Some Narrow) li.
  Proof. reflexivity. Qed.
End Shape.
