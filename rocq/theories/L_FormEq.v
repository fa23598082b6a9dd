(** The equations of the meanings of formulas. *)
From Verif Require Import Str M_SuperChar M_Transform M_Length M_Spec M_Ast M_Token M_Symbols M_Commands M_Env
  M_LatexError M_Lexer M_CustomCmds M_Queue M_Spacing M_Colors M_Leaf M_TextParser M_Parser S_Queue S_Scripts S_Formula.

Section Equations.
Context (mean : str -> token) (usize_max : N).
Notation tok := (tok mean).
Notation raw := (raw mean).
Notation mark_toks := (mark_toks mean).
Notation operator_of := (operator_of).
Notation fence_of := (fence_of mean).
Notation delimiter := (delimiter mean).
Notation hline_of := (hline_of mean).
Notation not_bracket := (not_bracket mean).
Notation den_item := (den_item mean usize_max).
Notation den_head := (den_head mean usize_max).
Notation den_arg := (den_arg mean usize_max).
Notation den_target := (den_target mean usize_max).
Notation den_mark := (den_mark mean usize_max).
Notation den_items := (den_items mean usize_max).
Notation end_row := (end_row usize_max).
Notation "'let+' x := m 'in' k" := (dbind m (fun x => k)) (at level 200, x name, m at level 100, k at level 200).

Lemma den_item_eq x p prev next h ms : den_item x p prev next (Item h ms) =

      let put vs c n := let+ b := dopt (scripts_of vs) in match snd b with None => dret (c, with_scripts n (fst b)) | Some _ => dnone end in
      let atom :=
        let+ cn := den_head x p prev (class_ahead (flat_map mark_toks ms) next) h in
        let+ vs := values (den_mark x) ms in
        put vs (fst cn) (snd cn) in
      match h with
      | HSym s args =>
          match operator_of (tok s) args with
          | Some t =>
              let+ vs := values (den_mark x) ms in
              let+ b := dopt (scripts_of vs) in
              let+ n := dopt (operator_node x prev (next_as p next) t (fst b) (snd b)) in
              dret (ClOperator, n)
          | None =>
              match tok s, args with
              | T_OverUnderBrace o is_over, [a] =>
                  let+ t := den_arg x PaArgSpace ClDefault a in
                  let base := (if is_over then OverAccent else UnderAccent) (ord_as_op o) A_EMPTY t in
                  (* the first script on the side of the brace explains it *)
                  match ms with
                  | FSup e :: rest =>
                      if is_over then
                        let+ n := den_arg x PaArg ClDefault e in
                        let+ vs := values (den_mark x) rest in put vs ClDefault (Over n base)
                      else let+ vs := values (den_mark x) ms in put vs ClDefault base
                  | FSub e :: rest =>
                      if is_over then let+ vs := values (den_mark x) ms in put vs ClDefault base
                      else
                        let+ n := den_arg x PaArg ClDefault e in
                        let+ vs := values (den_mark x) rest in put vs ClDefault (Under n base)
                  | _ => let+ vs := values (den_mark x) ms in put vs ClDefault base
                  end
              | T_Sideset, [AScripts m1 l1; AScripts m2 l2; o] =>
                  let+ vs1 := values (den_mark x) m1 in
                  let+ b1 := dopt (no_limits vs1) in
                  let+ ns1 := den_items den_item (in_bracket false x) ClEnd ClOpen [] None l1 in
                  let+ vs2 := values (den_mark x) m2 in
                  let+ b2 := dopt (no_limits vs2) in
                  let+ ns2 := den_items den_item (in_bracket false x) ClEnd ClOpen [] None l2 in
                  let+ o := dopt (side_operator mean o) in
                  let+ vs := values (den_mark x) ms in
                  let+ b := dopt (scripts_of vs) in
                  dret (ClDefault, side_node x prev (next_as p (class_ahead (flat_map mark_toks ms) next)) (b1, ns1) (b2, ns2) o (fst b) (snd b))
              (* scripts without a base *)
              | T_Underscore, [a] =>
                  let+ n := den_arg (with_style (style_scriptify (cx_style x)) x) PaArg ClDefault a in
                  let+ vs := values (den_mark x) ms in
                  let+ b := dopt (no_limits (VSub n :: vs)) in dret (ClDefault, wrap_subsup b EMPTY_ROW)
              | T_Circumflex, [a] =>
                  let+ n := den_arg (with_style (style_scriptify (cx_style x)) x) PaArg ClDefault a in
                  let+ vs := values (den_mark x) ms in
                  let+ b := dopt (no_limits (VSup n :: vs)) in dret (ClDefault, wrap_subsup b EMPTY_ROW)
              | _, _ => atom
              end
          end
      | _ => atom
      end.
Proof. reflexivity. Qed.
Lemma den_num_eq x p prev next s : den_head x p prev next (HNum s) =
 dguard (plain_digits (cx_tf x) && number_ok s) (dret (ClDefault, Number s)).
Proof. reflexivity. Qed.
Lemma den_word_eq x p prev next l : den_head x p prev next (HWord l) =

      let+ cs := dopt (all_some (fun s => word_char (cx_tf x) (raw s)) l) in
      let+ n := dopt (word_node (cx_tf x) cs) in dret (ClDefault, n).
Proof. reflexivity. Qed.
Lemma den_group_eq x p prev next l : den_head x p prev next (HGroup l) =

      let+ ns := den_items den_item (in_bracket false x) ClEnd ClOpen [] None l in dret (ClDefault, node_vec_to_node ns false).
Proof. reflexivity. Qed.
Lemma den_fence_eq x p prev next o l c : den_head x p prev next (HFence o l c) =

      match mean (lit "left"), mean (lit "right"), fence_of o, fence_of c with
      | T_Left, T_Right, Some open, Some close =>
          let+ ns := den_items den_item (in_bracket false x) ClClose ClOpen [] None l in dret (ClDefault, fenced ns open close None)
      | _, _, _, _ => dnone
      end.
Proof. reflexivity. Qed.
Lemma den_env_eq x p prev next e args l : den_head x p prev next (HEnv e args l) =

      let+ spec :=
        match e, args with
        | (EArray | EDArray | ESubarray), [ALit s] => dopt (option_map Some (parse_column_specification s))
        | (EArray | EDArray | ESubarray), _ => dnone
        | _, [] => dret None
        | _, _ => dnone
        end in
      let inside border l :=
        let+ r := new_rows e (let+ ns := den_items den_item (in_env e x) ClEnd ClOpen [] None l in
                              let+ info := end_row true in dret (ns, info)) in
        let sp := option_map (fun c => mkArraySpec (as_border_left c) border (match e with ESubarray => true | _ => as_is_sub c end) (as_columns c)) spec in
        let+ n := dopt (construct_node e (fst r) sp (fst (snd r)) (snd (snd r)) border) in
        dret (ClClose, n) in
      dguard (in_sequence p)
        (match l with
         | i :: rest =>
             match hline_of i with
             | Some lt => dguard (env_allows_hlines e) (inside (Some lt) rest)
             | None => inside None l
             end
         | [] => inside None []
         end).
Proof. reflexivity. Qed.
Lemma den_sym_eq x p prev next s args : den_head x p prev next (HSym s args) =

      let st := cx_style x in
      match tok s, args with
      | T_Frac attr, [a; b] =>
          let y := with_style (fraction_style st attr) x in
          let+ n := den_arg y PaArg ClDefault a in
          let+ m := den_arg y PaArg ClDefault b in
          dret (ClDefault, Frac n m (len_value length_none) (len_unit length_none) attr)
      | T_Binom attr, [a; b] =>
          let y := with_style (fraction_style st attr) x in
          let+ n := den_arg y PaArg ClDefault a in
          let+ m := den_arg y PaArg ClDefault b in
          dret (ClDefault, fenced [Frac n m (len_value length_zero) (len_unit length_zero) attr] OPEN_PAREN CLOSE_PAREN None)
      | T_Sqrt, [ABracket l; a] =>
          let+ ns := den_items den_item (in_bracket true x) ClClose ClOpen [] None l in
          let+ n := den_arg x PaArg ClDefault a in
          dret (ClDefault, Root (node_vec_to_node ns true) n)
      | T_Sqrt, [a] => dguard (not_bracket a) (let+ n := den_arg x PaArg ClDefault a in dret (ClDefault, Sqrt n))
      | T_Enclose notation, [a] => let+ n := den_arg x PaArgSpace ClDefault a in dret (ClDefault, Enclose n notation)
      | T_Accent c is_over attrs, [a] =>
          let+ n := den_arg x PaArgSpace ClDefault a in
          dret (ClDefault, (if is_over then OverAccent else UnderAccent) (sc_from_char c) attrs n)
      | T_Overset, [a; b] =>
          dguard (in_sequence p)
            (let+ n := den_arg (with_style StScript x) PaArg ClDefault a in
             let+ t := den_target (with_hack x) PaContinue prev next b in
             dret (fst t, Over n (snd t)))
      | T_Underset, [a; b] =>
          dguard (in_sequence p)
            (let+ n := den_arg (with_style StScript x) PaArg ClDefault a in
             let+ t := den_target (with_hack x) PaContinue prev next b in
             dret (fst t, Under n (snd t)))
      | T_Transform v, [a] => let+ n := den_arg (with_tf (Some v) x) PaArg ClDefault a in dret (ClClose, n)
      | T_MathClass k, [a] =>
          let+ t := den_target x p prev next a in
          let (c, sp) := class_spacing k st (in_sequence p) prev (next_as p next) in
          dret (c, class_node (snd t) sp)
      | T_Overlay o, [a] =>
          let+ t := den_target x p prev next a in
          let+ n := dopt (overlay_node o (snd t)) in
          dret (fst t, n)
      | T_Phantom k, [a] =>
          let+ n := den_arg x PaArg ClDefault a in
          dret (ClDefault, match k with
                           | PkFull => Phantom n
                           | PkH => Padded (Phantom n) false true None None None
                           | PkV => Padded (Phantom n) true false None None None
                           end)
      | T_Cramped, [a] =>
          dguard (not_bracket a) (let+ n := den_arg x PaArg prev a in dret (ClDefault, Row [n] (mkRowAttrs None None true)))
      | T_Cramped, [ABracket l; a] =>
          let+ sty := dopt (match l with
                            | [] => Some None
                            | [Item (HSym s' []) []] => match tok s' with T_Style y => Some (Some y) | _ => None end
                            | _ => None
                            end) in
          let+ n := den_arg x PaArg ClDefault a in dret (ClDefault, Row [n] (mkRowAttrs None sty true))
      | T_Genfrac, [o; c; ALit t; y; a; b] =>
          let+ open := dopt (genfrac_fence mean o) in
          let+ close := dopt (genfrac_fence mean c) in
          let+ line := dopt (genfrac_line t) in
          let+ sty := dopt (genfrac_style_of mean y) in
          let+ n := den_arg x PaArg ClDefault a in
          let+ m := den_arg x PaArg ClDefault b in
          dret (ClDefault, fenced [Frac n m (len_value line) (len_unit line) None] open close sty)
      | T_Prescript, [a; b; c] =>
          let+ sup := den_arg x PaArg ClDefault a in
          let+ sb := den_arg x PaArg ClDefault b in
          let+ base := den_arg x PaArg ClDefault c in
          dret (ClDefault, Multiscripts base [(sb, sup)] [])
      | T_XArrow r, [ABracket l; a] =>
          let y := with_hack (with_style StScript x) in
          let+ ns := den_items den_item (in_bracket true y) ClClose ClOpen [] None l in
          let+ n := den_arg y PaArg ClDefault a in
          dret (ClRelation, arrow_node st r prev (next_as p next) (Some (node_vec_to_node ns false)) n)
      | T_XArrow r, [a] =>
          dguard (not_bracket a)
            (let+ n := den_arg (with_hack (with_style StScript x)) PaArg ClDefault a in
             dret (ClRelation, arrow_node st r prev (next_as p next) None n))
      | T_Middle, [ASym d] =>
          let+ o := dopt (delimiter d) in
          let sp := match so_spacing o with DsZero => None | _ => Some MsZero end in
          dret (ClOpen, op_node (so_op o) (middle_stretch_attrs o) (sp, sp))
      | T_Big sz pt, [ASym d] =>
          let+ o := dopt (delimiter d) in
          (* only for the middle one the next atom counts, otherwise the delimiter itself *)
          let n := match pt with Some PtMiddle => next_as p next | _ => seen x (next_as p (class_ahead [raw d] next)) end in
          let (attrs, sp) := big_spacing st prev n pt o in
          dret (big_class pt, Operator (so_op o) attrs (Some sz) (fst sp) (snd sp))
      | T_Text ts, [ALit t] => dret (ClClose, match t with [] => EMPTY_ROW | _ => Text ts None (text_of t) end)
      | T_RaiseBox, [ALit len; ALit t] =>
          match parse_length_specification len with
          | Some (l, _, false) => dret (ClClose, match t with [] => EMPTY_ROW | _ => raised_text (set_of_length l) (text_of t) end)
          | _ => dnone
          end
      | T_EqRef, [ALit l] => dret (ClDefault, EqRef l)
      | T_CustomSpace k, [ALit t] =>
          match parse_length_specification (trim_ascii t) with
          | Some (l, _, is_math) => dguard (Bool.eqb is_math (match k with UkMath => true | UkText => false end)) (dret (ClDefault, Space l))
          | None => dnone
          end
      | T_Op o, [] =>
          (* this kind does not take scripts *)
          match op_cat o with
          | PcC => let (_, attrs) := op_limits None (is_jop o) true in
                   dret (ClOperator, op_node (op_as_op o) attrs (mathop_spacing st prev (next_as p next) false))
          | _ => dnone
          end
      | T_Relax, [] => dnone (* in a sequence it is not an atom *)
      | t, [] =>
          match word_char (cx_tf x) (raw s) with
          | None => dopt (sym_node x p prev (seen x (next_as p next)) t)
          | Some _ => dnone
          end
      | _, _ => dnone
      end.
Proof. reflexivity. Qed.
Lemma den_arg_eq x a prev g : den_arg x a prev g =
  match g with
  | AGroup l =>
      let+ ns := den_items den_item (in_bracket false x) ClEnd ClOpen [] None l in
      dret (node_vec_to_node ns (match a with PaArg => true | _ => false end))
  | ASym s => let+ cn := dopt (sym_node x a prev ClDefault (tok s)) in dret (snd cn)
  | AItem i => dguard (stands mean i) (let+ cn := den_item x a prev ClDefault i in dret (snd cn))
  | _ => dnone
  end.
Proof. now destruct g. Qed.
Lemma den_target_eq x a prev next g : den_target x a prev next g =
  match g with
  | AGroup l =>
      let+ ns := den_items den_item (in_bracket false x) ClEnd (match a with PaContinue => prev | _ => ClOpen end) [] None l in
      dret (ClDefault, node_vec_to_node ns (match a with PaArg => true | _ => false end))
  | ASym s => dopt (sym_node x a prev (seen x (next_as a next)) (tok s))
  | AItem i => dguard (stands mean i) (den_item x a prev next i)
  | _ => dnone
  end.
Proof. now destruct g. Qed.
Lemma den_mark_eq x m : den_mark x m =
  let script := with_style (style_scriptify (cx_style x)) x in
  match m with
  | FSub a => let+ n := den_arg script PaArg ClDefault a in dret (VSub n)
  | FSup a => let+ n := den_arg script PaArg ClDefault a in dret (VSup n)
  | FPrimes ps sup =>
      let+ ks := dopt (all_some (fun s => match tok s with T_Prime k => Some k | _ => None end) ps) in
      dguard (match ks with [] => false | _ => true end)
        (match sup with
         | Some a => let+ n := den_arg script PaArg ClDefault a in dret (VSup (one_or_row (prime_nodes ks ++ [n])))
         | None => dret (VSup (one_or_row (prime_nodes ks)))
         end)
  | FLimits s => match tok s with T_Limits k => dret (VLimits k) | _ => dnone end
  end.
Proof. now destruct m. Qed.
Lemma den_items_cons x after prev acc infix i r : den_items den_item x after prev acc infix (i :: r) =
  ltac:(let t := eval cbn [S_Formula.den_items] in (den_items den_item x after prev acc infix (i :: r)) in exact t).
Proof. reflexivity. Qed.
End Equations.
