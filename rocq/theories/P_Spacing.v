(** Property C36: the spacing of operators. *)
From Verif Require Import Str M_SuperChar M_Length M_Spec M_Ast M_Token M_Env M_LatexError M_Lexer M_CustomCmds M_Queue M_Spacing
  M_Leaf M_Parser S_Spacing L_Spacing.

(** For every style and every sequence of atoms the spaces between the atoms are those of TeX,
    except exactly for the sequences described by [exceptional]. *)
Theorem C36_tex_spacing : forall force st l,
  code_spacing force st l = tex_spacing st l <-> exceptional st None l = false.
Proof. intros force st l. apply (spacing_from force st l None I). Qed.
(** There are such sequences. *)
Theorem C36_refuted :
  code_spacing true StText [AInner; AInner] = [6] /\ tex_spacing StText [AInner; AInner] = [3] /\
  code_spacing true StText [AInner; ABin; ARel] = [0; 5] /\ tex_spacing StText [AInner; ABin; ARel] = [3; 5] /\
  code_spacing true StScript [AOrd; ABin; AOp] = [0; 3] /\ tex_spacing StScript [AOrd; ABin; AOp] = [0; 0].
Proof. repeat split; vm_compute; reflexivity. Qed.
(** [\mathbin] without anything on one side is spaced as an ordinary symbol, but the next atom still takes
    it for a binary operator. *)
Theorem C36_mathbin_refuted : exists st next,
  class_spacing MkBin st true ClOpen next = (ClBinaryOp, zero_spacing) /\ next = class_of_atom AOp /\
  fst (mathop_spacing st ClBinaryOp ClDefault true) = Some MsZero /\ tex_spacing st [ABin; AOp; AOrd] = [3; 3].
Proof. exists StText, ClOperator. repeat split; vm_compute; reflexivity. Qed.

(** A space is written out exactly if it differs from the one of the operator dictionary, or if it always is. *)
Theorem C36_explicit_when_needed : forall st prev next,
  let written (f : bool -> option math_spacing) default :=
    f true <> None /\ (f false = None <-> mu_of (f true) 0 = default) /\ (f false <> None -> f false = f true) in
  written (fun force => fst (relation_spacing st prev next force)) 5 /\
  written (fun force => snd (relation_spacing st prev next force)) 5 /\
  written (fun force => bin_op_spacing st true prev next force) 4 /\
  written (fun force => fst (punctuation_spacing st next force)) 0 /\
  written (fun force => snd (punctuation_spacing st next force)) 3 /\
  written (fun force => fst (mathinner_spacing st prev next force)) 3 /\
  written (fun force => snd (mathinner_spacing st prev next force)) 3 /\
  written (fun force => fst (mathop_spacing st prev next force)) 3 /\
  written (fun force => snd (mathop_spacing st prev next force)) 3.
Proof.
  intros st prev next. cbv zeta. repeat split; intros; destruct st, prev, next; vm_compute in *;
    try discriminate; try reflexivity; try contradiction; try congruence.
Qed.

(** A binary operator is taken for an ordinary symbol, without spaces, exactly in scripts and if there is
    nothing to combine before or after it. *)
Theorem C36_binary_or_ordinary : forall force st prev next,
  let s := bin_op_spacing st true prev next force in
  (bin_class s = ClDefault <->
     is_script st = true \/ In prev [ClRelation; ClPunctuation; ClBinaryOp; ClOperator; ClOpen] \/
     In next [ClRelation; ClPunctuation; ClClose; ClEnd]) /\
  (bin_class s = ClDefault <-> mu_of s 4 = 0) /\ (bin_class s = ClDefault \/ bin_class s = ClBinaryOp).
Proof.
  intros force st prev next. cbv zeta. split; [|split].
  - split; intros H; destruct force, st, prev, next; vm_compute in *; try tauto; try discriminate; try reflexivity;
      destruct H as [H|[H|H]]; try discriminate; repeat (destruct H as [H|H]; try discriminate); contradiction.
  - split; intros H; destruct force, st, prev, next; vm_compute in *; congruence.
  - destruct force, st, prev, next; vm_compute; auto.
Qed.

(** The parser gives a symbol in a sequence the spaces of [code_atom], with the class of the next
    token, and goes on with the class of [code_atom]. *)
Theorem C36_parser : forall cfg umax fuel t sp prev s next s' a force,
  spaced_token t = Some (a, force) -> exec cfg umax (OPeekClass true) s = (Ok next, s') -> pv_hack (ps_view s') = false ->
  exists o attrs l r c,
    run cfg umax fuel (body (CTok (t, sp) PaSequence prev)) s = (Ok (c, Operator o attrs None l r), s') /\
    code_atom force (pv_style (ps_view s')) prev next a = (mu_of l (fst (dictionary a)), mu_of r (snd (dictionary a)), c).
Proof.
  intros cfg umax fuel t sp prev s next s' a force Ht Hn Hh.
  destruct t; try discriminate; injection Ht as <- <-; do 5 eexists; (split; [destruct fuel; cbn [run body tok_body in_sequence];
     rewrite Hn; cbn [exec view sget ps_view]; unfold view, sget; rewrite Hh; reflexivity|]);
    cbn [code_atom dictionary fst snd op_node]; reflexivity.
Qed.
Example C36_nonvacuous :
  exceptional StDisplay None [AOrd; ABin; AOrd; ARel; AOp; AOrd; APunct; AInner] = false /\
  code_spacing false StDisplay [AOrd; ABin; AOrd; ARel; AOp; AOrd; APunct; AInner] = [4; 4; 5; 5; 3; 0; 3] /\
  code_spacing false StDisplay [ABin; AOrd; ABin; AClose] = [0; 0; 0] /\
  code_spacing false StScript [AOrd; ABin; AOrd; ARel; AOp; AOrd; APunct; AInner] = [0; 0; 0; 0; 3; 0; 0].
Proof. repeat split; vm_compute; reflexivity. Qed.
Print Assumptions C36_tex_spacing.
Print Assumptions C36_refuted.
Print Assumptions C36_mathbin_refuted.
Print Assumptions C36_explicit_when_needed.
Print Assumptions C36_binary_or_ordinary.
Print Assumptions C36_parser.
