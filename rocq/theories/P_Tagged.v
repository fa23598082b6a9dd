(** The numbers of the equations of a document (C12, C13, C14, C16): from the text of formulas to the tags in their trees. *)
From Verif Require Import Str M_SuperChar M_Transform M_Length M_Spec M_Ast M_Emit M_Output M_Token M_Symbols M_Commands M_Env
  M_LatexError M_Lexer M_CustomCmds M_Queue M_Spacing M_Leaf M_TextParser M_Parser M_Api
  S_Env S_Queue S_Scripts S_Formula S_Tidy S_Emit S_Tagged S_Shown S_Exposed S_Api S_MathML L_FormLex L_Env L_TaggedEnv L_TaggedAll L_Shown P_Env P_Formula P_MathML.
Local Open Scope nat_scope.

(** The text of a formula is parsed to trees. The tags that the trees show are the ones that the rows of its numbered environments ask for,
    row by row, and the counter and the labels are the ones after these rows. *)
Theorem C12_parsed : forall cfg usize_max gs st l ns gs', formula_ok l = true -> formula_tidy (name_meaning cfg gs) l = true -> all_on_top l = true ->
  snippet_meaning cfg usize_max gs st l = Some (ns, gs') ->
  (exists F, forall f, F <= f -> parse_snippet cfg usize_max f gs (formula_text l) st = (Ok ns, gs')) /\
  exists infos, run_envs usize_max (gs_count gs) (gs_labels gs) (environments (name_meaning cfg gs) l) = Some (infos, gs_count gs', gs_labels gs') /\
    flat_map shown ns = flat_map one_tag (concat infos).
Proof.
  intros cfg um gs st l ns gs' O T P H. split; [exact (C52_parsed cfg um gs st l ns gs' O H)|].
  destruct (snippet_numbers cfg um gs st l ns gs' T P H) as (infos & A & B & _). now exists infos.
Qed.
(** The numbers that a reader of the markup of a tree sees are the tags that the tree shows, for all trees. *)
Theorem C12_seen : forall e n, flat_map numbers (mathml e n) = map (number_of (ee_id_prefix e)) (shown n).
Proof. exact numbers_tree. Qed.
(** Together: what is seen of a formula. *)
Theorem C12_converted : forall cfg usize_max ec gs d l ns gs', formula_ok l = true -> formula_tidy (name_meaning cfg gs) l = true -> all_on_top l = true -> cfg_ok ec ->
  snippet_meaning cfg usize_max gs (display_style d) l = Some (ns, gs') -> Forall readable ns ->
  exists infos, run_envs usize_max (gs_count gs) (gs_labels gs) (environments (name_meaning cfg gs) l) = Some (infos, gs_count gs', gs_labels gs') /\
  exists F, forall f, F <= f -> exists r x, convert usize_max f ec cfg gs (formula_text l) d = (Ok r, gs') /\
    read_xml (cr_mathml r) = Some [x] /\ numbers x = map (number_of (ec_id_prefix ec)) (flat_map one_tag (concat infos)).
Proof.
  intros cfg um ec gs d l ns gs' O T P K H R. destruct (snippet_numbers cfg um gs _ l ns gs' T P H) as (infos & A & B & _). exists infos. split; [exact A|].
  destruct (C53_formula cfg um ec gs d l ns gs' O K H R) as (F & Q). exists F. intros f L. destruct (Q f L) as (r & Q1 & Q2). exists r. eexists. split; [exact Q1|]. split; [exact Q2|]. rewrite <- B. apply numbers_document.
Qed.
(** For several formulas, one after the other, the rows of all of them count. *)
Theorem C12_document : forall cfg usize_max gs l nss gs', forallb (fun s => formula_tidy (name_meaning cfg gs) (fst s) && all_on_top (fst s)) l = true ->
  session_meaning cfg usize_max gs l = Some (nss, gs') ->
  exists infos, run_envs usize_max (gs_count gs) (gs_labels gs) (session_environments (name_meaning cfg gs) l) = Some (infos, gs_count gs', gs_labels gs') /\
    flat_map shown (concat nss) = flat_map one_tag (concat infos).
Proof. intros cfg um gs l nss gs' T H. exact (session_numbers cfg um l gs nss gs' T H). Qed.
(** The tags of a document without tags of its own are consecutive numbers, and the counter is the last one of them. *)
Theorem C12_shown : forall cfg usize_max gs l nss gs', forallb (fun s => formula_tidy (name_meaning cfg gs) (fst s) && all_on_top (fst s)) l = true ->
  session_meaning cfg usize_max gs l = Some (nss, gs') -> no_tags (session_environments (name_meaning cfg gs) l) ->
  let seen := tag_texts (flat_map shown (concat nss)) in
  seen = numbers_from (gs_count gs) (length seen) /\ gs_count gs' = (gs_count gs + N.of_nat (length seen))%N.
Proof.
  intros cfg um gs l nss gs' T H U. destruct (session_numbers cfg um l gs nss gs' T H) as (infos & A & B). exact (shown_numbers _ _ _ _ _ _ _ A U (flat_map shown (concat nss)) B).
Qed.
(** If no row has both a tag and a suppressed number, each row has the tag that it asks for: its own one, none, or the next number. *)
Theorem C13_document_partial : forall cfg usize_max gs l nss gs', forallb (fun s => formula_tidy (name_meaning cfg gs) (fst s) && all_on_top (fst s)) l = true ->
  session_meaning cfg usize_max gs l = Some (nss, gs') ->
  Forall (fun p => is_multline (fst p) = false /\ Forall unmixed (all_rows (snd p))) (session_environments (name_meaning cfg gs) l) ->
  exists infos, intended_envs (gs_count gs) (session_environments (name_meaning cfg gs) l) = (infos, gs_count gs') /\ flat_map shown (concat nss) = flat_map one_tag infos.
Proof.
  intros cfg um gs l nss gs' T H U. destruct (session_numbers cfg um l gs nss gs' T H) as (infos & A & B). exists (concat infos). split; [|exact B]. symmetry. exact (intended_numbers _ _ _ _ _ _ _ A U).
Qed.
(** A [multline] has one tag at most. It is the last tag that is typed in it, and a number if there is none and none of the rows has [\notag]. *)
Theorem C14_multline_shown : forall cfg usize_max gs st args l ms ns gs', let f := [Item (HEnv EMultLine args l) ms] in
  formula_tidy (name_meaning cfg gs) f = true -> all_on_top f = true -> snippet_meaning cfg usize_max gs st f = Some (ns, gs') ->
  let asked := concat (all_rows (env_rows (name_meaning cfg gs) EMultLine l)) in
  map li_tag (flat_map shown ns) = match row_tag asked with Some t => [t] | None => if row_notag asked then [] else [mkTag (dec (gs_count gs + 1)) true] end /\
  gs_count gs' = match row_tag asked with Some _ => gs_count gs | None => if row_notag asked then gs_count gs else (gs_count gs + 1)%N end.
Proof.
  intros cfg um gs st args l ms ns gs' f T P H asked. destruct (snippet_numbers cfg um gs st f ns gs' T P H) as (infos & A & B & _). rewrite B. clear T P H B.
  cbn [f environments flat_map numbered numbered_env_state app run_envs] in A. fold (env_rows (name_meaning cfg gs) EMultLine l) in A.
  destruct (run_env um EMultLine _ _ _) as [[[[i n] c1] ls1]|] eqn:E; [|discriminate A]. injection A as <- <- _. cbn [concat]. rewrite app_nil_r.
  apply C14_multline in E as (j & -> & _ & E). fold asked in E. rewrite flat_map_app.
  assert (Z : flat_map one_tag (repeat None (length (snd (env_rows (name_meaning cfg gs) EMultLine l)))) = []) by (induction (length _) as [|k IH]; [reflexivity|exact IH]). rewrite Z. cbn [app flat_map].
  destruct (row_tag asked) as [t|]; [|destruct (row_notag asked)]; destruct E as [E1 E2]; (split; [|exact E2]); destruct j as [j|]; try discriminate E1; cbn in E1 |- *; congruence.
Qed.
(** Starred environments have the tags that are typed in them, and do not count. *)
Theorem C14_starred_shown : forall cfg usize_max gs st e args l ms ns gs', let f := [Item (HEnv e args l) ms] in starred e = true ->
  formula_tidy (name_meaning cfg gs) f = true -> all_on_top f = true -> snippet_meaning cfg usize_max gs st f = Some (ns, gs') ->
  map li_tag (flat_map shown ns) = flat_map (fun r => match row_tag r with Some t => [t] | None => [] end) (all_rows (env_rows (name_meaning cfg gs) e l)) /\ gs_count gs' = gs_count gs.
Proof.
  intros cfg um gs st e args l ms ns gs' f S T P H. destruct (snippet_numbers cfg um gs st f ns gs' T P H) as (infos & A & B & _). rewrite B. clear T P H B.
  assert (Ne : numbered e = true) by now destruct e. cbn [f environments flat_map] in A. rewrite Ne in A. cbn [app run_envs] in A.
  destruct (run_env um e _ _ _) as [[[[i n] c1] ls1]|] eqn:E; [|discriminate A]. injection A as <- <- _. cbn [concat]. rewrite app_nil_r.
  apply C14_starred in E as [E1 E2]; [|exact S]. split; [|exact E1]. clear - E2. revert i E2. induction (all_rows _) as [|r rs IH]; intros [|i is'] E; try discriminate E; [reflexivity|]. cbn [map] in E. injection E as E1 E. cbn [flat_map]. rewrite map_app, (IH _ E), <- E1. now destruct i.
Qed.
(** A label stands for the newest tag of the document that it is the label of. *)
Theorem C16_document : forall cfg usize_max gs l nss gs' name, forallb (fun s => formula_tidy (name_meaning cfg gs) (fst s) && all_on_top (fst s)) l = true ->
  session_meaning cfg usize_max gs l = Some (nss, gs') ->
  assoc_str name (gs_labels gs') = match newest_tag name (map Some (flat_map shown (concat nss))) with Some t => Some t | None => assoc_str name (gs_labels gs) end.
Proof.
  intros cfg um gs l nss gs' name T H. destruct (session_numbers cfg um l gs nss gs' T H) as (infos & A & B). rewrite B, newest_shown. exact (C16_labels_recorded _ _ _ _ _ _ _ name A).
Qed.

(** A row that ends within braces takes a number that is not shown: the only row of this environment has the number 2. *)
Theorem C12_braces_refuted : exists f r gs', convert 1000 f plain_emitter plain_cfg gs_default (lit "\begin{align}{a\\b}\end{align}") Inline = (Ok r, gs') /\ gs_count gs' = 2%N /\
  cr_mathml r = lit "<math><mtable displaystyle=""true"" scriptlevel=""0"" style=""width: 100%""><mtr><mtd style=""width: 50%""></mtd><mtd style=""text-align: right;justify-items: end;padding-right: 0;""><mrow><mi>a</mi><mi>b</mi></mrow></mtd><mtd style=""width: 50%;text-align: right;justify-items: end;""><mtext>(2)</mtext></mtd></mtr></mtable></math>".
Proof. exists 100. do 2 eexists. split; [vm_compute; reflexivity|]. split; reflexivity. Qed.

Example C12_document_nonvacuous :
  let f1 := [Item (HEnv EAlign [] [i1 "a"; i1 "&"; i1 "="; Item (HGroup [i1 "b"; i2 "label" [ALit (lit "x")]]) []; next_row; i1 "c"; i1 "notag"; next_row; i1 "d"; i2 "tag" [ALit (lit "q")]]) [FSup (a1 "2")]] in
  let f2 := [i1 "y"; i1 "displaystyle"; Item (HEnv EMultLine [] [i1 "a"; next_row; i1 "b"; i2 "label" [ALit (lit "z")]]) []; Item (HEnv EGather [] [i1 "u"; next_row; i1 "v"; i2 "label" [ALit (lit "x")]]) []; i2 "eqref" [ALit (lit "x")]] in
  let f3 := [Item (HEnv EAlignStar [] [i1 "a"; next_row; i2 "tag" [ALit (lit "q")]; i1 "b"]) []] in
  let doc := [(f1, StDisplay); (f2, StText); (f3, StText)] in
  let mean := name_meaning plain_cfg gs_default in
  forallb (fun s => formula_tidy mean (fst s) && all_on_top (fst s) && formula_ok (fst s)) doc = true /\
  formula_text f1 = lit "\begin{align}a&={b\label {x}}\\ c\notag \\ d\tag {q}\end{align}^2" /\
  environments mean f1 = [(EAlign, ([RowLabel (lit "x")], [[RowNotag]; [RowTag (mkTag (lit "q") true)]]))] /\
  match session_meaning plain_cfg 1000 gs_default doc with
  | Some (nss, gs) => tag_texts (flat_map shown (concat nss)) = map lit ["1"; "q"; "2"; "3"; "4"; "q"]%string /\ gs_count gs = 4%N /\ assoc_str (lit "x") (gs_labels gs) = Some (lit "4") /\ assoc_str (lit "z") (gs_labels gs) = Some (lit "2")
  | None => False
  end /\
  (* a document whose numbers are consecutive *)
  match session_meaning plain_cfg 1000 gs_default [(f2, StText)] with
  | Some (nss, gs) => tag_texts (flat_map shown (concat nss)) = map lit ["1"; "2"; "3"]%string /\ no_tags (session_environments mean [(f2, StText)])
  | None => False
  end /\
  match snippet_meaning plain_cfg 1000 gs_default StText f3 with Some (ns, gs) => map li_tag (flat_map shown ns) = [mkTag (lit "q") true] /\ gs_count gs = 0%N | None => False end.
Proof. vm_compute. repeat first [split | apply Forall_cons | apply Forall_nil | reflexivity]. Qed.

Print Assumptions C12_parsed.
Print Assumptions C12_seen.
Print Assumptions C12_converted.
Print Assumptions C12_document.
Print Assumptions C12_shown.
Print Assumptions C13_document_partial.
Print Assumptions C14_multline_shown.
Print Assumptions C14_starred_shown.
Print Assumptions C16_document.
Print Assumptions C12_braces_refuted.
