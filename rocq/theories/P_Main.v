(** Property C58: the command line program writes only what it should. *)
From Verif Require Import Str M_Escape S_Html M_Cli S_Cli M_Error M_Emit M_Output M_Token M_LatexError M_Lexer M_Queue M_Parser M_Api M_Tool M_Main S_Tool S_Main
  S_Api S_Convert L_Main.
Local Open Scope nat_scope.

(** A recursive run visits the files of the tree one after the other: each one is converted with the state that
    the files before it leave behind, and the first problem ends the run. The names stay the same. *)
Theorem C58_order : forall usize_max f r continue_on_error dry_run c e e' c' x,
  convert_html_recursive usize_max f r continue_on_error dry_run c e = (e', c', x) ->
  converted usize_max f r continue_on_error dry_run c (visits e) (visits e') c' x /\ bare_tree e' = bare_tree e.
Proof. intros. now apply tree_converted. Qed.
(** Whatever happens, a file changes only if its name ends in [.html], its text can be converted, and this is no
    dry run; then it has the converted text (or the beginning of it, if the disk fails). *)
Theorem C58_files : forall usize_max f r continue_on_error dry_run c e e' c' x,
  convert_html_recursive usize_max f r continue_on_error dry_run c e = (e', c', x) ->
  Forall2 (file_kept usize_max f r continue_on_error dry_run) (visits e) (visits e').
Proof. intros umax f r ct dr c e e' c' x E. eapply converted_kept. exact (proj1 (tree_converted _ _ _ _ _ _ _ _ _ _ E)). Qed.
(** If no problem is reported, all files have been converted. *)
Theorem C58_success : forall usize_max f r continue_on_error c e e' c',
  convert_html_recursive usize_max f r continue_on_error false c e = (e', c', None) ->
  all_converted usize_max f r continue_on_error c (visits e) (visits e') c'.
Proof. intros umax f r ct c e e' c' E. apply (converted_all umax f r ct false); [reflexivity|]. exact (proj1 (tree_converted _ _ _ _ _ _ _ _ _ _ E)). Qed.
(** The names that count. *)
Theorem C58_names : forall name, is_html name = true <-> exists stem, stem <> [] /\ name = stem ++ lit ".html".
Proof. exact is_html_name. Qed.
(** The status tells whether there was a problem, and of which kind. *)
Theorem C58_status : forall x y, exit_code x = exit_code y <-> problem x = problem y.
Proof. intros [[]|] [[]|]; split; intros H; try reflexivity; discriminate H. Qed.
(** A dry run changes nothing and ends as the real run does, if the files can be written. *)
Theorem C58_dry_run : forall usize_max f r continue_on_error c e e1 c1 x1 e2 c2 x2,
  convert_html_recursive usize_max f r continue_on_error true c e = (e1, c1, x1) ->
  convert_html_recursive usize_max f r continue_on_error false c e = (e2, c2, x2) ->
  e1 = e /\ (Forall writable (visits e) -> x1 = x2 /\ c1 = c2).
Proof.
  intros umax f r ct c e e1 c1 x1 e2 c2 x2 E1 E2. split; [exact (dry_same_entry _ _ _ _ _ _ _ _ _ E1)|]. intros W.
  eapply dry_same_end; [exact W|exact (proj1 (tree_converted _ _ _ _ _ _ _ _ _ _ E1))|exact (proj1 (tree_converted _ _ _ _ _ _ _ _ _ _ E2))].
Qed.
(** Only [--write] and [--recursive] change files, and only without [--dry-run] and with a path. *)
Theorem C58_reads_only : forall usize_max f a w, may_write a = false -> oc_target (main_program usize_max f a w) = wd_target w.
Proof. exact main_reads_only. Qed.
(** For every configuration, path, tree and input, and all options that [clap] accepts, the program comes to an end, and
    it does not panic; provided that it goes on after an error in a document (see C41). *)
Theorem C58_ends : forall usize_max a w, args_ok a -> scalar_args a -> scalar_config (wd_default w) -> (forall cfg, wd_config w = Loaded cfg -> scalar_config cfg) ->
  ar_continue a = true \/ ar_file a = None ->
  exists F out, (forall f, F <= f -> main_program usize_max f a w = out) /\ regular (oc_exit out).
Proof. exact main_ends. Qed.

(** Two documents in a directory, and other things. *)
Example C58_nonvacuous :
  let t := Folder (lit "d") (Some [text_file "a.html" "<p>$x$</p>"; text_file "b.htm" "$x$"; Folder (lit "e.html") (Some [text_file ".html" "$x$"; text_file "c.d.html" "$\gdef\y{z}$"]); Special (lit "s.html") (mkFile true WriteAll (lit "$x$")); text_file "f.html" "$\y$ $"; text_file "g.html" "$x$"]) in
  let run dry := main_program 1000 200 (mkArgs (Some (lit "d")) (lit "$") (lit "$$") None None None None true false dry false true None false false) (mkWorld LoadNotFound (plain_config []) None (Some t)) in
  map (fun v => match v with VFile n g => (n, fl_bytes g) | VUnlisted => ([], []) end) (match oc_target (run false) with Some e => visits e | None => [] end) =
    [(lit "a.html", lit "<p><math><mi>x</mi></math></p>"); (lit "b.htm", lit "$x$"); (lit ".html", lit "$x$"); (lit "c.d.html", lit "<math></math>"); (lit "f.html", lit "$\y$ $"); (lit "g.html", lit "$x$")] /\
  oc_exit (run false) = Some (ExitConversion (RUnclosed 5)) /\ exit_code (oc_exit (run false)) = 2%N /\
  oc_exit (run true) = oc_exit (run false) /\ oc_target (run true) = Some t /\ oc_stdout (run false) = [].
Proof. vm_compute. repeat split. Qed.
(** The state is shared by all files: what a file becomes depends on the files that the file system lists before it. *)
Theorem C58_alone_refuted : exists a name text e e' text1 text2,
  let target l := oc_target (main_program 1000 200 a (mkWorld LoadNotFound (plain_config []) None (Some (Folder (lit "d") (Some l))))) in
  target [e; text_file name text] = Some (Folder (lit "d") (Some [e'; text_file name text1])) /\ target [text_file name text] = Some (Folder (lit "d") (Some [text_file name text2])) /\ text1 <> text2.
Proof.
  exists (mkArgs (Some (lit "d")) (lit "$") (lit "$$") None None None None true false false false true None false false), "b.html"%string, "$\y$"%string.
  exists (text_file "a.html" "$\gdef\y{z}$"), (text_file "a.html" "<math></math>"), "<math><mi>z</mi></math>"%string.
  exists "<span class=""math-core-error"" title=""0: Unknown command &quot;\y&quot;.""><code>\y</code></span>"%string.
  vm_compute. repeat split. discriminate.
Qed.
(** A recursive run on a path where there is nothing is a success. *)
Theorem C58_missing_refuted : exists a, (exists path, ar_file a = Some path) /\ ar_recursive a = true /\
  forall f, exit_code (oc_exit (main_program 1000 f a (mkWorld LoadNotFound (plain_config []) None None))) = 0%N.
Proof.
  exists (mkArgs (Some (lit "d")) (lit "$") (lit "$$") None None None None true false false false true None false false). split; [now eexists|]. split; [reflexivity|]. intros f. vm_compute. reflexivity.
Qed.
Print Assumptions C58_order.
Print Assumptions C58_files.
Print Assumptions C58_success.
Print Assumptions C58_names.
Print Assumptions C58_status.
Print Assumptions C58_dry_run.
Print Assumptions C58_reads_only.
Print Assumptions C58_ends.
Print Assumptions C58_alone_refuted.
Print Assumptions C58_missing_refuted.
