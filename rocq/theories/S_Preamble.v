(** Specification vocabulary for texts that begin with definitions. *)
From Verif Require Import Str M_SuperChar M_Transform M_Length M_Spec M_Ast M_Token M_Symbols M_Commands M_Env
  M_LatexError M_Lexer M_CustomCmds M_Queue M_Spacing M_Leaf M_Parser M_Api S_Lexer S_Queue S_Store S_Scripts S_Formula S_Reading S_Api.
Local Open Scope nat_scope.

(** The tokens of a text as they are typed: names stay names. *)
Definition typed_tokens (input : str) : option (list recorded) :=
  match tokenize (S (length input)) (lexer_new input) with
  | Some (ts, LexEoi _) => Some (map (fun o => match o with LexTok t => RTok (fst t) | LexCmd name _ => RName name end) ts)
  | _ => None
  end.
(** Without the blanks in front. *)
Fixpoint strip (u : list recorded) : list recorded :=
  match u with RTok T_Whitespace :: r => strip r | _ => u end.

Section Defines.
Context (mean : str -> token).
(** What a typed token means. *)
Definition told (r : recorded) : token := match r with RTok t => t | RName n => mean n end.
Definition told_first (u : list recorded) : token := hd T_Eoi (map told (strip u)).

(** A name which has no meaning. *)
Definition nameless (n : str) : bool := match mean n with T_UnresolvedCommand _ => true | _ => false end.

(** The name to be defined, which may be in braces. *)
Inductive named : list recorded -> str -> list recorded -> Prop :=
| named_bare u n u' : strip u = RName n :: u' -> mean n <> T_GroupBegin -> named u n u'
| named_braced u u1 n u2 u' : strip u = RTok T_GroupBegin :: u1 -> strip u1 = RName n :: u2 -> strip u2 = RTok T_GroupEnd :: u' -> named u n u'.
(** The number of parameters: a digit in brackets, or nothing. *)
Inductive numbered : list recorded -> nat -> list recorded -> Prop :=
| numbered_none u : told_first u <> T_SquareBracketOpen -> numbered u 0 u
| numbered_some u u1 d c u2 r u' : strip u = RTok T_SquareBracketOpen :: u1 -> strip u1 = RTok d :: u2 -> unwrap_math d = T_Digit c ->
    is_ascii_digit c = true -> strip u2 = RTok r :: u' -> unwrap_math r = T_SquareBracketClose -> numbered u (N.to_nat (c - 48)) u'.
(** What is in the braces of a definition with [k] parameters becomes its body: the parameters are those of the
    definition, there are no definitions in it, and everything else is kept, the names as names. *)
Definition recorded_part (k : nat) (r : recorded) : option recorded :=
  match told r with
  | T_CustomCmdArgInput i => if i <? k then Some (RTok (T_CustomCmdArg i)) else None
  | T_NewCommand _ | T_Let | T_Def _ | T_Global => None
  | _ => Some r
  end.
Definition grouped (u : list recorded) (k : nat) (body : list recorded) (cl : option class) (u' : list recorded) : Prop :=
  exists inner, strip u = RTok T_GroupBegin :: inner ++ RTok T_GroupEnd :: u' /\ level 0 (map told inner) = Some 0 /\
    all_some (recorded_part k) inner = Some body /\ cl = find_map token_class (map told inner).
(** The source of [\let], after an optional equals sign. *)
Definition let_source (u : list recorded) (t : token) (u' : list recorded) : Prop :=
  exists u1 r, u1 = (if is_equals (unwrap_math (told_first u)) then tl (strip u) else u) /\ strip u1 = r :: u' /\ t = unwrap_math (told r) /\
    (forall n, t <> T_UnresolvedCommand n).

(** After [\def] or [\let], which may be global. *)
Inductive assigns : token -> bool -> list recorded -> defn -> list recorded -> Prop :=
| as_def g is_global u n u1 k u2 body cl u' : strip u = RName n :: u1 ->
    strip u1 = map (fun i => RTok (T_CustomCmdArgInput i)) (seq 0 k) ++ u2 -> hd_error u2 = Some (RTok T_GroupBegin) -> grouped u2 k body cl u' ->
    assigns (T_Def g) is_global u (mkDefn n k body cl true is_global) u'
| as_let is_global u n u1 t u' : strip u = RName n :: u1 -> let_source u1 t u' ->
    assigns T_Let is_global u (mkDefn n 0 [RTok t] (token_class t) true is_global) u'.
(** After [\global]. *)
Inductive assigns_globally : list recorded -> defn -> list recorded -> Prop :=
| ag_here u r u1 d u' : strip u = r :: u1 -> assigns (unwrap_math (told r)) true u1 d u' -> assigns_globally u d u'
| ag_more u r u1 d u' : strip u = r :: u1 -> unwrap_math (told r) = T_Global -> assigns_globally u1 d u' -> assigns_globally u d u'.

(** The text [u] begins with a definition, and [u'] is what comes after it. *)
Inductive defines : list recorded -> defn -> list recorded -> Prop :=
| begins_new m u r u1 n u2 k u3 body cl u' : strip u = r :: u1 -> unwrap_math (told r) = T_NewCommand m -> named u1 n u2 -> numbered u2 k u3 ->
    grouped u3 k body cl u' -> nameless n = (match m with DmRenew => false | _ => true end) ->
    defines u (mkDefn n k body cl (negb (nameless n)) false) u'
| begins_let u r u1 d u' : strip u = r :: u1 -> unwrap_math (told r) = T_Let -> assigns T_Let false u1 d u' -> defines u d u'
| begins_def g u r u1 d u' : strip u = r :: u1 -> unwrap_math (told r) = T_Def g -> assigns (T_Def g) g u1 d u' -> defines u d u'
| begins_global u r u1 d u' : strip u = r :: u1 -> unwrap_math (told r) = T_Global -> assigns_globally u1 d u' -> defines u d u'.
(** It begins with a [\providecommand] for a name that has a meaning. *)
Definition provides (u u' : list recorded) : Prop :=
  exists r u1 n u2 k u3 body cl, strip u = r :: u1 /\ unwrap_math (told r) = T_NewCommand DmProvide /\ named u1 n u2 /\ numbered u2 k u3 /\
    grouped u3 k body cl u' /\ nameless n = false.
End Defines.

(** ** The stores *)

(** The definitions of the snippet and those of the document. *)
Definition stores : Type := custom_cmds * custom_cmds.
Section Stores.
Context (cfg : parser_cfg).
Definition stores_meaning (s : stores) (name : str) : token :=
  match resolve_command cfg (fst s) (snd s) name with Some t => t | None => T_UnresolvedCommand name end.
Definition stores_source (s : stores) (src : cmd_source) (start stop : nat) : option (list recorded) :=
  cmds_body (match src with SrcConfig => pc_custom cfg | SrcDocument => snd s | SrcLocal => fst s end) start stop.
(** A definition is for the snippet, or for the document if it is global or all of them are to be. *)
Definition for_document (d : defn) : bool := df_global d || pc_global_group cfg.
Definition stored (d : defn) (s : stores) : option stores :=
  let (local, document) := s in
  if for_document d then
    match cmds_insert_or_replace_copy document local (df_name d) (df_args d) (df_body d) (df_class d) with
    | Some document' => Some (cmds_remove local (df_name d), document')
    | None => None
    end
  else Some (cmds_insert_or_replace local (df_name d) (df_args d) (df_body d) (df_class d), document).
(** With the definition the name means the macro; all other names and all bodies stay as they are. *)
Definition with_definition (d : defn) (s s' : stores) : Prop :=
  (exists src start stop, stores_meaning s' (df_name d) = T_CustomCmdRef src (df_args d) (df_class d) start stop /\
     stores_source s' src start stop = Some (df_body d)) /\
  (forall n, n <> df_name d -> stores_meaning s' n = stores_meaning s n) /\
  (forall src start stop body, stores_source s src start stop = Some body -> stores_source s' src start stop = Some body).
(** A body without references to the macros of the snippet; there are none in a text. *)
Definition no_local_ref (r : recorded) : Prop := forall n cl a b, r <> RTok (T_CustomCmdRef SrcLocal n cl a b).

(** The text [u] begins with definitions, after which the stores are [s'] and the text goes on with [u']. *)
Inductive prepared : stores -> list recorded -> list defn -> stores -> list recorded -> Prop :=
| pr_end s u : prepared s u [] s u
| pr_provided s u u1 ds s' u' : provides (stores_meaning s) u u1 -> prepared s u1 ds s' u' -> prepared s u ds s' u'
| pr_defined s u d u1 s1 ds s' u' : defines (stores_meaning s) u d u1 -> stored d s = Some s1 -> prepared s1 u1 ds s' u' -> prepared s u (d :: ds) s' u'.

(** A text that begins with definitions, and then reads as a formula with them. *)
Definition prepared_reads (gs : global_state) (input : str) (ds : list defn) (s : stores) (l : list item) : Prop :=
  exists u u' n k, typed_tokens input = Some u /\ prepared (cmds_empty, gs_cmds gs) u ds s u' /\
    (pc_ignore_unknown cfg = true \/ Forall (fun t => known t = true) (map (told (stores_meaning s)) u')) /\
    reads_items (stores_meaning s) (stores_source s) (pc_ignore_unknown cfg) (pc_max_expansions cfg) (map (told (stores_meaning s)) u') l n k /\ bare k = [].
(** What the formula means there. *)
Definition prepared_meaning (usize_max : N) (gs : global_state) (st : style) (s : stores) (l : list item) : option (list node * global_state) :=
  match den (stores_meaning s) usize_max (snippet_ctx st) l (snippet_nu gs) with
  | Some (ns, d) => Some (ns, mkGs (nu_count d) (nu_labels d) (snd s))
  | None => None
  end.
End Stores.
