(** Model of crates/math-core/src/lib.rs:425-500: from a list of nodes to the [<math>] element. *)
From Verif Require Import Str M_Escape M_Length M_Ast M_Emit.

(** lib.rs:92-99 [MathDisplay], 106-115 [PrettyPrint] *)
Inductive math_display := Inline | Block.
Inductive pretty_print := PpNever | PpAlways | PpAuto.

(** lib.rs:234-243 [EmitterConfig]; [ec_dtoa] is the float formatter. *)
Record emitter_cfg := mkEmitterCfg {
  ec_pretty : pretty_print;
  ec_xml_namespace : bool;
  ec_annotation : bool;
  ec_css_unknown : str;
  ec_indentation : indentation;
  ec_id_prefix : str;
  ec_dtoa : f32 -> str
}.

(** lib.rs:496-500 [ConvertResult] *)
Record convert_result := mkConvertResult { cr_mathml : str; cr_warnings : warnings }.

Definition is_pretty (c : emitter_cfg) (d : math_display) : bool :=
  match ec_pretty c, d with
  | PpAlways, _ => true
  | PpAuto, Block => true
  | _, _ => false
  end.

Definition env_of (c : emitter_cfg) (labels : str -> option str) : emit_env :=
  mkEmitEnv labels (ec_css_unknown c) (ec_indentation c) (ec_id_prefix c) (ec_dtoa c).

(** [escape_html_content] appended to the output; it never runs out of fuel (C01). *)
Definition annotation_text (latex : str) : str :=
  match escape_html_content [] latex with Some t => t | None => [] end.

Definition nodes_warnings (labels : str -> option str) (l : list node) : warnings :=
  fold_right (fun x acc => warn_or (node_warnings labels x) acc) warn_none l.

(** lib.rs:425-494 [emit] *)
Definition emit_document (c : emitter_cfg) (labels : str -> option str) (ast : list node)
    (latex : str) (d : math_display) : convert_result :=
  let e := env_of c labels in
  let base := if is_pretty c d then 1%nat else O in
  let open :=
    lit "<math" ++
    (if ec_xml_namespace c then lit " xmlns=""http://www.w3.org/1998/Math/MathML""" else []) ++
    match d with Block => lit " display=""block""" | Inline => [] end ++ lit ">" in
  let close := (if is_pretty c d then [10] else []) ++ lit "</math>" in
  if ec_annotation c then
    let child := if is_pretty c d then 2%nat else O in
    let n := node_vec_to_node ast false in
    mkConvertResult
      (open ++ nl e base ++ lit "<semantics>" ++ emit e n child ++
       nl e child ++ lit "<annotation encoding=""application/x-tex"">" ++ annotation_text latex ++
       lit "</annotation>" ++ nl e base ++ lit "</semantics>" ++ close)
      (node_warnings labels n)
  else
    mkConvertResult
      (open ++ concat (map (fun n => emit e n base) ast) ++ close)
      (nodes_warnings labels ast).
