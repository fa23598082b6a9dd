-Q theories Verif
theories/L_Absorb.v
theories/L_Api.v
theories/L_Args.v
theories/L_Bindings.v
theories/L_Blank.v
theories/L_Choice.v
theories/L_Cli.v
theories/L_Color.v
theories/L_ColorForm.v
theories/L_Convert.v
theories/L_Define.v
theories/L_Defs.v
theories/L_DictRow.v
theories/L_Dictionary.v
theories/L_Document.v
theories/L_Emit.v
theories/L_Ends.v
theories/L_Env.v
theories/L_Error.v
theories/L_Escape.v
theories/L_Exec.v
theories/L_Expand.v
theories/L_Exposed.v
theories/L_Faith.v
theories/L_Faulty.v
theories/L_FaultyLex.v
theories/L_FaultySeq.v
theories/L_FaultyTok.v
theories/L_Form.v
theories/L_FormArg.v
theories/L_FormEq.v
theories/L_FormHead.v
theories/L_FormLex.v
theories/L_FormSeq.v
theories/L_Intern.v
theories/L_Keep.v
theories/L_Layout.v
theories/L_Leaf.v
theories/L_Let.v
theories/L_Lexer.v
theories/L_Main.v
theories/L_Markup.v
theories/L_Meaning.v
theories/L_Messages.v
theories/L_Names.v
theories/L_Node.v
theories/L_Numbers.v
theories/L_Once.v
theories/L_Permit.v
theories/L_Pool.v
theories/L_Preamble.v
theories/L_Queue.v
theories/L_Raise.v
theories/L_Read.v
theories/L_ReadBack.v
theories/L_Readable.v
theories/L_Reads.v
theories/L_Run.v
theories/L_Scripts.v
theories/L_Shown.v
theories/L_Sound.v
theories/L_Spacing.v
theories/L_Span.v
theories/L_Spec.v
theories/L_Store.v
theories/L_SuperChar.v
theories/L_Table.v
theories/L_Tagged.v
theories/L_TaggedAll.v
theories/L_TaggedEnv.v
theories/L_TaggedHead.v
theories/L_Tags.v
theories/L_Text.v
theories/L_TextScope.v
theories/L_Tidy.v
theories/L_Tool.v
theories/L_Transform.v
theories/L_Tree.v
theories/L_UnicodeMath.v
theories/L_Valid.v
theories/L_Weight.v
theories/L_WinLeaf.v
theories/L_Wins.v
theories/L_Wp.v
theories/M_Api.v
theories/M_Ast.v
theories/M_Bindings.v
theories/M_Cli.v
theories/M_Colors.v
theories/M_Commands.v
theories/M_CustomCmds.v
theories/M_Emit.v
theories/M_Env.v
theories/M_Error.v
theories/M_Escape.v
theories/M_LatexError.v
theories/M_Leaf.v
theories/M_Length.v
theories/M_Lexer.v
theories/M_Main.v
theories/M_Output.v
theories/M_Parser.v
theories/M_Pool.v
theories/M_Queue.v
theories/M_Spacing.v
theories/M_Spec.v
theories/M_SuperChar.v
theories/M_Symbols.v
theories/M_TextParser.v
theories/M_Token.v
theories/M_Tool.v
theories/M_Transform.v
theories/P_Api.v
theories/P_Bindings.v
theories/P_Choice.v
theories/P_Cli.v
theories/P_Color.v
theories/P_Convert.v
theories/P_Dictionary.v
theories/P_Emit.v
theories/P_Env.v
theories/P_Escape.v
theories/P_Faulty.v
theories/P_Formula.v
theories/P_Intern.v
theories/P_Let.v
theories/P_Lexer.v
theories/P_Main.v
theories/P_MathML.v
theories/P_Messages.v
theories/P_Names.v
theories/P_Numbers.v
theories/P_Permit.v
theories/P_Pool.v
theories/P_Preamble.v
theories/P_Queue.v
theories/P_Reading.v
theories/P_Safe.v
theories/P_Scripts.v
theories/P_Spacing.v
theories/P_Span.v
theories/P_Spec.v
theories/P_Store.v
theories/P_SuperChar.v
theories/P_Tagged.v
theories/P_Text.v
theories/P_Tool.v
theories/P_Transform.v
theories/P_UnicodeMath.v
theories/P_Valid.v
theories/S_Api.v
theories/S_Bindings.v
theories/S_Choice.v
theories/S_Cli.v
theories/S_Color.v
theories/S_Convert.v
theories/S_Dictionary.v
theories/S_Emit.v
theories/S_Env.v
theories/S_Exposed.v
theories/S_Faulty.v
theories/S_Formula.v
theories/S_Html.v
theories/S_Intern.v
theories/S_Lexer.v
theories/S_Main.v
theories/S_MathML.v
theories/S_Messages.v
theories/S_Names.v
theories/S_Node.v
theories/S_Numbers.v
theories/S_Permit.v
theories/S_Pool.v
theories/S_Preamble.v
theories/S_Queue.v
theories/S_Reading.v
theories/S_Run.v
theories/S_Scripts.v
theories/S_Shown.v
theories/S_Spacing.v
theories/S_Span.v
theories/S_Spec.v
theories/S_Store.v
theories/S_SuperChar.v
theories/S_Tagged.v
theories/S_Text.v
theories/S_Tidy.v
theories/S_Tool.v
theories/S_Transform.v
theories/S_Tree.v
theories/S_UnicodeMath.v
theories/S_Valid.v
theories/S_Xml.v
theories/Str.v
