-Q theories Verif
theories/Bytes.v
theories/StrUtils.v
theories/Grammar.v
theories/Outcome.v
theories/Parser.v
theories/Num.v
theories/Containers.v
theories/Instance.v
theories/Context.v
theories/Clock.v
theories/Server.v
theories/Platform.v
theories/UnitTests.v
theories/Spec_Grammar.v
theories/Lemmas.v
theories/StringLit.v
theories/Proof_Grammar.v
theories/Proof_Parser.v
theories/Props_Language.v
theories/Spec_Text.v
theories/Spec_Number.v
theories/Spec_Float.v
theories/Spec_Literal.v
theories/Spec_State.v
theories/Proof_Exec.v
theories/WP.v
theories/Proof_Inv.v
theories/Proof_TextLit.v
theories/Proof_Number.v
theories/Proof_Float.v
theories/Proof_Arith.v
theories/Proof_Literal.v
theories/Proof_Receive.v
theories/Spec_Names.v
theories/Proof_Context.v
theories/Proof_Names.v
theories/Api.v
theories/Props_State.v
theories/Proof_Text.v
theories/Props_Text.v
theories/Props_Number.v
theories/Props_Float.v
theories/Spec_Order.v
theories/Proof_Order.v
theories/Props_Order.v
theories/Spec_Vector.v
theories/Proof_Vector.v
theories/Props_Vector.v
theories/Spec_String.v
theories/Proof_String.v
theories/Proof_Print.v
theories/Props_String.v
theories/Spec_Set.v
theories/Proof_Set.v
theories/Proof_Exact.v
theories/Props_Set.v
theories/Spec_Server.v
theories/Proof_Server.v
theories/Props_Server.v
theories/Spec_Object.v
theories/Props_Object.v
theories/Proof_PrintDict.v
theories/Props_Print.v
theories/Main.v
theories/Spec_Start.v
theories/Props_Start.v
theories/Spec_Util.v
theories/Props_Util.v
theories/Spec_Local.v
theories/Spec_Storable.v
theories/Proof_Local.v
theories/Props_Local.v
theories/Proof_Log.v
theories/Props_Log.v
theories/Props_Sorter.v
theories/Proof_Storable.v
theories/Props_Storable.v
theories/Spec_Clients.v
theories/Props_Clients.v
theories/Spec_Repeat.v
theories/Proof_Repeat.v
theories/Props_Repeat.v
theories/Spec_Origin.v
theories/Proof_Origin.v
theories/Props_Origin.v
theories/Spec_Alone.v
theories/Props_Alone.v
theories/Spec_Readme.v
theories/Props_Readme.v
theories/Spec_Manual.v
theories/Proof_Manual.v
theories/Props_Manual.v
theories/Spec_Whole.v
theories/Proof_Whole.v
theories/Props_Whole.v
theories/Spec_Errors.v
theories/Proof_Errors.v
theories/Props_Errors.v
theories/Spec_Clock.v
theories/Proof_Clock.v
theories/Props_Clock.v
theories/Spec_Undefined.v
theories/Proof_Undefined.v
theories/Props_Undefined.v
theories/Spec_Observe.v
theories/Proof_Observe.v
theories/Props_Observe.v
theories/Process.v
theories/Spec_Process.v
theories/Props_Process.v
theories/Spec_Linear.v
theories/Props_Linear.v
theories/Spec_Undo.v
theories/Props_Undo.v
theories/Spec_Live.v
theories/Props_Live.v
theories/Spec_Coherent.v
theories/Props_Coherent.v
theories/Spec_Possible.v
theories/Props_Possible.v
theories/Spec_Secret.v
theories/Props_Secret.v
theories/Spec_Backup.v
theories/Props_Backup.v
theories/Spec_Display.v
theories/Proof_Display.v
theories/Props_Display.v
theories/Spec_Tolerance.v
theories/Proof_Tolerance.v
theories/Props_Tolerance.v
theories/Spec_Rename.v
theories/Proof_Rename.v
theories/Props_Rename.v
theories/Spec_Trace.v
theories/Proof_Trace.v
theories/Props_Trace.v
theories/Spec_Safe.v
theories/Props_Safe.v
theories/Spec_Recover.v
theories/Props_Recover.v
theories/Spec_Anyone.v
theories/Props_Anyone.v
theories/Spec_LastWrite.v
theories/Props_LastWrite.v
theories/Spec_Length.v
theories/Proof_Length.v
theories/Props_Length.v
theories/Spec_Described.v
theories/Props_Described.v
theories/Spec_Small.v
theories/Proof_Small.v
theories/Props_Small.v
theories/Props_Few.v
theories/Spec_Publish.v
theories/Props_Publish.v
theories/Spec_Lock.v
theories/Props_Lock.v
theories/Props_Calm.v
theories/Spec_Barrier.v
theories/Props_Barrier.v
theories/Spec_Sizes.v
theories/Props_Sizes.v
theories/Spec_Follow.v
theories/Props_Follow.v
theories/Spec_Grow.v
theories/Props_Grow.v
