-Q theories Verif

theories/RustBase.v
theories/Addr.v
theories/Cidr.v
theories/BitManip.v
theories/Net.v
theories/Regex.v
theories/Parse.v
theories/Derange.v
theories/Minimize.v
theories/Split.v
theories/Resize.v
theories/Enumerate.v
theories/Console.v
theories/ShowNet.v
theories/Main.v
theories/Env.v
theories/Spec.v
theories/Bits.v
theories/Weave.v
theories/Bytes.v
theories/Laws.v
theories/Demo.v
theories/Family.v
theories/NetFacts.v
theories/P_Addr.v
theories/P_Bits.v
theories/P_Net.v
theories/Pf_Addr.v
theories/Pf_Bits.v
theories/Pf_Net.v
theories/SetFacts.v
theories/Blocks.v
theories/DerangeFacts.v
theories/EnumFacts.v
theories/Loops.v
theories/Observe.v
theories/P_Derange.v
theories/P_Enum.v
theories/P_Resize.v
theories/Pf_Derange.v
theories/Pf_Enum.v
theories/ResizeFacts.v
theories/Pf_Resize.v
theories/EnvFacts.v
theories/MinimizeFacts.v
theories/Order.v
theories/P_Minimize.v
theories/Pf_Minimize.v
theories/P_Split.v
theories/Pf_Split.v
theories/SpecIO.v
theories/SplitFacts.v
theories/P_Text.v
theories/Pf_Text.v
theories/SpecText.v
theories/TextFacts.v
theories/P_Netspec.v
theories/Pf_Netspec.v
theories/RegexFacts.v
theories/P_Show.v
theories/Pf_Show.v
theories/SpecShow.v
theories/P_Main.v
theories/Pf_Main.v
theories/SpecMain.v
theories/RepoTests.v
theories/P_Compose.v
theories/Pf_Compose.v
theories/P_Runs.v
theories/Pf_Runs.v
theories/Messages.v
theories/Process.v
theories/P_Process.v
theories/Pf_Process.v
theories/SpecProcess.v
theories/Utf8Facts.v
theories/P_Messages.v
theories/P_Pipes.v
theories/Pf_Messages.v
theories/Pf_Pipes.v
theories/SpecMessages.v
theories/P_Cost.v
theories/Pf_Cost.v
theories/SpecCost.v
theories/P_Told.v
theories/Pf_Told.v
theories/SpecTold.v
theories/P_Join.v
theories/Pf_Join.v
theories/SpecJoin.v
theories/P_Count.v
theories/P_Move.v
theories/Pf_Count.v
theories/Pf_Move.v
theories/SpecCount.v
theories/SpecMove.v
theories/P_Embed.v
theories/Pf_Embed.v
theories/P_Crash.v
theories/Pf_Crash.v
theories/P_Steps.v
theories/Pf_Steps.v
theories/P_Sink.v
theories/Pf_Sink.v
theories/Sink.v
theories/P_Args.v
theories/Pf_Args.v
theories/P_Refuse.v
theories/Pf_Refuse.v
theories/SpecRefuse.v
theories/P_Whole.v
theories/Pf_Whole.v
theories/SpecWhole.v
theories/P_Files.v
theories/Pf_Files.v
theories/SpecFiles.v
theories/Derived.v
theories/P_Derived.v
theories/Pf_Derived.v
theories/SpecOrder.v
theories/Hashing.v
theories/P_Fate.v
theories/P_Hash.v
theories/P_Padding.v
theories/Padding.v
theories/Pf_Fate.v
theories/Pf_Hash.v
theories/Pf_Padding.v
theories/SpecFate.v
theories/SpecHash.v
theories/P_Screen.v
theories/Pf_Screen.v
theories/Screen.v
theories/SpecScreen.v
theories/Colours.v
theories/P_Colours.v
theories/Pf_Colours.v
theories/SpecColours.v
theories/P_Table.v
theories/Pf_Table.v
theories/SpecTable.v
theories/Debugging.v
theories/P_Debug.v
theories/Pf_Debug.v
theories/SpecDebug.v
theories/P_Amount.v
theories/Pf_Amount.v
theories/SpecAmount.v
theories/P_Panic.v
theories/Panics.v
theories/Pf_Panic.v
theories/SpecPanic.v
theories/P_Synonym.v
theories/Pf_Synonym.v
theories/SpecSynonym.v
theories/ReadmeTests.v
theories/P_Order.v
theories/Pf_Order.v
theories/SpecOrdering.v
theories/P_Package.v
theories/Package.v
theories/Pf_Package.v
theories/SpecPackage.v
theories/P_Packing.v
theories/Packing.v
theories/Pf_Packing.v
theories/SpecPacking.v
theories/P_Revision.v
theories/Pf_Revision.v
theories/Revision.v
theories/SpecRevision.v
