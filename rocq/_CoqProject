-Q theories Verif
theories/Base.v
theories/Chars.v
theories/Utf.v
theories/State.v
theories/Reader.v
theories/Scanner.v
theories/Parser.v
theories/EState.v
theories/Emitter.v
theories/Document.v
theories/Api.v
theories/Conformance.v
theories/Wp.v
theories/ReaderFacts.v
theories/Spec_Tokens.v
theories/ScanFacts.v
theories/DocFacts.v
theories/TokFacts.v
theories/FetchFacts.v
theories/FetchWp.v
theories/FetchLoop.v
theories/FlowFacts.v
theories/Spec_Scanner.v
theories/SessionFacts.v
theories/Prop_Basics.v
theories/Prop_Scanner.v
theories/Prop_Findings.v
theories/Utf8Facts.v
theories/ReadFacts.v
theories/IoFacts.v
theories/Spec_Reader.v
theories/Spec_Parser.v
theories/ReadUtf16.v
theories/Prop_Reader.v
theories/Prop_Utf16.v
theories/Spec_Events.v
theories/EventFacts.v
theories/ParserFacts.v
theories/ParserWalk.v
theories/ParserWalk2.v
theories/ParserWalk3.v
theories/ParserWalk4.v
theories/ParserSession.v
theories/Prop_Parser.v
theories/Spec_Document.v
theories/LoadFacts.v
theories/LoadAlias.v
theories/LoadSession.v
theories/NumberFacts.v
theories/LoadBack.v
theories/Prop_Document.v
theories/EmitText.v
theories/EmitRuns.v
theories/EmitIo.v
theories/EmitChars.v
theories/Spec_Emitter.v
theories/EmitSession.v
theories/Utf16Facts.v
theories/Prop_Emitter.v
theories/Spec_EmitNames.v
theories/EmitGrammar.v
theories/Prop_EmitGrammar.v
theories/Spec_Styles.v
theories/StyleFacts.v
theories/Prop_Styles.v
theories/DumpAnchors.v
theories/Spec_Dump.v
theories/DumpFacts.v
theories/DumpAll.v
theories/DumpTree.v
theories/DumpOpen.v
theories/Prop_Dump.v
theories/Chunk.v
theories/ChunkScan.v
theories/ChunkParse.v
theories/Prop_Chunk.v
theories/EmitScalar.v
theories/RoundScan.v
theories/EmitQuoted.v
theories/EmitSingle.v
theories/Spec_RoundTrip.v
theories/RoundCarry.v
theories/RoundPlain.v
theories/EmitPlain.v
theories/RoundLiteral.v
theories/EmitLiteral.v
theories/Spec_Folded.v
theories/EmitFolded.v
theories/Prop_RoundTrip.v
theories/CanonLex.v
theories/CanonBody.v
theories/CanonItems.v
theories/CanonEmit.v
theories/CanonToks.v
theories/CanonStep.v
theories/CanonRun.v
theories/Spec_Canonical.v
theories/CanonParse.v
theories/CanonRead.v
theories/Prop_Canonical.v
theories/Spec_Save.v
theories/SaveFacts.v
theories/SaveLoad.v
theories/SaveRun.v
theories/Prop_Save.v
theories/Spec_Lexical.v
theories/LexBase.v
theories/LexScan.v
theories/LexNames.v
theories/LexQuoted.v
theories/LexPlain.v
theories/LexBlock.v
theories/LexFetch.v
theories/LexQueue.v
theories/LexNext.v
theories/Prop_Lexical.v
theories/LayItems.v
theories/LayLex.v
theories/LayScan.v
theories/Spec_Layout.v
theories/LayToks.v
theories/LayParse.v
theories/LayKeys.v
theories/LayEmit.v
theories/LayWrite.v
theories/LayNode.v
theories/LayStep.v
theories/LayDoc.v
theories/LayRun.v
theories/LayRead.v
theories/Prop_Layout.v
theories/Spec_Kept.v
theories/LaySave.v
theories/Prop_Kept.v
theories/Prop_Reformat.v
theories/Prop_Copy.v
theories/Spec_Resave.v
theories/LoadedWalk.v
theories/Prop_Resave.v
theories/Tools.v
theories/Spec_Notation.v
theories/NotationFacts.v
theories/NotationLine.v
theories/ToolRun.v
theories/Prop_Tools.v
theories/Recode.v
theories/RecodeScan.v
theories/RecodeParse.v
theories/Prop_Recode.v
theories/WideLayout.v
theories/WideCanonical.v
theories/Prop_Wide.v
theories/Prop_WideSave.v
theories/Errors.v
theories/Kinds.v
theories/Prop_Errors.v
theories/Located.v
theories/LocatedWalk.v
theories/Prop_Located.v
