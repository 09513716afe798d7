-Q theories Verif

theories/Base.v
theories/Utf8.v
theories/Utf8Spec.v
theories/Errors.v
theories/Lex.v
theories/LexTests.v
theories/Ast.v
theories/Comments.v
theories/AttachSpec.v
theories/Attach.v
theories/Parse.v
theories/Lines.v
theories/Descriptor.v
theories/Generate.v
theories/ParseApi.v
theories/ParseTests.v
theories/Paths.v
theories/Resolver.v
theories/DescSet.v
theories/Compiler.v
theories/CompilerProofs.v
theories/CompilerHistory.v
theories/PropsCompiler.v
theories/PropsPaths.v
theories/PropsDescSet.v
theories/PropsLines.v
theories/LexSpec.v
theories/PropsLex1.v
theories/LexSafe.v
theories/Stream.v
theories/PropsLex.v
theories/StrSpec.v
theories/PropsStr.v
theories/CommentSpec.v
theories/PropsComment.v
theories/Grammar.v
theories/Classify.v
theories/SynSpec.v
theories/LexErr.v
theories/Utf8Lossy.v
theories/Walk.v
theories/WalkG1.v
theories/WalkG2.v
theories/WalkG3.v
theories/Meaning.v
theories/Erase.v
theories/AstWf.v
theories/GenProofs.v
theories/AstWfG.v
theories/PropsParse.v
theories/DescSpec.v
theories/DescLemmas.v
theories/DescWf.v
theories/Decimal.v
theories/PropsDesc.v
theories/PropsDesc2.v
theories/PropsOpts.v
theories/Complete1.v
theories/Complete2.v
theories/Complete3.v
theories/PropsComplete.v
theories/PropsTokens.v
theories/LocSpec.v
theories/AstNames.v
theories/PropsLoc.v
theories/PropsImport.v
theories/PropsDefault.v
theories/Main.v
theories/PropsMain.v
theories/AttachDecl.v
theories/PropsAttach.v
theories/AstNest.v
theories/LocTree.v
theories/PropsTree.v
theories/AstOpts.v
theories/PropsAggregate.v
theories/ErrSpec.v
theories/PropsErr.v
theories/PropsSyn.v
theories/SpaceSpec.v
theories/Insert.v
theories/PropsInsert.v
theories/Kept.v
theories/Keeps.v
theories/Viable1.v
theories/Viable2.v
theories/Viable3.v
theories/Viable4.v
theories/Local.v
theories/PropsLocal.v
theories/ViableText.v
theories/ViableDup.v
theories/PropsViable.v
theories/PathSpec.v
theories/PathOnce.v
theories/PropsPath.v
theories/SpanSpec.v
theories/Lam.v
theories/PropsNest.v
theories/SumSpec.v
theories/Weaken.v
theories/Ends.v
theories/PropsSum.v
theories/OpenSpec.v
theories/PropsOpen.v
theories/EdgeSpec.v
theories/CharEdge.v
theories/Edge.v
theories/PropsBoundary.v
theories/ErrText.v
theories/TextSpec.v
theories/PropsText.v
theories/SameTokens.v
theories/WriteSpec.v
theories/WriteProofs.v
theories/WriteFields.v
theories/WriteMessage.v
theories/WriteFile.v
theories/WriteLex.v
theories/PropsWrite.v
theories/WriteBack.v
theories/WriteBack2.v
theories/WriteBack3.v
theories/WriteBack4.v
theories/PropsWriteBack.v
theories/PropsName.v
theories/PropsAdvice.v
theories/HelpSpec.v
theories/PropsHelp.v
