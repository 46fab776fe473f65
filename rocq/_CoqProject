-Q theories Verif
theories/Bytes.v
theories/Token.v
theories/Tables.v
theories/Lexer.v
theories/Ast.v
theories/Prog.v
theories/Parser.v
theories/Codegen.v
theories/Visitor.v
theories/Astgen.v
theories/ErrorFmt.v
theories/Sanity.v
theories/SpecLexer.v
theories/SpecTokens.v
theories/SpecRead.v
theories/LexerFacts.v
theories/ConsumeFacts.v
theories/LexEval.v
theories/ProgFacts.v
theories/StateFacts.v
theories/TokenText.v
theories/SpecTree.v
theories/LexProps.v
theories/ErrorFacts.v
theories/PropLexer.v
theories/PropErrors.v
theories/Structure.v
theories/PropTree.v
theories/AstInd.v
theories/SpecCodegen.v
theories/CodegenFacts.v
theories/ParseFacts.v
theories/PropCodegen.v
theories/PropParse.v
theories/SpecVisit.v
theories/VisitFacts.v
theories/Transform.v
theories/PropVisit.v
theories/SpecPos.v
theories/PosFacts.v
theories/NodeText.v
theories/SpecChunks.v
theories/ChunkText.v
theories/PropPos.v
theories/Gets.v
theories/SpecPrec.v
theories/Levels.v
theories/Foreign.v
theories/Chain.v
theories/PropPrec.v
theories/SpecRound.v
theories/SpecPlain.v
theories/RoundBase.v
theories/RoundExpr.v
theories/RoundParts.v
theories/RoundProps.v
theories/RoundArrow.v
theories/RoundStmt.v
theories/RoundFor.v
theories/RoundImport.v
theories/RoundTrip.v
theories/PlainFacts.v
theories/PropRound.v
theories/SpecAst.v
theories/AstFacts.v
theories/PropAst.v
theories/SpecJson.v
theories/JsonFacts.v
theories/PropJson.v
theories/SpecUtf8.v
theories/Boundary.v
theories/Utf8Facts.v
theories/TextUtf8.v
theories/CodeUtf8.v
theories/PropUtf8.v
theories/SpecError.v
theories/MessageFacts.v
theories/PropMessage.v
theories/SpecTrace.v
theories/Local.v
theories/LocalLex.v
theories/LocalConsume.v
theories/SpecGap.v
theories/Cross.v
theories/Erase.v
theories/TraceFacts.v
theories/GapSim.v
theories/GapFacts.v
theories/Valid.v
theories/WholeFacts.v
theories/PropGap.v
theories/Returns.v
theories/SpecHazard.v
theories/HazardFacts.v
theories/ReturnFacts.v
theories/PropReturn.v
theories/SpecMirror.v
theories/MirrorFacts.v
theories/PropMirror.v
theories/SpecNest.v
theories/Nest.v
theories/EndFacts.v
theories/PropNest.v
theories/SpecGrammar.v
theories/SpecLexemes.v
theories/Grammar.v
theories/GramA.v
theories/GramB.v
theories/GramC.v
theories/GramRun.v
theories/PropGrammar.v
theories/SpecSyntax.v
theories/SpecReading.v
theories/Comp.v
theories/CompA.v
theories/CompB.v
theories/CompC.v
theories/CompD.v
theories/CompE.v
theories/CompF.v
theories/CompG.v
theories/CompH.v
theories/CompI.v
theories/CompRun.v
theories/CompLex.v
theories/CompStream.v
theories/Sound.v
theories/SoundA.v
theories/SoundB.v
theories/SoundC.v
theories/SoundD.v
theories/SoundRun.v
theories/PropSyntax.v
theories/SpecScope.v
theories/ScopeFacts.v
theories/ListFacts.v
theories/PropScope.v
theories/PropCompact.v
theories/SpecCost.v
theories/Cost.v
theories/CostFacts.v
theories/PropCost.v
theories/ConcatGram.v
theories/ConcatLex.v
theories/PropConcat.v
theories/SpellFacts.v
theories/LenGram.v
theories/LenLex.v
theories/PropLength.v
theories/ErrLocal.v
theories/PropPrefix.v
theories/SpecRecover.v
theories/JsonInj.v
theories/PropRecover.v
theories/PropWrap.v
theories/DebugFmt.v
theories/SpecDebug.v
theories/DebugInj.v
theories/ShowInj.v
theories/DebugGood.v
theories/DebugQuote.v
theories/PropDebug.v
theories/JsonText.v
theories/SpecJsonText.v
theories/JsonTextFacts.v
theories/JsonRead.v
theories/JsonUtf8.v
theories/ReportUtf8.v
theories/PropJsonText.v
theories/PropContext.v
theories/SpecRename.v
theories/RenameFacts.v
theories/PropRename.v
theories/PropSemicolon.v
theories/SpecEdges.v
theories/EdgeFacts.v
theories/PropEdges.v
theories/SpecOrder.v
theories/OrderFacts.v
theories/PropOrder.v
theories/SpecEmpty.v
theories/PropEmpty.v
theories/PropCompactStmt.v
