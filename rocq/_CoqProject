-Q theories Verif
theories/Base.v
theories/Float.v
theories/Tokens.v
theories/Ast.v
theories/Pn.v
theories/ToPN.v
theories/Ctx.v
theories/Locator.v
theories/Lexer.v
theories/Parser.v
theories/Messages.v
theories/Literal.v
theories/Visit.v
theories/Validator.v
theories/Api.v
theories/Conform.v
theories/ConformParser.v
theories/ConformValidator.v
theories/Utf8Facts.v
theories/SpecReader.v
theories/ReaderProof.v
theories/SpecPn.v
theories/PnProof.v
theories/LocatorProof.v
theories/SpecVisit.v
theories/VisitProof.v
theories/SpecLiteral.v
theories/LiteralProof.v
theories/SpecValidate.v
theories/ValidateProof.v
theories/SpecToPN.v
theories/ToPNProof.v
theories/ApiProof.v
theories/Wp.v
theories/LexFrame.v
theories/SpecShape.v
theories/ShapeBase.v
theories/ShapeLex.v
theories/ShapeParse.v
theories/PropertiesData.v
theories/PropertiesTree.v
theories/SpecParse.v
theories/ParseProof.v
theories/PropertiesParse.v
theories/FuelMono.v
theories/LexBase.v
theories/SpecStrip.v
theories/SpecText.v
theories/SpecLex.v
theories/GapProof.v
theories/LexTokens.v
theories/LexPunct.v
theories/Evals.v
theories/LexStrings.v
theories/LexStream.v
theories/EppProof.v
theories/LexTags.v
theories/LexCur.v
theories/SpecGrammar.v
theories/SpecSplice.v
theories/Ends.v
theories/GrammarBase.v
theories/GrammarFirst.v
theories/GrammarTree.v
theories/GrammarSem.v
theories/GrammarAtoms.v
theories/GrammarExprs.v
theories/GrammarStmts.v
theories/GrammarLists.v
theories/GrammarChain.v
theories/GrammarDefs.v
theories/GrammarRes.v
theories/SpecSteps.v
theories/GrammarSteps.v
theories/GrammarMain.v
theories/SpliceProof.v
theories/SpecManifest.v
theories/GrammarTop.v
theories/GrammarSpace.v
theories/GrammarUse.v
theories/SpecOps.v
theories/SpecTemplate.v
theories/GrammarOps.v
theories/GrammarCalls.v
theories/SpecEpp.v
theories/GrammarEpp.v
theories/SpecFloat.v
theories/FloatProof.v
theories/FloatText.v
theories/PropertiesFloat.v
theories/PropertiesGrammar.v
theories/PropertiesSplice.v
theories/PropertiesTemplate.v
theories/SpecPnTree.v
theories/PnTreeProof.v
theories/PropertiesPn.v
theories/PosBase.v
theories/PosLex.v
theories/PosSpec.v
theories/PosTok.v
theories/PosParse.v
theories/PosBodies.v
theories/PosMain.v
theories/PosTop.v
theories/PropertiesTerm.v
theories/CalmFrame.v
theories/CalmBase.v
theories/CalmLex.v
theories/CalmParse.v
theories/RngBase.v
theories/RngSpec.v
theories/RngLex.v
theories/RngTree.v
theories/RngParse.v
theories/RngTop.v
theories/PropertiesCrash.v
theories/PropertiesEpp.v
theories/SpecHeredoc.v
theories/HeredocProof.v
theories/PropertiesHeredoc.v
theories/SpecReuse.v
theories/ReuseProof.v
theories/PropertiesReuse.v
theories/StepsProof.v
theories/PropertiesSteps.v
theories/WholeProof.v
theories/PropertiesWhole.v
theories/LexSim.v
theories/PropertiesSimple.v
theories/SpecLexErr.v
theories/LexErr.v
theories/PropertiesErrors.v
theories/SpecOptions.v
theories/OptSim.v
theories/PropertiesOptions.v
theories/SpecFound.v
theories/FoundSim.v
theories/PropertiesFound.v
theories/SpecRules.v
theories/RulesProof.v
theories/PropertiesRules.v
