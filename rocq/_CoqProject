-Q theories Verif
theories/Str.v
theories/Exn.v
theories/Regex.v
theories/Token.v
theories/Dict.v
theories/Env.v
theories/EnvFacts.v
theories/NodeArgs.v
theories/PropertiesEnv.v
theories/TM.v
theories/SpecTM.v
theories/TMFacts.v
theories/P.v
theories/PropertiesTM.v
theories/PRefine.v
theories/Lexer.v
theories/DocLexer.v
theories/SpecLexer.v
theories/LexerFacts.v
theories/InlineLexer.v
theories/InlineInst.v
theories/DocLexerFacts.v
theories/DocLexerProps.v
theories/LexerThms.v
theories/SpecLines.v
theories/LineFacts.v
theories/PropertiesLexer.v
theories/PropertiesLines.v
theories/SpecGrammar.v
theories/PropertiesGrammar.v
theories/ParseFacts.v
theories/Preproc.v
theories/SpecPre.v
theories/PropertiesPre.v
theories/Cond.v
theories/PropertiesCond.v
theories/Args.v
theories/SpecArgs.v
theories/PropertiesArgs.v
theories/TextParser.v
theories/SpecText.v
theories/TextFacts.v
theories/MacroFacts.v
theories/PropertiesText.v
theories/PropertiesTotal.v
theories/PropertiesMacro.v
theories/PropertiesReg.v
theories/Managers.v
theories/SpecManagers.v
theories/PropertiesManagers.v
theories/Engines.v
theories/SpecEngines.v
theories/PropertiesEngines.v
theories/DocParser.v
theories/SpecDoc.v
theories/TermFacts.v
theories/TermText.v
theories/DocFacts.v
theories/RunFacts.v
theories/SpecLists.v
theories/PropertiesDoc.v
theories/SpecAttach.v
theories/AttachFacts.v
theories/PropertiesAttach.v
theories/SpecTree.v
theories/PropertiesTree.v
theories/SpecInclude.v
theories/SimFacts.v
theories/TermFiles.v
theories/MonoFacts.v
theories/PropertiesInclude.v
theories/PropertiesPlaces.v
theories/SpecErrors.v
theories/ErrFacts.v
theories/ErrDoc.v
theories/PropertiesErrors.v
theories/SpecPlaces.v
theories/PlaceFacts.v
theories/PlaceText.v
theories/PlaceInline.v
theories/PlaceNodes.v
theories/PlaceDoc.v
theories/PlaceRun.v
theories/PropertiesVars.v
theories/SpecNumbers.v
theories/NumText.v
theories/NumDoc.v
theories/SpecWhole.v
theories/WholeFacts.v
theories/PropertiesNumbers.v
theories/PropertiesWhole.v
theories/Jinja.v
theories/SpecJinja.v
theories/PropertiesJinja.v
theories/Visitor.v
theories/SpecVisitor.v
theories/PropertiesVisitor.v
theories/PropertiesVisit.v
theories/PropertiesTemplate.v
theories/SpecRender.v
theories/Build.v
theories/BuildFacts.v
theories/PropertiesBuild.v
theories/RenderFacts.v
theories/ShowFacts.v
theories/SpecParents.v
theories/SpecObjects.v
theories/ObjFacts.v
theories/ParentFacts.v
theories/HomeFacts.v
theories/PropertiesRender.v
theories/PropertiesShow.v
theories/PropertiesObjects.v
theories/PropertiesParents.v
theories/Cli.v
theories/PropertiesCli.v
theories/Messages.v
theories/PropertiesMessages.v
theories/Folder.v
theories/PropertiesFolder.v
theories/SpecAnchors.v
theories/Anchors.v
theories/AnchorFacts.v
theories/PropertiesAnchors.v
theories/SpecDrawn.v
theories/DrawFacts.v
theories/Visitors.v
theories/PropertiesDrawn.v
theories/SpecBlame.v
theories/BlameFacts.v
theories/PropertiesBlame.v
theories/SpecSpots.v
theories/PropertiesSpots.v
theories/SpecFrames.v
theories/PropertiesFrames.v
theories/VisitLog.v
theories/SpecDebug.v
theories/PropertiesDebug.v
theories/SpecCases.v
theories/PropertiesCases.v
theories/SpecPages.v
theories/ForwardFacts.v
theories/PagesFacts.v
theories/PropertiesPages.v
theories/PropertiesAlias.v
