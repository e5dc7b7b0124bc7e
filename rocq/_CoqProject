-Q theories Verif
theories/Base.v
theories/Location.v
theories/Token.v
theories/Scanner.v
theories/World.v
theories/Meta.v
theories/Inline.v
theories/Block.v
theories/Asg.v
theories/Parser.v
theories/Json.v
theories/Html.v
theories/Docx.v
theories/Cli.v
theories/Fixtures.v
theories/FixturesJson.v
theories/FixturesHtml.v
theories/SpecScan.v
theories/ScanLemmas.v
theories/ScanFacts.v
theories/ScanMain.v
theories/ScanMain2.v
theories/ScanLine.v
theories/ScanProofs.v
theories/PropertiesScan.v
theories/ScanFail.v
theories/ScanFail2.v
theories/ScanPanic.v
theories/PropertiesScanFail.v
theories/SpecLex.v
theories/ScanView.v
theories/ScanLex.v
theories/ScanGrammar.v
theories/ScanComplete.v
theories/ScanWhole.v
theories/PropertiesLex.v
theories/SpecLoc.v
theories/LocProofs.v
theories/PropertiesLoc.v
theories/SpecStart.v
theories/ScanStart.v
theories/SpecGraph.v
theories/GraphLemmas.v
theories/Inv.v
theories/PropertiesStart.v
theories/SpecPath.v
theories/SpecInclude.v
theories/GraphProofs.v
theories/PropertiesGraph.v
theories/SpecDoc.v
theories/ScanDoc.v
theories/DocProofs.v
theories/DocGraph.v
theories/PropertiesDoc.v
theories/SpecLevel.v
theories/LevelProofs.v
theories/PropertiesLevel.v
theories/SpecVerbatim.v
theories/VerbatimProofs.v
theories/PropertiesVerbatim.v
theories/SpecHtml.v
theories/TreeInd.v
theories/HtmlProofs.v
theories/PropertiesHtml.v
theories/SpecText.v
theories/SpecDocx.v
theories/SpecJson.v
theories/JsonProofs.v
theories/PropertiesJson.v
theories/TextProofs.v
theories/DocxProofs.v
theories/CharrefProofs.v
theories/PropertiesDocx.v
theories/SpecCli.v
theories/CliProofs.v
theories/PropertiesCli.v
theories/SpecMeta.v
theories/MetaProofs.v
theories/PropertiesMeta.v
theories/Runs.v
theories/SpecRun.v
theories/RunProofs.v
theories/SpecXref.v
theories/XrefProofs.v
theories/PropertiesRun.v
theories/SpecWords.v
theories/WordProofs.v
theories/SpecNotes.v
theories/NoteProofs.v
theories/PropertiesText.v
theories/SpecSelect.v
theories/SelectProofs.v
theories/PropertiesSelect.v
theories/SpecLists.v
theories/ListProofs.v
theories/PropertiesLists.v
theories/SpecPanic.v
theories/PanicProofs.v
theories/PropertiesPanic.v
theories/SpecArticle.v
theories/ArticleScan.v
theories/ArticleGraph.v
theories/ArticleText.v
theories/ArticleProofs.v
theories/ArticleWhole.v
theories/ArticleCheck.v
theories/PropertiesArticle.v
theories/SpecArticleHtml.v
theories/ArticleHtml.v
theories/PropertiesArticleHtml.v
theories/SpecArticleDocx.v
theories/ArticleDocx.v
theories/PropertiesArticleDocx.v
theories/SpecHtmlText.v
theories/HtmlText.v
theories/SpecDocxText.v
theories/DocxText.v
theories/PropertiesShown.v
theories/SpecSections.v
theories/SectionsProofs.v
theories/PropertiesSections.v
theories/SpecScript.v
theories/ScriptWords.v
theories/ScriptText.v
theories/ScriptLocs.v
theories/ScriptDecor.v
theories/ScriptGraph.v
theories/ScriptBlocks.v
theories/ScriptRefs.v
theories/LastBlind.v
theories/ScriptCells.v
theories/ScriptWhole.v
theories/ScriptCheck.v
theories/PropertiesScript.v
theories/SpecScriptHtml.v
theories/ScriptHtml.v
theories/ScriptTables.v
theories/SpecIds.v
theories/IdProofs.v
theories/PropertiesScriptHtml.v
theories/SpecNest.v
theories/NestProofs.v
theories/PropertiesNest.v
theories/SpecTable.v
theories/TableProofs.v
theories/PropertiesTable.v
theories/SpecListing.v
theories/ListingProofs.v
theories/PropertiesListing.v
theories/SpecCut.v
theories/CutProofs.v
theories/CutHtml.v
theories/CutCheck.v
theories/PropertiesCut.v
theories/SpecRead.v
theories/ReadProofs.v
theories/SpecScriptJson.v
theories/ReadScript.v
theories/PropertiesRead.v
theories/SpecPage.v
theories/PageProofs.v
theories/StyleProofs.v
theories/SpecScriptPage.v
theories/PageScript.v
theories/PropertiesPage.v
theories/SpecHtmlPage.v
theories/HtmlPage.v
theories/SpecOutcome.v
theories/OutcomeProofs.v
theories/PropertiesHtmlPage.v
theories/Tera.v
theories/Templates.v
theories/SpecTemplates.v
theories/TeraProofs.v
theories/TemplateProofs.v
theories/LaidProofs.v
theories/LaidBlocks.v
theories/LaidKinds.v
theories/LaidPage.v
theories/LaidSpread.v
theories/LaidScript.v
theories/PropertiesTemplates.v
theories/SpecAttrs.v
theories/AttrProofs.v
theories/AcceptProofs.v
theories/PropertiesAttrs.v
theories/SpecEnd.v
theories/EndProofs.v
theories/EndHtml.v
theories/PropertiesEnd.v
theories/SpecJoin.v
theories/JoinProofs.v
theories/PropertiesJoin.v
theories/SpecGrow.v
theories/GrowProofs.v
theories/PropertiesGrow.v
theories/SpecResolve.v
theories/ResolveProofs.v
theories/UnreadProofs.v
theories/PropertiesResolve.v
theories/SpecDepth.v
theories/DepthProofs.v
theories/PropertiesDepth.v
theories/SpecPlace.v
theories/PlaceProofs.v
theories/MovedProofs.v
theories/PlaceExample.v
theories/PropertiesPlace.v
