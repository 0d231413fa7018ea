-Q theories Verif
theories/GoStr.v
theories/GoPath.v
theories/Base.v
theories/Utils.v
theories/GenGo.v
theories/GenC.v
theories/GenJava.v
theories/GenRust.v
theories/GenTS.v
theories/World.v
theories/Handlers.v
theories/Parser.v
theories/Cli.v
theories/Fixture.v
theories/StrLemmas.v
theories/Utf8.v
theories/SpecStr.v
theories/StrProofs.v
theories/Stack.v
theories/SpecTables.v
theories/TableProofs.v
theories/PropertiesStr.v
theories/PropertiesTables.v
theories/SpecDoc.v
theories/DocLemmas.v
theories/HandlerProofs.v
theories/DocProofs.v
theories/DocProofs2.v
theories/PropertiesDoc.v
theories/Reify.v
theories/PathProofs.v
theories/Effects.v
theories/SpecParse.v
theories/ParserProofs.v
theories/Termination.v
theories/SimProofs.v
theories/ParseFacts.v
theories/IncludeProofs.v
theories/Demo.v
theories/SpecGen.v
theories/GenText.v
theories/GenLemmas.v
theories/GenOutline.v
theories/GenRun.v
theories/GenNames.v
theories/NameProofs.v
theories/GenFacts.v
theories/SpecOut.v
theories/SpecFile.v
theories/GenRuns.v
theories/FileProofs.v
theories/PropertiesParse.v
theories/PropertiesGen.v
theories/SpecCli.v
theories/CliProofs.v
theories/PropertiesCli.v
theories/Concurrent.v
theories/SpecConc.v
theories/ConcurrentProofs.v
theories/AccessProofs.v
theories/PropertiesConc.v
theories/SpecDecl.v
theories/DeclProofs.v
theories/PropertiesDecl.v
theories/SpecWhole.v
theories/WholeProofs.v
theories/PropertiesWhole.v
theories/SpecProject.v
theories/CallProofs.v
theories/ProjectProofs.v
theories/DirectoryProofs.v
theories/PropertiesProject.v
theories/SpecError.v
theories/ErrorProofs.v
theories/PropertiesError.v
theories/SpecBare.v
theories/BareProofs.v
theories/PropertiesText.v
theories/SpecLocal.v
theories/LocalProofs.v
theories/PropertiesLocal.v
theories/OutputProofs.v
theories/TreeProofs.v
theories/PropertiesOutput.v
theories/AgainProofs.v
theories/PropertiesAgain.v
theories/Terminal.v
theories/TermProofs.v
theories/PropertiesTerm.v
theories/SpecAttr.v
theories/AttrProofs.v
theories/PropertiesAttr.v
theories/SpecStay.v
theories/StayProofs.v
theories/PropertiesStay.v
theories/SpecSource.v
theories/SourceProofs.v
theories/PropertiesSource.v
theories/SpecOrigin.v
theories/OriginProofs.v
theories/PropertiesOrigin.v
theories/SpecRestrict.v
theories/RestrictProofs.v
theories/PropertiesRestrict.v
theories/SpecSyntax.v
theories/SyntaxProofs.v
theories/SyntaxDecls.v
theories/SyntaxCheck.v
theories/PropertiesSyntax.v
theories/SpecUnique.v
theories/UniqueProofs.v
theories/PropertiesUnique.v
theories/SpecClosed.v
theories/ClosedProofs.v
theories/ClosedCheck.v
theories/PropertiesClosed.v
theories/SpecLang.v
theories/LangProofs.v
theories/LangNames.v
theories/LangParse.v
theories/PropertiesLang.v
theories/SpecFine.v
theories/FineProofs.v
theories/FineProject.v
theories/FineCheck.v
theories/PropertiesFine.v
theories/PropertiesFineProject.v
theories/SpecMembers.v
theories/MembersProofs.v
theories/MembersCheck.v
theories/PropertiesMembers.v
theories/SpecOrder.v
theories/OrderProofs.v
theories/OrderCheck.v
theories/PropertiesOrder.v
theories/SpecBinding.v
theories/BindingProofs.v
theories/PropertiesBinding.v
theories/BindingFine.v
theories/PropertiesBindingFiles.v
theories/SpecInside.v
theories/InsideProofs.v
theories/PropertiesInside.v
theories/SpecPrefix.v
theories/PrefixProofs.v
theories/PropertiesPrefix.v
theories/ToolAlone.v
theories/PropertiesPrefixTool.v
theories/PropertiesApart.v
theories/SpecMissing.v
theories/MissingUnion.v
theories/PropertiesMissing.v
theories/SpecTouched.v
theories/TouchedProofs.v
theories/PropertiesTouched.v
theories/PropertiesTextTool.v
theories/SpecIncludes.v
theories/IncludeFuel.v
theories/PropertiesIncludes.v
theories/SpecExtract.v
theories/ExtractLocal.v
theories/PropertiesExtract.v
