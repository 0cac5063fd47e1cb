-Q theories Verif
theories/Base.v
theories/ModelNumeric.v
theories/ModelAddress.v
theories/ModelMnemonic.v
theories/ModelExpr.v
theories/ModelAMode.v
theories/ModelOpcode.v
theories/ModelState.v
theories/ModelInstr.v
theories/ModelToken.v
theories/ModelStatement.v
theories/ModelParse.v
theories/ModelMap.v
theories/ModelRanges.v
theories/ModelRom.v
theories/ModelModule.v
theories/ModelAssembler.v
theories/ModelDisasm.v
theories/BaseProofs.v
theories/SpecArith.v
theories/ArithProofs.v
theories/PropertiesArith.v
theories/Spec65816.v
theories/SpecNames.v
theories/SpecFlags.v
theories/NameProofs.v
theories/PropertiesNames.v
theories/SpecInstr.v
theories/InstrProofs.v
theories/ModeProofs.v
theories/PropertiesInstr.v
theories/SpecRom.v
theories/RomProofs.v
theories/RomLongProofs.v
theories/PropertiesRom.v
theories/SpecRanges.v
theories/RangesProofs.v
theories/PropertiesRanges.v
theories/SpecState.v
theories/StateProofs.v
theories/ExecProofs.v
theories/PropertiesState.v
theories/SpecText.v
theories/TokenProofs.v
theories/TextProofs.v
theories/ParseProofs.v
theories/LineProofs.v
theories/PropertiesText.v
theories/MapProofs.v
theories/SpecOrder.v
theories/OrderProofs.v
theories/SpecScope.v
theories/LoadProofs.v
theories/OriginProofs.v
theories/ScopeProofs.v
theories/PassProofs.v
theories/PropertiesModule.v
theories/SpecLayout.v
theories/LayoutProofs.v
theories/SpecAssemble.v
theories/AssembleProofs.v
theories/ProgramProofs.v
theories/PropertiesAssemble.v
theories/TermProofs.v
theories/PropertiesFlow.v
theories/SpecSafe.v
theories/SafeProofs.v
theories/SafeRunProofs.v
theories/SafeProgramProofs.v
theories/SafeAssembleProofs.v
theories/CalmProofs.v
theories/PropertiesSafe.v
theories/SpecFlow.v
theories/SpecRun.v
theories/FlowProofs.v
theories/FlowRunProofs.v
theories/FlowArriveProofs.v
theories/FlowKindProofs.v
theories/SpecStable.v
theories/StableProofs.v
theories/RunProofs.v
theories/RunCases.v
theories/CompleteProofs.v
theories/PropertiesRun.v
theories/FlowCases.v
theories/DisStateProofs.v
theories/DisStepProofs.v
theories/DisTermProofs.v
theories/DisInvProofs.v
theories/DisRunProofs.v
theories/SpecDisasm.v
theories/DisRequestProofs.v
theories/DisClosedProofs.v
theories/DisCases.v
theories/PropertiesDisasm.v
theories/SpecListing.v
theories/CleanProofs.v
theories/PropertiesListing.v
theories/PrintProofs.v
theories/ReadProofs.v
theories/ListTextProofs.v
theories/SignLabelProofs.v
theories/PropertiesPrint.v
theories/ModelTools.v
theories/SpecSink.v
theories/SinkProofs.v
theories/SpecTools.v
theories/ReassembleProofs.v
theories/ToolTextProofs.v
theories/PerProofs.v
theories/RelistProofs.v
theories/RoundProofs.v
theories/ToolRunProofs.v
theories/ToolProofs.v
theories/PropertiesTools.v
theories/SpecDump.v
theories/DumpProofs.v
theories/PropertiesDump.v
theories/ModelDumb.v
theories/SpecDumb.v
theories/DumbProofs.v
theories/DumbRomProofs.v
theories/PropertiesDumb.v
theories/ModelFile.v
theories/SpecFile.v
theories/FileProofs.v
theories/FileTextProofs.v
theories/PropertiesFile.v
theories/ModelInteractive.v
theories/SpecShow.v
theories/ShowProofs.v
theories/ShowExactProofs.v
theories/PropertiesShow.v
theories/ModelLocation.v
theories/SpecLocation.v
theories/LocationProofs.v
theories/QuietProofs.v
theories/LocatedProofs.v
theories/PropertiesLocation.v
theories/ModelOpcodeMap.v
theories/SpecOpcodeMap.v
theories/TableProofs.v
theories/PropertiesMap.v
theories/PermuteProofs.v
theories/ModesProofs.v
theories/OrderFreeProofs.v
theories/PropertiesPermute.v
theories/ModelMain.v
theories/SpecMain.v
theories/ScanProofs.v
theories/MainProofs.v
theories/MainToolProofs.v
theories/PropertiesMain.v
theories/ReachProofs.v
theories/ShadeProofs.v
theories/AcceptProofs.v
theories/ListAcceptProofs.v
theories/SpecRelist.v
theories/CleanFlowProofs.v
theories/ListCheckProofs.v
theories/RoundMainProofs.v
theories/ApartProofs.v
theories/PropertiesRelist.v
theories/PropertiesRound.v
theories/PropertiesReach.v
theories/SpecDisSafe.v
theories/DisSafeProofs.v
theories/DisSafeToolProofs.v
theories/PropertiesDisSafe.v
theories/SpecMeet.v
theories/MeetProofs.v
theories/CircleProofs.v
theories/PropertiesMeet.v
theories/SpecCross.v
theories/CrossProofs.v
theories/PropertiesCross.v
theories/RegainProofs.v
theories/PropertiesRegain.v
theories/ModelHarness.v
theories/SpecHarness.v
theories/HarnessProofs.v
theories/PropertiesHarness.v
theories/ModelFamily.v
theories/SpecFamily.v
theories/PropertiesFamily.v
theories/RepoTests.v
theories/ModelDebug.v
theories/SpecDebug.v
theories/DebugProofs.v
theories/PropertiesDebug.v
theories/SpecReport.v
theories/ReportProofs.v
theories/PropertiesReport.v
theories/SpecRename.v
theories/RenameProofs.v
theories/PropertiesRename.v
theories/SpecLink.v
theories/LinkProofs.v
theories/PropertiesLink.v
theories/ModelRomText.v
theories/SpecRomText.v
theories/RomTextProofs.v
theories/PropertiesRomText.v
theories/MismatchProofs.v
theories/PropertiesMismatch.v
theories/ModelParseText.v
theories/SpecParseText.v
theories/ParseTextProofs.v
theories/LocalProofs.v
theories/LocalLineProofs.v
theories/BlameProofs.v
theories/AdviceProofs.v
theories/PropertiesParseText.v
theories/PushProofs.v
theories/PropertiesPush.v
theories/PlaceProofs.v
theories/PropertiesUnread.v
theories/ModelFlagText.v
theories/SpecFlagText.v
theories/FlagTextProofs.v
theories/RemedyProofs.v
theories/FlagProgramProofs.v
theories/PropertiesFlagText.v
theories/ModelNameText.v
theories/SpecNameText.v
theories/NameTextProofs.v
theories/NameProgramProofs.v
theories/PropertiesNameText.v
theories/ModelOrderText.v
theories/SpecOrderText.v
theories/OrderTextProofs.v
theories/PropertiesOrderText.v
theories/ModelLoadText.v
theories/SpecLoadText.v
theories/LoadTextProofs.v
theories/LoadFileProofs.v
theories/PropertiesLoadText.v
theories/ModelClaimText.v
theories/ClaimTextProofs.v
theories/PropertiesClaimText.v
theories/ModelFlowText.v
theories/FlowTextProofs.v
theories/PropertiesFlowText.v
