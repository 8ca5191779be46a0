-Q theories Verif
theories/Base.v
theories/Setup.v
theories/SetupSpec.v
theories/Splitter.v
theories/SplitPure.v
theories/ListFacts.v
theories/SetupProofs.v
theories/SetupComplete.v
theories/SplitRefine.v
theories/SplitSpec.v
theories/SplitActual.v
theories/SplitSpecProofs.v
theories/SplitExact.v
theories/RowSpec.v
theories/RowProofs.v
theories/SplitKeeps.v
theories/SplitModes.v
theories/SplitApi.v
theories/SplitContinue.v
theories/SplitWhole.v
theories/SplitLocal.v
theories/SplitSafe.v
theories/SplitTheorems.v
theories/SplitExactApi.v
theories/Extract.v
theories/Converter.v
theories/ConvSpec.v
theories/ExtractProofs.v
theories/ConvProofs.v
theories/ConvTheorems.v
theories/Reader.v
theories/LineSpec.v
theories/LineProofs.v
theories/GetLineProofs.v
theories/ReaderBase.v
theories/ReaderInv.v
theories/ReaderLines.v
theories/ReaderEscape.v
theories/ReaderParse.v
theories/Parser.v
theories/ParserSpec.v
theories/ParserApi.v
theories/ParserInv.v
theories/ParserRows.v
theories/ParserOpen.v
theories/ParserSession.v
theories/ParserGhost.v
theories/ParserPast.v
theories/ParserFacts.v
theories/PropSplit.v
theories/PropConvert.v
theories/LineReads.v
theories/PropReader.v
theories/PropParser.v
theories/PropCut.v
theories/TableSpec.v
theories/TableProofs.v
theories/PropMulti.v
theories/PropExamples.v
theories/SessionApi.v
theories/SessionSpec.v
theories/SessionHeader.v
theories/SessionProofs.v
theories/PropSession.v
theories/RecordSpec.v
theories/PropRecord.v
theories/PropChain.v
theories/PropCovered.v
theories/SafeProofs.v
theories/PropSafe.v
theories/PropIterate.v
theories/PropMove.v
theories/TypeTraits.v
theories/PropTypes.v
theories/Validators.v
theories/PropValidators.v
theories/Sim.v
theories/SimReader.v
theories/SimParse.v
theories/SimParser.v
theories/PropSame.v
theories/Strtod.v
theories/PropFloat.v
theories/Views.v
theories/PropViews.v
theories/NoThrow.v
theories/PropNoThrow.v
theories/ConvHistory.v
theories/PropHistory.v
theories/Ends.v
theories/SplitCount.v
theories/MemBound.v
theories/PropMemory.v
theories/Fault.v
theories/FaultProofs.v
theories/PropFault.v
theories/User.v
theories/UserProofs.v
theories/UserFirst.v
theories/PropUser.v
theories/Counters.v
theories/PropCount.v
theories/SplitCost.v
theories/SplitWork.v
theories/SplitFrame.v
theories/PropWork.v
theories/Callbacks.v
theories/PropCallbacks.v
theories/ReadCost.v
theories/ReadWork.v
theories/RowWork.v
theories/PortWork.v
theories/PropReadWork.v
theories/PropCallWork.v
theories/Roles.v
theories/PropRoles.v
theories/Concat.v
theories/PropConcat.v
theories/PropEdit.v
theories/PropIterators.v
theories/PropAgree.v
theories/PropSkip.v
theories/PropModes.v
theories/PropLazy.v
theories/PropWiden.v
theories/SessionAlike.v
theories/PropAlike.v
theories/PropCalls.v
theories/Rename.v
theories/PropRename.v
theories/PropNames.v
theories/PropCases.v
theories/TestSplitter.v
theories/TestParser.v
theories/TestExtract.v
