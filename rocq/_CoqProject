-Q theories Verif
theories/Base.v
theories/Cal.v
theories/Coord.v
theories/Comparing.v
theories/XlMethods.v
theories/Params.v
theories/Peg.v
theories/ParseTime.v
theories/TimeIndex.v
theories/GetData.v
theories/PeriodRange.v
theories/Attempts.v
theories/DataFrame.v
theories/Scrape.v
theories/Xlseries.v
theories/Serial.v
theories/BaseFacts.v
theories/CoordFacts.v
theories/SpecCoord.v
theories/SpecParams.v
theories/SpecCoordFacts.v
theories/HeaderFacts.v
theories/BuildFacts.v
theories/ComposedFacts.v
theories/SpecScope.v
theories/ScopeFacts.v
theories/BuildInv.v
theories/CoordProofs.v
theories/ScopeExact.v
theories/PropsCoord.v
theories/ParamsFacts.v
theories/ParamsProofs.v
theories/ParamsProofs2.v
theories/ParamsProofs3.v
theories/BlankFacts.v
theories/SpecCount.v
theories/CountExact.v
theories/PropsParams.v
theories/SpecAttempts.v
theories/AttemptsFacts.v
theories/AttemptsProofs.v
theories/PropsAttempts.v
theories/SpecScrape.v
theories/ScrapeFacts.v
theories/ScrapeProofs.v
theories/ScrapeProofs2.v
theories/Demo.v
theories/PropsScrape.v
theories/SpecCal.v
theories/CalFacts.v
theories/CalProofs.v
theories/PropsCal.v
theories/SpecFloats.v
theories/FloatFacts.v
theories/ComparingProofs.v
theories/InferProofs.v
theories/SpecCompare.v
theories/CompareProofs.v
theories/PropsCompare.v
theories/TimeFacts.v
theories/SpecTime.v
theories/TimeProofs.v
theories/TimeProofs2.v
theories/PropsTime.v
theories/SpecData.v
theories/NumberFacts.v
theories/DataFacts.v
theories/DataProofs.v
theories/TextProofs.v
theories/PropsData.v
theories/SpecRound.v
theories/RoundProofs.v
theories/PropsRound.v
theories/SpecFrames.v
theories/RangeProofs.v
theories/FrameProofs.v
theories/FrameProofs2.v
theories/FrameProofs3.v
theories/CleanReal.v
theories/FrameProofs4.v
theories/MultiRange.v
theories/PropsFrames.v
theories/SpecParse.v
theories/ParseFacts.v
theories/ParseFacts2.v
theories/QuarterProofs.v
theories/MonthProofs.v
theories/YearProofs.v
theories/PoolProofs.v
theories/IndexWalk.v
theories/IndexTexts.v
theories/ComposedProofs.v
theories/SpecSimple.v
theories/SimpleProofs.v
theories/SimpleProofs2.v
theories/TwoDigits.v
theories/PropsParse.v
theories/SpecEnd.v
theories/RangeExact.v
theories/TimeEnd.v
theories/BuildAccept.v
theories/EndFacts.v
theories/EndProofs.v
theories/EndAttempt.v
theories/EndBuild.v
theories/EndCall.v
theories/EndSimple.v
theories/PropsEnd.v
theories/SpecTurn.v
theories/TurnProofs.v
theories/TurnProofs2.v
theories/TurnProofs3.v
theories/PropsTurn.v
theories/Session.v
theories/SpecSession.v
theories/SessionProofs.v
theories/PropsSession.v
theories/Load.v
theories/SpecLoad.v
theories/LoadProofs.v
theories/PropsLoad.v
theories/SpecCells.v
theories/CellsProofs.v
theories/PropsCells.v
theories/SpecText.v
theories/EndText.v
theories/PropsText.v
theories/SpecSound.v
theories/SoundProofs.v
theories/SoundCall.v
theories/PropsSound.v
theories/SpecGaps.v
theories/GapFacts.v
theories/GapCall.v
theories/PropsGaps.v
theories/SpecTypo.v
theories/TypoProofs.v
theories/PropsTypo.v
theories/SpecColumns.v
theories/ColumnProofs.v
theories/PropsColumns.v
theories/SpecNotes.v
theories/NoteFacts.v
theories/NoteProofs.v
theories/NoteIndex.v
theories/SpecNoted.v
theories/EndNoted.v
theories/PropsNotes.v
theories/SpecDated.v
theories/DatedProofs.v
theories/DatedClean.v
theories/SpecCycles.v
theories/CycleClean.v
theories/CycleEnd.v
theories/PropsDated.v
theories/SpecDated2.v
theories/DatedProofs2.v
theories/PropsDated2.v
theories/PropsCycles.v
theories/SpecEqual.v
theories/EqualProofs.v
theories/PropsEqual.v
theories/Files.v
theories/SpecFiles.v
theories/FilesProofs.v
theories/PropsFiles.v
theories/SpecTables.v
theories/TablesProofs.v
theories/TablesFrames.v
theories/TablesCall.v
theories/PropsTables.v
theories/SpecColumnsCall.v
theories/ColumnsBuild.v
theories/ColumnsRead.v
theories/ColumnsCall.v
theories/PropsColumnsCall.v
theories/Compact.v
theories/SpecCompact.v
theories/CompactProofs.v
theories/CompactBack.v
theories/CompactRemove.v
theories/PropsCompact.v
theories/PropsLine.v
theories/PropsMonths.v
theories/Cases.v
theories/PropsCases.v
theories/SpecYears.v
theories/YearTexts.v
theories/YearClean.v
theories/YearCall.v
theories/PropsYears.v
theories/Helpers.v
theories/SpecHelpers.v
theories/PropsHelpers.v
theories/Figures.v
theories/SpecFigures.v
theories/PropsFigures.v
theories/SpecReach.v
theories/ReachProofs.v
theories/ReachProofs2.v
theories/ReachProofs3.v
theories/PropsReach.v
theories/SpecMove.v
theories/MoveProofs.v
theories/MoveProofs2.v
theories/MoveProofs3.v
theories/PropsMove.v
theories/SpecSelect.v
theories/SelectProofs.v
theories/SelectProofs2.v
theories/SelectProofs3.v
theories/SelectProofs4.v
theories/PropsSelect.v
theories/SpecSwap.v
theories/SwapProofs.v
theories/SwapProofs2.v
theories/SwapProofs3.v
theories/PropsSwap.v
theories/SpecAgain.v
theories/AgainProofs.v
theories/AgainProofs2.v
theories/PropsAgain.v
theories/SpecNaming.v
theories/NamingProofs.v
theories/PropsNaming.v
theories/SpecValue.v
theories/ValueProofs.v
theories/ValueProofs2.v
theories/PropsValue.v
theories/SpecPrefix.v
theories/PrefixProofs.v
theories/PrefixProofs2.v
theories/PrefixProofs3.v
theories/PropsPrefix.v
theories/SpecLeave.v
theories/LeaveProofs.v
theories/PropsLeave.v
theories/SpecWrite.v
theories/WriteProofs.v
theories/WriteProofs2.v
theories/PropsWrite.v
theories/SafeProofs.v
theories/PropsSafe.v
theories/SpecOrder.v
theories/OrderProofs.v
theories/PropsOrder.v
