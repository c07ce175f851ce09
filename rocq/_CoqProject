-Q theories Verif
theories/Py.v
theories/Round.v
theories/RoundProofs.v
theories/Format.v
theories/Bed.v
theories/Similarity.v
theories/ML.v
theories/Window.v
theories/Dict.v
theories/Data.v
theories/Dispatch.v
theories/Agreement.v
theories/Spec.v
theories/FormatProofs.v
theories/PropsFormat.v
theories/BedProofs.v
theories/BedSubs.v
theories/BedMain.v
theories/BedTheory.v
theories/BedMin.v
theories/BedExtra.v
theories/PropsBed.v
theories/SimStats.v
theories/SimRound.v
theories/SpecSim.v
theories/SimProofs.v
theories/SimTheory.v
theories/SimMain.v
theories/SimSym.v
theories/PropsSim.v
theories/SpecWindow.v
theories/WindowProofs.v
theories/WindowMain.v
theories/WindowSym.v
theories/WindowSize.v
theories/PropsWindow.v
theories/SpecML.v
theories/MLProofs.v
theories/MLSums.v
theories/MLMain.v
theories/MLFmeasure.v
theories/MLMatrix.v
theories/MLCases.v
theories/MLFinal.v
theories/PropsML.v
theories/DictProofs.v
theories/SpecDispatch.v
theories/DispatchProofs.v
theories/DispatchMain.v
theories/PropsDispatch.v
theories/SpecAgreement.v
theories/AgreementProofs.v
theories/AgreementMain.v
theories/AgreementFinal.v
theories/AgreementExact.v
theories/AgreementPerm.v
theories/AgreementBias.v
theories/AgreementPublic.v
theories/AgreementCases.v
theories/PropsAgreement.v
theories/SpecData.v
theories/DataProofs.v
theories/Heap.v
theories/HeapProofs.v
theories/JsonProofs.v
theories/JsonRound.v
theories/TsvProofs.v
theories/FolderProofs.v
theories/DataPublic.v
theories/SpecFaults.v
theories/DocFaults.v
theories/PropsData.v
theories/MathProofs.v
theories/SpecMath.v
theories/RoundSpec.v
theories/PropsMath.v
theories/Exports.v
theories/SpecExports.v
theories/ExportsRun.v
theories/ExportsProofs.v
theories/PropsExports.v
theories/SpecChange.v
theories/BedEmbed.v
theories/BedContext.v
theories/SimContext.v
theories/WindowReverse.v
theories/BedReverse.v
theories/PropsChange.v
theories/SpecSwap.v
theories/BedSwap.v
theories/MLSwap.v
theories/MLBoundary.v
theories/SwapMetrics.v
theories/PropsSwap.v
theories/Text.v
theories/SpecText.v
theories/CsvProofs.v
theories/CsvMain.v
theories/CsvLimit.v
theories/FolderNames.v
theories/PropsText.v
theories/JsonText.v
theories/SpecJson.v
theories/JsonLex.v
theories/JsonParse.v
theories/JsonPrint.v
theories/JsonFile.v
theories/PropsJson.v
theories/SpecMetric.v
theories/WindowMetric.v
theories/BedMetric.v
theories/PropsMetric.v
theories/MatrixHeap.v
theories/SpecMatrix.v
theories/MatrixMain.v
theories/PropsMatrix.v
theories/SpecGreedy.v
theories/BedGreedy.v
theories/SpecError.v
theories/BedError.v
theories/PropsError.v
theories/SpecValue.v
theories/AgreementValue.v
theories/AgreementRepeat.v
theories/PropsValue.v
theories/SimAccuracy.v
theories/SpecAccuracy.v
theories/AgreementAccuracy.v
theories/AgreementLimit.v
theories/PropsAccuracy.v
theories/Files.v
theories/SpecFiles.v
theories/FilesProofs.v
theories/FilesWrite.v
theories/FolderClash.v
theories/FilesFolder.v
theories/FilesMain.v
theories/PropsFiles.v
theories/SpecNested.v
theories/Nested.v
theories/NestedWindow.v
theories/NestedMass.v
theories/PropsNested.v
theories/Keywords.v
theories/SpecKeywords.v
theories/KeywordsProofs.v
theories/KeywordsMain.v
theories/KeywordsAgree.v
theories/PropsKeywords.v
theories/SpecAgreed.v
theories/Agreed.v
theories/AgreedWindow.v
theories/Spans.v
theories/PropsAgreed.v
theories/MatrixQuery.v
theories/SpecQuery.v
theories/MatrixSim.v
theories/PropsQuery.v
theories/SpecReload.v
theories/Reload.v
theories/PropsReload.v
theories/Join.v
theories/Correct.v
theories/PropsJoin.v
theories/Concat.v
theories/PropsConcat.v
theories/Merging.v
theories/PropsMerging.v
theories/JoinML.v
theories/PropsJoinML.v
theories/MatrixDelete.v
theories/Python2.v
theories/PropsPython2.v
theories/Lookup.v
theories/PropsLookup.v
theories/SpecLayout.v
theories/Layout.v
theories/PropsLayout.v
theories/SpecCoverage.v
theories/Coverage.v
theories/PropsCoverage.v
theories/Pooled.v
theories/PropsPooled.v
theories/BothOrders.v
theories/PropsBothOrders.v
theories/PooledMean.v
theories/PropsPooledMean.v
theories/SpecSub.v
theories/Subsets.v
theories/PropsSubsets.v
theories/AboveB.v
theories/PropsAboveB.v
theories/TwoParts.v
theories/PropsTwoParts.v
theories/SpecSilent.v
theories/BelowActual.v
theories/PropsBelowActual.v
theories/SpecCompared.v
theories/Along.v
theories/PropsAlong.v
theories/BiasBound.v
theories/PropsBiasBound.v
theories/Complements.v
theories/PropsComplements.v
theories/Joined.v
theories/PropsJoined.v
theories/RepoTests.v
