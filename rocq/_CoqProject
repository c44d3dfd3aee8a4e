-Q theories Verif

theories/Prelude.v
theories/ImmixModel.v
theories/ImmixSpec.v
theories/ImmixBlockProofs.v
theories/ImmixHeapProofs.v
theories/ImmixHistoryProofs.v
theories/PropsImmix.v
theories/PropsImmix2.v
theories/StdModel.v
theories/BrassTypes.v
theories/DecoderModel.v
theories/CodeModel.v
theories/FormatSpec.v
theories/ReaderSpec.v
theories/CodeGenericProofs.v
theories/Utf8Proofs.v
theories/FormatProofs.v
theories/StringsProofs.v
theories/TypesProofs.v
theories/OpsProofs.v
theories/ModuleProofs.v
theories/AcceptSpec.v
theories/ReaderPost.v
theories/ReaderSizes.v
theories/ReaderTables.v
theories/AcceptProofs.v
theories/PropsDecoder.v
theories/PropsReader.v
theories/PropsModule.v
theories/HashModel.v
theories/HashSpec.v
theories/CrcSpec.v
theories/CrcProofs.v
theories/CrcStandard.v
theories/HashProofs.v
theories/HashAlloc.v
theories/HashPanics.v
theories/FunHashSpec.v
theories/PropsHash.v
theories/CompilerModel.v
theories/PropsCompiler.v
theories/PropsFunHash.v
theories/ErrSpec.v
theories/ErrProofs.v
theories/ErrExact.v
theories/ErrReturn.v
theories/PropsErr.v
theories/GrammarSpec.v
theories/GrammarDen.v
theories/GrammarTypes.v
theories/GrammarFuns.v
theories/GrammarStrings.v
theories/GrammarPhases.v
theories/GrammarPhases2.v
theories/GrammarNames.v
theories/PropsNames.v
theories/GrammarModule.v
theories/GrammarCode.v
theories/PropsGrammar.v
theories/ConcModel.v
theories/ConcProofs.v
theories/PropsConc.v
theories/PropsSign.v
theories/PropsPlace.v
theories/PropsCost.v
theories/PropsSize.v
theories/PropsLocal.v
theories/ReleaseModel.v
theories/PropsProfile.v
theories/CutSpec.v
theories/CutProofs.v
theories/CutPieces.v
theories/PropsCut.v
theories/BadSpec.v
theories/BadProofs.v
theories/BadHead.v
theories/PropsBad.v
theories/PropsBad2.v
theories/PropsExact.v
theories/PropsSticky.v
theories/OutcomeSpec.v
theories/OutcomeLay.v
theories/OutcomeParts.v
theories/OutcomeCode.v
theories/OutcomeFuns.v
theories/OutcomeStrings.v
theories/OutcomeLoops.v
theories/OutcomeModule.v
theories/OutcomeFront.v
theories/PropsOutcome.v
theories/CostModel.v
theories/CostProofs.v
theories/CostTurns.v
theories/CostQuiet.v
theories/PropsTurns.v
theories/CostCopies.v
theories/CostSections.v
theories/CostWhole.v
theories/CostExact.v
theories/PropsCopies.v
theories/CostFill.v
theories/CostCrash.v
theories/PropsFill.v
theories/WorkSpec.v
theories/CostWork.v
theories/CostPhases.v
theories/CostFuns.v
theories/PropsWork.v
theories/HashCostModel.v
theories/HashCostSpec.v
theories/HashCostProofs.v
theories/HashCostAlloc.v
theories/HashCostFlat.v
theories/PropsLookup.v
theories/DepthSpec.v
theories/TypeDepthModel.v
theories/DepthProofs.v
theories/PropsDepth.v
theories/BlindSpec.v
theories/PropsBlind.v
theories/TypeBlindSpec.v
theories/PropsTypeBlind.v
theories/HashCopySpec.v
theories/HashCopyModel.v
theories/PropsHashCopy.v
theories/Assumptions.v
