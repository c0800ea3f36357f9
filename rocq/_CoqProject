-Q theories Verif
theories/Base.v
theories/Utf.v
theories/BinaryReader.v
theories/BaseFacts.v
theories/ParseSpec.v
theories/ReaderFacts.v
theories/SpecBytes.v
theories/Pe.v
theories/SpecPe.v
theories/PeProofs.v
theories/SpecUtf.v
theories/UtfProofs.v
theories/ReaderProofs.v
theories/PropsReader.v
theories/PropsPe.v
theories/Attributes.v
theories/SpecAttributes.v
theories/AttributesProofs.v
theories/Tables.v
theories/SpecTables.v
theories/TablesApi.v
theories/TablesProofs.v
theories/TablesTotal.v
theories/PropsTables.v
theories/PropsAttributes.v
theories/Blob.v
theories/SpecBlob.v
theories/BlobProofs.v
theories/PropsBlob.v
theories/Metadata.v
theories/SpecMetadata.v
theories/MetadataProofs.v
theories/PropsMetadata.v
theories/Runtime.v
theories/Loader.v
theories/SpecRuntime.v
theories/RuntimeInv.v
theories/DemoImages.v
theories/SpecHistory.v
theories/HistoryProofs.v
theories/DemoStates.v
theories/PropsRegistry.v
theories/SpecBody.v
theories/BodyProofs.v
theories/DemoFacts.v
theories/PropsBody.v
theories/Value.v
theories/Opcodes.v
theories/Gc.v
theories/Interp.v
theories/SpecExec.v
theories/InterpFacts.v
theories/FloatFacts.v
theories/SpecIeee.v
theories/FloatRound.v
theories/FloatFields.v
theories/FloatBits.v
theories/IeeeFacts.v
theories/PropsValue.v
theories/PropsFloat.v
theories/PropsCompare.v
theories/PropsDecode.v
theories/InterpInv.v
theories/SpecFrames.v
theories/FrameFacts.v
theories/TraceFacts.v
theories/VmFacts.v
theories/CallFacts.v
theories/TraceProps.v
theories/DemoRuns.v
theories/TraceRun.v
theories/PropsFrames.v
theories/SpecStack.v
theories/StackFacts.v
theories/StackProofs.v
theories/PropsStack.v
theories/SpecLang.v
theories/LangFacts.v
theories/LangProofs.v
theories/PropsLang.v
theories/SpecTypes.v
theories/TypeFacts.v
theories/SpecHeap.v
theories/HeapFacts.v
theories/FieldFacts.v
theories/PropsHeap.v
theories/SpecLayout.v
theories/LayoutFacts.v
theories/ZooImages.v
theories/ZooStates.v
theories/PropsTypes.v
theories/SpecLoader.v
theories/LoaderFacts.v
theories/LoaderRun.v
theories/MemberFacts.v
theories/PropsLoader.v
theories/SpecCalls.v
theories/PathFacts.v
theories/CallLangFacts.v
theories/CallLangProofs.v
theories/PropsCalls.v
theories/Host.v
theories/FuelFacts.v
theories/SpecImage.v
theories/PropsImage.v
theories/SpecLoad.v
theories/LoadFacts.v
theories/LoadRun.v
theories/LoadLoops.v
theories/PropsLoad.v
theories/SpecBorrow.v
theories/Borrows.v
theories/PropsBorrow.v
theories/SpecSafety.v
theories/SafetyFacts.v
theories/SafetyOps.v
theories/SafetyRuns.v
theories/SafetyCheck.v
theories/PropsSafety.v
theories/SoundFacts.v
theories/SoundLoad.v
theories/PropsLoadSafe.v
theories/SpecPlaces.v
theories/PlacesFacts.v
theories/PropsPlaces.v
theories/SpecProfiles.v
theories/AgreeFacts.v
theories/AgreeRuns.v
theories/QuietFacts.v
theories/PropsProfiles.v
theories/PropsUnsigned.v
theories/NeverFacts.v
theories/SpecEnds.v
theories/EndsFacts.v
theories/EndsLoad.v
theories/EndsRun.v
theories/KnotImages.v
theories/PropsEnds.v
theories/SpecSteps.v
theories/StepsFacts.v
theories/SpinImages.v
theories/PropsSteps.v
theories/SpecAlign.v
theories/PropsAlign.v
theories/ParamImages.v
theories/SpecParams.v
theories/PropsParams.v
theories/Texts.v
theories/SpecTexts.v
theories/PropsTexts.v
theories/SpecReads.v
theories/PropsReads.v
theories/SpecOffsets.v
theories/OffsetFacts.v
theories/PropsOffsets.v
theories/ScopeImages.v
theories/SpecScopes.v
theories/PropsScopes.v
theories/SpecWiden.v
theories/SpecMixed.v
theories/SpecReserve.v
theories/Reserve.v
theories/PropsWiden.v
theories/ReserveFacts.v
theories/PropsReserve.v
theories/PropsMixed.v
theories/Aligned.v
theories/SpecImageAlign.v
theories/AlignedFacts.v
theories/PropsImageAlign.v
theories/AlignedImage.v
theories/SpecWholeAlign.v
theories/PropsWholeAlign.v
theories/AlignedBody.v
theories/PropsBodyAlign.v
theories/SpecAges.v
theories/AgeFacts.v
theories/PropsAges.v
theories/SpecMnemonics.v
theories/PropsMnemonic.v
theories/SpecStores.v
theories/StoreFacts.v
theories/StoreRuns.v
theories/PropsStores.v
theories/SpecAgain.v
theories/AgainFacts.v
theories/PropsAgain.v
theories/Messages.v
theories/SpecMessages.v
theories/MessageFacts.v
theories/PropsMessages.v
theories/LoadMessages.v
theories/SpecLoadMessages.v
theories/LoadMessageFacts.v
theories/PropsLoadMessages.v
theories/SpecRemains.v
theories/PropsRemains.v
theories/KnownFacts.v
theories/PropsReferences.v
theories/SpecDisk.v
theories/PropsDisk.v
