-Q theories Verif
theories/PyBase.v
theories/PyBaseFacts.v
theories/KeyTransformersModel.v
theories/KeySpec.v
theories/KeyTransformersProofs.v
theories/PropKeyTransformers.v
theories/MultitaskModel.v
theories/MultitaskSpec.v
theories/MultitaskProofs.v
theories/PropMultitask.v
theories/LookupModel.v
theories/RegistryModel.v
theories/RegistrySpec.v
theories/RegistryProofs.v
theories/PropRegistry.v
theories/DatetimeModel.v
theories/DatetimeSpec.v
theories/DatetimeProofs.v
theories/PropDatetime.v
theories/LeafModel.v
theories/LeafSpec.v
theories/LeafProofs.v
theories/EngineTypes.v
theories/EngineSer.v
theories/EngineDeser.v
theories/EngineFacts.v
theories/EngineEnv.v
theories/DumpSpec.v
theories/DumpProofs.v
theories/AttrFacts.v
theories/NullProofs.v
theories/RewriteProofs.v
theories/DumpLaws.v
theories/PropDump.v
theories/LoadSpec.v
theories/LoadFacts.v
theories/LoadLaws.v
theories/LoadObject.v
theories/LoadTypes.v
theories/LoadMeta.v
theories/PropLoad.v
theories/ConformSpec.v
theories/ConformProofs.v
theories/PropConform.v
theories/LeafLaws.v
theories/PropLeaf.v
theories/RoundTripSpec.v
theories/RoundTripFacts.v
theories/RoundTripProofs.v
theories/RoundTripLaws.v
theories/PropRoundTrip.v
theories/JsonTextModel.v
theories/JsonTextSpec.v
theories/JsonTextProofs.v
theories/JsonTextLaws.v
theories/PropJsonText.v
theories/ApiModel.v
theories/ApiSpec.v
theories/TransformProofs.v
theories/DecoratorProofs.v
theories/PropApi.v
theories/LoadSame.v
theories/VerboseSpec.v
theories/VerboseFacts.v
theories/VerboseProofs.v
theories/VerboseLaws.v
theories/PropVerbose.v
theories/HashedSpec.v
theories/HashedFacts.v
theories/HashedProofs.v
theories/HashedLoss.v
theories/HashedKeysModel.v
theories/HashedKeysProofs.v
theories/PropHashed.v
theories/DocumentSpec.v
theories/TwiceProofs.v
theories/PropTwice.v
theories/CallModel.v
theories/CallSpec.v
theories/CallProofs.v
theories/PropCall.v
theories/SerializableModel.v
theories/SerializableSpec.v
theories/SerializableProofs.v
theories/SerializableLaws.v
theories/PropSerializable.v
theories/KeyTripSpec.v
theories/KeyTripProofs.v
theories/KeyTripLaws.v
theories/PropKeyTrip.v
theories/ParallelModel.v
theories/ParallelSpec.v
theories/ParallelProofs.v
theories/PropParallel.v
theories/ResolveModel.v
theories/ResolveSpec.v
theories/ResolveProofs.v
theories/PropResolve.v
theories/ClassModel.v
theories/ClassSpec.v
theories/ClassProofs.v
theories/PropClass.v
theories/CacheModel.v
theories/LoadHints.v
theories/CacheProofs.v
theories/PropCache.v
theories/TerminationSpec.v
theories/DumpTermination.v
theories/LoadTermination.v
theories/PropTermination.v
theories/OrderSpec.v
theories/OrderProofs.v
theories/PropOrder.v
theories/ErrorModel.v
theories/ErrorSpec.v
theories/ErrorProofs.v
theories/ErrorLaws.v
theories/PropError.v
theories/LayoutModel.v
theories/LayoutSpec.v
theories/LayoutProofs.v
theories/LayoutLaws.v
theories/PropLayout.v
theories/CastSpec.v
theories/CastProofs.v
theories/CastLaws.v
theories/PropCast.v
theories/ParallelDumpModel.v
theories/ParallelDumpSpec.v
theories/ParallelDumpProofs.v
theories/PropParallelDump.v
theories/CutModel.v
theories/CutSpec.v
theories/CutProofs.v
theories/CutLoadProofs.v
theories/PropCut.v
theories/HeapModel.v
theories/HeapSpec.v
theories/HeapProofs.v
theories/HeapCycles.v
theories/PropHeap.v
theories/HeapTrees.v
theories/HeapSims.v
theories/HeapRefine.v
theories/PropRefine.v
theories/DateTextSpec.v
theories/DateTextProofs.v
theories/PropDateText.v
theories/HeapLoadModel.v
theories/HeapLoadSpec.v
theories/HeapLoadProofs.v
theories/PropHeapLoad.v
theories/HeapTreeSpec.v
theories/HeapLoadRefine.v
theories/PropHeapTree.v
theories/HeapCycleModel.v
theories/HeapCycleSpec.v
theories/HeapCycleProofs.v
theories/PropHeapCycle.v
theories/MisfitSpec.v
theories/MisfitProofs.v
theories/PropMisfit.v
theories/ShapeSpec.v
theories/ShapeProofs.v
theories/PropShape.v
theories/FrameSpec.v
theories/FrameProofs.v
theories/PropFrame.v
theories/HistoryModel.v
theories/HistorySpec.v
theories/ForkProofs.v
theories/HistoryProofs.v
theories/PropHistory.v
theories/StrictTripSpec.v
theories/StrictTripProofs.v
theories/PropStrictTrip.v
theories/InitSpec.v
theories/InitProofs.v
theories/InitBound.v
theories/PropInit.v
theories/OrderDumpSpec.v
theories/OrderDumpProofs.v
theories/PropOrderDump.v
theories/HookModel.v
theories/HookSpec.v
theories/HookProofs.v
theories/PropHook.v
theories/FallbackModel.v
theories/FallbackSpec.v
theories/FallbackProofs.v
theories/PropFallback.v
theories/PositionModel.v
theories/PositionSpec.v
theories/PositionProofs.v
theories/PropPosition.v
theories/TruncSpec.v
theories/TruncProofs.v
theories/PropTrunc.v
theories/LenientModel.v
theories/LenientSpec.v
theories/LenientProofs.v
theories/PropLenient.v
