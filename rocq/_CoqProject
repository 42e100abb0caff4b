-Q theories Verif
theories/Base.v
theories/BaseProofs.v
theories/BitStringIO.v
theories/BitStringIOProofs.v
theories/IntCodec.v
theories/CodecSpec.v
theories/IntCodecProofs.v
theories/FloatProofs.v
theories/Stream.v
theories/StreamSpec.v
theories/StreamProofs.v
theories/MinMax.v
theories/Marshal.v
theories/BitFieldSpec.v
theories/BitFieldProofs.v
theories/MarshalSpec.v
theories/MarshalInd.v
theories/MarshalRT.v
theories/NumericFacts.v
theories/StreamFacts.v
theories/BitFacts.v
theories/WriteFacts.v
theories/SizeSpec.v
theories/SizeFacts.v
theories/SimSpec.v
theories/SimFacts.v
theories/MarshalFacts.v
theories/FieldSpec.v
theories/FieldFacts.v
theories/ArrayFacts.v
theories/PropertiesNumeric.v
theories/PropertiesBits.v
theories/PropertiesStream.v
theories/PropertiesSizes.v
theories/PropertiesRoundTrip.v
theories/PropertiesFields.v
theories/PropertiesArrays.v
theories/Range.v
theories/IoBuffer.v
theories/IoSpec.v
theories/IoProofs.v
theories/IoMutProofs.v
theories/IoInsert.v
theories/IoDelete.v
theories/IoFacts.v
theories/IoOutput.v
theories/IoOpen.v
theories/IoViews.v
theories/PropertiesIo.v
theories/RangeRef.v
theories/RangeSpec.v
theories/RangeFacts.v
theories/RangeArith.v
theories/PropertiesRanges.v
theories/Serialize.v
theories/SerializeSpec.v
theories/SerializeFacts.v
theories/SerializeLists.v
theories/PropertiesSerialize.v
theories/RefEngine.v
theories/RefSpec.v
theories/RefProofs.v
theories/RefStatic.v
theories/PropertiesRefs.v
theories/RefSteady.v
theories/BufferModel.v
theories/BufferSpec.v
theories/SeeSpec.v
theories/WideSpec.v
theories/BufferPlace.v
theories/BufferFacts.v
theories/BufferPack.v
theories/BufferLayout.v
theories/BufferTrip.v
theories/OpenRanges.v
theories/BufferDep.v
theories/BufferMacros.v
theories/BufferCodecSpec.v
theories/BufferCodecs.v
theories/BufferErrors.v
theories/BufferClass.v
theories/BufferNested.v
theories/BufferBuilders.v
theories/BufferConds.v
theories/BufferExamples.v
theories/SelectModel.v
theories/SelectSpec.v
theories/SelectProofs.v
theories/WideProofs.v
theories/SelectExamples.v
theories/PropertiesSelect.v
theories/PropertiesBuffer.v
theories/Lazy.v
theories/LazySpec.v
theories/LazyProofs.v
theories/LazyFacts.v
theories/LazySizes.v
theories/LazyConst.v
theories/PropertiesLazy.v
theories/Heap.v
theories/HeapSpec.v
theories/HeapFacts.v
theories/PropertiesHeap.v
theories/FloatSpec.v
theories/FloatRound.v
theories/Formats.v
theories/FormatSpec.v
theories/FormatFacts.v
theories/PropertiesFormats.v
theories/RefOps.v
theories/RefOpsSpec.v
theories/RefOpsFacts.v
theories/PropertiesRefOps.v
theories/WhereRef.v
theories/WhereSpec.v
theories/WhereFacts.v
theories/PropertiesWhere.v
theories/Repr.v
theories/ReprSpec.v
theories/PropertiesRepr.v
theories/StructInit.v
theories/StructInitSpec.v
theories/StructInitFacts.v
theories/StructInitCalls.v
theories/PropertiesInit.v
theories/Macros.v
theories/MacrosSpec.v
theories/MacrosFacts.v
theories/DefineFacts.v
theories/PropertiesMacros.v
theories/PrefixFacts.v
theories/PropertiesPrefix.v
theories/RangeOne.v
theories/IntFloat.v
theories/IntFloatFacts.v
theories/PropertiesIntFloat.v
theories/FloatEq.v
theories/ReprFacts.v
theories/ReprNumbers.v
theories/BufferHooks.v
theories/PropertiesHooks.v
theories/BufferReadSpec.v
theories/BufferReads.v
theories/PropertiesReads.v
theories/Compat.v
theories/CompatProofs.v
theories/PropertiesCompat.v
theories/EqSpec.v
theories/EqFacts.v
theories/NumEq.v
theories/PropertiesNumEq.v
theories/Contexts.v
theories/ContextsSpec.v
theories/ContextsFacts.v
theories/PropertiesContexts.v
theories/IoIndex.v
theories/PropertiesIndex.v
theories/Declare.v
theories/DeclareSpec.v
theories/DeclareFacts.v
theories/DeclareKeywords.v
theories/PropertiesDeclare.v
theories/BufferTypes.v
theories/BufferTypesSpec.v
theories/BufferTypesFacts.v
theories/PropertiesTypes.v
theories/OpenSpec.v
theories/OpenProofs.v
theories/PropertiesOpen.v
theories/WideExamples.v
theories/PropertiesWide.v
theories/ObjectSize.v
theories/ObjectSizeSpec.v
theories/ObjectSizeFacts.v
theories/PropertiesObjectSize.v
theories/StrCodec.v
theories/StrCodecSpec.v
theories/StrCodecFacts.v
theories/PropertiesStrCodec.v
theories/MemberSpec.v
theories/MemberFacts.v
theories/LengthSpec.v
theories/LengthFacts.v
theories/PropertiesMember.v
theories/Poly.v
theories/PolySpec.v
theories/PolyFacts.v
theories/PropertiesPoly.v
theories/Show.v
theories/ShowSpec.v
theories/ShowFacts.v
theories/PropertiesShow.v
theories/LazyShow.v
theories/LazyShowSpec.v
theories/LazyShowFacts.v
theories/LazyText.v
theories/PropertiesLazyShow.v
theories/RepeatSpec.v
theories/RepeatFacts.v
theories/PropertiesRepeat.v
theories/ConstSpec.v
theories/ConstFacts.v
theories/PropertiesConst.v
theories/Deep.v
theories/DeepSpec.v
theories/DeepFacts.v
theories/DeepProofs.v
theories/PropertiesDeep.v
theories/DeclaredSpec.v
theories/DeclaredFacts.v
theories/PropertiesDeclared.v
theories/MeaningSpec.v
theories/MeaningFacts.v
theories/PropertiesMeaning.v
theories/JsonFacts.v
theories/PropertiesJson.v
theories/DeclareNoEndian.v
theories/DeclareKinds.v
theories/StructInitStay.v
theories/OptionalFacts.v
theories/PropertiesOptional.v
theories/SelectorFacts.v
theories/BufferReport.v
theories/ReportSpec.v
theories/ReportFacts.v
theories/PropertiesReport.v
theories/BufferText.v
theories/BufferTextSpec.v
theories/BufferTextFacts.v
theories/PropertiesText.v
theories/RefText.v
theories/RefTextSpec.v
theories/RefTextFacts.v
theories/PropertiesRefText.v
theories/ReadArgs.v
theories/ReadArgsSpec.v
theories/ReadArgsFacts.v
theories/LazyArgs.v
theories/LazyArgsFacts.v
theories/PropertiesReadArgs.v
theories/WhereOps.v
theories/WhereOpsFacts.v
theories/PropertiesWhereOps.v
theories/LazyLook.v
theories/LazyLookFacts.v
theories/PropertiesLazyLook.v
theories/RefFail.v
theories/BufferFailSpec.v
theories/BufferFail.v
theories/PropertiesFail.v
theories/IoShare.v
theories/IoShareSpec.v
theories/IoShareFacts.v
theories/IoShareSelf.v
theories/IoShareSeen.v
theories/PropertiesShare.v
theories/LazyBitsSpec.v
theories/LazyBitsFacts.v
theories/PropertiesLazyBits.v
theories/LazyNest.v
theories/LazyNestSpec.v
theories/LazyNestFacts.v
theories/PropertiesLazyNest.v
theories/TypeSpec.v
theories/TypeFacts.v
theories/PropertiesType.v
theories/Threads.v
theories/ThreadsSpec.v
theories/ThreadsFacts.v
theories/ThreadsRun.v
theories/ThreadsLinear.v
theories/ThreadsTorn.v
theories/ThreadsErrors.v
theories/PropertiesThreads.v
theories/LazyTree.v
theories/LazyTreeSpec.v
theories/LazyTreeFacts.v
theories/LazyTreeText.v
theories/PropertiesLazyTree.v
theories/IoMixin.v
theories/IoMixinSpec.v
theories/IoMixinFacts.v
theories/IoMixinMut.v
theories/IoMixinRev.v
theories/PropertiesMixin.v
theories/LazyFailSpec.v
theories/LazyFailFacts.v
theories/PropertiesLazyFail.v
