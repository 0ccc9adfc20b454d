-Q theories Verif
theories/Outcome.v
theories/CInt.v
theories/Spec.v
theories/ShapeSpec.v
theories/Shape.v
theories/CIntFacts.v
theories/SpecFacts.v
theories/ShapeFacts.v
theories/ShapeFacts2.v
theories/Prop_Shape.v
theories/Prefilled.v
theories/PrefilledSpec.v
theories/PrefilledFacts.v
theories/PrefilledFacts2.v
theories/PrefilledFacts3.v
theories/Prop_Prefilled.v
theories/Literals.v
theories/LiteralsSpec.v
theories/LiteralsFacts.v
theories/EndRatio.v
theories/EndRatioSpec.v
theories/EndRatioFacts.v
theories/Prop_Scalars.v
theories/RatioSpec.v
theories/RatioFacts.v
theories/Prop_Ratio.v
theories/ForEach.v
theories/ForEachSpec.v
theories/ForEachFacts.v
theories/Prop_ForEach.v
theories/Memory.v
theories/Container.v
theories/ContainerSpec.v
theories/MemFacts.v
theories/ContainerFacts.v
theories/ContainerFacts2.v
theories/ContainerFacts3.v
theories/Prop_Container.v
theories/Algo.v
theories/AlgoSpec.v
theories/AlgoFacts.v
theories/AlgoFacts2.v
theories/AlgoFacts3.v
theories/AlgoFacts4.v
theories/Prop_Algo.v
theories/Search.v
theories/SearchSpec.v
theories/SearchFacts.v
theories/Prop_Search.v
theories/Alloc.v
theories/AllocSpec.v
theories/AllocFacts.v
theories/AllocFacts2.v
theories/AllocFacts3.v
theories/MoveFacts.v
theories/Prop_Alloc.v
theories/Slicer.v
theories/SlicerSpec.v
theories/SlicerFacts.v
theories/SlicerFacts2.v
theories/SlicerFacts3.v
theories/SlicerFacts4.v
theories/Prop_Slicer.v
theories/ContiguousSpec.v
theories/ContiguousFacts.v
theories/Prop_Contiguous.v
theories/Interp.v
theories/InterpSpec.v
theories/InterpFacts.v
theories/Prop_Interp.v
theories/Output.v
theories/OutputSpec.v
theories/OutputFacts.v
theories/OutputFacts2.v
theories/Prop_Output.v
theories/ViewSpec.v
theories/ViewFacts.v
theories/Prop_View.v
theories/Source.v
theories/SourceSpec.v
theories/SourceFacts.v
theories/Prop_Source.v
theories/DebugFacts.v
theories/Prop_Debug.v
theories/NegativeFacts.v
theories/Prop_Negative.v
theories/ScanInPlaceFacts.v
theories/Prop_ScanInPlace.v
theories/IotaFacts.v
theories/Prop_Iota.v
theories/NumelFacts.v
theories/Prop_Numel.v
theories/StridedTableFacts.v
theories/Prop_StridedTable.v
theories/ReverseStridedFacts.v
theories/Prop_ReverseStrided.v
theories/ScanSumsFacts.v
theories/Prop_ScanSums.v
theories/FindLastStridedFacts.v
theories/Prop_FindLastStrided.v
theories/EndMoreSpec.v
theories/EndMoreFacts.v
theories/Prop_EndMore.v
theories/SearchMoreSpec.v
theories/SearchMoreFacts.v
theories/Prop_SearchMore.v
theories/UncoveredFacts.v
theories/Prop_Uncovered.v
theories/AsArraySpec.v
theories/AsArrayFacts.v
theories/Prop_AsArray.v
theories/IndexFacts.v
theories/Prop_Index.v
theories/LiteralMoreFacts.v
theories/Prop_LiteralMore.v
theories/StdArrayFacts.v
theories/Prop_StdArray.v
theories/SliceOutsideFacts.v
theories/Prop_SliceOutside.v
theories/CopyMoreFacts.v
theories/Prop_CopyMore.v
theories/EqMoreFacts.v
theories/Prop_EqMore.v
theories/UncoveredOneFacts.v
theories/Prop_UncoveredOne.v
theories/NamedSize.v
theories/NamedSizeSpec.v
theories/NamedSizeFacts.v
theories/Prop_NamedSize.v
theories/SimilarFacts.v
theories/Prop_Similar.v
theories/IeeeSpec.v
theories/IeeeFacts.v
theories/Prop_Ieee.v
theories/NamedStride.v
theories/NamedStrideSpec.v
theories/NamedStrideFacts.v
theories/Prop_Stride.v
theories/Context.v
theories/ContextSpec.v
theories/ContextFacts.v
theories/Prop_Context.v
theories/Lifetime.v
theories/LifetimeSpec.v
theories/LifetimeFacts.v
theories/Prop_Lifetime.v
theories/Sums.v
theories/SumsSpec.v
theories/SumsFacts.v
theories/Prop_Sums.v
theories/CompareFacts.v
theories/Prop_Compare.v
theories/RoundSpec.v
theories/RoundFacts.v
theories/ErrorFacts.v
theories/Prop_Error.v
theories/Calls.v
theories/CallSpec.v
theories/CallFacts.v
theories/CallFacts2.v
theories/CallFacts3.v
theories/CallFacts4.v
theories/Prop_Calls.v
theories/Label.v
theories/LabelFacts.v
theories/Prop_Label.v
theories/Fail.v
theories/FailSpec.v
theories/FailFacts.v
theories/FailFacts2.v
theories/Prop_Fail.v
theories/Exn.v
theories/ExnSpec.v
theories/ExnFacts.v
theories/Prop_Exn.v
theories/Rights.v
theories/RightsSpec.v
theories/RightsFacts.v
theories/Prop_Rights.v
theories/Mixed.v
theories/MixedSpec.v
theories/MixedFacts.v
theories/Prop_Mixed.v
theories/Convert.v
theories/ConvertSpec.v
theories/ConvertFacts.v
theories/Prop_Convert.v
theories/Objects.v
theories/ObjectSpec.v
theories/ObjectFacts.v
theories/Prop_Objects.v
theories/CheckSpec.v
theories/CheckFacts.v
theories/LawSpec.v
theories/LawFacts.v
theories/Prop_Laws.v
theories/SplitSpec.v
theories/SplitFacts.v
theories/Prop_Split.v
theories/SliceText.v
theories/SliceTextSpec.v
theories/SliceTextFacts.v
theories/SliceTextFacts2.v
theories/SliceTextFacts3.v
theories/Prop_SliceText.v
theories/OverlapSpec.v
theories/OverlapFacts.v
theories/OverlapFacts2.v
theories/Prop_Overlap.v
theories/Settings.v
theories/SettingsSpec.v
theories/SettingsFacts.v
theories/Prop_Settings.v
theories/Names.v
theories/NamesSpec.v
theories/NamesFacts.v
theories/Prop_Names.v
theories/SliceKinds.v
theories/SliceKindsSpec.v
theories/SliceKindsFacts.v
theories/SliceKindsFacts2.v
theories/Prop_SliceKinds.v
theories/Program.v
theories/ProgramSpec.v
theories/ProgramFacts.v
theories/ProgramFacts2.v
theories/ProgramFacts3.v
theories/ProgramFacts4.v
theories/ProgramFacts5.v
theories/ProgramFacts6.v
theories/Prop_Program.v
theories/FloatSums.v
theories/FloatSumsSpec.v
theories/FloatSumsFacts.v
theories/FloatSumsFacts2.v
theories/FloatSumsFacts3.v
theories/FloatSumsFacts4.v
theories/FloatSumsFacts5.v
theories/Prop_FloatSums.v
theories/Throw.v
theories/ThrowSpec.v
theories/ThrowFacts.v
theories/ThrowFacts2.v
theories/Prop_Throw.v
theories/Stream.v
theories/StreamSpec.v
theories/StreamFacts.v
theories/StreamFacts2.v
theories/StreamFacts3.v
theories/Prop_Stream.v
theories/Threads.v
theories/ThreadsSpec.v
theories/ThreadsFacts.v
theories/ThreadsFacts2.v
theories/ThreadsFacts3.v
theories/ThreadsFacts4.v
theories/Prop_Threads.v
theories/ReverseFacts.v
theories/Position.v
theories/PositionSpec.v
theories/PositionFacts.v
theories/Prop_Position.v
theories/Overload.v
theories/OverloadSpec.v
theories/OverloadFacts.v
theories/Prop_Overload.v
theories/Attribute.v
theories/AttributeSpec.v
theories/AttributeFacts.v
theories/Prop_Attribute.v
theories/Instance.v
theories/InstanceSpec.v
theories/InstanceFacts.v
theories/Prop_Instance.v
theories/FloatIota.v
theories/FloatIotaFacts.v
theories/Prop_FloatIota.v
theories/FloatCompare.v
theories/FloatCompareSpec.v
theories/FloatCompareFacts.v
theories/Prop_FloatCompare.v
theories/Assign.v
theories/AssignSpec.v
theories/AssignFacts.v
theories/Prop_Assign.v
theories/Extension.v
theories/ExtensionSpec.v
theories/ExtensionFacts.v
theories/ExtensionFacts2.v
theories/Prop_Extension.v
theories/Steps.v
theories/StepsSpec.v
theories/StepsFacts.v
theories/Prop_Steps.v
theories/Accesses.v
theories/AccessesSpec.v
theories/AccessesFacts.v
theories/Prop_Accesses.v
theories/TestLang.v
theories/TestShape.v
theories/TestSlicer.v
theories/TestMeta.v
theories/TestIndex.v
theories/TestAlgos.v
theories/TestTables.v
theories/UserSlicer.v
theories/UserSlicerSpec.v
theories/UserSlicerFacts.v
theories/Prop_UserSlicer.v
theories/LargeSpec.v
theories/LargeFacts.v
theories/LargeFacts2.v
theories/Prop_Large.v
theories/AnyFail.v
theories/AnyFailSpec.v
theories/AnyFailFacts.v
theories/Prop_AnyFail.v
theories/Ctor.v
theories/CtorSpec.v
theories/CtorFacts.v
theories/Prop_Ctor.v
theories/TestDoc.v
theories/Bools.v
theories/BoolsSpec.v
theories/BoolsFacts.v
theories/BoolsFacts2.v
theories/Prop_Bools.v
theories/LargeSliceSpec.v
theories/LargeSliceFacts.v
theories/LargeSliceFacts2.v
theories/Prop_LargeSlice.v
theories/ThreadTables.v
theories/ThreadTablesSpec.v
theories/ThreadTablesFacts.v
theories/ThreadTablesFacts2.v
theories/ThreadTablesFacts3.v
theories/ThreadTablesFacts4.v
theories/ThreadTablesFacts5.v
theories/Prop_ThreadTables.v
theories/CheckFacts2.v
theories/Prop_Checks.v
theories/Uses.v
theories/UsesSpec.v
theories/UsesFacts.v
theories/UsesFacts2.v
theories/UsesFacts3.v
theories/Uses2.v
theories/UsesFacts4.v
theories/Prop_Uses.v
theories/LoopUse.v
theories/LoopUseSpec.v
theories/LoopUseFacts.v
theories/LoopUseFacts2.v
theories/Prop_LoopUse.v
