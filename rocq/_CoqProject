-Q theories Verif
theories/Machine.v
theories/Encoding.v
theories/Sroar.v
theories/FileIO.v
theories/Writer.v
theories/SimpleWriter.v
theories/Reader.v
theories/Aggregate.v
theories/Parallel.v
theories/Multi.v
theories/Spec.v
theories/SimpleSpec.v
theories/MultiSpec.v
theories/FloatSpec.v
theories/MachineFacts.v
theories/EncodingFacts.v
theories/SroarFacts.v
theories/FileFacts.v
theories/WriterFacts.v
theories/BlockFacts.v
theories/FinalFacts.v
theories/ReaderFacts.v
theories/DecodeFacts.v
theories/HistoryFacts.v
theories/RunFacts.v
theories/ReachFacts.v
theories/WriterProps.v
theories/ArbFacts.v
theories/AggFacts.v
theories/ParallelFacts.v
theories/AggProps.v
theories/SimpleFacts.v
theories/MultiFacts.v
theories/CloseFacts.v
theories/RetryFacts.v
theories/ReproFacts.v
theories/ReproRead.v
theories/AvgFacts.v
theories/FloatFacts.v
theories/Examples.v
theories/CorruptFacts.v
theories/CrashFacts.v
theories/PowerFacts.v
theories/HostileFacts.v
theories/PCodec.v
theories/PWriter.v
theories/PAggregate.v
theories/PReader.v
theories/PSimple.v
theories/PMulti.v
theories/PRetry.v
theories/PFloat.v
theories/PRepro.v
theories/Cli.v
theories/CliSpec.v
theories/CliFacts.v
theories/PCli.v
theories/TornFacts.v
theories/PTorn.v
theories/Shared.v
theories/SharedSpec.v
theories/SharedFacts.v
theories/PShared.v
theories/PPower.v
theories/Loadtest.v
theories/LoadSpec.v
theories/DrawFacts.v
theories/LoadFacts.v
theories/PLoad.v
theories/ExampleTools.v
theories/ExampleSpec.v
theories/ExampleFacts.v
theories/PExample.v
theories/Debug.v
theories/DebugSpec.v
theories/DebugFacts.v
theories/PrintFacts.v
theories/PText.v
theories/StopSpec.v
theories/StopFacts.v
theories/StopCalls.v
theories/StopBytes.v
theories/PStop.v
theories/StopSimple.v
theories/PStopSimple.v
theories/Live.v
theories/LiveSpec.v
theories/LiveFacts.v
theories/PLive.v
theories/ReadFault.v
theories/ReadFaultSpec.v
theories/ReadFaultFacts.v
theories/PReadFault.v
theories/SnapSpec.v
theories/SnapFacts.v
theories/PSnap.v
theories/CliMain.v
theories/CliMainSpec.v
theories/CliMainFacts.v
theories/PCliMain.v
theories/PanicFacts.v
theories/PPanic.v
theories/FilterExample.v
theories/FilterSpec.v
theories/FilterFacts.v
theories/PFilter.v
theories/MergeSpec.v
theories/MergeFacts.v
theories/PMerge.v
theories/BigFacts.v
theories/PBig.v
theories/FillSpec.v
theories/FillFacts.v
theories/PFill.v
theories/AsWriter.v
theories/PAsWriter.v
theories/LoadMain.v
theories/LoadMainSpec.v
theories/LoadMainFacts.v
theories/PLoadMain.v
theories/HalfFacts.v
theories/PHalf.v
theories/FormatSpec.v
theories/FormatFacts.v
theories/FormatProps.v
theories/PFormat.v
theories/AnySpec.v
theories/AnyFacts.v
theories/PAny.v
theories/StuckFacts.v
theories/PStuck.v
theories/ManySpec.v
theories/ManyFacts.v
theories/PMany.v
theories/SharedMulti.v
theories/SharedMultiSpec.v
theories/SharedMultiFacts.v
theories/PSharedMulti.v
theories/Racing.v
theories/RacingSpec.v
theories/RacingFacts.v
theories/PRacing.v
theories/Memory.v
theories/MemorySpec.v
theories/MemoryFacts.v
theories/PMemory.v
theories/DamageSpec.v
theories/DamageFacts.v
theories/PDamage.v
theories/SizeSpec.v
theories/SizeFacts.v
theories/FileSizeFacts.v
theories/PSize.v
theories/AlgebraFacts.v
theories/PAlgebra.v
theories/SimpleFormat.v
theories/PSimpleFormat.v
theories/Traced.v
theories/TracedSpec.v
theories/TracedFacts.v
theories/TracedFile.v
theories/TracedSame.v
theories/TracedFault.v
theories/PTraced.v
theories/ClosingSpec.v
theories/ClosingFacts.v
theories/PClosing.v
theories/Paths.v
theories/PathsSpec.v
theories/PathsFacts.v
theories/PPaths.v
theories/PNotice.v
theories/CostSpec.v
theories/CostFacts.v
theories/PCost.v
theories/Descriptors.v
theories/DescriptorsSpec.v
theories/DescriptorsFacts.v
theories/PDescriptors.v
