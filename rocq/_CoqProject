-Q theories Verif
theories/Lib/Base.v
theories/Lib/RField.v
theories/Lib/Sorting.v
theories/Lib/Str.v
theories/Lib/StrFacts.v
theories/Lib/Time.v
theories/Lib/TimeFacts.v
theories/Model/Amplitude.v
theories/Model/Archive.v
theories/Model/Averages.v
theories/Model/BulkFile.v
theories/Model/ClockShift.v
theories/Model/Collectives.v
theories/Model/Combos.v
theories/Model/CorrDB.v
theories/Model/CorrScript.v
theories/Model/CorrStats.v
theories/Model/CorrStream.v
theories/Model/CorrTrace.v
theories/Model/DBOpen.v
theories/Model/DVFile.v
theories/Model/DVGrid.v
theories/Model/DVs.v
theories/Model/DataLoop.v
theories/Model/Detrend.v
theories/Model/FDFilter.v
theories/Model/Flip.v
theories/Model/FloatAxis.v
theories/Model/FreqDomain.v
theories/Model/Gaps.v
theories/Model/GridCalls.v
theories/Model/GridInversion.v
theories/Model/H5.v
theories/Model/HeaderIO.v
theories/Model/Inversion.v
theories/Model/Kernel.v
theories/Model/LagMatrix.v
theories/Model/Masking.v
theories/Model/Metadata.v
theories/Model/MonitorDV.v
theories/Model/MonitorFiles.v
theories/Model/MonitorInput.v
theories/Model/MonitorProcs.v
theories/Model/MonitorRun.v
theories/Model/MonitorStart.v
theories/Model/MpiMatrix.v
theories/Model/MultiRef.v
theories/Model/MultiTrace.v
theories/Model/Partition.v
theories/Model/PxcorrLoop.v
theories/Model/ReadFiles.v
theories/Model/Recombine.v
theories/Model/Reference.v
theories/Model/Rerun.v
theories/Model/Resampling.v
theories/Model/RunStart.v
theories/Model/RunToFiles.v
theories/Model/Shift.v
theories/Model/Similarity.v
theories/Model/Smoothing.v
theories/Model/Spatial.v
theories/Model/Spectral.v
theories/Model/Spectrogram.v
theories/Model/SpectrogramReads.v
theories/Model/Startup.v
theories/Model/Stations.v
theories/Model/StoreClient.v
theories/Model/StreamSteps.v
theories/Model/TimeDomain.v
theories/Model/Tsvd.v
theories/Model/VelocityChange.v
theories/Model/Wfc.v
theories/Model/WindowCorrelation.v
theories/Model/WriteOut.v
theories/Spec/AmplitudeSpec.v
theories/Spec/ArchiveSpec.v
theories/Spec/AveragesSpec.v
theories/Spec/BulkFileSpec.v
theories/Spec/CollectiveSpec.v
theories/Spec/ComboSpec.v
theories/Spec/DBSpec.v
theories/Spec/DVFileSpec.v
theories/Spec/DVSpec.v
theories/Spec/DataLoopSpec.v
theories/Spec/DecaySpec.v
theories/Spec/DetrendSpec.v
theories/Spec/DirSpec.v
theories/Spec/GapsSpec.v
theories/Spec/GridCallsSpec.v
theories/Spec/HeaderIOSpec.v
theories/Spec/HeaderSpec.v
theories/Spec/InversionSpec.v
theories/Spec/KernelSpec.v
theories/Spec/LagSpec.v
theories/Spec/MaskSpec.v
theories/Spec/MetadataSpec.v
theories/Spec/MonitorDVSpec.v
theories/Spec/MonitorInputSpec.v
theories/Spec/MonitorRunSpec.v
theories/Spec/MonitorSpec.v
theories/Spec/MultiRefSpec.v
theories/Spec/MultiTraceSpec.v
theories/Spec/OptionsSpec.v
theories/Spec/ReadFilesSpec.v
theories/Spec/RecombineSpec.v
theories/Spec/ReferenceSpec.v
theories/Spec/ResamplingSpec.v
theories/Spec/RestartSpec.v
theories/Spec/RowwiseSpec.v
theories/Spec/RunToFilesSpec.v
theories/Spec/ShiftSpec.v
theories/Spec/SmoothSpec.v
theories/Spec/SpatialSpec.v
theories/Spec/SpectralSpec.v
theories/Spec/SpectrogramSpec.v
theories/Spec/StartupSpec.v
theories/Spec/StationSpec.v
theories/Spec/StoreSpec.v
theories/Spec/StreamSpec.v
theories/Spec/StreamStepsSpec.v
theories/Spec/TimeDomainSpec.v
theories/Spec/TsvdSpec.v
theories/Spec/VelocityChangeSpec.v
theories/Spec/WfcSpec.v
theories/Spec/WindowCorrelationSpec.v
theories/Spec/XCombiSpec.v
theories/Proofs/AlignFacts.v
theories/Proofs/AlignedAverage.v
theories/Proofs/AmplitudeFacts.v
theories/Proofs/ArchiveFacts.v
theories/Proofs/AveragesFacts.v
theories/Proofs/BulkFacts.v
theories/Proofs/BulkFileFacts.v
theories/Proofs/CalendarFacts.v
theories/Proofs/CenterFacts.v
theories/Proofs/ClipFacts.v
theories/Proofs/ClockShiftFacts.v
theories/Proofs/CollectiveFacts.v
theories/Proofs/CombineFacts.v
theories/Proofs/ComboFacts.v
theories/Proofs/CorrDBFacts.v
theories/Proofs/CorrScriptFacts.v
theories/Proofs/CorrScriptRunFacts.v
theories/Proofs/CorrectFacts.v
theories/Proofs/CovarianceFacts.v
theories/Proofs/DVFacts.v
theories/Proofs/DVFileFacts.v
theories/Proofs/DVGridFacts.v
theories/Proofs/DataLoopFacts.v
theories/Proofs/DecayFacts.v
theories/Proofs/DetrendFacts.v
theories/Proofs/DisplacedFacts.v
theories/Proofs/EnvelopeFacts.v
theories/Proofs/ExtractFacts.v
theories/Proofs/FDFilterFacts.v
theories/Proofs/FlankFacts.v
theories/Proofs/FreqDomainFacts.v
theories/Proofs/GapsFacts.v
theories/Proofs/GridCallsFacts.v
theories/Proofs/GridFacts.v
theories/Proofs/H5Facts.v
theories/Proofs/HeaderFacts.v
theories/Proofs/HistoryFacts.v
theories/Proofs/InversionFacts.v
theories/Proofs/KernelFacts.v
theories/Proofs/LagFacts.v
theories/Proofs/ListingFacts.v
theories/Proofs/MaskFacts.v
theories/Proofs/MeasureFacts.v
theories/Proofs/MetadataFacts.v
theories/Proofs/MonitorDVFacts.v
theories/Proofs/MonitorFilesFacts.v
theories/Proofs/MonitorInputFacts.v
theories/Proofs/MonitorProcsFacts.v
theories/Proofs/MonitorRunFacts.v
theories/Proofs/MovingFacts.v
theories/Proofs/MpiMatrixFacts.v
theories/Proofs/MultiRefFacts.v
theories/Proofs/MultiTraceFacts.v
theories/Proofs/OffsetFacts.v
theories/Proofs/OptionsFacts.v
theories/Proofs/OutputFacts.v
theories/Proofs/PartitionFacts.v
theories/Proofs/PartitionFloat.v
theories/Proofs/PxcorrLoopFacts.v
theories/Proofs/QueryOrder.v
theories/Proofs/ReadFilesFacts.v
theories/Proofs/ReadLoopFacts.v
theories/Proofs/ReadNamesFacts.v
theories/Proofs/RecombineFacts.v
theories/Proofs/RecombineRunFacts.v
theories/Proofs/RecoverFacts.v
theories/Proofs/ReferenceFacts.v
theories/Proofs/RerunFacts.v
theories/Proofs/ResamplingFacts.v
theories/Proofs/RestartFacts.v
theories/Proofs/RunToFilesFacts.v
theories/Proofs/ShiftFacts.v
theories/Proofs/ShiftWindow.v
theories/Proofs/SimilarityFacts.v
theories/Proofs/SmoothFacts.v
theories/Proofs/SpatialFacts.v
theories/Proofs/SpectralFacts.v
theories/Proofs/SpectrogramFacts.v
theories/Proofs/SpectrogramReadsFacts.v
theories/Proofs/StackFacts.v
theories/Proofs/StartupFacts.v
theories/Proofs/StationFacts.v
theories/Proofs/StoreFacts.v
theories/Proofs/StoreGapFacts.v
theories/Proofs/StoreReadFacts.v
theories/Proofs/StreamFacts.v
theories/Proofs/StreamStepsFacts.v
theories/Proofs/TimeDomainFacts.v
theories/Proofs/TsvdFacts.v
theories/Proofs/VelocityChangeFacts.v
theories/Proofs/WfcFacts.v
theories/Proofs/WfcFileFacts.v
theories/Proofs/WfcGridFacts.v
theories/Proofs/WholeRunFacts.v
theories/Proofs/WindowCorrelationFacts.v
theories/Proofs/WindowFacts.v
theories/Proofs/XCombiFacts.v
theories/Props/Amplitude.v
theories/Props/Archive.v
theories/Props/Averages.v
theories/Props/BulkFile.v
theories/Props/ClockShift.v
theories/Props/Collectives.v
theories/Props/CorrScript.v
theories/Props/Correlation.v
theories/Props/DataLoop.v
theories/Props/Database.v
theories/Props/Detrend.v
theories/Props/FDFilter.v
theories/Props/Gaps.v
theories/Props/GridCalls.v
theories/Props/GridInversion.v
theories/Props/Header.v
theories/Props/Inputs.v
theories/Props/Inversion.v
theories/Props/Kernel.v
theories/Props/LagAxis.v
theories/Props/Metadata.v
theories/Props/Monitor.v
theories/Props/MonitorDV.v
theories/Props/MonitorInput.v
theories/Props/MonitorProcs.v
theories/Props/MonitorRun.v
theories/Props/MonitorStart.v
theories/Props/MultiRef.v
theories/Props/MultiTrace.v
theories/Props/Output.v
theories/Props/Pairs.v
theories/Props/Parallel.v
theories/Props/Preprocessing.v
theories/Props/ReadFiles.v
theories/Props/Recombine.v
theories/Props/Reference.v
theories/Props/Requests.v
theories/Props/Resampling.v
theories/Props/Results.v
theories/Props/RunStart.v
theories/Props/RunToFiles.v
theories/Props/Shift.v
theories/Props/Smoothing.v
theories/Props/SpectrogramReads.v
theories/Props/Startup.v
theories/Props/Store.v
theories/Props/StreamSteps.v
theories/Props/Streams.v
theories/Props/Tsvd.v
theories/Props/VelocityChange.v
theories/Props/Wfc.v
theories/Props/WindowCorrelation.v
