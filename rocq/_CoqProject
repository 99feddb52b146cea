-Q theories Verif

theories/Base.v
theories/NdArray.v
theories/LoadModel.v
theories/LoadProofs.v
theories/LoadTextProofs.v
theories/LoadProps.v
theories/NormModel.v
theories/NormProofs.v
theories/NormProps.v
theories/PairModel.v
theories/PairProofs.v
theories/PairProps.v
theories/RealSums.v
theories/MetricModel.v
theories/MetricProofs.v
theories/MetricProps.v
theories/SsimModel.v
theories/SsimProofs.v
theories/SsimProps.v
theories/GsmModel.v
theories/GsmProofs.v
theories/GsmProps.v
theories/MadModel.v
theories/MadLoopProofs.v
theories/MadProofs.v
theories/MadProps.v
theories/FreqModel.v
theories/FreqProofs.v
theories/FreqAngleProofs.v
theories/FreqProps.v
theories/SliceModel.v
theories/SliceProps.v
theories/MadDetectProps.v
theories/RegionModel.v
theories/NrModel.v
theories/RegionProofs.v
theories/RegionFindProofs.v
theories/RegionProps.v
theories/NrProofs.v
theories/NrProps.v
theories/BatchModel.v
theories/BatchProofs.v
theories/BatchLoopProofs.v
theories/BatchTraceProofs.v
theories/BatchProps.v
theories/BatchLoadProps.v
theories/ExportModel.v
theories/ExportProofs.v
theories/ExportProps.v
theories/ExportReportProps.v
theories/VisModel.v
theories/VisProps.v
theories/InteractModel.v
theories/InteractProofs.v
theories/InteractProps.v
theories/PrintModel.v
theories/PrintProofs.v
theories/PrintProps.v
theories/WarnModel.v
theories/WarnProps.v
theories/MiscModel.v
theories/MiscProps.v
theories/StatModel.v
theories/StatProps.v
theories/ScriptModel.v
theories/ScriptProps.v
theories/CsvModel.v
theories/CsvProofs.v
theories/CsvProps.v
theories/SsimSymProofs.v
theories/SsimSymProps.v
theories/UnitProps.v
theories/TurnProps.v
theories/SsimRoundModel.v
theories/RoundProofs.v
theories/SsimRoundProofs.v
theories/SsimRoundWitness.v
theories/SsimRoundProps.v
theories/FileModel.v
theories/FileProofs.v
theories/FileProps.v
theories/TurnNrProofs.v
theories/TurnNrProps.v
theories/RunModel.v
theories/RunProofs.v
theories/RunProps.v
theories/ScaleProofs.v
theories/ScaleProps.v
theories/RmseRoundModel.v
theories/RmseRoundProofs.v
theories/RmseExactProofs.v
theories/RmseRoundProps.v
theories/NrRoundModel.v
theories/NrRoundProofs.v
theories/NrExactProofs.v
theories/NrRoundProps.v
theories/PsnrRoundProps.v
theories/NotebookModel.v
theories/NotebookProps.v
theories/SsimExpProps.v
theories/RangeProps.v
theories/MessageModel.v
theories/MessageProps.v
theories/TupleModel.v
theories/TupleProps.v
theories/MadStateModel.v
theories/MadStateProps.v
theories/SuiteModel.v
theories/SuiteProps.v
theories/SsimWinProofs.v
theories/DistortProps.v
theories/DataRangeProps.v
theories/CsvEndProps.v
theories/VolumeProps.v
theories/StackProps.v
theories/FuseProps.v
theories/ResolutionProps.v
theories/BuildModel.v
theories/BuildProps.v
theories/GsmGainProps.v
theories/MadGainProps.v
theories/PartsProps.v
theories/VolumeMeanProps.v
theories/GsmSeenProps.v
theories/FuseRankProps.v
theories/MixProps.v
theories/ChainProps.v
theories/AverageNrProps.v
