-Q theories Verif

theories/Base.v
theories/Kernels.v
theories/PairSpec.v
theories/KernelProofs.v
theories/PairLemmas.v
theories/RegularProofs.v
theories/SumProofs.v
theories/CoreModel.v
theories/CoreProofs.v
theories/CoreProofs2.v
theories/CoreProofs3.v
theories/VecModel.v
theories/VecProofs.v
theories/CoreApi.v
theories/CoreApi2.v
theories/Examples.v
theories/Prop_Core1.v
theories/Prop_Core2.v
theories/FftModel.v
theories/FftProofs.v
theories/FftProofs2.v
theories/FftProofs3.v
theories/FftReals.v
theories/FftApi.v
theories/Prop_Fft.v
theories/NormModel.v
theories/CorrModel.v
theories/CorrSpec.v
theories/CorrProofs.v
theories/CorrProofs2.v
theories/NormSpec.v
theories/NormProofs.v
theories/NormProofs2.v
theories/NormApi.v
theories/NormAuto.v
theories/NormMap.v
theories/NormApi2.v
theories/Prop_Norm1.v
theories/NormMode.v
theories/NormMode2.v
theories/NormMode3.v
theories/NormApi3.v
theories/Prop_Norm2.v
theories/WeightModel.v
theories/WeightProofs.v
theories/WeightApi.v
theories/Prop_Weight.v
theories/MultiModel.v
theories/StreamModel.v
theories/MultiSpec.v
theories/MultiProofs.v
theories/MultiLevels.v
theories/PairAcc.v
theories/PairTuple.v
theories/Prop_Multi.v
theories/CallPairs.v
theories/StreamBuffer.v
theories/StreamLoop.v
theories/StreamChunk.v
theories/StreamSpec.v
theories/StreamSetup.v
theories/StreamFits.v
theories/StreamIter.v
theories/StreamSingle.v
theories/StreamInst.v
theories/CallFresh.v
theories/StreamEqual.v
theories/StreamParts.v
theories/StreamMain.v
theories/StreamMulti.v
theories/StreamMultiMain.v
theories/StreamRegular.v
theories/StreamMultiEqual.v
theories/StreamErrors.v
theories/Prop_Stream1.v
theories/Prop_Stream2.v
theories/Prop_Stream3.v
theories/ReshapeModel.v
theories/ReshapeProofs.v
theories/Prop_Reshape.v
theories/Ordered.v
theories/AvgModel.v
theories/AvgProofs.v
theories/AvgProofs2.v
theories/Prop_Avg.v
theories/Prop_AvgReals.v
theories/LevelModel.v
theories/LevelProofs.v
theories/LevelProofs2.v
theories/Prop_Level.v
theories/ThreadModel.v
theories/ThreadProofs.v
theories/Prop_Threads.v
theories/VideoModel.v
theories/VideoProofs.v
theories/Prop_Video.v
theories/SimModel.v
theories/SimProofs.v
theories/SimProofs2.v
theories/SimProofs3.v
theories/Archimedean.v
theories/Prop_Sim.v
theories/MapModel.v
theories/MapProofs.v
theories/Fft2Model.v
theories/Fft2Proofs.v
theories/Prop_Map.v
theories/SectorModel.v
theories/SectorProofs.v
theories/SectorProofs2.v
theories/SectorProofs3.v
theories/SectorProofs4.v
theories/SectorFloor.v
theories/Prop_Sector.v
theories/Prop_SectorReals.v
theories/ConfModel.v
theories/Prop_Conf.v
theories/WindowModel.v
theories/Prop_Window.v
theories/NormSmooth.v
theories/Prop_Smooth.v
theories/TauModel.v
theories/TauProofs.v
theories/Prop_Tau.v
theories/CountModel.v
theories/CountProofs.v
theories/Prop_Count.v
theories/ShiftModel.v
theories/ShiftProofs.v
theories/Prop_Shift.v
theories/NoiseModel.v
theories/Prop_Noise.v
theories/AvgProofs3.v
theories/Prop_WeightData.v
theories/Prop_Errors.v
theories/MultiComplex.v
theories/Prop_MultiComplex.v
theories/Prop_Choose.v
theories/MultiNormModel.v
theories/Prop_MultiNorm.v
theories/StatsModel.v
theories/Prop_Stats.v
theories/DlsModel.v
theories/DlsProofs.v
theories/Prop_Dls.v
theories/ViewerModel.v
theories/ViewerProofs.v
theories/ViewerApart.v
theories/Prop_Viewer.v
theories/Prop_ViewerReals.v
theories/WalkModel.v
theories/WalkProofs.v
theories/Prop_Walk.v
theories/RandCountProofs.v
theories/Prop_RandCount.v
theories/SchemeProofs.v
theories/Prop_Scheme.v
theories/StartModel.v
theories/Prop_Start.v
theories/RetiredModel.v
theories/Prop_Retired.v
theories/SpectrumModel.v
theories/Prop_Spectrum.v
theories/Prop_Form.v
theories/NormArrayModel.v
theories/NormArrayProofs.v
theories/NormArrayProofs2.v
theories/NormArrayProofs3.v
theories/Prop_NormArray.v
theories/AxisModel.v
theories/AxisProofs.v
theories/AxisProofs2.v
theories/AxisProofs3.v
theories/Prop_Axis.v
theories/LogFoldModel.v
theories/Prop_LogFold.v
theories/LevelArrayModel.v
theories/LevelArrayProofs.v
theories/Prop_LevelArray.v
theories/MultiArrayModel.v
theories/MultiArrayProofs.v
theories/MultiArrayProofs2.v
theories/MultiArrayProofs3.v
theories/MultiArrayProofs4.v
theories/MultiArrayProofs5.v
theories/Prop_MultiArray.v
theories/StreamArrayModel.v
theories/StreamArrayProofs.v
theories/StreamArrayProofs2.v
theories/StreamArrayProofs3.v
theories/StreamArrayProofs4.v
theories/StreamArrayProofs5.v
theories/Prop_StreamArray.v
theories/Prop_StreamArray2.v
theories/TurnProofs.v
theories/TurnData.v
theories/TurnApi.v
theories/TranslateProofs.v
theories/Prop_Translate.v
theories/Prop_Translate2.v
theories/ProgressModel.v
theories/Prop_Progress.v
theories/GainData.v
theories/GainApi.v
theories/Prop_Gain.v
theories/Prop_Flicker.v
theories/DeprecatedModel.v
theories/Prop_Deprecated.v
theories/InplaceModel.v
theories/Prop_Inplace.v
theories/ButtonModel.v
theories/Prop_Buttons.v
theories/ShotModel.v
theories/Prop_Shot.v
theories/Prop_Energy.v
theories/TitleModel.v
theories/Prop_Titles.v
theories/ShownModel.v
theories/Prop_Shown.v
theories/SlideModel.v
theories/Prop_Slide.v
theories/CheckModel.v
theories/Prop_Check.v
