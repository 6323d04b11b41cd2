-Q theories Verif
theories/Base/Res.v
theories/Base/CInt.v
theories/Base/ListX.v
theories/Base/Float.v
theories/Base/FloatOrder.v
theories/Base/Loops.v
theories/Model/Common.v
theories/Model/TreesConvert.v
theories/Model/TreesC.v
theories/Model/TreesInline.v
theories/Model/TreesWrapper.v
theories/Spec/TreesSpec.v
theories/Spec/TreesCSpec.v
theories/Spec/VoteSpec.v
theories/Spec/CsvSpec.v
theories/Spec/ClassifierSpec.v
theories/Proof/TreesFlatten.v
theories/Proof/TreesForest.v
theories/Proof/TreesLeaves.v
theories/Proof/TreesWalk.v
theories/Proof/Vote.v
theories/Proof/TreesEnd.v
theories/Proof/TreesHard.v
theories/Proof/Quantize.v
theories/Proof/TreesSoft.v
theories/Proof/TreesNodes.v
theories/Proof/TreesTop.v
theories/Proof/TreesApi.v
theories/Proof/TreesInlineRun.v
theories/Proof/TreesRegress.v
theories/Proof/TreesMisc.v
theories/Proof/TreesDedup.v
theories/Proof/TreesSize.v
theories/Proof/TreesCsvApi.v
theories/Model/Qsort.v
theories/Model/Neighbors.v
theories/Spec/NeighborsSpec.v
theories/Spec/NeighborsCSpec.v
theories/Proof/Qsort.v
theories/Proof/Neighbors.v
theories/Props/Neighbors.v
theories/Props/Samples.v
theories/Props/Trees.v
theories/Model/Mem.v
theories/Model/Array.v
theories/Model/Vector.v
theories/Model/Csv.v
theories/Spec/ArraySpec.v
theories/Spec/ArraySession.v
theories/Spec/CsvTextSpec.v
theories/Spec/CsvSession.v
theories/Proof/Mem.v
theories/Proof/Array.v
theories/Proof/Vector.v
theories/Proof/Csv.v
theories/Props/Array.v
theories/Props/Csv.v
theories/Model/FixedPoint.v
theories/Model/Bayes.v
theories/Spec/BayesSpec.v
theories/Proof/FixedPoint.v
theories/Proof/Log2.v
theories/Proof/Bayes.v
theories/Props/Bayes.v
theories/Base/Arith.v
theories/Base/Kernels.v
theories/Model/Net.v
theories/Spec/NetSpec.v
theories/Spec/RealSpec.v
theories/Proof/Net.v
theories/Proof/NetApi.v
theories/Proof/NetFun.v
theories/Proof/NetKeras.v
theories/Props/Net.v
theories/Model/Iir.v
theories/Spec/IirSpec.v
theories/Proof/Iir.v
theories/Props/Iir.v
theories/Base/RealSum.v
theories/Model/Distance.v
theories/Model/Mixture.v
theories/Spec/DistanceSpec.v
theories/Spec/MixtureSpec.v
theories/Proof/Distance.v
theories/Proof/Log2Pi.v
theories/Proof/Mixture.v
theories/Props/Distance.v
theories/Props/Mixture.v
theories/Model/Fft.v
theories/Spec/FftSpec.v
theories/Proof/BitRev.v
theories/Proof/Fft.v
theories/Proof/FftReal.v
theories/Proof/FftErr.v
theories/Proof/FftTable.v
theories/Props/Fft.v
theories/Model/Audio.v
theories/Spec/AudioSpec.v
theories/Proof/Filterbank.v
theories/Proof/Mel.v
theories/Proof/MelSpectrogram.v
theories/Proof/MelProps.v
theories/Props/Audio.v
theories/Proof/AudioErr.v
theories/Props/FftErr.v
theories/Model/Pareto.v
theories/Model/Quantizer.v
theories/Model/Text.v
theories/Spec/ParetoSpec.v
theories/Spec/QuantizerSpec.v
theories/Proof/Pareto.v
theories/Proof/Quantizer.v
theories/Proof/Text.v
theories/Props/Quantizer.v
theories/Props/Pareto.v
theories/Model/Cgen.v
theories/Spec/CgenSpec.v
theories/Proof/Cgen.v
theories/Props/Cgen.v
theories/Model/Harness.v
theories/Model/TreesRun.v
theories/Spec/HarnessSpec.v
theories/Proof/Harness.v
theories/Props/Harness.v
theories/Spec/RunSpec.v
theories/Proof/RunRows.v
theories/Proof/Through.v
theories/Proof/TreesRun.v
theories/Proof/FloatMean.v
theories/Proof/TreesRegRun.v
theories/Proof/TreesRunTop.v
theories/Proof/TreesFloatRun.v
theories/Proof/EndToEnd.v
theories/Props/EndToEnd.v
theories/Model/NeighborsRun.v
theories/Spec/KnnSpec.v
theories/Proof/NeighborsRun.v
theories/Props/NeighborsRun.v
theories/Model/Workspace.v
theories/Spec/WorkspaceSpec.v
theories/Proof/Workspace.v
theories/Props/Workspace.v
theories/Spec/RoundingSpec.v
theories/Proof/FloatErr.v
theories/Proof/NetErr.v
theories/Proof/DistanceErr.v
theories/Proof/Logistic.v
theories/Proof/NetClose.v
theories/Proof/Libm.v
theories/Proof/Softmax.v
theories/Proof/RoundingTop.v
theories/Props/Rounding.v
theories/Model/NetRun.v
theories/Spec/NetRunSpec.v
theories/Proof/NetRunErr.v
theories/Proof/NetRun.v
theories/Proof/NetRunTop.v
theories/Proof/NetRunOptions.v
theories/Props/NetRun.v
theories/Model/Benchmark.v
theories/Proof/Benchmark.v
theories/Props/Benchmark.v
theories/Model/Size.v
theories/Spec/SizeSpec.v
theories/Proof/Size.v
theories/Props/Size.v
theories/Spec/CostSpec.v
theories/Model/TreesCost.v
theories/Proof/TreesCost.v
theories/Props/TreesCost.v
theories/Model/Lut.v
theories/Model/DistanceRun.v
theories/Spec/LutSpec.v
theories/Proof/LutWrap.v
theories/Proof/Lut.v
theories/Proof/LutFit.v
theories/Proof/LutBank.v
theories/Props/Lut.v
theories/Spec/EnvelopeSpec.v
theories/Spec/StrSpec.v
theories/Proof/Str.v
theories/Proof/DistanceRun.v
theories/Proof/NumpyFine.v
theories/Props/DistanceRun.v
theories/Proof/NormalConst.v
theories/Model/BayesRun.v
theories/Spec/BayesRunSpec.v
theories/Proof/BayesErr.v
theories/Proof/BayesRun.v
theories/Props/BayesRun.v
theories/Model/MixtureRun.v
theories/Spec/MixtureRunSpec.v
theories/Proof/MixtureErr.v
theories/Proof/MixtureRun.v
theories/Proof/MixtureRunTop.v
theories/Props/MixtureRun.v
theories/Model/Convert.v
theories/Spec/ConvertSpec.v
theories/Spec/KerasSpec.v
theories/Proof/Convert.v
theories/Proof/Keras.v
theories/Props/Convert.v
theories/Model/Install.v
theories/Spec/InstallSpec.v
theories/Proof/Install.v
theories/Props/Install.v
theories/Model/Log.v
theories/Spec/LogSpec.v
theories/Proof/Log.v
theories/Props/Log.v
theories/Spec/IirErrSpec.v
theories/Proof/IirErr.v
theories/Proof/IirStable.v
theories/Props/IirErr.v
theories/Model/TreesCsv.v
theories/Spec/TreeTextSpec.v
theories/Proof/TreeText.v
theories/Proof/TreesCsvText.v
theories/Props/TreesCsv.v
theories/Spec/SoftSpec.v
theories/Proof/TreesSoftRun.v
theories/Props/Soft.v
theories/Model/SaveText.v
theories/Model/SaveNetText.v
theories/Model/SaveModelsText.v
theories/Spec/CTextSpec.v
theories/Spec/SaveNetSpec.v
theories/Spec/SaveModelsSpec.v
theories/Spec/SaveSpec.v
theories/Spec/CRunSpec.v
theories/Spec/AnswerSpec.v
theories/Proof/CText.v
theories/Proof/CRun.v
theories/Proof/CRunRead.v
theories/Proof/SaveInline.v
theories/Proof/SaveFile.v
theories/Proof/SaveInlineTop.v
theories/Proof/SaveProps.v
theories/Proof/SaveLoad.v
theories/Proof/SaveNeighbors.v
theories/Proof/SaveNet.v
theories/Proof/SaveModels.v
theories/Model/SaveApi.v
theories/Proof/SaveApi.v
theories/Proof/ProbaFrame.v
theories/Proof/SaveRun.v
theories/Proof/SaveRunTop.v
theories/Props/Save.v
theories/Props/SaveRun.v
theories/Props/SaveNet.v
theories/Props/SaveModels.v
theories/Props/SaveBayes.v
