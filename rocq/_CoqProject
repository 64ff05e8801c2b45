-Q theories Verif
theories/Base/Result.v
theories/Base/Buf.v
theories/Base/Num.v
theories/Spec/SumOrder.v
theories/Model/Kernels.v
theories/Spec/Sums.v
theories/Proof/Kernels.v
theories/Model/Transforms.v
theories/Spec/FfaSpec.v
theories/Proof/Transforms.v
theories/Proof/Index.v
theories/Proof/Ffa.v
theories/Props/Kernels.v
theories/Props/Ffa.v
theories/Model/Downsample.v
theories/Spec/Overlap.v
theories/Spec/Noise.v
theories/Proof/SumOrder.v
theories/Proof/SumIeee.v
theories/Proof/Downsample.v
theories/Props/Downsample.v
theories/Props/Noise.v
theories/Model/Libffa.v
theories/Proof/Libffa.v
theories/Props/Libffa.v
theories/Model/Snr.v
theories/Spec/Boxcar.v
theories/Proof/Snr.v
theories/Props/Snr.v
theories/Model/RunMed.v
theories/Spec/Order.v
theories/Proof/RunMed.v
theories/Props/RunMed.v
theories/Model/FastRmed.v
theories/Proof/FastRmed.v
theories/Props/FastRmed.v
theories/Model/Periodogram.v
theories/Proof/Periodogram.v
theories/Proof/PeriodogramR.v
theories/Props/Periodogram.v
theories/Props/PeriodogramFloat.v
theories/Proof/SearchIeee.v
theories/Model/Metadata.v
theories/Model/Folding.v
theories/Model/TimeSeries.v
theories/Model/Search.v
theories/Proof/TimeSeries.v
theories/Props/TimeSeries.v
theories/Props/Folding.v
theories/Props/Search.v
theories/Spec/Friends.v
theories/Model/Cluster.v
theories/Model/Peaks.v
theories/Proof/Cluster.v
theories/Props/Cluster.v
theories/Props/Peaks.v
theories/Model/Harmonic.v
theories/Spec/BestApprox.v
theories/Proof/Harmonic.v
theories/Props/Harmonic.v
theories/Model/DmIter.v
theories/Spec/Smearing.v
theories/Proof/DmIter.v
theories/Props/DmIter.v
theories/Model/Pipeline.v
theories/Proof/Pipeline.v
theories/Props/Pipeline.v
theories/Model/Ranges.v
theories/Props/Ranges.v
theories/Props/Build.v
theories/Props/Rseek.v
theories/Model/Pool.v
theories/Proof/Pool.v
theories/Props/Pool.v
theories/Model/Writer.v
theories/Props/Writer.v
theories/Model/Sigproc.v
theories/Spec/SigprocFmt.v
theories/Props/Sigproc.v
theories/Model/Presto.v
theories/Spec/PrestoFmt.v
theories/Props/Presto.v
theories/Model/Json.v
theories/Spec/JsonSpec.v
theories/Props/Json.v
theories/Model/Config.v
theories/Spec/ConfigSpec.v
theories/Props/Config.v
theories/Model/Worker.v
theories/Props/Worker.v
theories/Model/Process.v
theories/Props/Process.v
theories/Props/Run.v
theories/Props/Response.v
theories/Props/Loaders.v
theories/Model/Rseek.v
theories/Props/RseekRun.v
theories/Model/Plot.v
theories/Props/Plot.v
theories/Model/Main.v
theories/Spec/MainSpec.v
theories/Props/Main.v
theories/Spec/Pulse.v
theories/Model/Signal.v
theories/Props/Signal.v
theories/Model/PgPlot.v
theories/Props/PgPlot.v
theories/Proof/Detect.v
theories/Props/Detect.v
theories/Props/FfaSnr.v
theories/Proof/Rounding.v
theories/Proof/SnrFloat.v
theories/Props/SnrFloat.v
theories/Proof/DownsampleFloat.v
theories/Props/DownsampleFloat.v
theories/Proof/SearchFloat.v
theories/Props/PeriodogramRounding.v
theories/Props/PeriodogramIeee.v
theories/Proof/NormIeee.v
theories/Proof/NanIeee.v
theories/Proof/WidthsIeee.v
theories/Props/NormIeee.v
theories/Spec/Libm.v
theories/Proof/CoverageFloat.v
theories/Props/DetectFloat.v
theories/Spec/Ieee.v
theories/Proof/Ieee.v
theories/Props/Ieee.v
theories/Proof/KernelsIeee.v
theories/Proof/DownsampleIeee.v
theories/Proof/NormFloat.v
theories/Proof/WidthsFloat.v
theories/Props/WidthsFloat.v
theories/Props/NormFloat.v
theories/Proof/ClusterFloat.v
theories/Proof/PeaksFloat.v
theories/Props/ClusterFloat.v
theories/Props/PeaksFloat.v
theories/Props/Deredden.v
theories/Props/EndToEnd.v
theories/Props/ProcessDetect.v
theories/Props/SumOrder.v
theories/Proof/RunMedRel.v
theories/Proof/DereddenIeee.v
theories/Proof/DereddenFloat.v
theories/Props/DereddenIeee.v
theories/Proof/DereddenError.v
theories/Props/DereddenError.v
theories/Props/DereddenDetect.v
theories/Proof/NotFinite.v
theories/Props/NotFinite.v
theories/Props/EndToEndFloat.v
theories/Props/FoldFloat.v
theories/Proof/RunKeeps.v
theories/Props/RunKeeps.v
theories/Props/RunFloat.v
theories/Model/Benchmark.v
theories/Props/Benchmark.v
theories/Model/Cli.v
theories/Props/Cli.v
theories/Proof/TrialsFloat.v
theories/Props/TrialsFloat.v
theories/Props/WorkerFloat.v
theories/Props/WorkerReturns.v
theories/Proof/RunTotal.v
theories/Props/RunTotal.v
theories/Proof/RadiusFloat.v
theories/Props/DmFloat.v
theories/Props/DmIterFloat.v
theories/Props/PrepareFloat.v
theories/Props/FreqFloat.v
theories/Props/HarmonicFloat.v
theories/Props/CandidateFloat.v
theories/Props/CoordFloat.v
theories/Props/SelectFloat.v
