-Q theories Verif
theories/Base/Res.v
theories/Base/Masks.v
theories/Base/RUtil.v
theories/Base/XR.v
theories/Base/Trig.v
theories/Model/MuonBatch.v
theories/Model/MuonHeap.v
theories/Model/Layer.v
theories/Model/Panel.v
theories/Model/Volume.v
theories/Model/Scatter.v
theories/Model/X0Infer.v
theories/Model/Fit.v
theories/Model/PredCb.v
theories/Model/CbView.v
theories/Model/Warmup.v
theories/Spec/ListSpec.v
theories/Spec/MuonSpec.v
theories/Spec/AngleSpec.v
theories/Spec/TileSpec.v
theories/Spec/HeapSpec.v
theories/Spec/LayerSpec.v
theories/Spec/VolumeSpec.v
theories/Spec/ScatterSpec.v
theories/Spec/InferSpec.v
theories/Spec/FitSpec.v
theories/Spec/PredSpec.v
theories/Spec/ReplaySpec.v
theories/Spec/WarmupSpec.v
theories/Proofs/MuonBatchP.v
theories/Proofs/MuonConserve.v
theories/Proofs/MuonAngles.v
theories/Proofs/MuonMoves.v
theories/Proofs/MuonHeapP.v
theories/Proofs/LayerP.v
theories/Proofs/PdgP.v
theories/Proofs/LayerCross.v
theories/Proofs/PanelP.v
theories/Proofs/PanelResp.v
theories/Proofs/VolumeP.v
theories/Proofs/VolumeRun.v
theories/Proofs/TrackFit.v
theories/Proofs/ScatterGeo.v
theories/Proofs/ScatterKeep.v
theories/Proofs/ScatterBatchP.v
theories/Proofs/TrueTrack.v
theories/Proofs/EffP.v
theories/Proofs/WAvgP.v
theories/Proofs/InferStateP.v
theories/Proofs/CombineP.v
theories/Proofs/VoxelProbP.v
theories/Proofs/BlockP.v
theories/Proofs/InferAllP.v
theories/Proofs/FitP.v
theories/Proofs/FitScan.v
theories/Proofs/FitAll.v
theories/Proofs/FitCount.v
theories/Proofs/PredP.v
theories/Proofs/ReplayP.v
theories/Proofs/WarmupP.v
theories/Model/Schedules.v
theories/Spec/SchedSpec.v
theories/Proofs/PostP.v
theories/Proofs/SchedP.v
theories/Model/Utils.v
theories/Model/Loss.v
theories/Spec/LossSpec.v
theories/Proofs/UtilsP.v
theories/Proofs/LossP.v
theories/Model/Generation.v
theories/Spec/GenSpec.v
theories/Proofs/GenP.v
theories/Model/Passives.v
theories/Spec/PassiveSpec.v
theories/Proofs/PassiveP.v
theories/Model/Ladle.v
theories/Spec/LadleSpec.v
theories/Proofs/LadleP.v
theories/Model/DetCb.v
theories/Spec/DetCbSpec.v
theories/Proofs/DetCbP.v
theories/Model/DataCb.v
theories/Spec/DataCbSpec.v
theories/Proofs/DataCbP.v
theories/Model/Monitor.v
theories/Spec/MonitorSpec.v
theories/Proofs/MonitorP.v
theories/Model/SaveLoad.v
theories/Spec/SaveLoadSpec.v
theories/Proofs/SaveLoadP.v
theories/Model/Heat.v
theories/Spec/HeatSpec.v
theories/Proofs/HeatP.v
theories/Spec/PoolSpec.v
theories/Proofs/TracksP.v
theories/Proofs/PoolP.v
theories/Spec/MirrorSpec.v
theories/Proofs/MirrorP.v
theories/Spec/TurnSpec.v
theories/Proofs/TurnP.v
theories/Spec/EnlargeTrackSpec.v
theories/Proofs/EnlargeTrackP.v
theories/Spec/EnlargeVoxelSpec.v
theories/Spec/EnlargeSpec.v
theories/Proofs/EnlargeP.v
theories/Spec/LiftSpec.v
theories/Proofs/LiftP.v
theories/Proofs/LiftInferP.v
theories/Proofs/UnseenP.v
theories/Model/Classify.v
theories/Spec/ClassifySpec.v
theories/Proofs/ClassifyP.v
theories/Spec/MuonCountSpec.v
theories/Proofs/MuonCountP.v
theories/Spec/SymmetrySpec.v
theories/Proofs/SymmetryP.v
theories/Model/StateDict.v
theories/Spec/StateDictSpec.v
theories/Proofs/StateDictP.v
theories/Model/PocaZ.v
theories/Spec/PocaSpec.v
theories/Proofs/PocaP.v
theories/Model/Pipeline.v
theories/Spec/PipelineSpec.v
theories/Proofs/PipelineP.v
theories/Proofs/NoNoise.v
theories/Model/LogPlot.v
theories/Proofs/LogPlotP.v
theories/Proofs/ObserverP.v
theories/Proofs/HeatGifP.v
theories/Model/Observer.v
theories/Model/HeatGif.v
theories/Spec/EndToEndSpec.v
theories/Proofs/EndToEnd.v
theories/Proofs/EndToEndCase.v
theories/Model/LinCorr.v
theories/Spec/LinCorrSpec.v
theories/Proofs/LinCorrP.v
theories/Model/Grad.v
theories/Spec/GradSpec.v
theories/Proofs/GradP.v
theories/Proofs/EntryP.v
theories/Model/Record.v
theories/Spec/RecordSpec.v
theories/Proofs/RecordP.v
theories/Model/Saver.v
theories/Spec/SaverSpec.v
theories/Proofs/SaverP.v
theories/Model/Build.v
theories/Spec/BuildSpec.v
theories/Proofs/BuildP.v
theories/Proofs/OrderP.v
theories/Model/BenchVol.v
theories/Spec/BenchVolSpec.v
theories/Proofs/BenchVolP.v
theories/Model/Metric.v
theories/Spec/MetricSpec.v
theories/Proofs/MetricP.v
theories/Model/Lorry.v
theories/Spec/LorrySpec.v
theories/Proofs/LorryP.v
theories/Model/Walls.v
theories/Spec/WallsSpec.v
theories/Proofs/WallsP.v
theories/Model/WarmOwn.v
theories/Spec/WarmOwnSpec.v
theories/Proofs/WarmOwnP.v
theories/Proofs/CostWarmP.v
theories/Proofs/OptWarmP.v
theories/Properties/MuonProps.v
theories/Properties/LayerProps.v
theories/Properties/VolumeProps.v
theories/Properties/ScatterProps.v
theories/Properties/InferProps.v
theories/Properties/FitProps.v
theories/Properties/WarmupProps.v
theories/Properties/SchedProps.v
theories/Properties/LossProps.v
theories/Properties/GenProps.v
theories/Properties/DataProps.v
theories/Properties/LadleProps.v
theories/Properties/DetCbProps.v
theories/Properties/DataCbProps.v
theories/Properties/MonitorProps.v
theories/Properties/SaveLoadProps.v
theories/Properties/TracksProps.v
theories/Properties/HeatProps.v
theories/Properties/WarmOwnProps.v
theories/Properties/LorryProps.v
theories/Properties/WallsProps.v
theories/Properties/MetricProps.v
theories/Properties/BenchVolProps.v
theories/Properties/OrderProps.v
theories/Properties/BuildProps.v
theories/Properties/SaverProps.v
theories/Properties/RecordProps.v
theories/Properties/GradProps.v
theories/Properties/LinCorrProps.v
theories/Properties/EndToEndProps.v
theories/Properties/HeatGifProps.v
theories/Properties/LogPlotProps.v
theories/Properties/NoNoiseProps.v
theories/Properties/GenNanProps.v
theories/Properties/PipelineProps.v
theories/Properties/PocaProps.v
theories/Properties/StateDictProps.v
theories/Properties/SymmetryProps.v
theories/Properties/MuonCountProps.v
theories/Properties/ClassifyProps.v
theories/Properties/LiftProps.v
theories/Properties/EnlargeProps.v
theories/Properties/EnlargeTrackProps.v
theories/Properties/EnlargeGenProps.v
theories/Properties/TurnProps.v
theories/Properties/MirrorProps.v
