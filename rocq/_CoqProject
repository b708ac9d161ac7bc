-Q theories Verif
theories/BallFacts.v
theories/BallModel.v
theories/BandFacts.v
theories/BandModel.v
theories/BaseFacts.v
theories/BaseModel.v
theories/BorderFacts.v
theories/CacheFacts.v
theories/CacheModel.v
theories/CacheRuns.v
theories/CacheWitness.v
theories/ClusterFacts.v
theories/ClusterFacts2.v
theories/ClusterModel.v
theories/ClusterOversFacts.v
theories/ClusterOversModel.v
theories/ClusterWitness.v
theories/CompFacts.v
theories/CompFacts2.v
theories/CompFacts3.v
theories/CompFacts4.v
theories/CompModel.v
theories/CompWitness.v
theories/CurveFacts.v
theories/CurveModel.v
theories/CurveWitness.v
theories/DangerFacts.v
theories/DangerModel.v
theories/DangerWitness.v
theories/DirFacts.v
theories/DirFacts2.v
theories/DirFacts3.v
theories/DirModel.v
theories/DirWitness.v
theories/DistFacts.v
theories/DistModel.v
theories/DistWitness.v
theories/EditFacts.v
theories/EditFacts2.v
theories/EditFacts3.v
theories/EditFacts4.v
theories/EditFacts5.v
theories/EditModel.v
theories/EditWitness.v
theories/EmbedFacts.v
theories/EmbedFacts2.v
theories/EmbedFacts3.v
theories/EmbedFacts4.v
theories/EmbedFacts5.v
theories/EmbedFacts6.v
theories/EmbedModel.v
theories/EmbedWitness.v
theories/EvalWitness.v
theories/Float64.v
theories/FloatFacts.v
theories/FoldFacts.v
theories/FoldModel.v
theories/FuseFacts.v
theories/FuseFacts2.v
theories/FuseFacts3.v
theories/FuseModel.v
theories/FuseWitness.v
theories/GraphFacts.v
theories/GraphFacts2.v
theories/GraphFacts3.v
theories/GraphFacts4.v
theories/GraphFacts5.v
theories/GraphFacts6.v
theories/GraphFacts7.v
theories/GraphFacts8.v
theories/GraphModel.v
theories/GraphWitness.v
theories/GroupFacts.v
theories/GroupFacts2.v
theories/GroupFacts3.v
theories/GroupFacts4.v
theories/GroupFacts5.v
theories/GroupFacts6.v
theories/GroupModel.v
theories/GroupWitness.v
theories/JobFacts.v
theories/JobModel.v
theories/JsonFacts.v
theories/JsonModel.v
theories/KernelFacts.v
theories/KernelModel.v
theories/KernelWitness.v
theories/KnnFacts.v
theories/KnnModel.v
theories/LearnFacts.v
theories/LearnFacts2.v
theories/LearnModel.v
theories/LevelFacts.v
theories/LevelFacts2.v
theories/LevelFacts3.v
theories/LevelFacts4.v
theories/LevelModel.v
theories/LevelWitness.v
theories/MergeFacts.v
theories/MetricsFacts.v
theories/MetricsModel.v
theories/MixFacts.v
theories/MixFacts2.v
theories/MixFacts3.v
theories/MixFacts4.v
theories/MixFacts5.v
theories/MixFacts6.v
theories/MixModel.v
theories/MixWitness.v
theories/MultiFacts.v
theories/MultiFloat.v
theories/MultiModel.v
theories/MultiSmote.v
theories/NearFacts.v
theories/NearFacts2.v
theories/NearFacts3.v
theories/NearModel.v
theories/NearWitness.v
theories/NeuronFacts.v
theories/NeuronModel.v
theories/NoiseFacts.v
theories/NoiseFacts2.v
theories/NoiseModel.v
theories/Np.v
theories/NpFacts.v
theories/OversFacts.v
theories/OversGen.v
theories/PoolExec.v
theories/PoolFacts.v
theories/PoolLive.v
theories/PoolLive2.v
theories/PoolModel.v
theories/PoolStuck.v
theories/PropsBall.v
theories/PropsBand.v
theories/PropsBase.v
theories/PropsCache.v
theories/PropsCluster.v
theories/PropsComp.v
theories/PropsCurve.v
theories/PropsDanger.v
theories/PropsDir.v
theories/PropsDist.v
theories/PropsEdit.v
theories/PropsEmbed.v
theories/PropsEval.v
theories/PropsFuse.v
theories/PropsGraph.v
theories/PropsGroup.v
theories/PropsKernel.v
theories/PropsLearn.v
theories/PropsLevel.v
theories/PropsMerge.v
theories/PropsMetrics.v
theories/PropsMix.v
theories/PropsMulti.v
theories/PropsNear.v
theories/PropsNeuron.v
theories/PropsNoise.v
theories/PropsPool.v
theories/PropsQuery.v
theories/PropsRegion.v
theories/PropsScore.v
theories/PropsSearch.v
theories/PropsSens.v
theories/PropsShell.v
theories/PropsSimplex.v
theories/PropsSmote.v
theories/PropsSwarm.v
theories/PropsTensor.v
theories/PropsTight.v
theories/PropsVolume.v
theories/PropsWrap.v
theories/PyVal.v
theories/QueryData.v
theories/QueryFacts.v
theories/QueryModel.v
theories/QueryWitness.v
theories/RegionFacts.v
theories/RegionFacts2.v
theories/RegionFacts3.v
theories/RegionFacts4.v
theories/RegionModel.v
theories/RegionWitness.v
theories/SamplerFacts.v
theories/SamplerModel.v
theories/ScoreFacts.v
theories/ScoreModel.v
theories/SearchFacts.v
theories/SearchFacts2.v
theories/SearchFacts3.v
theories/SearchFacts4.v
theories/SearchFacts5.v
theories/SearchModel.v
theories/SearchWitness.v
theories/SensFacts.v
theories/SensModel.v
theories/SensMore.v
theories/ShellFacts.v
theories/ShellFacts2.v
theories/ShellFacts3.v
theories/ShellModel.v
theories/ShellWitness.v
theories/SimplexFacts.v
theories/SimplexGeom.v
theories/SimplexModel.v
theories/Spec.v
theories/SpecBall.v
theories/SpecBand.v
theories/SpecBase.v
theories/SpecComp.v
theories/SpecCurve.v
theories/SpecDanger.v
theories/SpecDir.v
theories/SpecEdit.v
theories/SpecEmbed.v
theories/SpecFuse.v
theories/SpecGraph.v
theories/SpecGroup.v
theories/SpecKernel.v
theories/SpecLearn.v
theories/SpecLevel.v
theories/SpecMix.v
theories/SpecMulti.v
theories/SpecNear.v
theories/SpecNeuron.v
theories/SpecNoise.v
theories/SpecQuery.v
theories/SpecRegion.v
theories/SpecScore.v
theories/SpecSearch.v
theories/SpecSens.v
theories/SpecShell.v
theories/SpecSwarm.v
theories/SpecTensor.v
theories/SpecVolume.v
theories/SpecWrap.v
theories/SwarmFacts.v
theories/SwarmFacts2.v
theories/SwarmFacts3.v
theories/SwarmFacts4.v
theories/SwarmModel.v
theories/SwarmWitness.v
theories/TensorFacts.v
theories/TensorFacts2.v
theories/TensorModel.v
theories/TensorWitness.v
theories/TightFacts.v
theories/UnderFacts.v
theories/UnderModel.v
theories/VolumeFacts.v
theories/VolumeModel.v
theories/Witness.v
theories/WrapFacts.v
theories/WrapFacts2.v
theories/WrapFacts3.v
theories/WrapFacts4.v
theories/WrapFacts5.v
theories/WrapFloat.v
theories/WrapModel.v
theories/WrapWitness.v
