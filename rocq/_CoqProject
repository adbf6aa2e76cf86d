-Q theories Verif
theories/TimeModel.v
theories/TimeProofs.v
theories/TimeTheorems.v
theories/MomentumModel.v
theories/MomentumSpec.v
theories/MomentumHistory.v
theories/MomentumProofs.v
theories/MomentumInvProofs.v
theories/MomentumSlotProofs.v
theories/MomentumTeamProofs.v
theories/MomentumTheorems.v
theories/JITModel.v
theories/JITHistory.v
theories/JITProofs.v
theories/JITTheorems.v
theories/GraphModel.v
theories/ScheduleModel.v
theories/ContractorProofs.v
theories/TeamProofs.v
theories/ContractorTheorems.v
theories/ScheduleSpec.v
theories/ScheduleProofs.v
theories/SchedulePoolProofs.v
theories/ScheduleInv.v
theories/ScheduleSafe.v
theories/JitScheduleInv.v
theories/JitScheduleSafe.v
theories/ScheduleTheorems.v
theories/JitScheduleTheorems.v
theories/StableSort.v
theories/ValidationModel.v
theories/ValidationProofs.v
theories/DurationProofs.v
theories/ValidationTheorems.v
theories/Digraph.v
theories/TopoModel.v
theories/TopoProofs.v
theories/TopoTheorems.v
theories/TraverseModel.v
theories/TraverseProofs.v
theories/TraverseTheorems.v
theories/OrderModel.v
theories/OrderTheorems.v
theories/HeadModel.v
theories/HeadProofs.v
theories/HeadTheorems.v
theories/PriorityModel.v
theories/PriorityProofs.v
theories/PriorityTheorems.v
theories/PipelineModel.v
theories/PipelineTheorems.v
theories/GeneticModel.v
theories/GeneticProofs.v
theories/GeneticResModel.v
theories/GeneticTheorems.v
theories/GeneticResTheorems.v
theories/ResourceModel.v
theories/ResourceTheorems.v
theories/LinkedListModel.v
theories/LinkedListTheorems.v
theories/LoopModel.v
theories/LoopProofs.v
theories/LoopTheorems.v
theories/EstimatorModel.v
theories/EstimatorTheorems.v
theories/EnvModel.v
theories/EnvTheorems.v
theories/DeadlineModel.v
theories/DeadlineTheorems.v
theories/MultiAgentModel.v
theories/MultiAgentTheorems.v
theories/LandscapeModel.v
theories/LandscapeProofs.v
theories/LandscapeTheorems.v
theories/RestructModel.v
theories/RestructSplit.v
theories/RestructProofs.v
theories/RestructTheorems.v
theories/ZoneModel.v
theories/ZoneProofs.v
theories/ZoneTheorems.v
theories/SgsModel.v
theories/SgsSpec.v
theories/SgsSerial.v
theories/SgsRound.v
theories/SgsTheorems.v
theories/SgsParallel.v
theories/SgsParallelSafe.v
theories/SgsParallelTheorems.v
theories/LftModel.v
theories/LftSpec.v
theories/LftProofs.v
theories/LftLoop.v
theories/LftTheorems.v
theories/GaModel.v
theories/GaProofs.v
theories/GaTheorems.v
theories/GaInitModel.v
theories/GaInitTheorems.v
theories/GaSchedModel.v
theories/GaSchedSpec.v
theories/GaSchedProofs.v
theories/GaSchedSerial.v
theories/GaSchedTheorems.v
theories/GaSchedParallel.v
theories/GaSchedParallelTheorems.v
theories/UsageModel.v
theories/UsageTheorems.v
theories/SupplyModel.v
theories/SupplySpec.v
theories/SupplyProofs.v
theories/SupplyProofs2.v
theories/SupplyProofs3.v
theories/SupplyProofs4.v
theories/SupplyProofs5.v
theories/SupplyTheorems.v
theories/LocalOptModel.v
theories/LocalOptProofs.v
theories/LocalOptTheorems.v
theories/HybridModel.v
theories/HybridTheorems.v
theories/GraphEditModel.v
theories/GraphEditSpec.v
theories/GraphEditProofs.v
theories/GraphDeleteProofs.v
theories/GraphEditTheorems.v
theories/SiteModel.v
theories/SiteProofs.v
theories/SiteZoneProofs.v
theories/SiteSupplyProofs.v
theories/SiteTheorems.v
theories/SiteSafe.v
theories/SiteSafeTheorems.v
theories/MergeModel.v
theories/MergeSpec.v
theories/MergeProofs.v
theories/MergeTheorems.v
theories/JitSiteModel.v
theories/JitSiteProofs.v
theories/JitSiteZone.v
theories/JitSiteSafe.v
theories/JitSiteTheorems.v
theories/ParserModel.v
theories/ParserProofs.v
theories/ParserGraph.v
theories/ParserTheorems.v
theories/HistoryModel.v
theories/HistorySpec.v
theories/HistoryProofs.v
theories/HistoryTheorems.v
theories/HistoryGraphTheorems.v
theories/LagPipelineModel.v
theories/LagPipelineProofs.v
theories/LagPipelineTheorems.v
theories/BlockSchedModel.v
theories/BlockSchedProofs.v
theories/BlockSchedTheorems.v
theories/BlockTotalTheorems.v
theories/HistoryChangeTheorems.v
theories/TableScheduleModel.v
theories/TableScheduleTheorems.v
theories/SgsSiteModel.v
theories/SgsSite.v
theories/SgsSiteTheorems.v
theories/SgsLandModel.v
theories/SgsLand.v
theories/SgsLandTheorems.v
theories/JsonModel.v
theories/Json.v
theories/JsonTheorems.v
theories/GaSiteModel.v
theories/GaSite.v
theories/GaSiteTheorems.v
theories/SynthModel.v
theories/SynthSpec.v
theories/SynthProofs.v
theories/SynthTheorems.v
theories/ExtendModel.v
theories/ExtendSpec.v
theories/ExtendProofs.v
theories/ExtendTheorems.v
theories/LandGenModel.v
theories/LandGenSpec.v
theories/LandGenProofs.v
theories/LandGenTheorems.v
theories/SetupLandModel.v
theories/SetupLandSpec.v
theories/SetupLandTheorems.v
theories/MatGenModel.v
theories/MatGenSpec.v
theories/MatGenTheorems.v
theories/SortedListModel.v
theories/SortedListTheorems.v
theories/PriorityQueueModel.v
theories/PriorityQueueTheorems.v
theories/ZoneGeneModel.v
theories/ZoneGeneTheorems.v
theories/NameMapModel.v
theories/NameMapTheorems.v
