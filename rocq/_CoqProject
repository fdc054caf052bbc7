-Q theories Verif
theories/PyBase.v
theories/PyBaseProofs.v
theories/OpenFlow.v
theories/ReorderModel.v
theories/ReorderSpec.v
theories/ReorderProofs.v
theories/ReorderProps.v
theories/TrimModel.v
theories/TrimProofs.v
theories/TrimProps.v
theories/FloodModel.v
theories/FloodSpec.v
theories/FloodProofs.v
theories/FloodProps.v
theories/TableModel.v
theories/FloodRulesModel.v
theories/BatchProofs.v
theories/FloodRulesSpec.v
theories/FloodRulesProofs.v
theories/FloodRulesProps.v
theories/HostCacheSpec.v
theories/HostCacheModel.v
theories/HostCacheProofs.v
theories/HostCacheProps.v
theories/LearnModel.v
theories/LearnSpec.v
theories/LearnProofs.v
theories/LearnProps.v
theories/SlotProofs.v
theories/L2Model.v
theories/L2Spec.v
theories/L2Proofs.v
theories/SwitchExec.v
theories/L2Props.v
theories/L2HostProps.v
theories/L2HostSpec.v
theories/L2PortSpec.v
theories/L2PortProofs.v
theories/L2PortInv.v
theories/L2HostProofs.v
theories/L2HostInv.v
theories/L2HostKeep.v
theories/L2HostWalk.v
theories/L2PortWalk.v
theories/L2LacpProofs.v
theories/L2ReloadModel.v
theories/L2ReloadSpec.v
theories/L2ReloadProofs.v
theories/L2ReloadInv.v
theories/L2ReloadExec.v
theories/L2ReloadProps.v
theories/L2PortProps.v
theories/IpModel.v
theories/IpSpec.v
theories/IpProofs.v
theories/RouteModel.v
theories/RouteSpec.v
theories/RouteFib.v
theories/RouteRib.v
theories/RouteMicro.v
theories/RouteShape.v
theories/RouteInv.v
theories/RouteCalm.v
theories/RouteTidy.v
theories/RouteHistory.v
theories/RouteWanted.v
theories/RouteResolve.v
theories/RouterCheckProps.v
theories/ReplyModel.v
theories/ReplySpec.v
theories/ReplyProofs.v
theories/ReplyProps.v
theories/BgpModel.v
theories/BgpSpec.v
theories/RouterCheckModel.v
theories/RouteHits.v
theories/RouteProps.v
theories/BgpProofs.v
theories/BgpProps.v
theories/GaugeModel.v
theories/GaugeSpec.v
theories/GaugeProofs.v
theories/GaugeProps.v
theories/EventModel.v
theories/EventSpec.v
theories/EventProofs.v
theories/EventProps.v
theories/EgressModel.v
theories/EgressSpec.v
theories/EgressProofs.v
theories/EgressProps.v
theories/PacketModel.v
theories/ConfModel.v
theories/StackModel.v
theories/StackRootModel.v
theories/StackRootSpec.v
theories/StackRootProofs.v
theories/StackRootProps.v
theories/StackLinkModel.v
theories/StackLinkSpec.v
theories/StackLinkProofs.v
theories/StackLinkHistProofs.v
theories/StackLinkProps.v
theories/AclModel.v
theories/AclSpec.v
theories/AclProofs.v
theories/AclMatchProofs.v
theories/AclStepProofs.v
theories/AclHistProofs.v
theories/AclEventProofs.v
theories/AclWalkProofs.v
theories/SharedTrimProofs.v
theories/AclProps.v
theories/MeterModel.v
theories/MeterSpec.v
theories/MeterProofs.v
theories/MeterProps.v
theories/RefModel.v
theories/RefSpec.v
theories/RefProofs.v
theories/RefProps.v
theories/FitModel.v
theories/FitSpec.v
theories/FitProofs.v
theories/FitAclProofs.v
theories/FitProps.v
theories/NomModel.v
theories/NomSpec.v
theories/NomProofs.v
theories/NomProps.v
theories/PortDescModel.v
theories/PortDescSpec.v
theories/PortDescProofs.v
theories/PortDescProps.v
theories/CoproModel.v
theories/CoproSpec.v
theories/CoproProofs.v
theories/CoproProps.v
theories/IdleModel.v
theories/IdleSpec.v
theories/IdleProofs.v
theories/IdleProps.v
theories/LacpPduModel.v
theories/LacpPduSpec.v
theories/LacpPduProofs.v
theories/LacpPduProps.v
theories/AskModel.v
theories/AskSpec.v
theories/AskProofs.v
theories/AskProps.v
theories/VipModel.v
theories/VipSpec.v
theories/VipProofs.v
theories/VipProps.v
theories/PktInModel.v
theories/PktInSpec.v
theories/PktInProofs.v
theories/PktInProps.v
theories/PruneModel.v
theories/PruneSpec.v
theories/PruneProofs.v
theories/PruneProps.v
theories/SettingsModel.v
theories/SettingsSpec.v
theories/SettingsProofs.v
theories/SettingsProps.v
theories/ManagerModel.v
theories/ManagerSpec.v
theories/ManagerProps.v
theories/PipelineModel.v
theories/PipelineSpec.v
theories/PipelineProps.v
theories/RangeModel.v
theories/RangeSpec.v
theories/RangeProps.v
theories/TunnelIdModel.v
theories/TunnelIdSpec.v
theories/TunnelIdProps.v
theories/LldpModel.v
theories/LldpSpec.v
theories/LldpProofs.v
theories/LldpProps.v
theories/BeaconModel.v
theories/BeaconSpec.v
theories/BeaconProps.v
theories/Dot1xModel.v
theories/Dot1xSpec.v
theories/Dot1xProofs.v
theories/Dot1xProps.v
theories/TunnelModel.v
theories/TunnelSpec.v
theories/TunnelProofs.v
theories/TunnelWalkProofs.v
theories/TunnelNetProofs.v
theories/TunnelRestSpec.v
theories/TunnelRestProofs.v
theories/TunnelFirstProofs.v
theories/TunnelProps.v
theories/TunnelRestProps.v
theories/StackProofs.v
theories/StackFloodProofs.v
theories/StackRoleProofs.v
theories/StackOnceProofs.v
theories/StackNextProofs.v
theories/StackExamples.v
theories/StackProps.v
theories/StackSpec.v
theories/StackLearnModel.v
theories/StackLearnSpec.v
theories/StackLearnProofs.v
theories/StackLearnProps.v
theories/ExtModel.v
theories/ExtSpec.v
theories/ExtProofs.v
theories/ExtProps.v
theories/ConfSpec.v
theories/ConfProofs.v
theories/ConfProps.v
theories/IncludeProps.v
theories/IncludeModel.v
theories/IncludeSpec.v
theories/IncludeProofs.v
theories/PacketSpec.v
theories/PacketProofs.v
theories/PacketProps.v
