-Q theories Verif
theories/Base.v
theories/ListFacts.v
theories/WireModel.v
theories/WireSpec.v
theories/WireProofs.v
theories/WireProps.v
theories/RecordModel.v
theories/RecordSpec.v
theories/RecordProofs.v
theories/RecordProps.v
theories/FrameModel.v
theories/FrameSpec.v
theories/FrameProofs.v
theories/FrameProps.v
theories/NameModel.v
theories/NameSpec.v
theories/NameProofs.v
theories/NameProps.v
theories/StorageModel.v
theories/StorageSpec.v
theories/StorageProofs.v
theories/ReplicaProofs.v
theories/CheckpointModel.v
theories/CheckpointSpec.v
theories/StorageClaims.v
theories/StorageProps.v
theories/ReplicationModel.v
theories/ReplicationSpec.v
theories/ReplicationProofs.v
theories/ClusterProofs.v
theories/ReplicationClaims.v
theories/ReplicationProps.v
theories/ControlModel.v
theories/ControlSpec.v
theories/ControlProofs.v
theories/TopicProofs.v
theories/ControlClaims.v
theories/ControlProps.v
theories/ProduceModel.v
theories/ProduceSpec.v
theories/ProduceClaims.v
theories/ProduceProps.v
theories/StreamModel.v
theories/StreamSpec.v
theories/StreamProofs.v
theories/StreamClaims.v
theories/StreamProps.v
theories/ProducerModel.v
theories/ProducerSpec.v
theories/ProducerProofs.v
theories/ProducerClaims.v
theories/ProducerProps.v
theories/ConsumerModel.v
theories/ConsumerSpec.v
theories/ConsumerProofs.v
theories/ConsumerClaims.v
theories/ConsumerProps.v
theories/KvModel.v
theories/KvSpec.v
theories/KvProofs.v
theories/KvClaims.v
theories/KvProps.v
theories/MetaModel.v
theories/MetaSpec.v
theories/MetaProofs.v
theories/MetaClaims.v
theories/MetaProps.v
theories/EventModel.v
theories/EventSpec.v
theories/EventProofs.v
theories/EventProps.v
theories/MuxModel.v
theories/MuxSpec.v
theories/MuxProofs.v
theories/MuxProps.v
theories/MirrorModel.v
theories/MirrorSpec.v
theories/MirrorProofs.v
theories/MirrorClaims.v
theories/MirrorProps.v
theories/LocalModel.v
theories/LocalSpec.v
theories/LocalProofs.v
theories/LocalClaims.v
theories/LocalLinks.v
theories/LocalWatch.v
theories/LocalExamples.v
theories/LocalProps.v
theories/WireAcceptSpec.v
theories/WireAcceptProofs.v
theories/WireAcceptProps.v
theories/FailoverModel.v
theories/FailoverSpec.v
theories/FailoverProofs.v
theories/FailoverProgress.v
theories/FailoverClaims.v
theories/FailoverProps.v
theories/LookbackModel.v
theories/LookbackSpec.v
theories/LookbackProofs.v
theories/LookbackClaims.v
theories/LookbackProps.v
theories/EngineModel.v
theories/EngineSpec.v
theories/EngineProofs.v
theories/EngineClaims.v
theories/EngineProps.v
theories/HealthModel.v
theories/HealthSpec.v
theories/HealthProofs.v
theories/HealthClaims.v
theories/HealthProps.v
theories/ElectModel.v
theories/ElectSpec.v
theories/ElectProofs.v
theories/ElectClaims.v
theories/ElectProps.v
theories/ReportModel.v
theories/ReportSpec.v
theories/ReportProofs.v
theories/ReportClaims.v
theories/ReportProps.v
theories/WaitModel.v
theories/WaitSpec.v
theories/WaitProofs.v
theories/WaitClaims.v
theories/WaitProps.v
theories/VersionModel.v
theories/VersionSpec.v
theories/VersionProofs.v
theories/MessageModel.v
theories/MessageSpec.v
theories/VersionClaims.v
theories/MessageProofs.v
theories/MessageClaims.v
theories/VersionProps.v
theories/MessageProps.v
theories/RoleModel.v
theories/RoleSpec.v
theories/RoleProofs.v
theories/RoleClaims.v
theories/RoleProps.v
theories/PackageModel.v
theories/PackageSpec.v
theories/PackageProofs.v
theories/PackageClaims.v
theories/PackageProps.v
theories/AuthModel.v
theories/AuthSpec.v
theories/AuthProofs.v
theories/AuthClaims.v
theories/AuthProps.v
theories/FileModel.v
theories/FileSpec.v
theories/FileProofs.v
theories/FileClaims.v
theories/FileCut.v
theories/FileProps.v
theories/EndModel.v
theories/EndSpec.v
theories/EndProofs.v
theories/EndClaims.v
theories/EndProps.v
theories/CompressModel.v
theories/CompressSpec.v
theories/CompressClaims.v
theories/CompressProps.v
theories/ManageModel.v
theories/ManageSpec.v
theories/ManageProofs.v
theories/ManageInv.v
theories/ManageFlush.v
theories/ManageClaims.v
theories/ManageProps.v
theories/SpuApiModel.v
theories/SpuApiSpec.v
theories/SpuApiProofs.v
theories/SpuApiClaims.v
theories/SpuApiProps.v
theories/RemoteModel.v
theories/RemoteSpec.v
theories/RemoteProofs.v
theories/RemoteClaims.v
theories/RemoteProps.v
theories/HubModel.v
theories/HubSpec.v
theories/HubProofs.v
theories/HubClaims.v
theories/HubProps.v
theories/KeepModel.v
theories/KeepSpec.v
theories/KeepProofs.v
theories/KeepClaims.v
theories/KeepProps.v
theories/ProfileModel.v
theories/ProfileSpec.v
theories/ProfileProofs.v
theories/ProfileClaims.v
theories/ProfileProps.v
theories/CliModel.v
theories/CliSpec.v
theories/CliProofs.v
theories/CliClaims.v
theories/CliProps.v
theories/FvmModel.v
theories/FvmSpec.v
theories/FvmProofs.v
theories/FvmClaims.v
theories/FvmProps.v
theories/RouteModel.v
theories/RouteSpec.v
theories/RouteProofs.v
theories/RouteClaims.v
theories/RouteProps.v
theories/SettingsModel.v
theories/SettingsSpec.v
theories/SettingsClaims.v
theories/SettingsProps.v
theories/IdentModel.v
theories/IdentSpec.v
theories/IdentProofs.v
theories/IdentClaims.v
theories/IdentProps.v
theories/ConnModel.v
theories/ConnSpec.v
theories/ConnProofs.v
theories/ConnClaims.v
theories/ConnProps.v
theories/ReadyModel.v
theories/ReadySpec.v
theories/ReadyProofs.v
theories/ReadyClaims.v
theories/ReadyProps.v
theories/RegistryModel.v
theories/RegistrySpec.v
theories/RegistryProofs.v
theories/RegistryClaims.v
theories/RegistryProps.v
theories/HubNameModel.v
theories/HubNameSpec.v
theories/HubNameProofs.v
theories/HubNameProps.v
theories/LifeModel.v
theories/LifeSpec.v
theories/LifeProofs.v
theories/LifeProps.v
theories/MeterModel.v
theories/MeterSpec.v
theories/MeterProofs.v
theories/MeterProps.v
theories/DeployModel.v
theories/DeploySpec.v
theories/DeployProofs.v
theories/DeployProps.v
theories/ChannelModel.v
theories/ChannelSpec.v
theories/ChannelProofs.v
theories/ChannelProps.v
theories/TableModel.v
theories/TableSpec.v
theories/TableProofs.v
theories/TableProps.v
theories/HexModel.v
theories/HexSpec.v
theories/HexProofs.v
theories/HexProps.v
