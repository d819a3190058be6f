-Q theories Verif
theories/Base.v
theories/Text.v
theories/ProtModel.v
theories/ProtSpec.v
theories/ProtProofs.v
theories/ProtStream.v
theories/ProtRobust.v
theories/IdModel.v
theories/IdProofs.v
theories/ProtProps.v
theories/CsModel.v
theories/CsSpec.v
theories/CsProofs.v
theories/CsRoute.v
theories/CsOwn.v
theories/CsProps.v
theories/CcModel.v
theories/CcSpec.v
theories/CcProofs.v
theories/CcCreate.v
theories/CcStuck.v
theories/CcProps.v
theories/VsModel.v
theories/VsSpec.v
theories/VsProofs.v
theories/VsProps.v
theories/LimModel.v
theories/LimSpec.v
theories/LimProofs.v
theories/LimProps.v
theories/HealthModel.v
theories/HealthSpec.v
theories/HealthProofs.v
theories/HealthProps.v
theories/TextOps.v
theories/ConfModel.v
theories/ConfSpec.v
theories/ConfProofs.v
theories/ConfProps.v
theories/AddrModel.v
theories/AddrSpec.v
theories/AddrProofs.v
theories/Ipv4Text.v
theories/AddrProps.v
theories/RouteModel.v
theories/RouteSpec.v
theories/RouteProofs.v
theories/RouteProps.v
theories/InhModel.v
theories/InhProofs.v
theories/InhProps.v
theories/SocksModel.v
theories/SocksSpec.v
theories/SocksProofs.v
theories/SocksProps.v
theories/HttpProxyModel.v
theories/HttpProxyProofs.v
theories/HttpProxyProps.v
theories/FileModel.v
theories/FileSpec.v
theories/FileProofs.v
theories/FileProps.v
theories/UdpModel.v
theories/UdpSpec.v
theories/UdpProofs.v
theories/UdpProps.v
theories/LogModel.v
theories/LogSpec.v
theories/LogProofs.v
theories/LogEncode.v
theories/LogParse.v
theories/LogShow.v
theories/LogProps.v
theories/CtlModel.v
theories/CtlSpec.v
theories/CtlProofs.v
theories/CtlProps.v
theories/TunSpec.v
theories/TunServer.v
theories/TunClient.v
theories/TunProofs.v
theories/TunMore.v
theories/TunFlow.v
theories/TunProps.v
theories/ReModel.v
theories/ReSpec.v
theories/ReProofs.v
theories/ReProps.v
theories/TransModel.v
theories/TransSpec.v
theories/TransProofs.v
theories/TransProps.v
theories/BindModel.v
theories/BindSpec.v
theories/BindProofs.v
theories/SqModel.v
theories/SqSpec.v
theories/SqProofs.v
theories/BindProps.v
theories/CoreModel.v
theories/CoreSpec.v
theories/CoreProofs.v
theories/CoreProps.v
theories/PollModel.v
theories/PollSpec.v
theories/PollProofs.v
theories/PollProps.v
theories/HcModel.v
theories/HcProps.v
theories/ArgModel.v
theories/ArgSpec.v
theories/ArgProofs.v
theories/ArgProps.v
theories/TgtModel.v
theories/TgtSpec.v
theories/TgtProofs.v
theories/TgtProps.v
theories/SiteModel.v
theories/SiteProps.v
theories/RwModel.v
theories/RwSpec.v
theories/RwProofs.v
theories/RwProps.v
theories/AcModel.v
theories/AcProps.v
theories/SkModel.v
theories/SkProps.v
theories/PbModel.v
theories/PbSpec.v
theories/PbProps.v
theories/AsModel.v
theories/AsProps.v
theories/FhProps.v
theories/CnModel.v
theories/CnProps.v
theories/TlsModel.v
theories/TlsProps.v
theories/PhModel.v
theories/PhProps.v
theories/MdModel.v
theories/MdProofs.v
theories/MdProps.v
theories/CxSpec.v
theories/CxProofs.v
theories/CxProps.v
theories/JoSpec.v
theories/JoProofs.v
theories/JoProps.v
theories/GxSpec.v
theories/GxProofs.v
theories/GxProps.v
theories/LsModel.v
theories/LsSpec.v
theories/LsProofs.v
theories/LsProps.v
theories/RgSpec.v
theories/RgProps.v
theories/PgModel.v
theories/PgSpec.v
theories/PgProps.v
theories/NuModel.v
theories/NuProps.v
theories/FmModel.v
theories/FmSpec.v
theories/FmProps.v
theories/UtProps.v
theories/OpModel.v
theories/OpSpec.v
theories/OpProofs.v
theories/OpTables.v
theories/OpProps.v
theories/NwModel.v
theories/NwSpec.v
theories/NwProofs.v
theories/NwProps.v
theories/NtModel.v
theories/NtSpec.v
theories/NtProofs.v
theories/NtProps.v
theories/BuModel.v
theories/BuSpec.v
theories/BuProps.v
theories/TsModel.v
theories/TsSpec.v
theories/TsProps.v
theories/SvModel.v
theories/SvSpec.v
theories/SvProps.v
theories/PlModel.v
theories/PlSpec.v
theories/PlProps.v
theories/FtSpec.v
theories/FtProps.v
theories/KpSpec.v
theories/KpProofs.v
theories/KpProps.v
theories/BpSpec.v
theories/BpProofs.v
theories/BpProps.v
theories/RlSpec.v
theories/RlProps.v
theories/WfSpec.v
theories/WfProofs.v
theories/WfProps.v
theories/FsModel.v
theories/FsSpec.v
theories/FsProofs.v
theories/FsProps.v
theories/RpModel.v
theories/RpSpec.v
theories/RpProps.v
theories/WpModel.v
theories/WpProps.v
theories/PxModel.v
theories/PxProps.v
theories/RmSpec.v
theories/RmModel.v
theories/RmProofs.v
theories/RmBack.v
theories/RmProps.v
theories/QtSpec.v
theories/QtProofs.v
theories/QtReach.v
theories/QtProps.v
theories/FsLog.v
theories/AlModel.v
theories/AlSpec.v
theories/AlProofs.v
theories/AlProps.v
theories/RaModel.v
theories/RaProps.v
theories/MlModel.v
theories/MlProps.v
