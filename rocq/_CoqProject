-Q theories Verif
theories/Base.v
theories/RandModel.v
theories/RandSpec.v
theories/RandProofs.v
theories/RandProps.v
theories/IsqrtModel.v
theories/IsqrtProofs.v
theories/IsqrtProps.v
theories/MmsgModel.v
theories/MmsgSpec.v
theories/MmsgProofs.v
theories/MmsgProps.v
theories/TcpModel.v
theories/TcpSpec.v
theories/TcpProofs.v
theories/TcpProps.v
theories/ConnqModel.v
theories/ConnqSpec.v
theories/ConnqProofs.v
theories/ConnqProps.v
theories/MonModel.v
theories/MonSpec.v
theories/MonProofs.v
theories/MonThresh.v
theories/MonRun.v
theories/MonJson.v
theories/MonProps.v
theories/RcuModel.v
theories/RcuProofs.v
theories/RcuProps.v
theories/DnameModel.v
theories/DnameSpec.v
theories/DnameProofs.v
theories/DnameProofs2.v
theories/DnameProps.v
theories/PktModel.v
theories/PktSpec.v
theories/PktProofs.v
theories/PktProofs2.v
theories/PktProofs3.v
theories/PktProofs4.v
theories/PktProps.v
theories/CompModel.v
theories/CompSpec.v
theories/CompProofs.v
theories/CompProps.v
theories/RespModel.v
theories/RespSpec.v
theories/RespProofs.v
theories/RespProofs2.v
theories/RespProofs3.v
theories/RespProofs4.v
theories/RespProofs5.v
theories/RespProofs6.v
theories/RespProps.v
theories/MsgModel.v
theories/MsgSpec.v
theories/MsgProofs.v
theories/MsgProofs2.v
theories/MsgProofs3.v
theories/MsgProofs4.v
theories/MsgProofs5.v
theories/MsgProps.v
theories/MsgRefProps.v
theories/PlugModel.v
theories/PlugSpec.v
theories/PlugProofs.v
theories/PlugProofs2.v
theories/PlugProofs3.v
theories/PlugProofs4.v
theories/PlugProps.v
theories/NetModel.v
theories/NetSpec.v
theories/NetBits.v
theories/NetProofs.v
theories/NetProofs2.v
theories/NetProofs3.v
theories/NetProofs4.v
theories/NetProofs5.v
theories/NetProofs6.v
theories/NetProofs7.v
theories/NetProps.v
theories/CookieModel.v
theories/CookieSpec.v
theories/CookieProps.v
theories/ArenaModel.v
theories/ArenaSpec.v
theories/ArenaProofs.v
theories/ArenaProps.v
theories/StatModel.v
theories/StatSpec.v
theories/StatProofs.v
theories/StatProofs2.v
theories/StatProps.v
theories/MapsModel.v
theories/MapsSpec.v
theories/MapsProofs.v
theories/MapsProofs2.v
theories/MapsProofs3.v
theories/MapsProofs4.v
theories/MapsProps.v
theories/LocModel.v
theories/LocSpec.v
theories/LocProofs.v
theories/LocProofs2.v
theories/LocProofs3.v
theories/LocReal.v
theories/LocProps.v
theories/ProxyModel.v
theories/ProxySpec.v
theories/ProxyProofs.v
theories/ProxyProofs2.v
theories/ProxyProps.v
theories/ExtModel.v
theories/ExtSpec.v
theories/ExtProofs.v
theories/ExtProofs2.v
theories/ExtProps.v
theories/FileModel.v
theories/FileSpec.v
theories/FileProofs.v
theories/FileProps.v
theories/ChalModel.v
theories/ChalSpec.v
theories/ChalProofs.v
theories/ChalProofs2.v
theories/ChalProofs3.v
theories/ChalProofs4.v
theories/ChalProofs5.v
theories/ChalProofs6.v
theories/ChalProps.v
theories/LtreeModel.v
theories/LtreeSpec.v
theories/LtreeProofs.v
theories/LtreeProofs2.v
theories/LtreeProofs3.v
theories/LtreeProofs4.v
theories/LtreeProofs5.v
theories/LtreeProofs6.v
theories/LtreeProofs7.v
theories/LtreeProofs8.v
theories/LtreeProofs9.v
theories/LtreeProofs10.v
theories/LtreeProofs11.v
theories/LtreeProofs12.v
theories/LtreeProofs13.v
theories/LtreeProofs14.v
theories/LtreeProofs15.v
theories/LtreeProps.v
theories/LtreeMsgProps.v
theories/CtlModel.v
theories/CtlSpec.v
theories/CtlProofs.v
theories/CtlProofs2.v
theories/CtlProofs3.v
theories/CtlProofs4.v
theories/CtlProofs5.v
theories/CtlProofs6.v
theories/CtlProofs7.v
theories/CtlProofs8.v
theories/CtlProofs9.v
theories/CtlProps.v
theories/CscModel.v
theories/CscSpec.v
theories/CscProofs.v
theories/CscProofs2.v
theories/CscProofs3.v
theories/CscProofs4.v
theories/CscProofs5.v
theories/CscProofs6.v
theories/CscProps.v
theories/ZscanModel.v
theories/ZscanSpec.v
theories/ZscanProofs.v
theories/ZscanProofs2.v
theories/ZscanProofs3.v
theories/ZscanProofs4.v
theories/ZscanProofs5.v
theories/ZscanProofs6.v
theories/ZscanProofs7.v
theories/ZscanProofs8.v
theories/ZscanProofs9.v
theories/ZscanProofs10.v
theories/ZscanProofs11.v
theories/ZscanProofs12.v
theories/ZscanProofs13.v
theories/ZscanProps.v
theories/ZscanProofs14.v
theories/ZscanProofs15.v
theories/ZcrashProps.v
theories/VscfModel.v
theories/VscfSpec.v
theories/VscfProofs.v
theories/VscfProofs2.v
theories/VscfProofs3.v
theories/VscfProofs4.v
theories/VscfProofs5.v
theories/VscfProofs6.v
theories/VscfProofs7.v
theories/VscfProofs8.v
theories/VscfProofs9.v
theories/VscfProps.v
theories/OptModel.v
theories/OptSpec.v
theories/OptProofs.v
theories/ProbeModel.v
theories/ProbeSpec.v
theories/ProbeProofs.v
theories/ProbeProofs2.v
theories/ProbeProofs3.v
theories/ProbeProofs4.v
theories/ProbeProofs5.v
theories/ProbeConfModel.v
theories/ProbeConfSpec.v
theories/ProbeConfProofs.v
theories/ProbeProps.v
theories/CfgModel.v
theories/CfgSpec.v
theories/CfgProofs.v
theories/CfgProofs2.v
theories/CfgProofs3.v
theories/CfgProps.v
theories/VhashModel.v
theories/VhashSpec.v
theories/VhashProofs.v
theories/VhashProofs2.v
theories/VhashProps.v
theories/ZdirModel.v
theories/ZdirSpec.v
theories/ZdirProofs.v
theories/ZdirProofs2.v
theories/ZdirProofs3.v
theories/ZdirProofs4.v
theories/ZdirProps.v
theories/PconfModel.v
theories/PconfSpec.v
theories/PconfProofs.v
theories/PconfProofs2.v
theories/PconfProofs3.v
theories/PconfProofs4.v
theories/PconfProofs5.v
theories/PconfProofs6.v
theories/PconfProofs7.v
theories/PconfProofs8.v
theories/PconfProps.v
theories/McfModel.v
theories/McfSpec.v
theories/McfProofs.v
theories/McfProofs2.v
theories/McfProofs3.v
theories/McfProofs4.v
theories/McfProofs5.v
theories/McfProps.v
theories/PlcModel.v
theories/PlcSpec.v
theories/PlcProofs.v
theories/PlcProofs2.v
theories/PlcProofs3.v
theories/PlcProofs4.v
theories/PlcProofs5.v
theories/PlcProofs6.v
theories/PlcProps.v
theories/GmapModel.v
theories/GmapSpec.v
theories/GmapProofs.v
theories/GmapProofs2.v
theories/GmapProofs3.v
theories/GmapProofs4.v
theories/GmapProofs5.v
theories/GmapProps.v
theories/GdbModel.v
theories/GdbSpec.v
theories/GdbProofs.v
theories/GdbProofs2.v
theories/GdbProps.v
theories/CntModel.v
theories/CntSpec.v
theories/CntProofs.v
theories/CntProofs2.v
theories/CntProofs3.v
theories/CntProofs4.v
theories/CntProps.v
theories/CntRefProps.v
theories/CntProofs5.v
theories/CntCkProps.v
theories/GctlModel.v
theories/GctlSpec.v
theories/GctlProofs.v
theories/GctlProps.v
theories/GctlFailProps.v
