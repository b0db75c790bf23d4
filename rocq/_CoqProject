-Q theories Verif
theories/Base.v
theories/CompatModel.v
theories/CompatSpec.v
theories/BitsLemmas.v
theories/CompatProof.v
theories/CompatProp.v
theories/Compat1Model.v
theories/Compat1Spec.v
theories/Compat1Proof.v
theories/Compat1Prop.v
theories/BusModel.v
theories/BusSpec.v
theories/BusProof.v
theories/BusProp.v
theories/BusNameModel.v
theories/BusNameSpec.v
theories/BusNameProof.v
theories/BusNameProp.v
theories/MonitorModel.v
theories/MonitorSpec.v
theories/MonitorProof.v
theories/MonitorProp.v
theories/ScoreboardModel.v
theories/ScoreboardSpec.v
theories/ScoreboardProof.v
theories/ScoreboardProp.v
theories/DriverModel.v
theories/DriverSpec.v
theories/DriverProof.v
theories/DriverProp.v
theories/LockModel.v
theories/LockSpec.v
theories/LockProof.v
theories/LockProp.v
theories/DrvUtilModel.v
theories/DrvUtilSpec.v
theories/DrvUtilProof.v
theories/DrvUtilProp.v
theories/SigModel.v
theories/SigSpec.v
theories/SigProof.v
theories/SigProp.v
theories/Async.v
theories/HandshakeSpec.v
theories/Handshake.v
theories/AvalonSTModel.v
theories/AvalonSTSpec.v
theories/AvalonSTProof.v
theories/AvalonSTProp.v
theories/PktModel.v
theories/PktSpec.v
theories/PktProof.v
theories/PktMonProof.v
theories/PktIterProof.v
theories/PktProp.v
theories/PktRefProof.v
theories/PktRefProp.v
theories/MMModel.v
theories/MMSpec.v
theories/MMProof.v
theories/MMProp.v
theories/SigUseProp.v
theories/AvMemModel.v
theories/AvMemSpec.v
theories/AvMemProof.v
theories/AvBurstProof.v
theories/AvMemThm.v
theories/AvMemProp.v
theories/AxiModel.v
theories/AxiSpec.v
theories/AxiDataProof.v
theories/AxiReadProof.v
theories/AxiChanProof.v
theories/AxiRunProof.v
theories/AxiTopProof.v
theories/AxiProp.v
theories/XgModel.v
theories/XgSpec.v
theories/XgProof.v
theories/XgDrvProof.v
theories/XgMonProof.v
theories/XgTopProof.v
theories/XgProp.v
theories/XgGapSpec.v
theories/XgGapProof.v
theories/XgGapProp.v
theories/XgRxSpec.v
theories/XgRxProof.v
theories/XgRxProp.v
theories/XgLatSpec.v
theories/XgLatProof.v
theories/XgLatProp.v
theories/XgJoinSpec.v
theories/XgJoinProp.v
theories/PktJoinSpec.v
theories/PktJoinProof.v
theories/PktJoinProp.v
theories/PktRstSpec.v
theories/PktRstProof.v
theories/PktRstProp.v
theories/PktChModel.v
theories/PktChSpec.v
theories/PktChProof.v
theories/PktChProp.v
theories/PktErrSpec.v
theories/PktErrProof.v
theories/PktErrProp.v
theories/PktWcModel.v
theories/PktWcSpec.v
theories/PktWcProof.v
theories/PktWcProp.v
theories/OpbModel.v
theories/OpbSpec.v
theories/OpbProof.v
theories/OpbTopProof.v
theories/OpbProp.v
theories/OpbEndProof.v
theories/OpbEndProp.v
theories/AxsModel.v
theories/AxsSpec.v
theories/AxsProof.v
theories/AxsProp.v
theories/CombModel.v
theories/CombSpec.v
theories/CombProof.v
theories/CombProp.v
theories/CombHeapModel.v
theories/CombHeapSpec.v
theories/CombHeapProof.v
theories/CombHeapProof2.v
theories/CombHeapAgree.v
theories/CombHeapProp.v
theories/CombRunModel.v
theories/CombRunSpec.v
theories/CombRunProof.v
theories/CombRunProof2.v
theories/CombRunProp.v
theories/BenchModel.v
theories/BenchSpec.v
theories/BenchProof.v
theories/BenchProp.v
theories/ScbAnyProof.v
theories/ScbAnyProp.v
theories/ScbRefProp.v
theories/AxSysSpec.v
theories/AxSysProof.v
theories/AxSysProp.v
theories/PktRejModel.v
theories/PktRejProp.v
theories/CoModel.v
theories/CoAvModel.v
theories/CoAvSpec.v
theories/CoProof.v
theories/CoEqProof.v
theories/CoAvProof.v
theories/CoAvProp.v
theories/CoRefProof.v
theories/CoRefProp.v
theories/CoRdProof.v
theories/CoRdProp.v
theories/AvSigModel.v
theories/AvSigSpec.v
theories/AvSigProof.v
theories/AvSigProp.v
theories/XgE2EModel.v
theories/XgE2ESpec.v
theories/XgE2EProof.v
theories/XgE2EProp.v
theories/StGenModel.v
theories/StGenSpec.v
theories/StGenProof.v
theories/StGenProp.v
theories/ScbCmpModel.v
theories/ScbCmpSpec.v
theories/ScbCmpProof.v
theories/ScbCmpProp.v
theories/AvWidModel.v
theories/AvWidSpec.v
theories/AvWidProof.v
theories/AvWidProp.v
theories/PkGenModel.v
theories/PkGenSpec.v
theories/PkGenProof.v
theories/PkGenProp.v
theories/WaitLoopSpec.v
theories/WaitLoopProof.v
theories/WaitLoopProp.v
theories/SampleModel.v
theories/SampleSpec.v
theories/SampleProof.v
theories/SampleProp.v
theories/ScbExnModel.v
theories/ScbExnSpec.v
theories/ScbExnProof.v
theories/ScbExnProp.v
theories/GenExnModel.v
theories/GenExnSpec.v
theories/GenExnProof.v
theories/GenExnProp.v
theories/CrcModel.v
theories/CrcSpec.v
theories/CrcProof.v
theories/CrcProp.v
theories/AvInitSpec.v
theories/AvInitProof.v
theories/AvInitProp.v
theories/AxLegSpec.v
theories/AxLegProof.v
theories/AxLegProp.v
theories/ArgSpec.v
theories/ArgProof.v
theories/AxNegProof.v
theories/ArgProp.v
theories/SockSpec.v
theories/SockProp.v
theories/AxuSpec.v
theories/AxuProof.v
theories/AxuProp.v
theories/AxuRefProof.v
theories/AxuWaitProof.v
theories/AxuRefProp.v
theories/RstModel.v
theories/RstSpec.v
theories/RstProof.v
theories/RstProp.v
theories/XcSpec.v
theories/XcProof.v
theories/XcProp.v
theories/RlModel.v
theories/RlSpec.v
theories/RlProof.v
theories/RlProp.v
theories/GuModel.v
theories/GuProof.v
theories/GuProp.v
theories/TmSpec.v
theories/TmProof.v
theories/TmProp.v
theories/AxTmProof.v
theories/AxTmProp.v
theories/AxPrSpec.v
theories/AxPrProof.v
theories/AxPrProp.v
theories/BpSpec.v
theories/BpProof.v
theories/BpProp.v
theories/AxLvSpec.v
theories/AxLvProof.v
theories/AxLvProp.v
theories/AxRefProp.v
theories/BusRefProp.v
theories/AxRdSpec.v
theories/AxRdProof.v
theories/AxRdProp.v
theories/RspSpec.v
theories/RspProof.v
theories/RspProp.v
theories/MMRspSpec.v
theories/MMRspProof.v
theories/MMRspProp.v
theories/E2EModel.v
theories/E2ESpec.v
theories/E2EProof.v
theories/E2EProp.v
theories/AxcModel.v
theories/AxcSpec.v
theories/AxcProof.v
theories/AxcTopProof.v
theories/AxcWriteProof.v
theories/AxcReadProof.v
theories/AxaProof.v
theories/AxcProp.v
theories/AxmSpec.v
theories/AxmProof.v
theories/AxmProp.v
theories/AvSysSpec.v
theories/AvSysProof.v
theories/AvSysTopProof.v
theories/AvSysProp.v
theories/AxfSpec.v
theories/AxfProof.v
theories/AxlProof.v
theories/AxfProp.v
theories/BitModel.v
theories/BitSpec.v
theories/BitProof.v
theories/BitProp.v
theories/AvUndefSpec.v
theories/AvUndefProof.v
theories/AvSurvProof.v
theories/AvUndefProp.v
theories/AvPortModel.v
theories/AvPortSpec.v
theories/AvPortProof.v
theories/AvPortProp.v
theories/AvStallSpec.v
theories/AvStallProof.v
theories/AvStallProp.v
theories/AxLatSpec.v
theories/AxLatProof.v
theories/AxLatProp.v
theories/MonKillModel.v
theories/MonKillSpec.v
theories/MonKillProof.v
theories/MonKillProp.v
theories/StE2EModel.v
theories/StE2ESpec.v
theories/StE2EProof.v
theories/StE2EProp.v
theories/KillSpec.v
theories/KillProof.v
theories/KillProp.v
theories/PktKillSpec.v
theories/PktKillProof.v
theories/PktKillProp.v
theories/BusGenProp.v
theories/StRefProp.v
theories/DrvRefProp.v
theories/LockRefProp.v
theories/MemRefProof.v
theories/MemRefProp.v
