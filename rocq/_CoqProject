-Q theories Verif
theories/Lib.v
theories/ShmModel.v
theories/ShmSpec.v
theories/ShmProofs.v
theories/ShmMgrProofs.v
theories/ShmClusterProofs.v
theories/ShmPropLemmas.v
theories/ShmProps.v
theories/ShmStoreModel.v
theories/ShmStoreSpec.v
theories/ShmStoreProofs.v
theories/ShmStoreCases.v
theories/ShmStoreProps.v
theories/MemCopyModel.v
theories/MemCopyProofs.v
theories/MemCopyProps.v
theories/SizingModel.v
theories/SizingProofs.v
theories/SizingProps.v
theories/ShmRaceModel.v
theories/ShmRaceSpec.v
theories/ShmRaceProofs.v
theories/ShmRaceCases.v
theories/ShmRaceProps.v
theories/DataIdModel.v
theories/DataIdProofs.v
theories/DataIdCases.v
theories/DataIdProps.v
theories/CommModel.v
theories/CommSpec.v
theories/CommProofs.v
theories/CommCases.v
theories/CommProps.v
theories/SerialModel.v
theories/SerialSpec.v
theories/SerialProofs.v
theories/SerialCases.v
theories/SerialProps.v
theories/SchedModel.v
theories/SchedProofs.v
theories/SchedProps.v
theories/ValModel.v
theories/PushModel.v
theories/PushProofs.v
theories/PushProps.v
theories/WorkerModel.v
theories/WorkerSpec.v
theories/WorkerProofs.v
theories/WorkerLog.v
theories/WorkerTrace.v
theories/WorkerReady.v
theories/WorkerAnswer.v
theories/WorkerOrder.v
theories/WorkerThms.v
theories/WorkerCases.v
theories/WorkerProps.v
theories/WorkerDone.v
theories/Dict.v
theories/TopoModel.v
theories/TopoProofs.v
theories/TopoCases.v
theories/TopoProps.v
theories/MonModel.v
theories/MonSpec.v
theories/MonProofs.v
theories/MonCases.v
theories/MonProps.v
theories/ShutModel.v
theories/ShutSpec.v
theories/ShutProofs.v
theories/ShutCases.v
theories/ShutProps.v
theories/CtrlModel.v
theories/CtrlSpec.v
theories/CtrlProofs.v
theories/CtrlCases.v
theories/CtrlProps.v
theories/GcModel.v
theories/GcSpec.v
theories/GcProofs.v
theories/GcProps.v
theories/AsyncModel.v
theories/AsyncSpec.v
theories/AsyncProofs.v
theories/AsyncProps.v
theories/PyseqModel.v
theories/PyseqSpec.v
theories/PyseqProofs.v
theories/PyseqCases.v
theories/PyseqProps.v
theories/PympModel.v
theories/PympSpec.v
theories/PympProofs.v
theories/PympDirect.v
theories/PympCases.v
theories/PympProps.v
theories/DaskModel.v
theories/DaskProofs.v
theories/DaskCases.v
theories/DaskProps.v
theories/DaskRunModel.v
theories/DaskRunSpec.v
theories/DaskRunProofs.v
theories/DaskRunCases.v
theories/DaskRunProps.v
theories/BaseModel.v
theories/BaseSpec.v
theories/BaseProofs.v
theories/BaseCases.v
theories/BaseProps.v
theories/ConfigModel.v
theories/ConfigSpec.v
theories/ConfigProofs.v
theories/ConfigProps.v
theories/WorkerSends.v
theories/WorkerWant.v
theories/ClusterModel.v
theories/ClusterSpec.v
theories/ClusterSeq.v
theories/ClusterProofs.v
theories/ClusterCount.v
theories/ClusterRoot.v
theories/ClusterNet.v
theories/ClusterGhost.v
theories/ClusterEnd.v
theories/ClusterClean.v
theories/WorkerNeed.v
theories/WorkerKept.v
theories/ClusterQuiet.v
theories/ClusterGone.v
theories/ClusterCases.v
theories/ClusterProps.v
theories/ActModel.v
theories/ActSpec.v
theories/ActGives.v
theories/WorkerFew.v
theories/ActProofs.v
theories/ActCount.v
theories/ActThms.v
theories/ActOrder.v
theories/ActCases.v
theories/ActRoot.v
theories/ActNet.v
theories/ActEnd.v
theories/ActProps.v
theories/ActWaitSpec.v
theories/ActWait.v
theories/ActWaitDirect.v
theories/ActWaitCases.v
theories/ActHeldDirect.v
theories/ActHeldCases.v
theories/ActWaitProps.v
theories/ActDone.v
theories/ActDoneDirect.v
theories/ActDoneProps.v
theories/ObjMpiSpec.v
theories/ObjMpi.v
theories/ObjMpiDone.v
theories/ObjMpiCases.v
theories/ObjMpiProps.v
theories/ObjFive.v
theories/ObjFiveProps.v
theories/ActReclaim.v
theories/ActReclaimCases.v
theories/ActReclaimProps.v
theories/WaitModel.v
theories/WaitSpec.v
theories/WaitFin.v
theories/WaitProofs.v
theories/WaitThms.v
theories/WaitCases.v
theories/WaitProps.v
theories/NestModel.v
theories/NestSpec.v
theories/NestProofs.v
theories/NestOnce.v
theories/NestThms.v
theories/NestNet.v
theories/NestLoop.v
theories/NestLive.v
theories/NestStep.v
theories/NestCall.v
theories/NestTurn.v
theories/NestRun.v
theories/NestCases.v
theories/NestProps.v
theories/NestStuckCases.v
theories/NestStuckProps.v
theories/HandleModel.v
theories/HandleSpec.v
theories/HandleExt.v
theories/HandleProofs.v
theories/HandleThms.v
theories/HandleNet.v
theories/HandleCases.v
theories/HandleProps.v
theories/AliasModel.v
theories/AliasSpec.v
theories/AliasProofs.v
theories/AliasCases.v
theories/AliasProps.v
theories/SurviveSpec.v
theories/SurviveProofs.v
theories/SurviveCases.v
theories/SurviveProps.v
theories/ReplyModel.v
theories/ReplySpec.v
theories/ReplyProofs.v
theories/ReplyCases.v
theories/ReplyProps.v
theories/CollModel.v
theories/CollSpec.v
theories/CollProofs.v
theories/CollCases.v
theories/CollProps.v
theories/ArgsModel.v
theories/ArgsSpec.v
theories/ArgsProofs.v
theories/ArgsCases.v
theories/ArgsProps.v
theories/SpawnModel.v
theories/SpawnSpec.v
theories/SpawnProofs.v
theories/SpawnCases.v
theories/SpawnProps.v
theories/SupportModel.v
theories/SupportSpec.v
theories/SupportProofs.v
theories/SupportCases.v
theories/SupportProps.v
theories/LifeModel.v
theories/LifeSpec.v
theories/LifeProofs.v
theories/LifeCases.v
theories/LifeProps.v
theories/CpusModel.v
theories/CpusProofs.v
theories/CpusCases.v
theories/CpusProps.v
theories/SharedRunModel.v
theories/SharedRunSpec.v
theories/SharedRunStore.v
theories/SharedRunFit.v
theories/SharedRunProofs.v
theories/SharedRunReclaim.v
theories/SharedRunCases.v
theories/SharedRunProps.v
theories/RaySizingModel.v
theories/RaySizingProofs.v
theories/RaySizingCases.v
theories/RaySizingProps.v
theories/PyFlagsModel.v
theories/PyFlagsProofs.v
theories/PyFlagsCases.v
theories/PyFlagsProps.v
theories/ShmViewModel.v
theories/ShmViewSpec.v
theories/ShmViewProofs.v
theories/ShmViewCases.v
theories/ShmViewProps.v
theories/EndModel.v
theories/EndSpec.v
theories/EndSim.v
theories/EndRoot.v
theories/EndProofs.v
theories/EndTasks.v
theories/EndThms.v
theories/EndCases.v
theories/EndNever.v
theories/EndLate.v
theories/EndProps.v
theories/StartModel.v
theories/StartSpec.v
theories/StartProofs.v
theories/StartThms.v
theories/StartCases.v
theories/StartProps.v
theories/ForkModel.v
theories/ForkSpec.v
theories/ForkProofs.v
theories/ForkCases.v
theories/ForkProps.v
theories/LateModel.v
theories/LateSpec.v
theories/LateProofs.v
theories/LateCases.v
theories/LateProps.v
theories/WorkerRec.v
theories/ClusterRec.v
theories/RecCases.v
theories/RecProps.v
theories/ReapModel.v
theories/ReapSpec.v
theories/ReapProofs.v
theories/ReapInv.v
theories/ReapCases.v
theories/ReapProps.v
theories/StopModel.v
theories/StopSpec.v
theories/StopProofs.v
theories/StopCases.v
theories/StopProps.v
theories/PympExitModel.v
theories/PympExitSpec.v
theories/PympExitProofs.v
theories/PympExitCases.v
theories/PympExitProps.v
theories/PickModel.v
theories/PickSpec.v
theories/PickProofs.v
theories/PickCases.v
theories/PickProps.v
theories/GetFailModel.v
theories/GetFailSpec.v
theories/GetFailProofs.v
theories/GetFailCases.v
theories/GetFailProps.v
theories/LocalStoreModel.v
theories/LocalStoreSpec.v
theories/LocalStoreProofs.v
theories/LocalStoreCases.v
theories/LocalStoreProps.v
theories/RayRunModel.v
theories/RayRunSpec.v
theories/RayRunProofs.v
theories/RayRunCases.v
theories/RayRunProps.v
theories/PortSpec.v
theories/PortHist.v
theories/PortShows.v
theories/PortSeq.v
theories/PortPymp.v
theories/PortDask.v
theories/PortMpi.v
theories/PortProofs.v
theories/PortCases.v
theories/PortProps.v
theories/ObjSpec.v
theories/ObjHist.v
theories/ObjBack.v
theories/ObjCases.v
theories/ObjProps.v
theories/LogModel.v
theories/LogSpec.v
theories/LogProofs.v
theories/LogCases.v
theories/LogProps.v
theories/LogLineModel.v
theories/LogLineSpec.v
theories/LogLineProofs.v
theories/LogLineProps.v
theories/PortDoneSpec.v
theories/PortDone.v
theories/PortDoneSeq.v
theories/PortDonePymp.v
theories/PortDoneDask.v
theories/PortDoneMpi.v
theories/PortDoneNot.v
theories/PortDoneProofs.v
theories/PortDoneProps.v
theories/PyGcModel.v
theories/PyGcSpec.v
theories/PyGcProofs.v
theories/PyGcProps.v
theories/EncModel.v
theories/EncSpec.v
theories/EncProofs.v
theories/EncProps.v
theories/ObjDoneSpec.v
theories/ObjDone.v
theories/ObjDonePymp.v
theories/ObjDoneSeq.v
theories/ObjDoneDask.v
theories/ObjDoneProofs.v
theories/ObjDoneProps.v
theories/ObjWaitSpec.v
theories/ObjWait.v
theories/ObjWaitDone.v
theories/ObjWaitCases.v
theories/ObjWaitProps.v
theories/IntrModel.v
theories/IntrSpec.v
theories/IntrProofs.v
theories/IntrProps.v
