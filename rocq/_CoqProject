-Q theories Verif

theories/Outcome.v
theories/CInt.v
theories/SatMathSpec.v
theories/SatMathModel.v
theories/SatMathProofs.v
theories/TimeModel.v
theories/TimeSpec.v
theories/TimeProofs.v
theories/ResultModel.v
theories/ResultProofs.v
theories/Props_SatMath.v
theories/Props_Time.v
theories/Props_TimeOrder.v
theories/CanFrameModel.v
theories/CanFrameSpec.v
theories/CanFrameProofs.v
theories/Props_CanFrame.v
theories/BitCopyModel.v
theories/BitCopySpec.v
theories/BitCopyProofs.v
theories/BitCopyFacts.v
theories/BitCopyInPlace.v
theories/BitCopyInPlaceProofs.v
theories/Props_BitCopy.v
theories/PoolModel.v
theories/PoolSpec.v
theories/PoolProofs.v
theories/PoolConcModel.v
theories/PoolConcSpec.v
theories/PoolConcProofs.v
theories/Props_Pool.v
theories/SocketCanModel.v
theories/SocketCanSpec.v
theories/SocketCanProofs.v
theories/SocketCanHist.v
theories/Props_SocketCan.v
theories/GroupModel.v
theories/GroupSpec.v
theories/GroupProofs.v
theories/Props_Group.v
theories/PollModel.v
theories/PollSpec.v
theories/PollProofs.v
theories/Props_Poll.v
theories/OverlapModel.v
theories/OverlapSpec.v
theories/OverlapProofs.v
theories/OverlapRefine.v
theories/OverlapRaces.v
theories/Props_Overlap.v
theories/ArbitrationSpec.v
theories/ArbitrationProofs.v
theories/Props_Arbitration.v
theories/ManagerModel.v
theories/ManagerSpec.v
theories/ManagerProofs.v
theories/Props_Manager.v
theories/ParseArgsModel.v
theories/ParseArgsSpec.v
theories/ParseArgsProofs.v
theories/ParseFormsProofs.v
theories/ParsePosixModel.v
theories/ParsePosixProofs.v
theories/Props_ParseArgs.v
theories/LoopBackModel.v
theories/LoopBackSpec.v
theories/LoopBackProofs.v
theories/Props_LoopBack.v
theories/TemplateModel.v
theories/TemplateSpec.v
theories/TemplateProofs.v
theories/Props_Template.v
theories/MainModel.v
theories/MainProofs.v
theories/Props_Main.v
theories/TargetModel.v
theories/TargetSpec.v
theories/TargetProofs.v
theories/Props_Target.v
theories/WireSpec.v
theories/WireProofs.v
theories/Props_Wire.v
theories/LvsModel.v
theories/LvsSpec.v
theories/LvsProofs.v
theories/Props_Lvs.v
theories/Conformance.v
theories/BoardModel.v
theories/BoardSpec.v
theories/BoardProofs.v
theories/Props_Board.v
theories/PoolBytesModel.v
theories/PoolBytesSpec.v
theories/PoolBytesProofs.v
theories/ContainerModel.v
theories/ContainerSpec.v
theories/ContainerProofs.v
theories/Props_Container.v
theories/VecSuiteModel.v
theories/VecSuiteSpec.v
theories/VecSuiteProofs.v
theories/Props_VecSuite.v
theories/PoolUseSpec.v
theories/PoolUseProofs.v
theories/PoolFreshSpec.v
theories/PoolFreshProofs.v
theories/Props_PoolUse.v
theories/Props_PoolFresh.v
theories/PoolOrderModel.v
theories/PoolOrderSpec.v
theories/PoolOrderProofs.v
theories/Props_PoolOrder.v
theories/PoolLinSpec.v
theories/PoolLinProofs.v
theories/Props_PoolLin.v
theories/PoolTsoModel.v
theories/PoolTsoSpec.v
theories/PoolTsoProofs.v
theories/Props_PoolTso.v
theories/FirstUseModel.v
theories/FirstUseSpec.v
theories/FirstUseProofs.v
theories/Props_FirstUse.v
theories/ResetModel.v
theories/ResetSpec.v
theories/ResetProofs.v
theories/Props_Reset.v
theories/ClientModel.v
theories/ClientSpec.v
theories/ClientProofs.v
theories/Props_Client.v
theories/TimedModel.v
theories/TimedSpec.v
theories/TimedProofs.v
theories/Props_Timed.v
theories/ToolsModel.v
theories/ToolsSpec.v
theories/ToolsProofs.v
theories/Props_Tools.v
theories/GlobModel.v
theories/GlobSpec.v
theories/GlobProofs.v
theories/Props_Glob.v
theories/TrafficSpec.v
theories/TrafficProofs.v
theories/Props_Traffic.v
theories/NetworkSpec.v
theories/NetworkProofs.v
theories/Props_Network.v
theories/SyscallModel.v
theories/SyscallSpec.v
theories/SyscallProofs.v
theories/Props_Syscall.v
theories/AccountSpec.v
theories/AccountProofs.v
theories/Props_Account.v
theories/WaitSpec.v
theories/WaitProofs.v
theories/Props_Wait.v
theories/PoolProgressSpec.v
theories/PoolProgressProofs.v
theories/Props_PoolProgress.v
theories/PoolWaitSpec.v
theories/PoolWaitProofs.v
theories/Props_PoolWait.v
theories/FieldSpec.v
theories/FieldProofs.v
theories/Props_Field.v
theories/ConsoleModel.v
theories/ConsoleSpec.v
theories/ConsoleProofs.v
theories/ConsoleEval.v
theories/Props_Console.v
theories/OomModel.v
theories/OomSpec.v
theories/OomProofs.v
theories/Props_Oom.v
theories/OwnerModel.v
theories/OwnerSpec.v
theories/OwnerProofs.v
theories/Props_Owner.v
theories/TraceModel.v
theories/TraceSpec.v
theories/TraceProofs.v
theories/Props_Trace.v
theories/GuardModel.v
theories/GuardSpec.v
theories/GuardProofs.v
theories/Props_Guard.v
theories/LifeModel.v
theories/LifeSpec.v
theories/LifeProofs.v
theories/LifeAlone.v
theories/LifeCalls.v
theories/Props_Life.v
theories/ControlModel.v
theories/ControlSpec.v
theories/ControlProofs.v
theories/Props_Control.v
theories/FilterLoopModel.v
theories/FilterLoopProofs.v
theories/Props_FilterLoop.v
theories/GenModel.v
theories/GenSpec.v
theories/GenProofs.v
theories/Props_Gen.v
theories/LcovModel.v
theories/LcovSpec.v
theories/LcovProofs.v
theories/Props_Lcov.v
theories/CMakeModel.v
theories/CMakeSpec.v
theories/CMakeProofs.v
theories/Props_CMake.v
theories/CiModel.v
theories/CiSpec.v
theories/CiProofs.v
theories/Props_Ci.v
theories/ErrnoModel.v
theories/ErrnoSpec.v
theories/ErrnoProofs.v
theories/Props_Errno.v
theories/CopySuiteModel.v
theories/CopySuiteSpec.v
theories/CopySuiteProofs.v
theories/Props_CopySuite.v
theories/StaleModel.v
theories/StaleSpec.v
theories/StaleProofs.v
theories/Props_Stale.v
theories/ExtModel.v
theories/ExtSpec.v
theories/ExtProofs.v
theories/Props_Ext.v
theories/SharedModel.v
theories/SharedSpec.v
theories/SharedProofs.v
theories/Props_Shared.v
theories/FlashModel.v
theories/FlashSpec.v
theories/FlashProofs.v
theories/Props_Flash.v
theories/RunTestsModel.v
theories/RunTestsSpec.v
theories/RunTestsProofs.v
theories/Props_RunTests.v
theories/HeaderModel.v
theories/HeaderSpec.v
theories/HeaderProofs.v
theories/Props_Header.v
theories/ConstModel.v
theories/ConstSpec.v
theories/ConstProofs.v
theories/Props_Const.v
theories/SwitchModel.v
theories/SwitchSpec.v
theories/SwitchProofs.v
theories/Props_Switch.v
theories/AllocCopyModel.v
theories/AllocCopySpec.v
theories/AllocCopyProofs.v
theories/Props_AllocCopy.v
theories/MoveContainerModel.v
theories/MoveContainerSpec.v
theories/MoveContainerProofs.v
theories/Props_MoveContainer.v
