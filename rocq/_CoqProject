-Q theories Verif
theories/Py.v
theories/PyLemmas.v
theories/MemModel.v
theories/MemSpec.v
theories/MemProofs.v
theories/MemRun.v
theories/MemExamples.v
theories/MemProps1.v
theories/MemSample.v
theories/MemSample2.v
theories/MemSample3.v
theories/MemSample4.v
theories/MemProps2.v
theories/AdaptorModel.v
theories/AdaptorProofs.v
theories/StratModel.v
theories/StratSpec.v
theories/StratProofs.v
theories/MemProps3.v
theories/MemProps4.v
theories/V1Spec.v
theories/V1Proofs.v
theories/LegacyProofs.v
theories/ConcModel.v
theories/ConcSpec.v
theories/ConcProofs.v
theories/MemProps5.v
theories/ProxyModel.v
theories/ProxySpec.v
theories/ProxyProofs.v
theories/ProxyAlign.v
theories/ProxyE2E.v
theories/ProxyMore.v
theories/ProxyExamples.v
theories/ProxyProps.v
theories/LoaderModel.v
theories/LoaderSpec.v
theories/LoaderProofs.v
theories/LoaderProps.v
theories/SegModel.v
theories/SegSpec.v
theories/SegProofs.v
theories/SegProps.v
theories/TrainModel.v
theories/TrainSpec.v
theories/TrainProofs.v
theories/TrainState.v
theories/TrainMain.v
theories/TrainMore.v
theories/TrainThms.v
theories/TrainThms2.v
theories/TrainExamples.v
theories/TrainProps.v
theories/CkptModel.v
theories/CkptSpec.v
theories/CkptProofs.v
theories/CkptRun.v
theories/CkptMain.v
theories/CkptThms.v
theories/CkptExamples.v
theories/CkptFolder.v
theories/CkptProps.v
theories/CallbackModel.v
theories/CallbackSpec.v
theories/CallbackProofs.v
theories/CallbackProps.v
theories/LogModel.v
theories/LogSpec.v
theories/LogProofs.v
theories/LogProps.v
theories/LockModel.v
theories/LockSpec.v
theories/LockProofs.v
theories/LockTraced.v
theories/LockProps.v
theories/NumModel.v
theories/NumSpec.v
theories/NumProofs.v
theories/NumMatrix.v
theories/NumTarget.v
theories/NumExamples.v
theories/NumProps.v
theories/CrudModel.v
theories/CrudSpec.v
theories/CrudProofs.v
theories/CrudMore.v
theories/CrudExamples.v
theories/CrudProps.v
theories/SchedModel.v
theories/SchedSpec.v
theories/SchedProofs.v
theories/SchedProps.v
theories/OnnxModel.v
theories/OnnxSpec.v
theories/OnnxProofs.v
theories/OnnxMore.v
theories/OnnxExamples.v
theories/OnnxProps.v
theories/EnvModel.v
theories/EnvSpec.v
theories/EnvProofs.v
theories/EnvMore.v
theories/EnvProps.v
theories/AlgoModel.v
theories/AlgoSpec.v
theories/AlgoProofs.v
theories/AlgoMore.v
theories/AlgoFind.v
theories/NormSpec.v
theories/NormProofs.v
theories/AlgoProps.v
theories/AgentModel.v
theories/AgentSpec.v
theories/AgentProofs.v
theories/AgentOpt.v
theories/AgentProps.v
theories/CollModel.v
theories/CollSpec.v
theories/CollProofs.v
theories/CollMore.v
theories/CollRun.v
theories/CollProps.v
theories/VisModel.v
theories/VisSpec.v
theories/VisProofs.v
theories/VisFrames.v
theories/VisCut.v
theories/VisCases.v
theories/VisProps.v
theories/AmpModel.v
theories/AmpSpec.v
theories/AmpProofs.v
theories/AmpMore.v
theories/AmpProps.v
theories/LossModel.v
theories/LossSpec.v
theories/LossProofs.v
theories/LossMore.v
theories/LossProps.v
theories/PolModel.v
theories/PolSpec.v
theories/PolProofs.v
theories/PolMain.v
theories/PolProps.v
theories/GenModel.v
theories/GenSpec.v
theories/GenProofs.v
theories/GenMore.v
theories/GenProps.v
theories/CurlModel.v
theories/CurlSpec.v
theories/CurlProofs.v
theories/CurlMore.v
theories/CurlProps.v
theories/EnsModel.v
theories/EnsSpec.v
theories/EnsProofs.v
theories/EnsMore.v
theories/EnsProps.v
theories/ChkModel.v
theories/ChkSpec.v
theories/ChkProofs.v
theories/ChkMore.v
theories/ChkProps.v
theories/BldModel.v
theories/BldSpec.v
theories/BldProofs.v
theories/BldMore.v
theories/PathProofs.v
theories/BldLoad.v
theories/BldProps.v
theories/GymModel.v
theories/GymSpec.v
theories/GymProofs.v
theories/GymMore.v
theories/GymRun.v
theories/GymE2E.v
theories/GymMisc.v
theories/GymProps.v
theories/RepModel.v
theories/RepSpec.v
theories/RepProofs.v
theories/RepMore.v
theories/RepRun.v
theories/RepWrap.v
theories/RepParam.v
theories/RepApart.v
theories/RepProps.v
theories/HlgModel.v
theories/HlgSpec.v
theories/HlgProofs.v
theories/HlgProps.v
theories/WrapModel.v
theories/WrapSpec.v
theories/WrapProofs.v
theories/WrapProps.v
theories/MetaModel.v
theories/MetaSpec.v
theories/MetaProofs.v
theories/MetaProps.v
theories/OddModel.v
theories/OddSpec.v
theories/OddProofs.v
theories/OddProps.v
theories/E2ESpec.v
theories/E2EProofs.v
theories/E2EExamples.v
theories/E2EProps.v
theories/GymTSpec.v
theories/GymTarget.v
theories/GymTProps.v
theories/ShareWin.v
theories/ShareSpec.v
theories/ShareProofs.v
theories/ShareExamples.v
theories/ShareProps.v
theories/DynModel.v
theories/DynSpec.v
theories/DynProofs.v
theories/DynProps.v
theories/TargModel.v
theories/TargSpec.v
theories/TargProofs.v
theories/TargProps.v
theories/CtorModel.v
theories/CtorSpec.v
theories/CtorProofs.v
theories/CtorProps.v
theories/CriticModel.v
theories/CriticSpec.v
theories/CriticProofs.v
theories/CriticProps.v
theories/BoxModel.v
theories/BoxSpec.v
theories/BoxProofs.v
theories/BoxProps.v
theories/ImagSpec.v
theories/ImagProofs.v
theories/ImagProps.v
theories/ActorModel.v
theories/ActorSpec.v
theories/ActorProofs.v
theories/ActorProps.v
theories/HlcModel.v
theories/HlcSpec.v
theories/HlcProofs.v
theories/HlcProps.v
theories/StyleSpec.v
theories/StyleProofs.v
theories/StyleProps.v
theories/RecModel.v
theories/RecSpec.v
theories/RecProofs.v
theories/RecProps.v
theories/CrudListedSpec.v
theories/CrudListed.v
theories/CrudListedProps.v
theories/PlaceSpec.v
theories/PlaceProofs.v
theories/PlaceProps.v
theories/CstepModel.v
theories/CstepSpec.v
theories/CstepProofs.v
theories/CstepProps.v
theories/EndsSpec.v
theories/EndsProofs.v
theories/EndsProps.v
theories/CaseProofs.v
theories/CaseProps.v
theories/CaseReal.v
theories/CaseRealProps.v
theories/LiveModel.v
theories/LiveSpec.v
theories/LiveProofs.v
theories/LiveOrder.v
theories/LiveRun.v
theories/LiveMain.v
theories/LiveProps.v
theories/AccProofs.v
theories/AccProps.v
theories/ExpSpec.v
theories/ExpMem.v
theories/ExpGym.v
theories/ExpMain.v
theories/ExpProps.v
theories/ThrModel.v
theories/ThrMain.v
theories/ThrEnd.v
theories/ThrOver.v
theories/ThrProps.v
theories/CntSpec.v
theories/CntProofs.v
theories/CntProps.v
theories/LtgSpec.v
theories/LtgProofs.v
theories/LtgProps.v
theories/CrlSpec.v
theories/CrlProofs.v
theories/CrlProps.v
theories/AclSpec.v
theories/AclProofs.v
theories/AclProps.v
theories/AmidModel.v
theories/AmidSpec.v
theories/AmidProofs.v
theories/AmidProps.v
theories/TschSpec.v
theories/TschProofs.v
theories/TschProps.v
theories/GapModel.v
theories/GapSpec.v
theories/GapProofs.v
theories/GapProps.v
theories/JgapModel.v
theories/JgapSpec.v
theories/JgapProofs.v
theories/JgapProps.v
theories/RoomSpec.v
theories/RoomProofs.v
theories/RoomProps.v
theories/SjntModel.v
theories/SjntSpec.v
theories/SjntProofs.v
theories/SjntProps.v
theories/RetProofs.v
theories/RetProps.v
