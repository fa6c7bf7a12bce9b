-Q theories Verif
theories/Base.v
theories/BaseLemmas.v
theories/NonceModel.v
theories/NonceSpec.v
theories/NonceProofs.v
theories/NonceProofs2.v
theories/NonceProps.v
theories/BufferModel.v
theories/MethodModel.v
theories/BufferProofs.v
theories/MethodSpec.v
theories/MethodProofs.v
theories/MethodProofs2.v
theories/MethodProps.v
theories/SizeModel.v
theories/SizeProofs.v
theories/SizeProps.v
theories/HandshakeModel.v
theories/HandshakeSpec.v
theories/HandshakeProofs.v
theories/HandshakeProofs2.v
theories/HandshakeProofs3.v
theories/HandshakeProofs4.v
theories/HandshakeProps.v
theories/ShaModel.v
theories/ShaSpec.v
theories/ShaProofs.v
theories/ShaProofs2.v
theories/ShaProps.v
theories/GhashModel.v
theories/GhashSpec.v
theories/GhashLinear.v
theories/GhashBasis.v
theories/GhashBasis2.v
theories/GhashProofs.v
theories/GhashProps.v
theories/UhashModel.v
theories/UhashSpec.v
theories/UhashArith.v
theories/UhashProofs.v
theories/UhashProps.v
theories/NodeModel.v
theories/NodeExamples.v
theories/NodeSteps.v
theories/NodeWf.v
theories/NodeInv.v
theories/NodeOwn.v
theories/NodeFun.v
theories/NodeFun2.v
theories/NodeFun3.v
theories/NodeFun4.v
theories/NodeSpec.v
theories/NodeProofs.v
theories/NodeProofs2.v
theories/NodeProofs3.v
theories/NodeProofs4.v
theories/NodeProofs5.v
theories/NodeProofs6.v
theories/NodeProps.v
theories/NodeProps2.v
theories/AddrModel.v
theories/AddrSpec.v
theories/AddrProofs.v
theories/AddrProps.v
theories/TableModel.v
theories/TableSpec.v
theories/TableProofs.v
theories/TableProps.v
theories/UnknownModel.v
theories/UnknownSpec.v
theories/UnknownProofs.v
theories/UnknownProps.v
theories/FormatModel.v
theories/FormatSpec.v
theories/FormatProofs.v
theories/FormatProps.v
theories/VerifyModel.v
theories/VerifySpec.v
theories/VerifyProofs.v
theories/VerifyProps.v
theories/KexModel.v
theories/KexSpec.v
theories/KexProofs.v
theories/KexProps.v
theories/EthModel.v
theories/EthSpec.v
theories/EthProofs.v
theories/EthProps.v
theories/QueueModel.v
theories/QueueSpec.v
theories/QueueProofs.v
theories/QueueProps.v
theories/LexModel.v
theories/LexSpec.v
theories/LexProofs.v
theories/LexProofs2.v
theories/LexProofs3.v
theories/LexProofs4.v
theories/LexProofs5.v
theories/LexProofs6.v
theories/LexProps.v
theories/PollModel.v
theories/PollSpec.v
theories/PollProofs.v
theories/PollProofs2.v
theories/PollProofs3.v
theories/PollProofs4.v
theories/PollProps.v
theories/NodeReloadSpec.v
theories/NodeOwn2.v
theories/NodeReload.v
theories/NodeReload2.v
theories/NodeReload3.v
theories/NodeProps3.v
theories/NodeCrashSpec.v
theories/NodeSafe.v
theories/NodeSafe2.v
theories/NodeSafe3.v
theories/NodeSafe4.v
theories/NodeSafe5.v
theories/NodeSafe6.v
theories/NodeSafe7.v
theories/NodeProps4.v
theories/PoolModel.v
theories/PoolSpec.v
theories/PoolProofs.v
theories/PoolProps.v
theories/NameModel.v
theories/NameSpec.v
theories/NameProofs.v
theories/NameProps.v
theories/VectorModel.v
theories/VectorSpec.v
theories/VectorProofs.v
theories/VectorProps.v
theories/HexModel.v
theories/HexSpec.v
theories/HexProofs.v
theories/HexProps.v
theories/ShellModel.v
theories/ShellSpec.v
theories/ShellProofs.v
theories/ShellProps.v
theories/NodeKeepSpec.v
theories/NodeKeep.v
theories/NodeKeep2.v
theories/NodeProps5.v
theories/NodeWire.v
theories/NodeConnectSpec.v
theories/NodeConnect.v
theories/NodeConnect2.v
theories/NodeConnect3.v
theories/NodeConnect4.v
theories/NodeProps6.v
theories/ConfigModel.v
theories/ConfigSpec.v
theories/ConfigProofs.v
theories/ConfigProofs2.v
theories/ConfigProofs3.v
theories/ConfigProofs4.v
theories/ConfigProofs5.v
theories/ConfigProofs6.v
theories/ConfigProofs7.v
theories/ConfigProofs8.v
theories/ConfigProofs9.v
theories/ConfigProofs10.v
theories/ConfigProofs11.v
theories/ConfigProofs12.v
theories/ConfigProps.v
theories/OptionsModel.v
theories/OptionsSpec.v
theories/OptionsProofs.v
theories/OptionsProofs2.v
theories/OptionsProofs3.v
theories/OptionsProofs4.v
theories/OptionsProps.v
theories/PrivModel.v
theories/PrivSpec.v
theories/PrivProofs.v
theories/PrivProofs2.v
theories/PrivProofs3.v
theories/PrivProofs4.v
theories/PrivProps.v
theories/AgreeSpec.v
theories/AgreeProofs.v
theories/AgreeProofs2.v
theories/AgreeProofs3.v
theories/AgreeProps.v
theories/RetryHoare.v
theories/RetryHoare2.v
theories/RetryHoare3.v
theories/RetryInv.v
theories/RetrySpec.v
theories/RetryTurn.v
theories/RetryTurn2.v
theories/RetryKeep.v
theories/RetryRound.v
theories/RetryProofs.v
theories/RetryProps.v
theories/LifeModel.v
theories/LifeSpec.v
theories/LifeProofs.v
theories/LifeProofs2.v
theories/LifeProofs3.v
theories/LifeProofs4.v
theories/LifeProps.v
theories/AsyncModel.v
theories/AsyncSpec.v
theories/AsyncProofs.v
theories/AsyncProofs2.v
theories/AsyncProps.v
theories/SockModel.v
theories/SockSpec.v
theories/SockProofs.v
theories/SockProofs2.v
theories/SockProps.v
theories/LogModel.v
theories/LogTable.v
theories/LogSpec.v
theories/LogProofs.v
theories/LogProofs2.v
theories/LogProps.v
theories/StatusModel.v
theories/StatusSpec.v
theories/StatusProofs.v
theories/StatusProofs2.v
theories/StatusProofs3.v
theories/StatusProps.v
theories/SigModel.v
theories/SigSpec.v
theories/SigProofs.v
theories/SigProofs2.v
theories/SigProofs3.v
theories/SigProofs4.v
theories/SigProofs5.v
theories/SigProofs6.v
theories/SigProofs7.v
theories/SigProofs8.v
theories/SigProps.v
theories/L2tpModel.v
theories/L2tpSpec.v
theories/L2tpProofs.v
theories/L2tpProofs2.v
theories/L2tpProofs3.v
theories/L2tpProofs4.v
theories/L2tpProofs5.v
theories/L2tpProofs6.v
theories/L2tpProofs7.v
theories/L2tpProofs8.v
theories/L2tpProps.v
theories/NlModel.v
theories/NlSpec.v
theories/NlProofs.v
theories/NlProofs2.v
theories/NlProofs3.v
theories/NlProofs4.v
theories/NlProofs5.v
theories/NlProps.v
theories/TrafficModel.v
theories/TrafficSpec.v
theories/TrafficProofs.v
theories/TrafficProofs2.v
theories/TrafficProofs3.v
theories/TrafficProofs4.v
theories/TrafficProofs5.v
theories/TrafficProps.v
theories/TunModel.v
theories/TunSpec.v
theories/TunProofs.v
theories/TunProofs2.v
theories/TunProofs3.v
theories/TunProps.v
theories/DirModel.v
theories/DirSpec.v
theories/DirProofs.v
theories/DirProofs2.v
theories/DirProofs3.v
theories/DirProps.v
theories/DaemonModel.v
theories/DaemonSpec.v
theories/DaemonProofs.v
theories/DaemonProofs2.v
theories/DaemonProps.v
theories/ImplModel.v
theories/ImplSpec.v
theories/ImplProofs.v
theories/ImplProofs2.v
theories/ImplProofs3.v
theories/ImplProofs4.v
theories/ImplProofs5.v
theories/ImplProps.v
theories/HoldModel.v
theories/HoldSpec.v
theories/HoldProofs.v
theories/HoldProofs2.v
theories/HoldProofs3.v
theories/HoldProofs4.v
theories/HoldProofs5.v
theories/HoldProps.v
theories/BootModel.v
theories/BootSpec.v
theories/BootProofs.v
theories/BootProofs2.v
theories/BootProofs3.v
theories/BootProps.v
theories/ChannelModel.v
theories/ChannelSpec.v
theories/ChannelProofs.v
theories/ChannelProofs2.v
theories/ChannelProps.v
theories/EphemeralModel.v
theories/EphemeralSpec.v
theories/EphemeralProofs.v
theories/EphemeralProofs2.v
theories/EphemeralProps.v
theories/SuperModel.v
theories/SuperSpec.v
theories/SuperProofs.v
theories/SuperProps.v
theories/SalsaModel.v
theories/SalsaSpec.v
theories/SalsaSym.v
theories/SalsaSound.v
theories/SalsaSeg.v
theories/SalsaRun.v
theories/SalsaLoops.v
theories/SalsaProofs.v
theories/SalsaCall.v
theories/SalsaMain.v
theories/SalsaProps.v
