-Q theories Verif
theories/Base.v
theories/BaseLemmas.v
theories/UtfModel.v
theories/WriterModel.v
theories/ReaderModel.v
theories/CodecSpec.v
theories/UtfProofs.v
theories/CodecProofs.v
theories/CodecSafety.v
theories/CodecProps.v
theories/ObjModel.v
theories/ObjReader.v
theories/KernelModel.v
theories/ObjSpec.v
theories/ObjProofs.v
theories/ObjInvariant.v
theories/TreeProofs.v
theories/PieceProofs.v
theories/HidlSpec.v
theories/HidlWriter.v
theories/HidlOps.v
theories/ObjProps.v
theories/HidlPlaced.v
theories/HidlStruct.v
theories/HidlRead.v
theories/HidlRound.v
theories/HidlTrip.v
theories/HidlLinks.v
theories/FdsProofs.v
theories/HidlProps.v
theories/SafeSpec.v
theories/SafeProofs.v
theories/SafeProps.v
theories/TxModel.v
theories/TxSpec.v
theories/TxProofs.v
theories/TxProps.v
theories/RpcModel.v
theories/RpcSpec.v
theories/RpcProofs.v
theories/RpcProps.v
theories/ConfModel.v
theories/ConfSpec.v
theories/ConfProofs.v
theories/ConfProps.v
theories/FmqModel.v
theories/FmqSpec.v
theories/FmqProofs.v
theories/FmqSystem.v
theories/FmqUnsync.v
theories/FmqLayout.v
theories/FmqProps.v
theories/FlagModel.v
theories/FlagSpec.v
theories/FlagProofs.v
theories/FlagProps.v
theories/DriverModel.v
theories/DriverSpec.v
theories/DriverTrace.v
theories/DriverGood.v
theories/DriverHeap.v
theories/DriverReact.v
theories/DriverProps.v
theories/AsyncModel.v
theories/AsyncSpec.v
theories/AsyncProofs.v
theories/AsyncLife.v
theories/AsyncEnds.v
theories/AsyncExit.v
theories/AsyncTurn.v
theories/AsyncProps.v
theories/BlockModel.v
theories/BlockSpec.v
theories/BlockProofs.v
theories/BlockWait.v
theories/BlockRun.v
theories/BlockEnds.v
theories/BlockProps.v
theories/ClientModel.v
theories/ClientSpec.v
theories/ClientProofs.v
theories/ClientProps.v
theories/PollModel.v
theories/PollSpec.v
theories/PollProofs.v
theories/PollProps.v
theories/CleanupModel.v
theories/CleanupSpec.v
theories/CleanupProofs.v
theories/CleanupSafe.v
theories/CleanupProps.v
theories/DispatchModel.v
theories/DispatchSpec.v
theories/DispatchProofs.v
theories/DispatchProps.v
theories/RemoteModel.v
theories/RemoteSpec.v
theories/RemoteProofs.v
theories/RemoteLaw.v
theories/RemoteCareful.v
theories/RemoteDeath.v
theories/RemoteProps.v
theories/WaitModel.v
theories/WaitSpec.v
theories/WaitProofs.v
theories/WaitProps.v
theories/WatchModel.v
theories/WatchSpec.v
theories/WatchProofs.v
theories/WatchMore.v
theories/WatchProps.v
theories/NameModel.v
theories/NameSpec.v
theories/NameProofs.v
theories/NameProps.v
theories/InstModel.v
theories/InstSpec.v
theories/InstProofs.v
theories/InstProps.v
theories/LocalModel.v
theories/LocalSpec.v
theories/LocalProofs.v
theories/LocalProps.v
theories/PoolModel.v
theories/PoolSpec.v
theories/PoolProofs.v
theories/PoolProps.v
theories/ProxyConv.v
theories/ProxyModel.v
theories/ProxyBlock.v
theories/ProxyObjs.v
theories/ProxyObjs2.v
theories/ProxyObjs3.v
theories/ProxySpec.v
theories/ProxyProofs.v
theories/ProxyInv.v
theories/ProxyInv2.v
theories/ProxyInv3.v
theories/ProxySingle.v
theories/ProxyHeader.v
theories/ProxyMain.v
theories/ProxyProps.v
theories/BridgeModel.v
theories/BridgeSpec.v
theories/BridgeProofs.v
theories/BridgeInv.v
theories/BridgeTrack.v
theories/BridgeMain.v
theories/BridgeProps.v
theories/AwModel.v
theories/AwSpec.v
theories/AwProofs.v
theories/AwHist.v
theories/AwProps.v
theories/HwModel.v
theories/HwSpec.v
theories/HwProofs.v
theories/HwTrip.v
theories/HwProps.v
theories/ConnModel.v
theories/ConnSpec.v
theories/ConnProofs.v
theories/ConnProps.v
theories/LoopModel.v
theories/LoopSpec.v
theories/LoopProofs.v
theories/LoopProps.v
theories/CmdModel.v
theories/CmdSpec.v
theories/CmdProofs.v
theories/CmdProps.v
theories/DevModel.v
theories/DevSpec.v
theories/DevProofs.v
theories/DevProps.v
theories/FmqSendModel.v
theories/FmqSendSpec.v
theories/FmqSendProofs.v
theories/FmqSendProps.v
theories/FmqLifeModel.v
theories/FmqLifeSpec.v
theories/FmqLifeProofs.v
theories/FmqLifeProps.v
theories/CallModel.v
theories/CallSpec.v
theories/CallProofs.v
theories/CallSteps.v
theories/CallRun.v
theories/CallLife.v
theories/CallArgs.v
theories/CallEnd.v
theories/CallProps.v
theories/WholeModel.v
theories/WholeSpec.v
theories/WholeProofs.v
theories/WholeProps.v
theories/FwdTree.v
theories/FwdSpec.v
theories/FwdProofs.v
theories/FwdProps.v
theories/CfgModel.v
theories/CfgSpec.v
theories/CfgProofs.v
theories/CfgProps.v
theories/DecodeSpec.v
theories/DecodeProofs.v
theories/DecodeProps.v
theories/ShortModel.v
theories/ShortSpec.v
theories/ShortProofs.v
theories/ShortProps.v
theories/ViaModel.v
theories/ViaSpec.v
theories/ViaProofs.v
theories/ViaProps.v
theories/KeepModel.v
theories/KeepSpec.v
theories/KeepClient.v
theories/KeepRelease.v
theories/KeepProofs.v
theories/KeepProps.v
theories/FilesModel.v
theories/FilesSpec.v
theories/FilesFrame.v
theories/FilesProofs.v
theories/FilesProps.v
theories/OnewayModel.v
theories/OnewaySpec.v
theories/OnewayLocal.v
theories/OnewayProofs.v
theories/OnewayWorld.v
theories/OnewayProps.v
theories/CallsModel.v
theories/CallsSpec.v
theories/CallsProofs.v
theories/CallsProps.v
theories/MemoryModel.v
theories/MemorySpec.v
theories/MemoryProofs.v
theories/MemoryProps.v
theories/WireSpec.v
theories/WireProofs.v
theories/WireProps.v
theories/FillModel.v
theories/FillProofs.v
theories/FillProps.v
theories/PendModel.v
theories/PendSpec.v
theories/PendProofs.v
theories/PendProps.v
theories/PingModel.v
theories/PingSpec.v
theories/PingProofs.v
theories/PingProps.v
theories/TurnModel.v
theories/TurnSpec.v
theories/TurnProofs.v
theories/TurnProps.v
theories/SignalModel.v
theories/SignalProofs.v
theories/SignalSafe.v
theories/SignalProps.v
