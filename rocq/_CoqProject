-Q theories Verif
theories/Base.v
theories/SMap.v
theories/Hist.v
theories/HistSpec.v
theories/Util.v
theories/UtilProofs.v
theories/Wire.v
theories/WireProofs.v
theories/Keyed.v
theories/DBCommon.v
theories/TransferProofs.v
theories/DBHashProofs.v
theories/DB2.v
theories/DB2Spec.v
theories/DB2Proofs.v
theories/DB2Rep.v
theories/P_DB2.v
theories/DB3.v
theories/DB3Spec.v
theories/DB3Proofs.v
theories/P_DB3.v
theories/DB5.v
theories/DB5Spec.v
theories/DB5Proofs.v
theories/P_DB5.v
theories/DB4.v
theories/DB4Spec.v
theories/DB4Proofs.v
theories/DB4Transfer.v
theories/P_DB4.v
theories/Merkle.v
theories/MerkleSpec.v
theories/MerkleProofs.v
theories/MerkleTamper.v
theories/MerkleDB.v
theories/MerkleDBProofs.v
theories/MerkleDBTamper.v
theories/P_Merkle.v
theories/RaftLog.v
theories/Membership.v
theories/Raft.v
theories/RaftLogSpec.v
theories/RaftLogProofs.v
theories/P_RaftLog.v
theories/MembershipSpec.v
theories/MembershipProofs.v
theories/P_Membership.v
theories/RaftSpec.v
theories/RaftChain.v
theories/RaftNode.v
theories/RaftRun.v
theories/RaftInj.v
theories/P_Raft.v
theories/RaftNet.v
theories/RaftNetSpec.v
theories/RaftNetProofs.v
theories/P_RaftNet.v
theories/GroupClock.v
theories/GroupClockSpec.v
theories/GroupClockProofs.v
theories/P_GroupClock.v
theories/Timeout.v
theories/TimeoutSpec.v
theories/TimeoutProofs.v
theories/P_Timeout.v
theories/Minimums.v
theories/MinimumsSpec.v
theories/MinimumsProofs.v
theories/P_Minimums.v
theories/Codec.v
theories/CodecSpec.v
theories/CodecProofs.v
theories/P_Codec.v
theories/Socket.v
theories/SocketSpec.v
theories/SocketProofs.v
theories/P_Socket.v
theories/Queue.v
theories/QueueSpec.v
theories/QueueProofs.v
theories/P_Queue.v
theories/Noise.v
theories/NoiseSpec.v
theories/NoiseProofs.v
theories/P_Noise.v
theories/Client.v
theories/ClientSpec.v
theories/ClientProofs.v
theories/P_Client.v
theories/Peers.v
theories/PeersSpec.v
theories/PeersProofs.v
theories/P_Peers.v
theories/Life.v
theories/LifeSpec.v
theories/LifeProofs.v
theories/P_Life.v
theories/Heal.v
theories/HealSpec.v
theories/HealProofs.v
theories/P_Heal.v
theories/E2E.v
theories/E2ESpec.v
theories/E2EProofs.v
theories/P_E2E.v
theories/CoreTx.v
theories/CoreTxSpec.v
theories/CoreTxProofs.v
theories/P_CoreTx.v
theories/HostLink.v
theories/HostLinkSpec.v
theories/HostLinkProofs.v
theories/P_HostLink.v
theories/HostFrame.v
theories/HostFrameSpec.v
theories/HostFrameProofs.v
theories/P_HostFrame.v
theories/HostAuth.v
theories/HostAuthSpec.v
theories/HostAuthProofs.v
theories/P_HostAuth.v
theories/HostDispatch.v
theories/HostDispatchSpec.v
theories/HostDispatchProofs.v
theories/P_HostDispatch.v
theories/Repl.v
theories/ReplSpec.v
theories/ReplProofs.v
theories/ReplDB.v
theories/ReplDBProofs.v
theories/P_Repl.v
theories/Tpm2.v
theories/Tpm2Spec.v
theories/Tpm2Proofs.v
theories/P_Tpm2.v
theories/Evidence.v
theories/Snp.v
theories/SnpSpec.v
theories/SnpProofs.v
theories/P_Snp.v
theories/Tpm2Snp.v
theories/Tpm2SnpSpec.v
theories/Tpm2SnpProofs.v
theories/P_Tpm2Snp.v
theories/Nitro.v
theories/NitroSpec.v
theories/NitroProofs.v
theories/P_Nitro.v
theories/Group.v
theories/GroupSpec.v
theories/GroupProofs.v
theories/GroupPin.v
theories/GroupPinSpec.v
theories/GroupPinProofs.v
theories/P_Group.v
theories/RaftShape.v
theories/RaftFreshProofs.v
theories/P_RaftFresh.v
theories/GroupOrderSpec.v
theories/GroupOrderProofs.v
theories/P_GroupOrder.v
theories/HostJoin.v
theories/HostJoinSpec.v
theories/HostJoinProofs.v
theories/P_HostJoin.v
theories/RaftVotes.v
theories/RaftCompleteProofs.v
theories/P_RaftComplete.v
theories/RaftNewProofs.v
theories/GroupRetrySpec.v
theories/GroupRetryProofs.v
theories/HostWeb.v
theories/P_GroupRetry.v
theories/HostWebSpec.v
theories/HostWebProofs.v
theories/P_HostWeb.v
theories/ReqWire.v
theories/ReqWireSpec.v
theories/ReqWireProofs.v
theories/GroupDoneProofs.v
theories/GroupDelete.v
theories/GroupDeleteSpec.v
theories/GroupDeleteProofs.v
theories/P_ReqWire.v
theories/P_Delete.v
theories/Locks.v
theories/LocksSpec.v
theories/LocksProofs.v
theories/LocksInv.v
theories/P_Locks.v
theories/Answers.v
theories/AnswersSpec.v
theories/AnswersProofs.v
theories/P_Answers.v
theories/Sgx.v
theories/SgxSpec.v
theories/SgxProofs.v
theories/P_Sgx.v
theories/HostFlow.v
theories/HostFlowSpec.v
theories/HostFlowProofs.v
theories/P_HostFlow.v
theories/HostSocket.v
theories/HostSocketSpec.v
theories/HostSocketProofs.v
theories/P_HostSocket.v
theories/Start.v
theories/StartSpec.v
theories/StartProofs.v
theories/P_Start.v
theories/RaftMoveSpec.v
theories/RaftMoveProofs.v
theories/P_RaftMove.v
theories/MemberLogSpec.v
theories/MemberLogProofs.v
theories/P_MemberLog.v
theories/StopSpec.v
theories/StopProofs.v
theories/P_Stop.v
theories/Shutdown.v
theories/ShutdownProofs.v
theories/P_Shutdown.v
theories/HandoverSpec.v
theories/HandoverProofs.v
theories/P_Handover.v
theories/Random.v
theories/RandomSpec.v
theories/RandomProofs.v
theories/P_Random.v
theories/Cpu.v
theories/CpuSpec.v
theories/CpuProofs.v
theories/P_Cpu.v
theories/Metrics.v
theories/MetricsSpec.v
theories/MetricsProofs.v
theories/P_Metrics.v
theories/HostConfig.v
theories/P_HostConfig.v
theories/HostRetry.v
theories/P_HostRetry.v
theories/HostTags.v
theories/P_HostTags.v
theories/Rate.v
theories/P_Rate.v
theories/LogLevel.v
theories/P_LogLevel.v
theories/Control.v
theories/P_Control.v
theories/Health.v
theories/P_Health.v
theories/Fs.v
theories/P_Fs.v
theories/AzureInit.v
theories/P_AzureInit.v
theories/LoadTest.v
theories/P_LoadTest.v
theories/GcpInit.v
theories/P_GcpInit.v
theories/SvrClient.v
theories/P_SvrClient.v
theories/GoClient.v
theories/P_GoClient.v
theories/Zeroing.v
theories/P_Zeroing.v
theories/P_Replay.v
