-Q theories Verif
theories/Base.v
theories/TimeModel.v
theories/TimeSpec.v
theories/TimeProofs.v
theories/TimeProps.v
theories/TokenBucketModel.v
theories/TokenBucketSpec.v
theories/TokenBucketProofs.v
theories/TokenBucketProps.v
theories/EventModel.v
theories/EventSpec.v
theories/EventProofs.v
theories/CpuModel.v
theories/RunaheadModel.v
theories/EventProps.v
theories/RunaheadSpec.v
theories/RunaheadProofs.v
theories/SimModel.v
theories/SimSpec.v
theories/SimProofs.v
theories/SimInv.v
theories/SimDet.v
theories/SimRounds.v
theories/SimTrace.v
theories/CpuSpec.v
theories/CpuProofs.v
theories/CpuProps.v
theories/RunaheadProps.v
theories/SimExample.v
theories/SimMain.v
theories/SimProps.v
theories/FMap.v
theories/CounterModel.v
theories/CounterSpec.v
theories/CounterProofs.v
theories/CounterProps.v
theories/IntervalModel.v
theories/IntervalSpec.v
theories/IntervalProofs.v
theories/IntervalProps.v
theories/IpModel.v
theories/IpSpec.v
theories/IpProofs.v
theories/IpProps.v
theories/DnsModel.v
theories/DnsSpec.v
theories/DnsProofs.v
theories/DnsProps.v
theories/ByteQueueModel.v
theories/ByteQueueSpec.v
theories/ByteQueueProofs.v
theories/ByteQueueProps.v
theories/PipeModel.v
theories/PipeSpec.v
theories/PipeProofs.v
theories/PipeProps.v
theories/BTree.v
theories/DescTableModel.v
theories/DescTableSpec.v
theories/DescTableProofs.v
theories/DescTableProps.v
theories/EventFdModel.v
theories/EventFdSpec.v
theories/EventFdProofs.v
theories/EventFdProps.v
theories/TimerModel.v
theories/TimerSpec.v
theories/TimerProofs.v
theories/TimerProps.v
theories/EpollModel.v
theories/EpollSpec.v
theories/EpollEntryProofs.v
theories/EpollProofs.v
theories/EpollMainProofs.v
theories/EpollProps.v
theories/SeqModel.v
theories/SeqSpec.v
theories/SeqProofs.v
theories/SeqProps.v
theories/TcpBufModel.v
theories/TcpBufSpec.v
theories/TcpBufProofs.v
theories/TcpQueueProofs.v
theories/TcpConnModel.v
theories/TcpConnSpec.v
theories/TcpConnProofs.v
theories/TcpNetSpec.v
theories/TcpNetProofs.v
theories/TcpFlowSpec.v
theories/TcpFlowProofs.v
theories/TcpProps.v
theories/TcpFlowProps.v
theories/NetqModel.v
theories/NetqSpec.v
theories/NetqProofs.v
theories/IfaceModel.v
theories/IfaceSpec.v
theories/IfaceProofs.v
theories/IfaceSendProofs.v
theories/NetProps.v
theories/CodelModel.v
theories/CodelSpec.v
theories/CodelProofs.v
theories/CodelProps.v
theories/RelayModel.v
theories/RelaySpec.v
theories/RelayProofs.v
theories/RelayProps.v
theories/GraphModel.v
theories/GraphSpec.v
theories/GraphProofs.v
theories/GraphProps.v
theories/SchedModel.v
theories/SchedSpec.v
theories/SchedProofs.v
theories/SchedProps.v
theories/LatchModel.v
theories/LatchSpec.v
theories/LatchProofs.v
theories/LatchProps.v
theories/MutexModel.v
theories/MutexSpec.v
theories/MutexProofs.v
theories/MutexProps.v
theories/ChanModel.v
theories/ChanSpec.v
theories/ChanProofs.v
theories/ChanProps.v
theories/ShmModel.v
theories/ShmSpec.v
theories/ShmProofs.v
theories/ShmProps.v
theories/ShmSerModel.v
theories/ShmSerSpec.v
theories/ShmSerProofs.v
theories/ShmSerProps.v
theories/TcpSoloSpec.v
theories/TcpSoloProofs.v
theories/TcpSoloProps.v
theories/TcpStateModel.v
theories/TcpStateSpec.v
theories/TcpStateProofs.v
theories/TcpStateFacts.v
theories/TcpStateProps.v
theories/TcpCallSpec.v
theories/TcpCallFacts.v
theories/TcpCallProps.v
theories/TcpListenSpec.v
theories/TcpListenProofs.v
theories/TcpListenFacts.v
theories/TcpListenShake.v
theories/TcpListenProps.v
theories/UdpModel.v
theories/UdpSpec.v
theories/UdpProofs.v
theories/UdpFacts.v
theories/UdpRuns.v
theories/UdpPoll.v
theories/UdpWorld.v
theories/UdpProps.v
theories/ProcModel.v
theories/ProcSpec.v
theories/ProcBits.v
theories/ProcInv.v
theories/ProcSig.v
theories/ProcEnd.v
theories/ProcCall.v
theories/ProcStep.v
theories/ProcRun.v
theories/ProcFaults.v
theories/ProcCrash.v
theories/ProcTame.v
theories/ProcApi.v
theories/ProcLaws.v
theories/ProcCalls.v
theories/ProcKids.v
theories/ProcTell.v
theories/ProcGroups.v
theories/ProcMore.v
theories/ProcCodes.v
theories/ProcProps.v
theories/UnixModel.v
theories/UnixSpec.v
theories/UnixFacts.v
theories/UnixInv.v
theories/UnixOps.v
theories/UnixLink.v
theories/UnixCall.v
theories/UnixSend.v
theories/UnixRecv.v
theories/UnixClose.v
theories/UnixWorld.v
theories/UnixNotes.v
theories/UnixReady.v
theories/UnixTraces.v
theories/UnixDeliver.v
theories/UnixWaits.v
theories/UnixNames.v
theories/UnixQueue.v
theories/UnixWritable.v
theories/UnixLaws.v
theories/UnixBacklog.v
theories/UnixProps.v
theories/FutexModel.v
theories/FutexSpec.v
theories/FutexProofs.v
theories/FutexStep.v
theories/FutexLaws.v
theories/FutexProps.v
theories/PoolModel.v
theories/UPoolModel.v
theories/PoolSpec.v
theories/PoolProofs.v
theories/PoolLaws.v
theories/UPoolProofs.v
theories/UPoolLaws.v
theories/PoolProps.v
theories/UnitsModel.v
theories/UnitsSpec.v
theories/UnitsProofs.v
theories/UnitsProps.v
theories/LazyModel.v
theories/LazySpec.v
theories/LazyProofs.v
theories/LazyLaws.v
theories/LazyProps.v
theories/TlsModel.v
theories/TlsSpec.v
theories/TlsProofs.v
theories/TlsLaws.v
theories/TlsRun.v
theories/TlsProps.v
theories/MemKernel.v
theories/MemModel.v
theories/MemSpec.v
theories/MemStart.v
theories/MemLayout.v
theories/MemUnmap.v
theories/MemProtect.v
theories/MemRel.v
theories/MemSteps.v
theories/MemAccess.v
theories/MemGrow.v
theories/MemRemap.v
theories/MemBrk.v
theories/MemRun.v
theories/MemInit.v
theories/MemLaws.v
theories/MemEx.v
theories/MemProps.v
theories/TallyModel.v
theories/TallySpec.v
theories/TallyRanges.v
theories/TallyProofs.v
theories/TallyProps.v
theories/LtcpModel.v
theories/LtcpSpec.v
theories/LtcpProofs.v
theories/LtcpProgress.v
theories/LtcpProps.v
theories/RenoModel.v
theories/RenoSpec.v
theories/RenoProofs.v
theories/RenoProps.v
theories/LwinSpec.v
theories/LwinProofs.v
theories/LwinProps.v
theories/PcapModel.v
theories/PcapSpec.v
theories/PcapProofs.v
theories/PcapProps.v
theories/FmtModel.v
theories/FmtSpec.v
theories/FmtProofs.v
theories/FmtProps.v
theories/SaddrModel.v
theories/SaddrProofs.v
theories/SaddrProps.v
