-Q theories Verif
theories/Base.v
theories/Ring.v
theories/Bw.v
theories/Init.v
theories/Sys.v
theories/Spec.v
theories/BaseFacts.v
theories/HistFacts.v
theories/RingFacts.v
theories/QueueFacts.v
theories/SysFacts.v
theories/StepInv.v
theories/WorldFacts.v
theories/Reach.v
theories/Effects.v
theories/Pending.v
theories/Global.v
theories/Counters.v
theories/ReadCall.v
theories/WriteCall.v
theories/Cache.v
theories/Farm.v
theories/Calls.v
theories/AppFacts.v
theories/Misc.v
theories/Witness.v
theories/Final.v
theories/Props1.v
theories/InitFacts.v
theories/PollFacts.v
theories/Props2.v
theories/BwInv.v
theories/BwWorld.v
theories/BwStep.v
theories/BwLive.v
theories/BwFinal.v
theories/BwOcc.v
theories/Buf.v
theories/Witness2.v
theories/Props3.v
theories/Fs.v
theories/FsFacts.v
theories/Witness3.v
theories/Props4.v
theories/Micro.v
theories/MicroFacts.v
theories/CrashSpec.v
theories/Crash.v
theories/CrashFinal.v
theories/Props5.v
theories/Lock.v
theories/LockFacts.v
theories/LockWitness.v
theories/Props6.v
theories/Ux.v
theories/UxSpec.v
theories/UxFacts.v
theories/Tool.v
theories/ToolSpec.v
theories/ToolFacts.v
theories/ToolFacts2.v
theories/Props7.v
theories/Props8.v
theories/Create.v
theories/CreateFacts.v
theories/Props9.v
theories/Props10.v
theories/Live.v
theories/Props11.v
theories/TraceSpec.v
theories/Trace.v
theories/Props12.v
theories/BwMicro.v
theories/Kill.v
theories/KillFacts.v
theories/KillInv.v
theories/KillExec.v
theories/KillFinal.v
theories/Props13.v
theories/Conformance.v
theories/KillSpec.v
theories/KillBw.v
theories/KillBwInv.v
theories/KillBwStep.v
theories/KillBwFinal.v
theories/KillNap.v
theories/Props14.v
theories/Posix.v
theories/PosixFacts.v
theories/Props15.v
theories/FairSpec.v
theories/Fair.v
theories/Fair2.v
theories/FairWitness.v
theories/Props16.v
theories/Tool2.v
theories/ToolSpec2.v
theories/ToolFacts3.v
theories/ToolFacts4.v
theories/ToolFacts5.v
theories/Props17.v
theories/Fine.v
theories/FineStep.v
theories/FineSect.v
theories/FineAdv.v
theories/FineOnce.v
theories/FineBody.v
theories/FineHome.v
theories/FineHome2.v
theories/FineHI.v
theories/FineSim.v
theories/FineSim2.v
theories/FineSim3.v
theories/FineSim4.v
theories/FineFinal.v
theories/Props18.v
theories/CountSpec.v
theories/KillCount.v
theories/Props19.v
theories/KillOcc.v
theories/Props20.v
theories/BwApi.v
theories/BwSpec.v
theories/BwApiInv.v
theories/BwApiStep.v
theories/BwApiFinal.v
theories/BwApiFinal2.v
theories/BwPlay.v
theories/Props21.v
theories/KillFairSpec.v
theories/KillFair.v
theories/KillFairWitness.v
theories/Props22.v
theories/Main.v
theories/MainSpec.v
theories/MainFacts.v
theories/MainFacts2.v
theories/MainFacts3.v
theories/Props23.v
theories/Disk.v
theories/DiskSpec.v
theories/DiskFacts.v
theories/DiskFacts2.v
theories/DiskFacts3.v
theories/DiskFacts4.v
theories/DiskFacts5.v
theories/DiskFacts6.v
theories/DiskFacts7.v
theories/DiskFinal.v
theories/DiskWitness.v
theories/Props24.v
theories/Props25.v
theories/Reboot.v
theories/RebootFacts.v
theories/RebootInv.v
theories/RebootFinal.v
theories/RebootWake.v
theories/RebootWitness.v
theories/Props26.v
theories/PipeSpec.v
theories/PipeFacts.v
theories/Pipe.v
theories/Props27.v
theories/RelaySpec.v
theories/Relay.v
theories/Props28.v
theories/FairPoll.v
theories/FairFarm.v
theories/Props29.v
theories/KillPipe.v
theories/KillPipeWitness.v
theories/Props30.v
theories/KillSome.v
theories/SomeWitness.v
theories/Props31.v
theories/BwTool.v
theories/BwToolSpec.v
theories/BwToolFinal.v
theories/BwToolPlay.v
theories/BwToolRun.v
theories/Props32.v
theories/KillFarm.v
theories/KillFarmWitness.v
theories/Props33.v
theories/KillLoop.v
theories/KillLoopWitness.v
theories/Props34.v
