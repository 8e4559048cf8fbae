-Q theories Verif
theories/Diag.v
theories/DiagProofs.v
theories/Wiring.v
theories/WiringProofs.v
theories/Properties_Wiring.v
theories/Types.v
theories/TypesProofs.v
theories/Roles.v
theories/RolesProofs.v
theories/Properties_Types.v
theories/Timed.v
theories/TimedProofs.v
theories/Properties_Timed.v
theories/Session.v
theories/Mesh.v
theories/MeshSpec.v
theories/Links.v
theories/LinksProofs.v
theories/Refine.v
theories/Sim.v
theories/MeshWire.v
theories/MeshInv.v
theories/MeshStep.v
theories/MeshKeep.v
theories/MeshSafe.v
theories/MeshRounds.v
theories/MeshRun.v
theories/MeshLog.v
theories/MeshReach.v
theories/Properties_Mesh.v
theories/Global.v
theories/MeshGlobal.v
theories/MeshSignal.v
theories/MeshProgress.v
theories/MeshBound.v
theories/MeshClean.v
theories/Properties_Global.v
theories/Binary.v
theories/Properties_Binary.v
theories/Select.v
theories/Properties_Select.v
theories/Attempt.v
theories/Properties_Attempt.v
theories/Broadcast.v
theories/Properties_Broadcast.v
theories/Close.v
theories/Properties_Close.v
theories/Checker.v
theories/CheckerSpec.v
theories/CheckerText.v
theories/CheckerClean.v
theories/CheckerGraph.v
theories/CheckerRun.v
theories/CheckerAll.v
theories/CheckerDecide.v
theories/Properties_Checker.v
theories/Nuscr.v
theories/NuscrSpec.v
theories/NuscrMaps.v
theories/NuscrTree.v
theories/NuscrRun.v
theories/NuscrFile.v
theories/NuscrNames.v
theories/NuscrClocks.v
theories/NuscrAccept.v
theories/Regex.v
theories/NuscrText.v
theories/NuscrTextSpec.v
theories/RegexProofs.v
theories/NuscrRead.v
theories/NuscrReadAll.v
theories/NuscrPrint.v
theories/Properties_Nuscr.v
theories/Properties_NuscrText.v
theories/Three.v
theories/Properties_Three.v
theories/MeshExt.v
theories/NuscrGlobalSpec.v
theories/NuscrGlobal.v
theories/NuscrSystem.v
theories/Properties_NuscrGlobal.v
theories/MeshWait.v
theories/TimedMesh.v
theories/TimedMeshProofs.v
theories/Properties_TimedMesh.v
theories/CheckerRefClean.v
theories/CheckerMacro.v
theories/CheckerLoopSpec.v
theories/CheckerLoop.v
theories/CheckerLoopRun.v
theories/CheckerLoopWalk.v
theories/CheckerLoopAll.v
theories/CheckerLoopDecide.v
theories/Properties_CheckerLoop.v
theories/NuscrTimetable.v
theories/Properties_NuscrTimetable.v
theories/NuscrStructs.v
theories/NuscrItems.v
theories/NuscrItemsProofs.v
theories/Properties_NuscrItems.v
theories/NuscrTimedSpec.v
theories/TimedMeshWindows.v
theories/NuscrTimedProofs.v
theories/Properties_NuscrTimed.v
theories/Interleave.v
theories/InterleaveProofs.v
theories/Properties_Interleave.v
theories/Methods.v
theories/MethodsSpec.v
theories/MethodsProofs.v
theories/Properties_Methods.v
theories/MeshDue.v
theories/TimedMeshPlan.v
theories/TimedMeshLocal.v
theories/TimedMeshDue.v
theories/TimedMeshPlanProofs.v
theories/Properties_TimedMeshPlan.v
theories/NuscrPlanSpec.v
theories/NuscrPlanProofs.v
theories/Properties_NuscrPlan.v
theories/Transport.v
theories/TransportMirror.v
theories/TransportProofs.v
theories/TransportLive.v
theories/TransportUdp.v
theories/Properties_Transport.v
theories/MeshFair.v
theories/FairSpec.v
theories/MeshLive.v
theories/FairTurns.v
theories/MeshChase.v
theories/Properties_Fair.v
theories/TidySpec.v
theories/MeshTidy.v
theories/MeshDet.v
theories/MeshSched.v
theories/Properties_Schedule.v
theories/OrderSpec.v
theories/OrderProofs.v
theories/OrderProj.v
theories/MeshOrder.v
theories/MeshOrderConv.v
theories/Properties_Order.v
theories/Proto.v
theories/ProtoProofs.v
theories/Corpus.v
theories/CorpusRing.v
theories/CorpusMesh.v
theories/CorpusUnfit.v
theories/Properties_Corpus.v
theories/Synth.v
theories/SynthProofs.v
theories/Families.v
theories/Properties_Synth.v
theories/OrderReady.v
theories/OrderFair.v
theories/FairTypes.v
theories/OrderLive.v
theories/OrderTurns.v
theories/OrderEnd.v
theories/Properties_OrderFair.v
theories/Properties_TimedClock.v
theories/OrderFinish.v
theories/Properties_Finish.v
theories/TimedFinish.v
theories/Properties_TimedFinish.v
theories/FnForms.v
theories/FnSpec.v
theories/FnProofs.v
theories/FnCorpus.v
theories/Properties_FnForms.v
theories/ForkTypes.v
theories/ForkSpec.v
theories/ForkProofs.v
theories/ForkCorpus.v
theories/Properties_ForkTypes.v
theories/GenMacros.v
theories/GenSpec.v
theories/GenMacrosProofs.v
theories/GenCorpus.v
theories/Properties_GenMacros.v
theories/CheckTests.v
theories/NuscrTests.v
theories/RepoTests.v
theories/RepoTestsProofs.v
theories/Properties_RepoTests.v
theories/PrintedTypes.v
theories/PrintedProofs.v
theories/Properties_Printed.v
theories/BinMesh.v
theories/BinSpec.v
theories/BinHeap.v
theories/BinWire.v
theories/BinSim.v
theories/BinReach.v
theories/BinProps.v
theories/Properties_Bin.v
theories/ThreeMesh.v
theories/BinThree.v
theories/Properties_BinThree.v
theories/FuncMesh.v
theories/BinFunc.v
theories/Properties_BinFunc.v
theories/OrderBound.v
theories/BinOk.v
theories/Properties_BinOk.v
theories/Branching.v
theories/BranchingProofs.v
theories/Properties_Branching.v
theories/ForkIL.v
theories/Properties_ForkIL.v
theories/Protobuf.v
theories/ProtobufProofs.v
theories/Properties_Protobuf.v
theories/Constraint.v
theories/Properties_Constraint.v
theories/AliasTypes.v
theories/Properties_Alias.v
