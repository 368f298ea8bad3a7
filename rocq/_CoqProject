-Q theories Verif
theories/Base.v
theories/Common.v
theories/Field.v
theories/Poly.v
theories/Flp.v
theories/FlpBBCGGI19.v
theories/Circuits.v
theories/Spec.v
theories/BaseFacts.v
theories/CommonFacts.v
theories/FieldFacts.v
theories/Primes.v
theories/PolyAlg.v
theories/Roots.v
theories/NttFacts.v
theories/PolyFacts.v
theories/LagrangeFacts.v
theories/CodecProofs.v
theories/FieldProofs.v
theories/PolyProofs.v
theories/Props_Codec.v
theories/Props_Field.v
theories/Props_Poly.v
theories/VecFacts.v
theories/Counting.v
theories/CircuitSpec.v
theories/MeasSpec.v
theories/GadgetFacts.v
theories/RangeInt.v
theories/CircuitFacts.v
theories/InterpFacts.v
theories/FlpFacts.v
theories/CircuitProofs.v
theories/CircuitInstances.v
theories/MeasFacts.v
theories/FlpSpec.v
theories/FlpProofs.v
theories/FlpInstances.v
theories/FlpPropProofs.v
theories/Props_Flp.v
theories/Xof.v
theories/XofSpec.v
theories/XofFacts.v
theories/SampleFacts.v
theories/XofProofs.v
theories/Props_Xof.v
theories/Vdaf.v
theories/PostFacts.v
theories/Prio3.v
theories/Prio3Spec.v
theories/Prio3Facts.v
theories/VdafFacts.v
theories/Prio3Run.v
theories/Prio3Inst.v
theories/Prio3Props.v
theories/Prio3Sound.v
theories/Props_Prio3.v
theories/Idpf.v
theories/IdpfSpec.v
theories/IdpfFacts.v
theories/ParseFacts.v
theories/IdpfCodec.v
theories/IdpfInst.v
theories/Props_Idpf.v
theories/Poplar1.v
theories/Poplar1Spec.v
theories/Poplar1Facts.v
theories/Poplar1Run.v
theories/Poplar1End.v
theories/Poplar1Sound.v
theories/Poplar1Codec.v
theories/Poplar1Props.v
theories/Poplar1Inst.v
theories/Props_Poplar1.v
theories/PingPong.v
theories/PingPongSpec.v
theories/PingPongFacts.v
theories/PingPongInst.v
theories/Props_PingPong.v
theories/Daf.v
theories/RunSpec.v
theories/RunFacts.v
theories/Props_Run.v
theories/Shamir.v
theories/ShamirSpec.v
theories/ShamirFacts.v
theories/Props_Shamir.v
theories/TurboShake.v
theories/Aes128.v
theories/TestVecBase.v
theories/TestVecRun.v
theories/TestVec_Xof.v
theories/TestVec_Idpf.v
theories/TestVec_Prio3.v
theories/TestVec_Poplar1.v
theories/OracleSpec.v
theories/OracleFacts.v
theories/OraclePoplar1.v
theories/Props_Oracle.v
theories/DeploySpec.v
theories/DeployFacts.v
theories/DeployInst.v
theories/RobustSpec.v
theories/RobustFacts.v
theories/RobustInst.v
theories/Robust1.v
theories/Props_Deploy.v
theories/Props_Robust1.v
theories/ZkSpec.v
theories/ZkFacts.v
theories/SketchSpec.v
theories/SketchFacts.v
theories/Props_Zk.v
theories/IdpfViewSpec.v
theories/IdpfViewFacts.v
theories/Poplar1ViewSpec.v
theories/Poplar1ViewFacts.v
theories/Prio3ViewSpec.v
theories/Prio3ViewFacts.v
theories/Props_View.v
theories/ShamirFlp.v
theories/Props_ShamirFlp.v
theories/Plot.v
theories/PlotSpec.v
theories/PlotFacts.v
theories/Props_Plot.v
theories/SoundSpec.v
theories/SoundTotal.v
theories/SoundPlot.v
theories/Props_Sound.v
theories/TestCircuits.v
theories/TestCircuitFacts.v
theories/Props_Tests.v
theories/TestVec_More.v
theories/TestVectors.v
theories/TestVecSpec.v
theories/TestVecFacts.v
theories/TestVecGen.v
theories/TestVecInst.v
theories/TestPingPong.v
theories/TestPingPongFacts.v
theories/Props_TestVec.v
theories/Poplar1CorrSpec.v
theories/Poplar1Corr.v
theories/NegVectors.v
theories/NegFacts.v
theories/CountSpec.v
theories/CountTamper.v
theories/NegProofs.v
theories/NegPrio3.v
theories/Props_Neg.v
theories/TestVec_Neg.v
theories/FieldTests.v
theories/FieldTestsFacts.v
theories/IdpfTests.v
theories/IdpfTestsFacts.v
theories/VdafTests.v
theories/VdafTestsFacts.v
theories/Props_Units.v
theories/Props_UnitsVdaf.v
theories/FlpTests.v
theories/FlpTestsSpec.v
theories/FlpTestsFacts.v
theories/FlpSuiteFacts.v
theories/Props_UnitsFlp.v
theories/XofTests.v
theories/XofTestsSpec.v
theories/XofTestsFacts.v
theories/Props_UnitsXof.v
theories/TestVec_Rejection.v
theories/GenMain.v
theories/GenMainFacts.v
theories/Props_Main.v
theories/DraftSpec.v
theories/Draft.v
theories/DraftFacts.v
theories/DraftRun.v
theories/Props_Draft.v
theories/HeavyHitters.v
theories/HeavySpec.v
theories/HeavyFacts.v
theories/HeavyRun.v
theories/Props_Heavy.v
theories/CollectSpec.v
theories/CollectFacts.v
theories/Props_Collect.v
theories/EditSpec.v
theories/EditFacts.v
theories/Props_Edits.v
theories/WireSpec.v
theories/Wire.v
theories/WireFacts.v
theories/Props_Wire.v
theories/ShamirTests.v
theories/ShamirTestsSpec.v
theories/ShamirTestsFacts.v
theories/Props_ShamirTests.v
theories/Props_Tables.v
theories/ChunkFacts.v
theories/Props_Chunk.v
theories/ForgeSpec.v
theories/ForgeFacts.v
theories/ForgeRun.v
theories/ForgeInst.v
theories/Props_Limits.v
theories/ReuseSpec.v
theories/ReuseFacts.v
theories/ReusePrio3.v
theories/ReusePoplar1.v
theories/Props_Reuse.v
theories/ConfuseSpec.v
theories/ConfuseFacts.v
theories/ConfuseInst.v
theories/Props_Confuse.v
theories/VotesSpec.v
theories/VotesFacts.v
theories/SteerSpec.v
theories/SteerFacts.v
theories/Props_Votes.v
theories/TamperSpec.v
theories/TamperIdpf.v
theories/TamperFacts.v
theories/Props_Tamper.v
theories/OfflineSpec.v
theories/OfflineRun.v
theories/OfflineFacts.v
theories/Props_Offline.v
theories/GuardSpec.v
theories/GuardFacts.v
theories/Props_Guard.v
theories/Star.v
theories/StarSpec.v
theories/StarFacts.v
theories/StarInst.v
theories/Props_Star.v
theories/LeakSpec.v
theories/LeakFacts.v
theories/Props_Leak.v
theories/BatchSpec.v
theories/BatchFacts.v
theories/Props_Batch.v
theories/P1BatchSpec.v
theories/P1BatchFacts.v
theories/Props_P1Batch.v
theories/TwoRandSpec.v
theories/TwoRandFacts.v
theories/TwoRandRun.v
theories/Props_TwoRand.v
theories/ExtractSpec.v
theories/ExtractFacts.v
theories/DoubleFacts.v
theories/Props_Extract.v
theories/Props_Sybil.v
theories/NodeSpec.v
theories/NodeFacts.v
theories/Props_Node.v
