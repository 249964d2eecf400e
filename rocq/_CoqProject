-Q theories Verif
theories/Py.v
theories/Scalar.v
theories/Mat.v
theories/Utils.v
theories/Gates.v
theories/Circuit.v
theories/Session.v
theories/Sanity.v
theories/Spec.v
theories/Calls.v
theories/HistSpec.v
theories/CallSpec.v
theories/Lib.v
theories/Kern.v
theories/GateMat.v
theories/GateTof.v
theories/Flow.v
theories/Layers.v
theories/Blocks.v
theories/Refine.v
theories/Run.v
theories/BackendEq.v
theories/Reversible.v
theories/History.v
theories/Merge.v
theories/Errors.v
theories/Relate.v
theories/Construct.v
theories/Convert.v
theories/Tuple.v
theories/NewCircuit.v
theories/Ignored.v
theories/BadGates.v
theories/Exact.v
theories/Reject.v
theories/Labels.v
theories/Outcome.v
theories/Measured.v
theories/Repeat.v
theories/ExLib.v
theories/Props_Run.v
theories/Props_Hist.v
theories/Props_Errors.v
theories/Props_Construct.v
theories/Props_Labels.v
theories/Props_Session.v
theories/Complex.v
theories/ComplexSpec.v
theories/ComplexLib.v
theories/Local.v
theories/Unitary.v
theories/ComplexGates.v
theories/ComplexRun.v
theories/Props_Complex.v
theories/Info.v
theories/InfoSpec.v
theories/InfoLib.v
theories/InfoCount.v
theories/Props_Info.v
theories/Draw.v
theories/DrawSpec.v
theories/DrawLib.v
theories/MplLib.v
theories/Props_Draw.v
theories/Qasm.v
theories/QasmSpec.v
theories/RegexLib.v
theories/QasmLib.v
theories/QasmMarks.v
theories/QasmRun.v
theories/Props_Qasm.v
theories/QasmLineSpec.v
theories/QasmLines.v
theories/Props_QasmLines.v
theories/Tree.v
theories/TreeSpec.v
theories/TreeLib.v
theories/TreeMap.v
theories/TreeRun.v
theories/TreeEnd.v
theories/TreeCount.v
theories/TreeGates.v
theories/Props_Tree.v
theories/ShapeSpec.v
theories/Shapes.v
theories/ExactShape.v
theories/Props_Shapes.v
theories/PartsSpec.v
theories/Parts.v
theories/Props_Parts.v
theories/DepthSpec.v
theories/InfoDepth.v
theories/TreeDepth.v
theories/Props_Depth.v
theories/License.v
theories/LicenseSpec.v
theories/LicenseLib.v
theories/Props_License.v
theories/FlowMany.v
theories/FlowManyLib.v
theories/OneList.v
theories/Props_Flow.v
theories/Moved.v
theories/Props_Moved.v
theories/OverlapSpec.v
theories/Overlap.v
theories/RenameSpec.v
theories/Rename.v
theories/Props_Overlap.v
theories/TreeTests.v
theories/Batch.v
theories/BatchLib.v
theories/Props_TreeTests.v
theories/Props_Batch.v
theories/Props_Readme.v
theories/CommuteSpec.v
theories/Commute.v
theories/Props_Commute.v
theories/Product.v
theories/Algo.v
theories/Props_Algo.v
theories/Two.v
theories/BenchLib.v
theories/BenchTexts.v
theories/Props_Bench.v
theories/Attrs.v
theories/AttrsLib.v
theories/Props_Utils.v
theories/Props_Attrs.v
theories/Uniform.v
theories/Props_Uniform.v
theories/Jozsa.v
theories/Props_Jozsa.v
theories/Props_RepoTests.v
theories/BitSpec.v
theories/Bits.v
theories/BitRun.v
theories/Doubles.v
theories/Props_Float.v
theories/AcceptSpec.v
theories/Props_Accept.v
theories/Props_Debug.v
theories/Props_Nodes.v
theories/Alias.v
theories/AliasSpec.v
theories/AliasLib.v
theories/AliasRun.v
theories/Props_Alias.v
theories/BackendSpec.v
theories/BackendAny.v
theories/Props_Backend.v
theories/DrawFailSpec.v
theories/DrawFail.v
theories/Props_DrawFail.v
theories/RoundArith.v
theories/RoundSpec.v
theories/ScalarMap.v
theories/CNorm.v
theories/RoundLib.v
theories/RoundOps.v
theories/RoundRun.v
theories/RoundThm.v
theories/RoundBound.v
theories/RoundInst.v
theories/Props_Round.v
theories/Csr.v
theories/CsrLib.v
theories/CsrThm.v
theories/Props_Csr.v
theories/Cost.v
theories/CostSpec.v
theories/CostThm.v
theories/CostRun.v
theories/CostBits.v
theories/Props_Cost.v
theories/DrawPages.v
theories/PagesSpec.v
theories/PagesThm.v
theories/Props_Pages.v
theories/AnswerSpec.v
theories/Answers.v
theories/Props_Answers.v
theories/SucceedSpec.v
theories/Succeeds.v
theories/RunsIff.v
theories/Props_Succeeds.v
theories/QasmFile.v
theories/QasmFileSpec.v
theories/QasmFileLib.v
theories/Props_QasmFile.v
theories/HadSpec.v
theories/HadLib.v
theories/HadOrder.v
theories/HadRun.v
theories/Props_Had.v
theories/FigSpec.v
theories/FigLib.v
theories/Props_Figure.v
theories/RaiseSpec.v
theories/RaiseLib.v
theories/Props_Raise.v
theories/ListRegs.v
theories/ListThm.v
theories/ListAfter.v
theories/Props_List.v
theories/TupleThm.v
theories/Props_Tuple.v
theories/LibGates.v
theories/LibSpec.v
theories/LibThm.v
theories/Props_Lib.v
theories/PermSpec.v
theories/Universal.v
theories/Sign.v
theories/Props_Universal.v
theories/Affine.v
theories/Props_Affine.v
theories/Stab.v
theories/StabRun.v
theories/Props_Clifford.v
theories/RawBackend.v
theories/Props_RawBackend.v
theories/Undo.v
theories/Props_Undo.v
theories/Denoms.v
theories/Props_Denoms.v
theories/AliasMid.v
theories/Props_AliasMid.v
theories/Grover.v
theories/GroverAngle.v
theories/GroverRun.v
theories/Props_Grover.v
theories/EmbedSpec.v
theories/Embed.v
theories/Protocols.v
theories/EmbedRun.v
theories/Props_Embed.v
theories/NumArgs.v
theories/NumThm.v
theories/Props_Num.v
theories/ConsArgs.v
theories/Props_Cons.v
theories/UserMat.v
theories/UserMatSpec.v
theories/UserMatThm.v
theories/Props_UserMat.v
theories/LibList.v
theories/LibListThm.v
theories/Props_LibList.v
theories/PhaseThm.v
theories/Props_Phase.v
theories/Fuse.v
theories/Props_Fuse.v
theories/NumDims.v
theories/NumDimsThm.v
theories/WrongSize.v
theories/Props_NumDims.v
