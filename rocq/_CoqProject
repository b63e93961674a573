-Q theories Verif
theories/Py.v
theories/CounterModel.v
theories/CounterSpec.v
theories/CounterProofs.v
theories/RegisterModel.v
theories/RegisterSpec.v
theories/RegisterProofs.v
theories/RegisterProofs2.v
theories/PropsCounter.v
theories/PropsRegister.v
theories/SetModel.v
theories/SetProofs.v
theories/PropsSet.v
theories/CRing.v
theories/KernelModel.v
theories/KernelSpec.v
theories/KernelBits.v
theories/KernelProofs.v
theories/KernelProofs2.v
theories/KernelProofs3.v
theories/SimModel.v
theories/PropsKernel.v
theories/Cplx.v
theories/SimSpec.v
theories/SimReal.v
theories/SimProofs.v
theories/SimProofs2.v
theories/SimProofs3.v
theories/SimProofs4.v
theories/SimProofs5.v
theories/UnitaryModel.v
theories/UnitarySpec.v
theories/UnitaryProofs.v
theories/UnitaryProofs2.v
theories/UnitaryProofs3.v
theories/CacheModel.v
theories/CacheProofs.v
theories/GateModel.v
theories/GateProofs.v
theories/GateProofs2.v
theories/GateProofs3.v
theories/PropsGate.v
theories/GateSpec.v
theories/GateProofs4.v
theories/PropsGate2.v
theories/SimProofs6.v
theories/MeasureSpec.v
theories/SimProofs7.v
theories/StateModel.v
theories/StateSpec.v
theories/StateProofs.v
theories/PropsState.v
theories/SampleModel.v
theories/SampleSpec.v
theories/SampleProofs.v
theories/SampleProofs2.v
theories/PropsSim.v
theories/PropsSample.v
theories/UnitaryProofs4.v
theories/PropsUnitary.v
theories/WorldModel.v
theories/WorldSpec.v
theories/WorldReg.v
theories/WorldInv.v
theories/WorldInv2.v
theories/WorldInv3.v
theories/WorldInv4.v
theories/WorldInv5.v
theories/WorldInv6.v
theories/WorldInv7.v
theories/WorldProofs.v
theories/WorldLabels.v
theories/WorldProofs2.v
theories/WorldCheck.v
theories/WorldWf.v
theories/WorldWf2.v
theories/WorldWf3.v
theories/WorldCtx.v
theories/WorldSpec2.v
theories/WorldCtx2.v
theories/WorldCtx3.v
theories/WorldOps.v
theories/CtxProofs.v
theories/PropsCircuit.v
theories/PropsContext.v
theories/WorldSpec3.v
theories/WorldBuild.v
theories/WorldReplay.v
theories/WorldTrace.v
theories/WorldTrace2.v
theories/BuildProofs.v
theories/WorldOwn.v
theories/PropsBuild.v
theories/WorldSpec4.v
theories/WorldOwn2.v
theories/WorldMeas.v
theories/WorldVars.v
theories/ReplayProofs.v
theories/PropsReplay.v
theories/EvalModel.v
theories/EvalSpec.v
theories/EvalProofs.v
theories/EvalApplied.v
theories/PropsEval.v
theories/PrimModel.v
theories/PrimSpec.v
theories/PrimProofs.v
theories/PropsPrim.v
theories/MixedModel.v
theories/MixedSpec.v
theories/MixedProofs.v
theories/PropsMixed.v
theories/QirModel.v
theories/QirSpec.v
theories/QirProofs.v
theories/QirProofs2.v
theories/QirProofs3.v
theories/QirProofs4.v
theories/QirProofs5.v
theories/PropsQir.v
theories/QasmModel.v
theories/QasmSpec.v
theories/QasmProofs.v
theories/QasmProofs2.v
theories/PropsQasm.v
theories/CustomModel.v
theories/CustomSpec.v
theories/CustomProofs.v
theories/PropsCustom.v
theories/WorldArity.v
theories/WorldArity2.v
theories/LinkModel.v
theories/LinkSpec.v
theories/LinkProofs.v
theories/PropsLink.v
theories/EqModel.v
theories/EqSpec.v
theories/EqProofs.v
theories/EqProofs2.v
theories/PropsEq.v
theories/WorldNumq.v
theories/ExportModel.v
theories/ExportSpec.v
theories/ExportProofs.v
theories/ExportProofs2.v
theories/PropsExport.v
theories/QelibSpec.v
theories/QelibAlg.v
theories/QelibProofs.v
theories/QelibProofs2.v
theories/QelibProofs3.v
theories/QelibProofs4.v
theories/QelibProofs5.v
theories/TextSpec.v
theories/QelibProofs6.v
theories/PropsQelib.v
theories/QirSemSpec.v
theories/QirSemProofs.v
theories/QirMeantSpec.v
theories/QirSemProofs2.v
theories/QirSemProofs3.v
theories/QirCircSpec.v
theories/QirSemProofs4.v
theories/PropsQirSem.v
theories/LoadModel.v
theories/LoadSpec.v
theories/LoadProofs.v
theories/LoadProofs2.v
theories/LoadProofs3.v
theories/LoadProofs4.v
theories/LoadProofs5.v
theories/LoadProofs6.v
theories/LoadProofs7.v
theories/LoadProofs8.v
theories/LoadProofs9.v
theories/LoadMeanSpec.v
theories/LoadMean.v
theories/LoadMean2.v
theories/LoadRot.v
theories/PropsLoad.v
theories/MakeSpec.v
theories/MakeProofs.v
theories/MakeProofs2.v
theories/MakeProofs3.v
theories/MakeCond.v
theories/PropsMake.v
theories/CallSpec.v
theories/CallProofs.v
theories/CallProofs2.v
theories/CallProofs3.v
theories/WorldStep.v
theories/CallSpec2.v
theories/CallWorld.v
theories/PropsCall.v
theories/MatrixModel.v
theories/MatrixSpec.v
theories/MatrixProofs.v
theories/PropsMatrix.v
theories/SessionModel.v
theories/SessionSpec.v
theories/SessionProofs.v
theories/SessionProofs2.v
theories/SessionProofs3.v
theories/SessionProofs4.v
theories/PropsSession.v
theories/BornSpec.v
theories/BornProofs.v
theories/BornProofs2.v
theories/BornProofs3.v
theories/PropsBorn.v
theories/BranchSpec.v
theories/BranchProofs.v
theories/BranchProofs2.v
theories/BranchProofs3.v
theories/PropsBranch.v
theories/StatesSpec.v
theories/StatesProofs.v
theories/PropsStates.v
theories/RewriteSpec.v
theories/RewriteProofs.v
theories/RewriteProofs2.v
theories/RewriteProofs3.v
theories/RewriteProofs4.v
theories/PropsRewrite.v
theories/OrderSpec.v
theories/OrderProofs.v
theories/OrderProofs2.v
theories/OrderProofs3.v
theories/OrderProofs4.v
theories/PropsOrder.v
theories/DeferSpec.v
theories/DeferProofs.v
theories/DeferProofs2.v
theories/DeferProofs3.v
theories/PropsDefer.v
theories/ConeSpec.v
theories/ConeProofs.v
theories/ConeProofs2.v
theories/PropsCone.v
theories/KeepProofs.v
theories/KeepProofs2.v
theories/PropsKeep.v
theories/PrintModel.v
theories/PrintSpec.v
theories/PrintProofs.v
theories/PropsPrint.v
theories/IndexModel.v
theories/IndexProofs.v
theories/PropsIndex.v
theories/InverseSpec.v
theories/InverseProofs.v
theories/InverseProofs2.v
theories/InverseProofs3.v
theories/PropsInverse.v
