-Q theories Verif
theories/Err.v
theories/Num.v
theories/PySlice.v
theories/NdArray.v
theories/HydroM.v
theories/RiemannM.v
theories/StencilsM.v
theories/FvM.v
theories/BcM.v
theories/SedM.v
theories/LimitM.v
theories/OdeM.v
theories/SolverM.v
theories/Spec.v
theories/NdArrayP.v
theories/FvP.v
theories/HydroP.v
theories/RiemannP.v
theories/PropsGas.v
theories/SpecPoly.v
theories/PolyP.v
theories/StencilP.v
theories/QuadP.v
theories/SpecMesh.v
theories/MeshP.v
theories/PropsAcc.v
theories/SpecBc.v
theories/BcP.v
theories/BcQ.v
theories/PropsBc.v
theories/OpP.v
theories/SolverP.v
theories/OdeP.v
theories/RelP.v
theories/RelS.v
theories/SpecSolver.v
theories/RunP.v
theories/PropsRun.v
theories/LimP.v
theories/SpecCons.v
theories/ConsP.v
theories/ExistP.v
theories/UniformP.v
theories/SlopeP.v
theories/WallP.v
theories/WatchP.v
theories/ScalarP.v
theories/PropsSolver.v
theories/SpecLim.v
theories/MusclP.v
theories/SedP.v
theories/DetectP.v
theories/SedR.v
theories/BroadP.v
theories/ConvexP.v
theories/ReviseP.v
theories/PropsLim.v
theories/SpecOde.v
theories/RkP.v
theories/LoopP.v
theories/OdeT.v
theories/FloatP.v
theories/PropsOde.v
theories/SpecSym.v
theories/SpecPos.v
theories/SymP.v
theories/ShiftP.v
theories/SeamP.v
theories/LimExistP.v
theories/PropsSym.v
theories/HydroStateM.v
theories/SpecHs.v
theories/HsP.v
theories/HsQ.v
theories/TimerM.v
theories/ArrMgrM.v
theories/SpecTimer.v
theories/TimerP.v
theories/ArrMgrP.v
theories/SpecNames.v
theories/ArrMgrQ.v
theories/PropsTools.v
theories/SpecScheme.v
theories/SchemeP.v
theories/PropsScheme.v
theories/MirrorP.v
theories/PropsMirror.v
theories/PermP.v
theories/PropsPerm.v
theories/PosP.v
theories/PropsPos.v
theories/SpecLog.v
theories/LogP.v
theories/PropsLog.v
theories/SnapM.v
theories/SpecSnap.v
theories/SnapP.v
theories/SnapQ.v
theories/PropsSnap.v
theories/ScriptM.v
theories/SpecScript.v
theories/ScriptP.v
theories/PropsScript.v
theories/ICM.v
theories/SpecIC.v
theories/ICP.v
theories/PropsIC.v
theories/VizM.v
theories/SpecViz.v
theories/VizP.v
theories/VizQ.v
theories/PropsViz.v
theories/InitM.v
theories/SpecInit.v
theories/InitP.v
theories/InitQ.v
theories/PropsInit.v
theories/RomainM.v
theories/SpecRomain.v
theories/RomainP.v
theories/RomainQ.v
theories/RomainR.v
theories/PropsRomain.v
theories/SpecExact.v
theories/ExactP.v
theories/ExactQ.v
theories/PropsExact.v
theories/ReportM.v
theories/SpecReport.v
theories/ReportP.v
theories/PropsReport.v
theories/BcObjM.v
theories/SpecBcObj.v
theories/BcObjP.v
theories/PropsBcObj.v
theories/CallM.v
theories/SpecCall.v
theories/CallP.v
theories/CallQ.v
theories/PropsCall.v
theories/HllcPosP.v
theories/HllcPosQ.v
theories/PropsHllcPos.v
theories/SpecStage.v
theories/StageP.v
theories/StageQ.v
theories/StageT.v
theories/PropsStage.v
theories/ClockP.v
theories/SpecUnits.v
theories/UnitsP.v
theories/UnitsLimP.v
theories/SpecFloor.v
theories/FloorQ.v
theories/PropsUnits.v
theories/SpecBoost.v
theories/BoostP.v
theories/BoostQ.v
theories/PropsBoost.v
theories/SpecResume.v
theories/ResumeP.v
theories/PropsResume.v
theories/SpecMix.v
theories/MixP.v
theories/MixQ.v
theories/PropsMix.v
theories/SpecThin.v
theories/ThinP.v
theories/ThinLimP.v
theories/ThinLimQ.v
theories/SpecQuiet.v
theories/QuietP.v
theories/QuietQ.v
theories/QuietS.v
theories/QuietT.v
theories/PropsQuiet.v
theories/ThinQ.v
theories/PropsThin.v
theories/SpecFold.v
theories/FoldP.v
theories/FoldQ.v
theories/FoldLimP.v
theories/FoldLimQ.v
theories/SpecFoldUp.v
theories/FoldUpP.v
theories/FoldUpQ.v
theories/PropsFold.v
theories/SymLimP.v
theories/SpecMirLim.v
theories/MirLimP.v
theories/PermLimP.v
theories/ShiftLimP.v
theories/MirLimQ.v
theories/PropsMirLim.v
theories/SpecLimRhs.v
theories/LimRhsP.v
theories/PropsLimRhs.v
theories/SpecDrift.v
theories/DriftP.v
theories/MirHllcQ.v
theories/DriftQ.v
theories/PropsDrift.v
theories/SpecCorner.v
theories/CornerP.v
theories/CornerQ.v
theories/PropsCorner.v
theories/SpecTv.v
theories/TvP.v
theories/TvQ.v
theories/PropsTv.v
theories/SpecIdle.v
theories/IdleP.v
theories/IdleQ.v
theories/PropsIdle.v
theories/SpecDense.v
theories/DenseP.v
theories/DenseQ.v
theories/PropsDense.v
theories/SpecExtent.v
theories/ExtentP.v
theories/ExtentQ.v
theories/PropsExtent.v
theories/CleanP.v
theories/CleanQ.v
theories/TruncQ.v
theories/PropsClean.v
theories/SpecUniLog.v
theories/UniLogP.v
theories/UniLogQ.v
theories/PropsUniLog.v
theories/FoldUpR.v
