-Q theories Verif
theories/Base.v
theories/ModelBounds.v
theories/ModelMatrix.v
theories/ModelIters.v
theories/ModelSpan.v
theories/Spec.v
theories/ModelSched.v
theories/ModelVector.v
theories/ModelProxy.v
theories/SpecVector.v
theories/LemBase.v
theories/LemMatrix.v
theories/LemFsi.v
theories/LemDomain.v
theories/LemExpr.v
theories/LemExec.v
theories/LemSched.v
theories/LemAssign.v
theories/SpecIter.v
theories/Instances.v
theories/SpecAssign.v
theories/LemProps.v
theories/LemProps2.v
theories/LemProps3.v
theories/LemFsi2.v
theories/LemVector.v
theories/LemProps4.v
theories/SpecWindow.v
theories/LemWindow.v
theories/LemField.v
theories/LemWindow2.v
theories/FortranBase.v
theories/SpecKernel.v
theories/KernelNotations.v
theories/KernelsFlux.v
theories/FortranFlux.v
theories/LemKernel.v
theories/LemKernel2.v
theories/LemFlux.v
theories/KernelsApply.v
theories/FortranApply.v
theories/LemApply.v
theories/LemResidual.v
theories/KernelsCopy.v
theories/FortranCopy.v
theories/LemCopy.v
theories/KernelsBC.v
theories/FortranBC.v
theories/LemBC.v
theories/LemBCCut.v
theories/SpecBoundary.v
theories/LemBoundary.v
theories/LemBoundary3.v
theories/FortranHomog.v
theories/LemHomog.v
theories/FortranStencil1.v
theories/FortranStencil2.v
theories/FortranStencil3.v
theories/KernelsStencil.v
theories/LemStencil.v
theories/LemStencil2.v
theories/LemStencil3.v
theories/SpecSafe.v
theories/LemSafe.v
theories/LemSafeFlux.v
theories/LemSafeCopy.v
theories/LemSafeBC.v
theories/LemSafeStencil.v
theories/LemSafeStencil3.v
theories/LemRow.v
theories/LemValues1.v
theories/LemValues2.v
theories/LemValues3.v
theories/LemRows.v
theories/SpecRow.v
theories/LemSum.v
theories/LemConserve.v
theories/LemSymmetric.v
theories/PropertiesIndex.v
theories/PropertiesExpr.v
theories/PropertiesStencil.v
theories/PropertiesVector.v
theories/PropertiesAssign.v
theories/PropertiesWindow.v
theories/PropertiesFlux.v
theories/PropertiesCopy.v
theories/PropertiesBC.v
theories/PropertiesBoundary.v
theories/PropertiesStencilKernels.v
theories/PropertiesSafe.v
theories/PropertiesRow.v
theories/SpecEliminate.v
theories/LemEdge.v
theories/LemAdjust1.v
theories/LemAdjust2.v
theories/LemAdjust3.v
theories/LemEliminate.v
theories/LemEliminate1.v
theories/LemEliminate2.v
theories/LemEliminate3.v
theories/LemRhs.v
theories/PropertiesEliminate.v
theories/ModelPar.v
theories/KernelsBy.v
theories/LemPar.v
theories/LemParFlux.v
theories/LemParBC.v
theories/LemParBC3.v
theories/LemParBC3p.v
theories/LemParStencil.v
theories/LemParStencil3.v
theories/LemParCopy.v
theories/PropertiesPar.v
theories/ModelInt.v
theories/ModelIntProxy.v
theories/SpecInt.v
theories/LemInt.v
theories/LemIntSpan.v
theories/LemIntExpr.v
theories/LemIntExec.v
theories/LemIntWindow.v
theories/LemIntKernel.v
theories/LemIntFlux.v
theories/LemIntBC.v
theories/LemIntBC3.v
theories/LemIntBC3p.v
theories/LemIntStencil.v
theories/LemIntStencil3.v
theories/LemIntCopy.v
theories/LemIntRefute.v
theories/PropertiesInt.v
theories/FortranNode.v
theories/FortranNodeStencil1.v
theories/FortranNodeStencil2.v
theories/FortranNodeStencil3.v
theories/SpecNode.v
theories/LemFortran.v
theories/LemNode.v
theories/LemNodeRefute.v
theories/PropertiesNode.v
theories/FortranLoops.v
theories/FortranSmooth.v
theories/KernelsDot.v
theories/SpecSmooth.v
theories/LemSmooth.v
theories/LemCells.v
theories/LemDot.v
theories/LemApplySt.v
theories/LemDotRefute.v
theories/PropertiesDot.v
theories/LemSweep.v
theories/LemSmoothers.v
theories/LemJacobi.v
theories/LemFixedStencil.v
theories/LemSmoothFinal.v
theories/LemSmoothRefute.v
theories/PropertiesSmooth.v
theories/LemLocal.v
theories/SpecBlock.v
theories/SpecAdjust.v
theories/LemBlock.v
theories/LemMatrixBlock.v
theories/LemAdjust.v
theories/LemIncrease.v
theories/LemBlockCase.v
theories/PropertiesBlock.v
theories/PropertiesAdjust.v
theories/FortranBlock.v
theories/SpecBlockJacobi.v
theories/LemDense.v
theories/LemBlockJacobi.v
theories/LemBlockJacobi2.v
theories/LemBlockJacobiCase.v
theories/PropertiesBlockJacobi.v
theories/LemOperator.v
theories/SpecEnergy.v
theories/LemEnergy.v
theories/LemForm.v
theories/SpecPoly.v
theories/LemPoly.v
theories/LemExact.v
theories/PropertiesEnergy.v
theories/PropertiesPoly.v
theories/KernelsTest.v
theories/SpecTest.v
theories/LemTest1.v
theories/LemTest2.v
theories/LemTest3.v
theories/LemTest4.v
theories/PropertiesTest.v
theories/SpecRel.v
theories/LemRel.v
theories/LemRelF.v
theories/LemRelTac.v
theories/SpecPrograms.v
theories/LemUniform1.v
theories/LemUniform2.v
theories/LemUniform3.v
theories/LemUniform4.v
theories/LemUniform5.v
theories/LemUniform6.v
theories/LemUniform7.v
theories/SpecReference.v
theories/LemUniform.v
theories/SpecRound.v
theories/LemRound.v
theories/LemRound2.v
theories/LemRound3.v
theories/LemRound4.v
theories/LemRound5.v
theories/PropertiesRound.v
theories/SpecConverge.v
theories/LemConverge.v
theories/LemConverge2.v
theories/LemConverge3.v
theories/LemConverge4.v
theories/LemConverge5.v
theories/LemConvergeCase.v
theories/PropertiesConverge.v
theories/FortranExtrap.v
theories/SpecExtrap.v
theories/LemExtrap.v
theories/LemExtrap2.v
theories/LemExtrapCase.v
theories/PropertiesExtrap.v
theories/FortranBlockCell.v
theories/SpecBlockCell.v
theories/LemBlockCell.v
theories/LemBlockCell2.v
theories/LemBlockCellCase.v
theories/PropertiesBlockCell.v
theories/SpecBCOrder.v
theories/SpecBCCalls.v
theories/LemBCOrder.v
theories/LemBCOrderK.v
theories/LemBCOrderK3.v
theories/LemBCOrderK3p.v
theories/LemBCCalls.v
theories/LemBCOrderCase.v
theories/PropertiesBCOrder.v
theories/SpecSolve.v
theories/LemSolve.v
theories/LemSolveOp.v
theories/LemSolveMem.v
theories/LemSolveCase.v
theories/PropertiesSolve.v
theories/SpecBvp.v
theories/LemBvp.v
theories/LemBvpFill.v
theories/LemBvpOp.v
theories/LemBvpMem.v
theories/LemBvpCase.v
theories/PropertiesBvp.v
theories/LemBvpAny.v
theories/LemBvpConn.v
theories/LemBvpConnCase.v
theories/PropertiesConn.v
theories/LemBvpForm.v
theories/LemBvpFormMem.v
theories/PropertiesForm.v
theories/SpecBound.v
theories/LemBvpBound.v
theories/LemBvpBoundMem.v
theories/LemBvpBoundCase.v
theories/PropertiesBound.v
theories/SpecHomogOrder.v
theories/LemHomogOrder.v
theories/PropertiesHomogOrder.v
theories/SpecRelax.v
theories/LemRelax.v
theories/LemRelax2.v
theories/LemRelaxCase.v
theories/PropertiesRelax.v
theories/SpecPoisson.v
theories/LemWeighted.v
theories/LemWeighted2.v
theories/LemPoisson.v
theories/LemPoissonCase.v
theories/PropertiesPoisson.v
