-Q theories Verif

theories/Num.v
theories/Float.v
theories/Py.v
theories/Mesh.v
theories/Utils.v
theories/GenK0.v
theories/GenKG.v
theories/GenCell.v
theories/GenCellNS.v
theories/GenEdgeB.v
theories/GenEdgeI.v
theories/CalcK0.v
theories/CalcKG.v
theories/AddK0s.v
theories/Interp.v
theories/Logger.v
theories/Spec.v
theories/FSum.v
theories/FMat.v
theories/FTensor.v
theories/FGenK0.v
theories/FGenKG.v
theories/FGenCell.v
theories/FGenCellNS.v
theories/FGenEdgeB.v
theories/FGenEdgeI.v
theories/FGeom.v
theories/FDict.v
theories/FWf.v
theories/FSetup.v
theories/FAsm.v
theories/FK0.v
theories/SpecRead.v
theories/FRead.v
theories/FRead2.v
theories/Ex0.v
theories/ExFloat.v
theories/LRead.v
theories/PRead.v
theories/Ops.v
theories/FOps.v
theories/FOut.v
theories/FOut2.v
theories/FConn.v
theories/SpecK0.v
theories/FSmooth.v
theories/FDom.v
theories/FTot.v
theories/FRenum.v
theories/FAny.v
theories/Ex.v
theories/ExK0.v
theories/LK0.v
theories/PK0.v
theories/SpecKG.v
theories/FKG.v
theories/LKG.v
theories/PKG.v
theories/SpecK0s.v
theories/FK0s.v
theories/FK0p.v
theories/FK0e.v
theories/FK0i.v
theories/FK0t.v
theories/FMove.v
theories/ExK0s.v
theories/FK0u.v
theories/FK0r.v
theories/LK0s.v
theories/PK0s.v
theories/SpecInterp.v
theories/FInterp.v
theories/LInterp.v
theories/PInterp.v
theories/Vec.v
theories/SpecUtils.v
theories/LUtils.v
theories/PUtils.v
theories/Pow2mul.v
theories/SpecPow.v
theories/FPow.v
theories/FParse.v
theories/FExpr.v
theories/FCall.v
theories/LPow.v
theories/PPow.v
theories/Mprint.v
theories/MprintOpt.v
theories/SpecMprint.v
theories/SpecOpt.v
theories/FMprint.v
theories/LMprint.v
theories/LOpt.v
theories/POpt.v
theories/EdgeOps.v
theories/LEdgeOps.v
theories/PEdgeOps.v
theories/PMprint.v
theories/SpecEq.v
theories/FEq.v
theories/LEq.v
theories/PEq.v
theories/SpecFrame.v
theories/FFrame.v
theories/ExFrame.v
theories/LFrame.v
theories/PFrame.v
theories/SpecStab.v
theories/FStab.v
theories/FStab2.v
theories/FStab3.v
theories/FStab4.v
theories/FLin.v
theories/ExStab.v
theories/LStab.v
theories/PStab.v
theories/SpecStat.v
theories/FLin2.v
theories/FLin3.v
theories/LStat.v
theories/PStat.v
theories/FOut3.v
theories/LOut.v
theories/POut.v
theories/SpecConv.v
theories/FConv.v
theories/FConv2.v
theories/ExGrid.v
theories/LConv.v
theories/PConv.v
theories/SpecEdge.v
theories/FEdge.v
theories/LEdge.v
theories/PEdge.v
theories/FTree.v
theories/FEdge2.v
theories/LDec.v
theories/PDec.v
theories/SpecRound.v
theories/FFloat.v
theories/FRound.v
theories/FRound2.v
theories/FRound3.v
theories/FRound4.v
theories/FRound5.v
theories/FRound6.v
theories/FRound7.v
theories/FRound8.v
theories/FRound9.v
theories/FRound10.v
theories/FRound11.v
theories/FRound12.v
theories/FRound13.v
theories/LRound.v
theories/PRound.v
theories/FRound14.v
theories/FRound15.v
theories/FRound16.v
theories/FRound17.v
theories/SpecRound2.v
theories/FRound18.v
theories/FRound19.v
theories/FRound20.v
theories/FRound21.v
theories/LRound2.v
theories/PRound2.v
theories/SpecRound3.v
theories/FRound22.v
theories/FRound23.v
theories/FRound24.v
theories/LRound3.v
theories/PRound3.v
theories/SpecRound4.v
theories/ExLevel.v
theories/FRound25.v
theories/FRound26.v
theories/FRound27.v
theories/FRound28.v
theories/LRound4.v
theories/PRound4.v
theories/FRel.v
theories/SpecRound5.v
theories/FInterp2.v
theories/FInterp3.v
theories/ExInterp2.v
theories/LRound5.v
theories/PRound5.v
theories/SpecRound6.v
theories/FRound29.v
theories/ExPress.v
theories/FPress.v
theories/LRound6.v
theories/PRound6.v
theories/SpecRound7.v
theories/FUtil2.v
theories/ExRound7.v
theories/LRound7.v
theories/PRound7.v
theories/SpecMono.v
theories/FMono.v
theories/ExMono.v
theories/LMono.v
theories/PMono.v
theories/SpecUnits.v
theories/FUnits.v
theories/LUnits.v
theories/PUnits.v
theories/SpecSol.v
theories/FSol.v
theories/FSol2.v
theories/LSol.v
theories/PSol.v
theories/ExGrid2.v
theories/LRitz.v
theories/PRitz.v
theories/SpecLocal.v
theories/FLocal.v
theories/ExLocal.v
theories/LLocal.v
theories/PLocal.v
theories/SpecThin.v
theories/FThin.v
theories/ExThin.v
theories/LThin.v
theories/PThin.v
theories/SpecSol2.v
theories/FSol3.v
theories/FSol4.v
theories/SpecKorn.v
theories/FKorn.v
theories/ExMindlin.v
theories/LMindlin.v
theories/PMindlin.v
theories/SpecCond.v
theories/FCond.v
theories/ExCond.v
theories/LCond.v
theories/PCond.v
theories/SpecBuck.v
theories/LBuck.v
theories/PBuck.v
theories/ExDouble.v
theories/FDouble.v
theories/LDouble.v
theories/PDouble.v
theories/SpecPair.v
theories/ExPair.v
theories/LPair.v
theories/PPair.v
theories/FDouble2.v
theories/LDouble2.v
theories/PDouble2.v
theories/LWork.v
theories/PWork.v
theories/LComp.v
theories/PComp.v
