-Q theories Verif
theories/Base.v
theories/Num.v
theories/Array.v
theories/Blas.v
theories/Lapack.v
theories/Dlahqr.v
theories/Dlaqr5.v
theories/B64.v
theories/UnitTests.v
theories/Lists.v
theories/Spec.v
theories/FaLemmas.v
theories/B64Lemmas.v
theories/ArrayProofs.v
theories/I32.v
theories/I32Proofs.v
theories/ER.v
theories/SpecR.v
theories/RsumLemmas.v
theories/Blas1Proofs.v
theories/Blas1Real.v
theories/LsameProofs.v
theories/PropsArray.v
theories/PropsBlas1.v
theories/SpecBlas.v
theories/MatLemmas.v
theories/GemmProofs.v
theories/Checks.v
theories/GemmTop.v
theories/PropsGemm.v
theories/TrmmProofs.v
theories/TrmmTop.v
theories/PropsTrmm.v
theories/SpecLapack.v
theories/LasetProofs.v
theories/NestedProofs.v
theories/PropsLaset.v
theories/B64Nn.v
theories/MachProofs.v
theories/Lapy2Proofs.v
theories/Laqr1Proofs.v
theories/IeeeProofs.v
theories/ParamProofs.v
theories/PropsAux.v
theories/Nrm2Proofs.v
theories/Nrm2F64.v
theories/PropsNrm2.v
theories/LarfgProofs.v
theories/PropsLarfg.v
theories/LanvProofs.v
theories/PropsLanv.v
theories/LahqrProofs.v
theories/LahqrStuck.v
theories/LahqrTop.v
theories/LahqrNum.v
theories/LahqrWit.v
theories/PropsLahqr.v
theories/Laqr5Proofs.v
theories/Laqr5Shifts.v
theories/Laqr5Top.v
theories/Laqr5Wit.v
theories/PropsLaqr5.v
theories/SpecSim.v
theories/RealMat.v
theories/SimArray.v
theories/SimReflect.v
theories/SimSweep.v
theories/SimLoop.v
theories/SimTop.v
theories/PropsSim.v
theories/SpecTune.v
theories/TuneProofs.v
theories/TuneF64.v
theories/PropsTune.v
theories/SimNear.v
theories/SimFar.v
theories/SimAccum.v
theories/SimAccTop.v
theories/PropsSimAcc.v
theories/SpecErr.v
theories/RoundErr.v
theories/GemmErr.v
theories/TrmmErr.v
theories/Lapy2Err.v
theories/LibmFree.v
theories/WitLibm.v
theories/PropsErr.v
theories/AppErr.v
theories/Nrm2Err.v
theories/Nrm2Acc.v
theories/PropsNrm2Acc.v
theories/HqReal.v
theories/HqArray.v
theories/HqReflect.v
theories/HqSweep.v
theories/HqIter.v
theories/SpecHq.v
theories/HqRotRows.v
theories/HqDefl.v
theories/HqTop.v
theories/HqEig.v
theories/HqCall.v
theories/HqExample.v
theories/PropsHq.v
theories/TuneI32.v
theories/TuneI32Proofs.v
theories/PropsTuneI32.v
theories/LarfgErr.v
theories/LarfgF64.v
theories/LarfgOrth.v
theories/LarfgTop.v
theories/PropsLarfgErr.v
theories/CollapseProofs.v
theories/CollapseWit.v
theories/PropsCollapse.v
theories/Laqr5Four.v
theories/SpecShift.v
theories/Near.v
theories/Laqr1Err.v
theories/Laqr1Wit.v
theories/PropsLaqr1.v
theories/LanvCalc.v
theories/LanvRot.v
theories/LanvEq.v
theories/LanvStd.v
theories/LanvOff.v
theories/LanvReal.v
theories/LanvErr.v
theories/LanvEig.v
theories/LanvWit.v
theories/PropsLanvErr.v
theories/HqTwoF64.v
theories/HqTwoErr.v
theories/PropsLahqrErr.v
theories/HqGet.v
theories/HqErrApp.v
theories/HqErrRefl.v
theories/HqReflGen.v
theories/HqErrReal.v
theories/HqErrStep.v
theories/HqErrSweep.v
theories/HqErrStart.v
theories/HqErrPick.v
theories/HqErrNan.v
theories/HqErrIter.v
theories/SpecHqErr.v
theories/HqErrPos.v
theories/HqErrDefl.v
theories/HqErrZ.v
theories/HqErrTop.v
theories/HqErrCall.v
theories/HqErrEig.v
theories/HqErrWit.v
theories/PropsHqErr.v
theories/HqUnread.v
theories/HqGarbWit.v
theories/PropsHqUnread.v
theories/Blas1I32.v
theories/Blas1I32Proofs.v
theories/PropsBlas1I32.v
theories/SpecNan.v
theories/NanMat.v
theories/PropsNanMat.v
theories/Q5Get.v
theories/Q5ErrReal.v
theories/Q5ErrRefl.v
theories/Q5ErrStep.v
theories/Q5ErrStart.v
theories/Q5ErrVig.v
theories/Q5ErrCol.v
theories/Q5ErrLoop.v
theories/Q5ErrTop.v
theories/PropsQ5Err.v
theories/HqBlock.v
theories/HqBlockWit.v
theories/PropsHqBlock.v
theories/HqNan.v
theories/HqNanWit.v
theories/PropsHqNan.v
theories/LarfgPre.v
theories/Q5Block.v
theories/Q5BlockRun.v
theories/Q5BlockTop.v
theories/PropsQ5Block.v
theories/SpecDShift.v
theories/HqShift.v
theories/HqShiftStart.v
theories/HqShiftScan.v
theories/HqShiftIter.v
theories/PropsHqShift.v
theories/ArrInsert.v
theories/PropsInsert.v
theories/Q5Nan.v
theories/Q5NanTop.v
theories/PropsQ5Nan.v
theories/GemmPanel.v
theories/PropsPanel.v
theories/LanvIdem.v
theories/PropsLanvIdem.v
theories/SignLaws.v
theories/SignSym.v
theories/PropsSignSym.v
