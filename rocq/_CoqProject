-Q theories Verif

theories/ModelBytes.v
theories/ProofBytes.v
theories/ModelKey.v
theories/ProofKey.v
theories/ModelWire.v
theories/ModelHist.v
theories/ModelMsg.v
theories/SpecMsg.v
theories/ProofMsg.v
theories/SpecHist.v
theories/ProofHist.v
theories/ProofHist2.v
theories/PropKey.v
theories/ExampleMsg.v
theories/PropMsg.v
theories/ExampleHist.v
theories/PropHist.v
theories/ModelElen.v
theories/SpecElen.v
theories/ProofElen.v
theories/PropElen.v
theories/ModelStore.v
theories/ModelGetOp.v
theories/ModelDs.v
theories/SpecStore.v
theories/ProofStore.v
theories/ProofDs.v
theories/ProofDs2.v
theories/ProofDs3.v
theories/ProofDs4.v
theories/ProofDs5.v
theories/ExampleStore.v
theories/PropStore.v
theories/SpecGetOp.v
theories/ProofGetOp.v
theories/ProofGetOp2.v
theories/ProofGetOp3.v
theories/ExampleGetOp.v
theories/PropGetOp.v
theories/ModelRoute.v
theories/SpecRoute.v
theories/ProofRoute.v
theories/ProofRoute2.v
theories/PropRoute.v
theories/ModelClient.v
theories/SpecClient.v
theories/ProofClient.v
theories/ProofClient2.v
theories/ProofClient3.v
theories/ProofClient4.v
theories/ProofClient5.v
theories/ProofClient6.v
theories/ProofClient7.v
theories/ProofClient8.v
theories/SpecCluster.v
theories/ProofCluster.v
theories/ProofCluster2.v
theories/ProofCluster3.v
theories/ExampleClient.v
theories/ExampleClient2.v
theories/ProofClose.v
theories/PropClient.v
theories/ModelAsync.v
theories/SpecAsync.v
theories/ProofAsync.v
theories/ProofAsync2.v
theories/ProofAsync3.v
theories/ProofAsync4.v
theories/ProofAsync5.v
theories/ProofAsync6.v
theories/ProofAsync7.v
theories/ExampleAsync.v
theories/PropAsync.v
theories/ModelConf.v
theories/SpecConf.v
theories/ModelOptions.v
theories/SpecOptions.v
theories/ProofConf.v
theories/ProofOptions.v
theories/ProofOptions2.v
theories/ProofOptions3.v
theories/ProofOptions4.v
theories/ExampleConf.v
theories/PropConf.v
theories/ModelTransform.v
theories/SpecTransform.v
theories/ProofTransform.v
theories/ProofTransform2.v
theories/PropTransform.v
theories/ModelResults.v
theories/SpecResults.v
theories/ProofResults.v
theories/PropResults.v
theories/ModelBlob.v
theories/SpecBlob.v
theories/ProofBlob.v
theories/PropBlob.v
theories/ModelFloat.v
theories/ModelGen.v
theories/SpecFp.v
theories/ProofFpDecode.v
theories/ProofFpBase.v
theories/ProofFpMant.v
theories/ProofFpOrder.v
theories/ProofFpError.v
theories/ProofFpEdge.v
theories/ProofFpBits.v
theories/ProofFpLibm.v
theories/ProofFloat.v
theories/ProofFpSame.v
theories/ExampleFloat.v
theories/PropFloat.v
theories/ModelPar.v
theories/SpecPar.v
theories/ProofPar.v
theories/ProofPar2.v
theories/ProofPar3.v
theories/ProofPar4.v
theories/ProofPar5.v
theories/ProofPar6.v
theories/ExamplePar.v
theories/PropPar.v
theories/ModelHistRace.v
theories/SpecHistRace.v
theories/ProofHistRace.v
theories/ExampleHistRace.v
theories/PropHistRace.v
theories/SpecGen.v
theories/ProofGen1.v
theories/ProofGen2.v
theories/ProofGen3.v
theories/ProofGen4.v
theories/ProofGen5.v
theories/ExampleGen.v
theories/PropGen.v
theories/ModelLife.v
theories/SpecLife.v
theories/ProofLife.v
theories/ProofLife2.v
theories/ProofLife3.v
theories/ProofLife4.v
theories/ExampleLife.v
theories/PropLife.v
theories/ModelMpi.v
theories/SpecMpi.v
theories/ProofMpi.v
theories/ProofMpi2.v
theories/ProofMpi3.v
theories/ProofMpi4.v
theories/ProofMpi5.v
theories/ProofMpi7.v
theories/ModelMpiServe.v
theories/ProofMpi6.v
theories/ExampleMpi.v
theories/PropMpi.v
theories/ModelThal.v
theories/SpecThal.v
theories/ProofThal.v
theories/ProofThal2.v
theories/ProofThal3.v
theories/ModelThalServe.v
theories/ProofThal4.v
theories/SpecThal2.v
theories/ProofThal5.v
theories/ExampleThal.v
theories/PropThal.v
theories/ModelDir.v
theories/SpecDir.v
theories/ProofDir.v
theories/ProofDir2.v
theories/ProofDir3.v
theories/ProofDir4.v
theories/PropDir.v
theories/ModelLarge.v
theories/SpecLarge.v
theories/ProofLarge.v
theories/ProofLarge2.v
theories/ProofLarge3.v
theories/ProofLarge4.v
theories/ProofLarge5.v
theories/ExampleLarge.v
theories/PropLarge.v
theories/ModelStats.v
theories/SpecStats.v
theories/SpecStats2.v
theories/ProofStats.v
theories/ProofStats2.v
theories/ExampleStats.v
theories/PropStats.v
theories/SpecLost.v
theories/ProofLost.v
theories/ProofLost2.v
theories/ProofLost3.v
theories/ProofLost4.v
theories/ProofLost5.v
theories/ProofLost6.v
theories/ExampleLost.v
theories/PropLost.v
theories/SpecDsStats2.v
theories/ModelDsStats.v
theories/SpecDsStats.v
theories/ProofDsStats.v
theories/ProofDsStats2.v
theories/ProofDsStats3.v
theories/ProofDsStats4.v
theories/ProofLd.v
theories/ProofLd2.v
theories/ProofLd3.v
theories/ProofDsStats5.v
theories/ExampleDsStats.v
theories/PropDsStats.v
theories/ModelTimes.v
theories/SpecTimes.v
theories/ProofTimes.v
theories/ProofTimes2.v
theories/ProofTimes3.v
theories/ProofTimes4.v
theories/ProofTimes5.v
theories/ExampleTimes.v
theories/PropTimes.v
theories/ModelTyped.v
theories/ModelTrace.v
theories/SpecTrace.v
theories/ProofTrace.v
theories/ProofTrace2.v
theories/ProofTrace3.v
theories/ProofTrace4.v
theories/ExampleTrace.v
theories/PropTrace.v
theories/SpecTyped.v
theories/ProofTyped.v
theories/ProofTyped2.v
theories/ProofTyped3.v
theories/ExampleTyped.v
theories/PropTyped.v
theories/SpecScan.v
theories/ProofScan.v
theories/ProofScan2.v
theories/ProofScan3.v
theories/ExampleScan.v
theories/PropScan.v
theories/ModelNames.v
theories/SpecNames.v
theories/ProofNames.v
theories/ProofNames2.v
theories/ExampleNames.v
theories/PropNames.v
theories/ModelBack.v
theories/SpecBack.v
theories/ProofBack.v
theories/ProofBack2.v
theories/ProofBack3.v
theories/ProofBack4.v
theories/ProofBack5.v
theories/ExampleBack.v
theories/PropBack.v
theories/ModelLog.v
theories/SpecLog.v
theories/SpecLog2.v
theories/ProofLog.v
theories/ProofLog2.v
theories/ProofLog3.v
theories/ProofLog4.v
theories/ProofLog5.v
theories/ExampleLog.v
theories/PropLog.v
theories/ModelCli.v
theories/SpecCli.v
theories/ProofCli.v
theories/ProofCli2.v
theories/ProofCli3.v
theories/ProofCli4.v
theories/ProofCli5.v
theories/ProofCli6.v
theories/ProofCli7.v
theories/ProofCli8.v
theories/ExampleCli.v
theories/ExampleCli2.v
theories/SpecLossy.v
theories/ProofLossy.v
theories/ProofLossy2.v
theories/SpecLowest.v
theories/ProofLossy3.v
theories/ExampleLossy.v
theories/PropLossy.v
theories/SpecMixed.v
theories/SpecMixed2.v
theories/ProofMixed.v
theories/ProofMixed2.v
theories/ExampleMixed.v
theories/ExampleMixed2.v
theories/PropCli.v
theories/ModelLowest.v
theories/SpecTemps.v
theories/ProofTemps.v
theories/ProofTemps2.v
theories/ProofTemps3.v
theories/ProofTemps4.v
theories/ExampleTemps.v
theories/ProofTemps5.v
theories/PropTemps.v
theories/SpecMixed3.v
theories/ProofMixed3.v
theories/ProofMixed4.v
theories/ModelHx.v
theories/SpecHx.v
theories/ProofHx.v
theories/ProofHx2.v
theories/ModelHxPrint.v
theories/SpecHxPrint.v
theories/ProofHxPrint.v
theories/ExampleHx.v
theories/PropHx.v
theories/PropMixed.v
theories/SpecOne.v
theories/ProofOne.v
theories/ExampleOne.v
theories/PropOne.v
theories/ModelPuts.v
theories/SpecPuts.v
theories/ProofPuts.v
theories/ProofPuts2.v
theories/ProofPuts3.v
theories/ExamplePuts.v
theories/PropPuts.v
theories/ModelOwn.v
theories/SpecOwn.v
theories/ProofOwn.v
theories/ProofOwn2.v
theories/ProofOwn3.v
theories/ExampleOwn.v
theories/PropOwn.v
theories/ModelSet.v
theories/SpecSet.v
theories/ProofSet.v
theories/ExampleSet.v
theories/PropSet.v
theories/ModelClear.v
theories/ProofClear.v
theories/PropClear.v
