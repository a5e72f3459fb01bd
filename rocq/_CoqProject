-Q theories Verif

theories/Base.v
theories/Pack3d.v
theories/Pack3dProofs.v
theories/Pack2d.v
theories/Pack2dProofs.v
theories/Sched.v
theories/SchedProofs.v
theories/MemProofs.v
theories/Phases.v
theories/Remap.v
theories/RemapPlan.v
theories/RemapProofs.v
theories/RemapTriple.v
theories/RemapMain.v
theories/Spec.v
theories/Remap3d.v
theories/Remap2d.v
theories/RemapInst.v
theories/Exec.v
theories/RemapThms.v
theories/RemapTop.v
theories/PackTop.v
theories/ExRemap.v
theories/RemapFinal.v
theories/PropertiesRemap.v
theories/Layout.v
theories/LayoutProofs.v
theories/Double.v
theories/DoubleProofs.v
theories/Count.v
theories/Setup3d.v
theories/Setup3dProofs.v
theories/Setup2d.v
theories/Setup2dProofs.v
theories/LayoutFinal.v
theories/PropertiesLayout.v
theories/Kiss.v
theories/KissPure.v
theories/KissFactor.v
theories/KissAlg.v
theories/KissReal.v
theories/Fft1d.v
theories/KissFinal.v
theories/PropertiesKiss.v
theories/Fft3d.v
theories/Frame.v
theories/Fft3dProofs.v
theories/Fft3dMain.v
theories/DftMulti.v
theories/Fft3dTop.v
theories/Fft3dFinal.v
theories/Fft3dStmt.v
theories/Fft3dEx.v
theories/PropertiesFft3d.v
theories/Fft2d.v
theories/Fft2dMain.v
theories/Fft2dTop.v
theories/Fft2dFinal.v
theories/Fft2dStmt.v
theories/Fft2dEx.v
theories/PropertiesFft2d.v
theories/Life.v
theories/LifeProofs.v
theories/LifeFft.v
theories/LifeObj.v
theories/Tune.v
theories/TuneProofs.v
theories/TuneNum.v
theories/TuneTop.v
theories/Proto.v
theories/ProtoProofs.v
theories/TuneFinal.v
theories/MemUse.v
theories/LifeEx.v
theories/TuneReal.v
theories/TuneEx.v
theories/TuneStat.v
theories/TuneTime.v
theories/TuneStatEx.v
theories/PropertiesLife.v
theories/Wrap.v
theories/WrapProofs.v
theories/PropertiesWrap.v
theories/Overflow.v
theories/OverflowProofs.v
theories/OverflowFft.v
theories/OverflowTop.v
theories/PropertiesOverflow.v
theories/Spmd.v
theories/SpmdProofs.v
theories/SpmdSetup.v
theories/PropertiesSpmd.v
theories/Only1d.v
theories/PropertiesOnly1d.v
theories/Binary.v
theories/Round.v
theories/RoundKiss.v
theories/RoundFft.v
theories/RoundThms.v
theories/RoundDouble.v
theories/RoundTable.v
theories/RoundFinal.v
theories/PropertiesRound.v
theories/RoundL2.v
theories/RoundL2Fft.v
theories/RoundL2Thms.v
theories/RoundL2Final.v
theories/PropertiesL2.v
theories/Backend.v
theories/BackendProofs.v
theories/BackendFinal.v
theories/PropertiesBackend.v
theories/TestProg.v
theories/TestLayProofs.v
theories/TestDataProofs.v
theories/TestRunProofs.v
theories/TestMainProofs.v
theories/TestFinal.v
theories/TestTop.v
theories/PropertiesTest.v
theories/TestOpt.v
theories/TestOptProofs.v
theories/TestOutProofs.v
theories/TestOptTop.v
theories/TestOptItems.v
theories/TestNum.v
theories/PropertiesTest2.v
theories/TestRound.v
theories/TestRoundRun.v
theories/TestRoundTop.v
theories/PropertiesTest3.v
theories/Bind.v
theories/BindSpec.v
theories/BindProofs.v
theories/BindLife.v
theories/PropertiesBind.v
theories/Ops.v
theories/OpsSeq.v
theories/OpsProofs.v
theories/OpsTop.v
theories/PropertiesOps.v
theories/Objects.v
theories/ObjectsEx.v
theories/PropertiesObjects.v
theories/Volume.v
theories/VolumeFft.v
theories/PropertiesVolume.v
theories/Oom.v
theories/OomProofs.v
theories/PropertiesOom.v
theories/TestSurf.v
theories/Port.v
theories/PortLay.v
theories/PortOpt.v
theories/PortNum.v
theories/PortData.v
theories/PortFinal.v
theories/PropertiesPort.v
theories/TestNorm.v
theories/TestNormTop.v
theories/PropertiesNorm.v
theories/Fma.v
theories/FmaProofs.v
theories/FmaFinal.v
theories/DoubleFma.v
theories/PropertiesFma.v
theories/PropertiesTune.v
theories/Report.v
theories/ReportProofs.v
theories/ReportCpp.v
theories/ReportPort.v
theories/ReportEx.v
theories/PropertiesReport.v
theories/Pack32.v
theories/Pack32Proofs.v
theories/Pack32Proofs2.v
theories/Pack32Top.v
theories/Pack32Ex.v
theories/PropertiesPack32.v
theories/Remap32.v
theories/Remap32Sim.v
theories/Remap32Proofs.v
theories/Remap32Top.v
theories/Remap32Fft.v
theories/Remap32Ex.v
theories/PropertiesRemap32.v
theories/Bits.v
theories/BitsEx.v
theories/PropertiesBits.v
theories/Extract.v
theories/ExtractEx.v
theories/PropertiesExtract.v
theories/Traffic.v
theories/TrafficEx.v
theories/PropertiesTraffic.v
theories/ConvMath.v
theories/Convolve.v
theories/ConvolveEx.v
theories/PropertiesConvolve.v
theories/Remap32Ops.v
theories/TestInt.v
theories/TestIntProofs.v
theories/Remap32Main.v
theories/PropertiesOps32.v
theories/SymMath.v
theories/Laws.v
theories/LawsEx.v
theories/PropertiesLaws.v
theories/Screen.v
theories/ScreenProofs.v
theories/ScreenOrder.v
theories/ScreenTop.v
theories/PropertiesScreen.v
theories/ScreenInt.v
theories/ScreenIntProofs.v
theories/PropertiesScreenInt.v
