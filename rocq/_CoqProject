-Q theories Verif
theories/Arith.v
theories/ArithR.v
theories/ArithF.v
theories/Mem.v
theories/FirModel.v
theories/IirModel.v
theories/Tables.v
theories/ResamplerModel.v
theories/Wp.v
theories/FirKernel.v
theories/FirUpProof.v
theories/Stage.v
theories/FirUpStage.v
theories/FirDownProof.v
theories/FirDownStage.v
theories/IirProof.v
theories/IirStage.v
theories/IirSseStage.v
theories/Cascade.v
theories/ResamplerProof.v
theories/ResamplerOk.v
theories/Spec.v
theories/SpecOk.v
theories/SpecR.v
theories/Client.v
theories/Feed.v
theories/Param.v
theories/Twin.v
theories/StreamFacts.v
theories/DelayFacts.v
theories/LinFacts.v
theories/CallFacts.v
theories/IirCalls.v
theories/ConfigFacts.v
theories/TablesF.v
theories/TableFacts.v
theories/FirReal.v
theories/TrigPoly.v
theories/FreqFir.v
theories/Tones.v
theories/Cases.v
theories/FloatComm.v
theories/FloatSum.v
theories/FloatFir.v
theories/FloatErr.v
theories/PropsStream.v
theories/PropsCalls.v
theories/PropsConfig.v
theories/PropsFir.v
theories/PropsFreq.v
theories/TonesProof.v
theories/PropsTones.v
theories/PropsKernel.v
theories/PropsFloat.v
theories/IirReal.v
theories/PropsIir.v
theories/FirEnergy.v
theories/PropsEnergy.v
theories/Session.v
theories/PropsLimits.v
theories/AlignedModel.v
theories/AlignedProof.v
theories/PropsAligned.v
theories/DesignerModel.v
theories/DesignerProof.v
theories/DesignerPhase.v
theories/DesignerGdly.v
theories/DesignerTables.v
theories/PropsDesigner.v
theories/IirPhase.v
theories/IirCert.v
theories/IirLag.v
theories/IirFreq.v
theories/IirDelay.v
theories/IirSine.v
theories/PropsIirFreq.v
theories/IirTones.v
theories/PropsIirTones.v
theories/FloatIir.v
theories/FloatDrift.v
theories/PropsFloatIir.v
theories/TestModel.v
theories/TestProof.v
theories/PropsTest.v
theories/FloatFreq.v
theories/PropsFloatFreq.v
theories/PropsFloatTones.v
theories/PropsFloatIirTones.v
theories/AccuracyModel.v
theories/AccuracyProof.v
theories/AccuracySine.v
theories/PropsAccuracy.v
theories/ToneAt.v
theories/MultiModel.v
theories/MultiProof.v
theories/MultiSine.v
theories/MultiRead.v
theories/PropsMulti.v
theories/Recover.v
theories/NanIir.v
theories/PropsRecover.v
theories/LitProof.v
theories/Impulse.v
theories/PropsLit.v
theories/ExampleModel.v
theories/ExampleProof.v
theories/PropsExample.v
theories/PropsRatio.v
theories/SplitModel.v
theories/SplitProof.v
theories/SplitReal.v
theories/PropsSplit.v
theories/NegProof.v
theories/NegReal.v
theories/PropsNeg.v
theories/BigBlock.v
theories/PropsBig.v
theories/OptModel.v
theories/OptProof.v
theories/PropsOptions.v
theories/FirDesign.v
theories/FirDesignDeriv.v
theories/FirUnique.v
theories/FixInt.v
theories/FirDesignProof.v
theories/FirCert.v
theories/FirDesignCert.v
theories/PropsFirDesign.v
theories/OverRead.v
theories/ToolsModel.v
theories/ToolsProof.v
theories/ToolsArrays.v
theories/ToolsSine.v
theories/PropsTools.v
theories/RunModel.v
theories/RunProof.v
theories/RunImpulse.v
theories/PropsRun.v
theories/ErrorModel.v
theories/Blackman.v
theories/ErrorProof.v
theories/PropsError.v
theories/SawModel.v
theories/SawProof.v
theories/SawReal.v
theories/PropsSaw.v
theories/Tail.v
theories/Hum.v
theories/PropsTail.v
theories/MainModel.v
theories/PropsMain.v
theories/PropsDesignMono.v
theories/IirTripInj.v
theories/FirTripInj.v
theories/PropsIirLoss.v
