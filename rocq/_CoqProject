-Q theories Verif
theories/Base_XR.v
theories/Base_Np.v
theories/Base_NpFacts.v
theories/Base_Percentile.v
theories/Base_Interp.v
theories/Base_Mono.v
theories/Model_Geo.v
theories/Spec_Geo.v
theories/Proof_Geo.v
theories/Prop_Geo.v
theories/Model_Noise.v
theories/Model_F64.v
theories/Spec_F64.v
theories/Spec_Noise.v
theories/Proof_Noise.v
theories/Proof_F64.v
theories/Prop_Noise.v
theories/Model_DbTable.v
theories/Model_Db.v
theories/Spec_Db.v
theories/Proof_Db.v
theories/Model_Scenario.v
theories/Spec_Scenario.v
theories/Proof_Scenario.v
theories/Model_Sensor.v
theories/Proof_Sensor.v
theories/Proof_Store.v
theories/Prop_Db.v
theories/Prop_Scenario.v
theories/Proof_Percentile.v
theories/Prop_Sensor.v
theories/Model_Rad.v
theories/Spec_Rad.v
theories/Proof_Rad.v
theories/Proof_Snr.v
theories/Proof_Pe.v
theories/Proof_RadP.v
theories/Proof_RadX.v
theories/Prop_Rad.v
theories/Base_Int.v
theories/Model_Otf.v
theories/Spec_Otf.v
theories/Proof_Lens.v
theories/Proof_Aper.v
theories/Proof_Defocus.v
theories/Proof_AperP.v
theories/Prop_Aper.v
theories/Spec_Defocus.v
theories/Num_Defocus.v
theories/Prop_Defocus.v
theories/Proof_Otf.v
theories/Proof_Turb.v
theories/Proof_OtfX.v
theories/Num_Otf.v
theories/Prop_Otf.v
theories/Spec_Filter.v
theories/Proof_Filter.v
theories/Proof_Weight.v
theories/Spec_System.v
theories/Proof_System.v
theories/Prop_System.v
theories/Spec_Chain.v
theories/Proof_SystemX.v
theories/Prop_Chain.v
theories/Model_Img.v
theories/Spec_Img.v
theories/Proof_Slice.v
theories/Proof_Psf.v
theories/Proof_Image.v
theories/Spec_Blur.v
theories/Proof_ImgX.v
theories/Prop_Img.v
theories/Model_Met.v
theories/Spec_Met.v
theories/Proof_Edge.v
theories/Proof_Giqe.v
theories/Num_Met.v
theories/Proof_Contrast.v
theories/Proof_Niirs.v
theories/Proof_NiirsDemo.v
theories/Spec_Quality.v
theories/Proof_MetX.v
theories/Prop_Met.v
theories/Model_Sim.v
theories/Spec_Sim.v
theories/Proof_Refl.v
theories/Proof_Even.v
theories/Proof_Sim.v
theories/Proof_SimT.v
theories/Proof_SimP.v
theories/Proof_SimDemo.v
theories/Proof_SimX.v
theories/Proof_SimCal.v
theories/Prop_Sim.v
theories/Model_Plot.v
theories/Spec_Plot.v
theories/Proof_Plot.v
theories/Prop_Plot.v
theories/Spec_Horizon.v
theories/Num_Horizon.v
theories/Spec_Test.v
theories/Num_TestTac.v
theories/Num_TestGeo.v
theories/Num_TestOtf.v
theories/Num_TestRad.v
theories/Num_TestSim.v
theories/Num_TestImg.v
theories/Proof_Horizon.v
theories/Prop_Horizon.v
theories/Spec_Trade.v
theories/Proof_Trade.v
theories/Proof_TradeDemo.v
theories/Prop_Trade.v
theories/Proof_Dull.v
theories/Proof_DullRun.v
theories/Proof_DullDemo.v
theories/Prop_Dull.v
theories/Proof_Round.v
theories/Proof_Nadir.v
theories/Proof_NanSpread.v
theories/Prop_Nadir.v
theories/Spec_Turn.v
theories/Proof_Turn.v
theories/Proof_TurnDemo.v
theories/Prop_Turn.v
theories/Spec_Gain.v
theories/Proof_Gain.v
theories/Proof_GainSim.v
theories/Proof_GainDemo.v
theories/Prop_Gain.v
theories/Proof_Stack.v
theories/Proof_Rated.v
theories/Proof_StackDemo.v
theories/Prop_Stack.v
theories/Model_Session.v
theories/Spec_Session.v
theories/Proof_Session.v
theories/Proof_Replay.v
theories/Prop_Session.v
theories/Spec_TurnSim.v
theories/Proof_TurnSim.v
theories/Proof_TurnSimDemo.v
theories/Prop_TurnSim.v
theories/Model_F64Size.v
theories/Spec_F64Size.v
theories/Proof_F64Size.v
theories/Proof_Native.v
theories/Proof_NativeDemo.v
theories/Prop_Native.v
theories/Spec_Centre.v
theories/Proof_Centre.v
theories/Proof_CentreX.v
theories/Proof_CentreDemo.v
theories/Prop_Centre.v
theories/Model_F64Db.v
theories/Spec_F64Db.v
theories/Proof_F64Blend.v
theories/Proof_F64Db.v
theories/Proof_F64Load.v
theories/Proof_F64Band.v
theories/Proof_F64DbDemo.v
theories/Prop_F64Db.v
theories/Prop_F64Band.v
theories/Spec_Apply.v
theories/Proof_Apply.v
theories/Prop_Apply.v
theories/Spec_Reading.v
theories/Proof_Reading.v
theories/Prop_Reading.v
theories/Spec_Whole.v
theories/Proof_Whole.v
theories/Prop_Whole.v
theories/Spec_Rating.v
theories/Proof_Rating.v
theories/Prop_Rating.v
theories/Proof_Wide.v
theories/Prop_Wide.v
theories/Proof_Baseline.v
theories/Proof_BaselineDemo.v
theories/Spec_Baseline.v
theories/Proof_BaselineRows.v
theories/Prop_Baseline.v
theories/Model_F64Slice.v
theories/Proof_F64Slice.v
theories/Prop_F64Slice.v
theories/Model_F64Aperture.v
theories/Spec_F64Aperture.v
theories/Num_PiF64.v
theories/Proof_F64Aper1.v
theories/Proof_F64Aper2.v
theories/Proof_F64Aper3.v
theories/Proof_F64Aper4.v
theories/Proof_F64Aper5.v
theories/Proof_F64Aper6.v
theories/Proof_F64Aper7.v
theories/Proof_F64Aper8.v
theories/Proof_F64Libm.v
theories/Prop_F64Aperture.v
theories/Proof_Fried.v
theories/Proof_FriedBv.v
theories/Num_Fried.v
theories/Num_FriedPath.v
theories/Prop_Fried.v
theories/Model_Defaults.v
theories/Spec_Defaults.v
theories/Proof_Defaults.v
theories/Prop_Defaults.v
theories/Num_TestDb.v
theories/Num_Planck.v
theories/Prop_Planck.v
theories/Model_F64Rad.v
theories/Spec_F64Rad.v
theories/Num_LnF64.v
theories/Proof_F64Rel.v
theories/Proof_F64Rad.v
theories/Proof_F64RadDemo.v
theories/Prop_F64Rad.v
theories/Spec_Sample.v
theories/Proof_Sample.v
theories/Proof_SampleDemo.v
theories/Prop_Sample.v
theories/Spec_Raises.v
theories/Proof_Raises.v
theories/Prop_Raises.v
theories/Spec_Nonfinite.v
theories/Proof_Nonfinite.v
theories/Prop_Nonfinite.v
theories/Spec_EdgeError.v
theories/Proof_EdgeError.v
theories/Proof_Overshoot.v
theories/Prop_EdgeError.v
theories/Spec_EdgeSystem.v
theories/Proof_EdgeSystem.v
theories/Prop_EdgeSystem.v
theories/Spec_Kernel64.v
theories/Proof_Kernel64.v
theories/Prop_Kernel64.v
theories/Spec_Conditioning.v
theories/Proof_Conditioning.v
theories/Proof_Relative.v
theories/Prop_Conditioning.v
theories/Spec_Columns.v
theories/Proof_Columns.v
theories/Prop_Columns.v
theories/Proof_IntErrors.v
theories/Prop_IntErrors.v
theories/Spec_Blind.v
theories/Proof_Blind.v
theories/Prop_Blind.v
theories/Spec_Tables.v
theories/Proof_Tables.v
theories/Proof_Focal.v
theories/Spec_Stray.v
theories/Proof_Stray.v
theories/Prop_Tables.v
theories/Prop_Stray.v
