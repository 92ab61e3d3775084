-Q theories Verif
theories/Fp.v
theories/FpFacts.v
theories/Scalar.v
theories/Base.v
theories/LinAlg.v
theories/Msg.v
theories/DataLoader.v
theories/LoaderSpec.v
theories/LoaderFacts.v
theories/InterpFacts.v
theories/LoaderWitness.v
theories/PropLoader.v
theories/FeatureManager.v
theories/FrameManager.v
theories/Window.v
theories/WindowSpec.v
theories/FrameFacts.v
theories/FeatureFacts.v
theories/WindowFacts.v
theories/WindowWitness.v
theories/PropWindow.v
theories/MathLib.v
theories/Attitude.v
theories/Propagator.v
theories/QueueSpec.v
theories/AttitudeFacts.v
theories/PropagatorFacts.v
theories/QueueWitness.v
theories/PropQueue.v
theories/MatFacts.v
theories/QuatFacts.v
theories/NumSpec.v
theories/CovFacts.v
theories/MotionFacts.v
theories/AttNumFacts.v
theories/AttNanFacts.v
theories/ProcSpec.v
theories/ProcFacts.v
theories/NumWitness.v
theories/PropNumeric.v
theories/Triangulate.v
theories/Pnp.v
theories/GeoSpec.v
theories/TriFacts.v
theories/PnpFacts.v
theories/GeoWitness.v
theories/P3pFacts.v
theories/PropGeometry.v
theories/VisionUpdate.v
theories/UpdSpec.v
theories/UpdCovFacts.v
theories/KalmanFacts.v
theories/MeasFacts.v
theories/SelectFacts.v
theories/UnitFacts.v
theories/DerivSpec.v
theories/DerivFacts.v
theories/Backend.v
theories/BackendSpec.v
theories/BackLenFacts.v
theories/InjectSpec.v
theories/InjectFacts.v
theories/SafeFacts.v
theories/NarrowFacts.v
theories/BackDimFacts.v
theories/BackSafeFacts.v
theories/BackTimeFacts.v
theories/BiasSpec.v
theories/BackBiasFacts.v
theories/BackWitness.v
theories/Config.v
theories/ConfigSpec.v
theories/ConfigFacts.v
theories/RotFacts.v
theories/MountFacts.v
theories/ConfigWitness.v
theories/App.v
theories/AppSpec.v
theories/AppFacts.v
theories/AppWitness.v
theories/AppLineFacts.v
theories/PropApp.v
theories/UpdWitness.v
theories/PropUpdate.v
theories/PropBackend.v
theories/PropConfig.v
theories/RunSpec.v
theories/UnitRunFacts.v
theories/CovRunFacts.v
theories/JacobiFacts.v
theories/RunWitness.v
theories/PropRun.v
theories/LinSpec.v
theories/LinFacts.v
theories/PropLin.v
theories/QrFacts.v
theories/BlindSpec.v
theories/BlindFacts.v
theories/BlindWitness.v
theories/PropBlind.v
theories/PiSpec.v
theories/PiFacts.v
theories/PropPi.v
theories/InitSpec.v
theories/InitFacts.v
theories/InitWitness.v
theories/PropInit.v
theories/LmSpec.v
theories/LmFacts.v
theories/LmRoundSpec.v
theories/LmStillFacts.v
theories/PropLm.v
theories/StepSpec.v
theories/StepFacts.v
theories/PropStep.v
theories/TruthSpec.v
theories/TruthFacts.v
theories/TruthRunFacts.v
theories/TruthResetFacts.v
theories/TruthWitness.v
theories/PropTruth.v
theories/FlowSpec.v
theories/FlowFacts.v
theories/FlowWitness.v
theories/PropFlow.v
theories/FeedbackFacts.v
theories/FeedbackWitness.v
theories/PropFeedback.v
theories/TrimFacts.v
theories/TrimWitness.v
theories/PropTrim.v
theories/NanSpec.v
theories/NanFacts.v
theories/NanWitness.v
theories/PropNan.v
theories/AppGeometry.v
theories/AppGeoFacts.v
theories/AppPnpFacts.v
theories/PropAppGeo.v
theories/BundleSpec.v
theories/BundleFacts.v
theories/ChoiceFacts.v
theories/BundleWitness.v
theories/UnlocWitness.v
theories/PropBundle.v
theories/Timer.v
theories/TimerSpec.v
theories/TimerFacts.v
theories/PropTimer.v
theories/Print.v
theories/PrintSpec.v
theories/PrintFacts.v
theories/PrintWitness.v
theories/PropPrint.v
theories/MisfitSpec.v
theories/MisfitFacts.v
theories/MisfitWitness.v
theories/PropMisfit.v
theories/WholeSpec.v
theories/ParallaxFacts.v
theories/WholeFacts.v
theories/WholeRunFacts.v
theories/WholeWitness.v
theories/PropWhole.v
theories/FloatFacts.v
theories/FloatSpec.v
theories/FloatUnitFacts.v
theories/FloatQueueFacts.v
theories/FloatZeroFacts.v
theories/FloatWitness.v
theories/PropFloat.v
theories/FloatExpr.v
theories/FloatStepSpec.v
theories/FloatStepFacts.v
theories/FloatDriftFacts.v
theories/FloatStepWitness.v
theories/PropFloatStep.v
theories/NanImageSpec.v
theories/NanImageFacts.v
theories/NanImageWitness.v
theories/PropNanImage.v
theories/HelperSpec.v
theories/HelperFacts.v
theories/CovisFacts.v
theories/HelperWitness.v
theories/PropHelper.v
theories/DriftSpec.v
theories/DriftFacts.v
theories/DriftWitness.v
theories/PropDrift.v
theories/SymSpec.v
theories/SymFacts.v
theories/SymWitness.v
theories/PropSym.v
theories/ApiSpec.v
theories/ApiFacts.v
theories/PropApi.v
theories/YawSpec.v
theories/YawFacts.v
theories/YawWitness.v
theories/PropYaw.v
theories/RigidSpec.v
theories/RigidFacts.v
theories/RigidWitness.v
theories/PropRigid.v
theories/TriAxesSpec.v
theories/TriAxesFacts.v
theories/PropTriAxes.v
theories/PnpAxesSpec.v
theories/PnpAxesFacts.v
theories/PropPnpAxes.v
theories/OrderFacts.v
theories/PropOrder.v
theories/StillSpec.v
theories/StillFacts.v
theories/PropStill.v
