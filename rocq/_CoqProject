-Q theories Verif
theories/Scalar.v
theories/FloatScalar.v
theories/Mat.v
theories/FilterBase.v
theories/FilterOps.v
theories/Ekf.v
theories/Ukf.v
theories/ForceTwoD.v
theories/SpecLin.v
theories/SpecFilter.v
theories/SpecMotion.v
theories/RLin.v
theories/RBridge.v
theories/EkfFacts.v
theories/EkfPsd.v
theories/Angles.v
theories/EkfUpdate.v
theories/Motion.v
theories/Jacobian.v
theories/Trig.v
theories/UkfProofs.v
theories/UkfUpdate.v
theories/UkfCross.v
theories/Pdef.v
theories/TwoD.v
theories/WitTwoD.v
theories/FilterExtra.v
theories/EigenExist.v
theories/NanFacts.v
theories/Estimator.v
theories/SpecEstimator.v
theories/EstimatorProofs.v
theories/FloatOrder.v
theories/EstimatorFilter.v
theories/Tf.v
theories/StrMap.v
theories/Diagnostics.v
theories/RosFilter.v
theories/RosConfig.v
theories/SpecNode.v
theories/NodeProofs.v
theories/NodeInv.v
theories/NodeFacts.v
theories/NodeTime.v
theories/NodeSmooth.v
theories/NodeMore.v
theories/NodeScenario.v
theories/NodeReach.v
theories/SpecConfig.v
theories/ConfigProofs.v
theories/ConfigAll.v
theories/ConfigFacts.v
theories/SpecTf.v
theories/TfReal.v
theories/TfRot.v
theories/TfQuat.v
theories/SpecOutput.v
theories/OutputProofs.v
theories/RosPrepare.v
theories/SpecPrepare.v
theories/PrepareProofs.v
theories/PrepareReal.v
theories/PrepareFacts.v
theories/PrepareSeq.v
theories/PrepareThm.v
theories/PrepareMotion.v
theories/PreparePsd.v
theories/PrepareRun.v
theories/PrepareGoals.v
theories/PrepareWit.v
theories/Listener.v
theories/SpecListener.v
theories/ListenerAnc.v
theories/ListenerProofs.v
theories/ListenerReal.v
theories/ListenerQuery.v
theories/ListenerStale.v
theories/ListenerGoals.v
theories/PropsEstimator.v
theories/PropsFilter.v
theories/SpecUkf.v
theories/UkfFlip.v
theories/UkfFirst.v
theories/PropsUkf.v
theories/PropsUkf2.v
theories/SpecOrder.v
theories/Order.v
theories/OrderCases.v
theories/PropsOrder.v
theories/SpecStart.v
theories/StartFacts.v
theories/PropsStart.v
theories/Access.v
theories/SpecAccess.v
theories/AccessFacts.v
theories/AccessListed.v
theories/PropsAccess.v
theories/SpecReport.v
theories/ReportFacts.v
theories/PropsReport.v
theories/SpecCommand.v
theories/CommandFacts.v
theories/PropsCommand.v
theories/SpecZone.v
theories/ZoneFacts.v
theories/PropsZone.v
theories/SpecStale.v
theories/StaleFacts.v
theories/PropsStale.v
theories/PropsNode.v
theories/PropsConfig.v
theories/PropsOutput.v
theories/PropsPrepare.v
theories/PropsListener.v
theories/Navsat.v
theories/SpecNavsat.v
theories/NavsatProofs.v
theories/NavsatTrace.v
theories/NavsatLife.v
theories/NavsatReal.v
theories/NavsatDatum.v
theories/NavsatGoals.v
theories/NavsatSim.v
theories/NavsatGoals2.v
theories/NavsatWit.v
theories/NavsatWit2.v
theories/NavsatMore.v
theories/NavsatWit3.v
theories/Conversions.v
theories/ConversionsProofs.v
theories/PropsNavsat.v
theories/SpecService.v
theories/ServiceFacts.v
theories/PropsService.v
theories/SpecPublished.v
theories/NodeCarry.v
theories/PublishedFacts.v
theories/PublishedCase.v
theories/PropsPublished.v
theories/SpecLevel.v
theories/LevelCov.v
theories/LevelPrepare.v
theories/LevelNode.v
theories/LevelCase.v
theories/PropsLevel.v
theories/SpecShift.v
theories/NodeSim.v
theories/ShiftFilter.v
theories/ShiftPrepare.v
theories/ShiftNode.v
theories/ShiftUkf.v
theories/ShiftCase.v
theories/PropsShift.v
theories/SpecTimes.v
theories/TimesFacts.v
theories/PropsTimes.v
theories/SpecTurn.v
theories/TurnMat.v
theories/TurnFilter.v
theories/TurnCase.v
theories/PropsTurn.v
theories/SpecEpoch.v
theories/EpochFilter.v
theories/EpochNode.v
theories/EpochCase.v
theories/PropsEpoch.v
theories/SpecBest.v
theories/Best.v
theories/BestCase.v
theories/PropsBest.v
theories/SpecTune.v
theories/Tune.v
theories/PropsTune.v
theories/Mains.v
theories/SpecMains.v
theories/MainsFacts.v
theories/MainsFloat.v
theories/MainsCase.v
theories/PropsMains.v
theories/SpecUtm.v
theories/UtmArc.v
theories/UtmSeries.v
theories/PropsUtm.v
theories/SpecTruth.v
theories/TruthFacts.v
theories/TruthNode.v
theories/TruthCase.v
theories/PropsTruth.v
theories/SpecSettings.v
theories/SettingsFacts.v
theories/PropsSettings.v
theories/SpecMirror.v
theories/MirrorFilter.v
theories/MirrorCase.v
theories/PropsMirror.v
theories/SpecSensor.v
theories/SensorFacts.v
theories/SensorNode.v
theories/SensorCase.v
theories/PropsSensor.v
theories/SpecReckon.v
theories/ReckonFacts.v
theories/ReckonNode.v
theories/ReckonCase.v
theories/PropsReckon.v
theories/Supervise.v
theories/SpecSupervise.v
theories/SuperviseFacts.v
theories/SuperviseCase.v
theories/PropsSupervise.v
theories/Convert.v
theories/SpecConvert.v
theories/ConvertFacts.v
theories/PropsConvert.v
theories/VerticalFacts.v
theories/PropsVertical.v
theories/RestoreFacts.v
theories/FlatRestore.v
theories/PropsRestore.v
