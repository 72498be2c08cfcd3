-Q theories Verif
theories/Base.v
theories/Lin.v
theories/LinFacts.v
theories/Mjx.v
theories/Typing.v
theories/Component.v
theories/Problem.v
theories/SpecComponent.v
theories/ComponentFacts.v
theories/ComponentFacts2.v
theories/ApiSteps.v
theories/SpecTyping.v
theories/SpecJoint.v
theories/JointFacts.v
theories/BindFacts.v
theories/BindFacts2.v
theories/SpecHistory.v
theories/BindFacts3.v
theories/CoreFacts.v
theories/SpecCollision.v
theories/CollisionPairs.v
theories/SpecProblem.v
theories/ProblemFacts.v
theories/ShareFacts.v
theories/Witness.v
theories/CompThms.v
theories/CompThms2.v
theories/BindThms.v
theories/BindThms2.v
theories/BindCases.v
theories/PropsBinding.v
theories/PropsComponent.v
theories/ProbThms.v
theories/PropsProblem.v
theories/Rot.v
theories/Conf.v
theories/IntegrateFacts.v
theories/FrameJac.v
theories/Collide.v
theories/JaxComponents.v
theories/LocalIK.v
theories/GlobalIK.v
theories/SpecQP.v
theories/QPFacts.v
theories/QPThms.v
theories/QPThms2.v
theories/QPThms3.v
theories/QPThms4.v
theories/QPThms5.v
theories/QPCases.v
theories/PropsQP.v
theories/SpecMotion.v
theories/MotionFacts.v
theories/MotionFacts2.v
theories/SpecLoop.v
theories/LoopFacts.v
theories/MotionCases.v
theories/PropsMotion.v
theories/SpecConf.v
theories/ConfFacts.v
theories/ConfFacts2.v
theories/ConfFacts3.v
theories/ConfFacts4.v
theories/SpecTree.v
theories/TreeFacts.v
theories/SpecShape.v
theories/FrameFacts.v
theories/ConfCases.v
theories/ConfThms.v
theories/PropsConf.v
theories/SpecContact.v
theories/SpecSelf.v
theories/CollideFacts.v
theories/CollideFacts2.v
theories/CollideFacts3.v
theories/CollideFacts4.v
theories/CollideCases.v
theories/PropsCollide.v
theories/SpecValue.v
theories/RotFacts.v
theories/ValueFacts.v
theories/ValueFacts2.v
theories/ValueFacts3.v
theories/ValueFacts4.v
theories/ValueCases.v
theories/ValueThms.v
theories/ValueThms2.v
theories/PropsValue.v
theories/SpecFit.v
theories/FitFacts.v
theories/FitFacts2.v
theories/FitFacts3.v
theories/FitThms.v
theories/FitCases.v
theories/PropsFit.v
theories/SpecGlobal.v
theories/GlobalFacts.v
theories/GlobalFacts2.v
theories/GlobalCases.v
theories/PropsGlobal.v
theories/JaxTree.v
theories/SpecJaxTree.v
theories/JaxTreeFacts.v
theories/JaxTreeThms.v
theories/PropsJaxTree.v
theories/Visualize.v
theories/SpecViz.v
theories/VizFacts.v
theories/VizFacts2.v
theories/VizFacts3.v
theories/Legacy.v
theories/VizThms.v
theories/VizCases.v
theories/PropsViz.v
theories/JitFacts.v
theories/PropsJit.v
theories/SpecDeriv.v
theories/DerivFacts.v
theories/DerivThms.v
theories/DerivThms2.v
theories/DerivCases.v
theories/PropsDeriv.v
theories/LogFacts.v
theories/LogFacts2.v
theories/LogThms.v
theories/LogCases.v
theories/PropsFrameJac.v
theories/SpecSettings.v
theories/SettingFacts.v
theories/SettingThms.v
theories/SettingCases.v
theories/PropsSettings.v
theories/SpecBatch.v
theories/BatchFacts.v
theories/BatchFacts2.v
theories/BatchFacts3.v
theories/BatchThms.v
theories/PropsBatch.v
theories/CompactFacts.v
theories/SpecSolve.v
theories/SolveFacts.v
theories/SolveThms.v
theories/ScaleFacts.v
theories/ScaleThms.v
theories/SolveCases.v
theories/PropsSolve.v
theories/SpecDescent.v
theories/DescentFacts.v
theories/DescentFacts2.v
theories/DescentThms.v
theories/DescentThms2.v
theories/DescentCases.v
theories/PropsDescent.v
theories/SpecMask.v
theories/MaskFacts.v
theories/MaskFacts2.v
theories/MaskCases.v
theories/PropsMask.v
theories/SpecWrap.v
theories/WrapFacts.v
theories/WrapCases.v
theories/PropsWrap.v
theories/SpecTrace.v
theories/TraceFacts.v
theories/TraceCases.v
theories/PropsTrace.v
theories/SpecSetup.v
theories/SetupFacts.v
theories/SetupFacts2.v
theories/SetupFacts3.v
theories/SetupFacts4.v
theories/SetupFacts5.v
theories/SetupCases.v
theories/PropsSetup.v
theories/SpecVmap.v
theories/VmapFacts.v
theories/VmapCases.v
theories/PropsVmap.v
theories/SpecClosed.v
theories/ClosedFacts.v
theories/ClosedFacts2.v
theories/ClosedThms.v
theories/ClosedThms2.v
theories/ClosedCases.v
theories/PropsClosed.v
theories/SpecGLoop.v
theories/GLoopFacts.v
theories/EvalFacts.v
theories/GLoopThms.v
theories/GLoopThms2.v
theories/GLoopCases.v
theories/PropsGLoop.v
theories/SpecAnyLoop.v
theories/AnyLoopThms.v
theories/AnyLoopThms2.v
theories/AnyLoopCases.v
theories/PropsAnyLoop.v
theories/SpecExact.v
theories/ExactThms.v
theories/ExactThms2.v
theories/ExactCases.v
theories/PropsExact.v
theories/SpecGoals.v
theories/GoalThms.v
theories/GoalThms2.v
theories/GoalCases.v
theories/PropsGoals.v
theories/MaskAgree.v
theories/PropsMaskAgree.v
theories/SpecExact2.v
theories/ExactThms3.v
theories/VizExact.v
theories/PropsExact2.v
theories/SpecTrade.v
theories/TradeFacts.v
theories/TradeThms.v
theories/TradeThms2.v
theories/TradeThms3.v
theories/TradeThms4.v
theories/TradeCases.v
theories/PropsTrade.v
theories/SpecTol.v
theories/TolFacts.v
theories/TolThms.v
theories/TolThms2.v
theories/TolThms3.v
theories/TolCases.v
theories/PropsTol.v
theories/SpecMove.v
theories/MoveFacts.v
theories/MoveThms.v
theories/MoveThms2.v
theories/MoveCases.v
theories/PropsMove.v
theories/SpecSplit.v
theories/SplitFacts.v
theories/FenceFacts.v
theories/SplitCases.v
theories/PropsSplit.v
theories/SpecRight.v
theories/RightThms.v
theories/RightThms2.v
theories/PropsExact3.v
theories/Alias.v
theories/SpecAlias.v
theories/AliasFacts.v
theories/AliasFacts2.v
theories/PropsAlias.v
theories/SpecGSum.v
theories/GSumFacts.v
theories/PropsGSum.v
theories/Read.v
theories/SpecRead.v
theories/ReadFacts.v
theories/ReadFacts2.v
theories/ReadFacts3.v
theories/ReadFacts4.v
theories/ReadFacts5.v
theories/ReadFacts6.v
theories/PropsRead.v
theories/SpecFields.v
theories/FieldFacts.v
theories/HashFacts.v
theories/FromData.v
theories/PropsFields.v
theories/SpecLengths.v
theories/LengthFacts.v
theories/LengthThms.v
theories/PropsLengths.v
theories/RepoTests.v
theories/SpecRows.v
theories/SpecFiles.v
theories/CollideFacts5.v
theories/FileFacts.v
theories/RowCases.v
theories/SpecRound.v
theories/RoundFacts.v
theories/RoundThms.v
theories/RoundCases.v
theories/PropsRound.v
theories/SpecStep.v
theories/StepFacts.v
theories/StepThms.v
theories/StepCases.v
theories/PropsStep.v
theories/SpecPoint.v
theories/PointFacts.v
theories/PropsPoint.v
theories/SpecTrack.v
theories/TrackFacts.v
theories/TrackCases.v
theories/PropsTrack.v
theories/SpecLanes.v
theories/LanesFacts.v
theories/LanesThms.v
theories/LanesLoop.v
theories/LanesRun.v
theories/LanesCases.v
theories/LanesCases2.v
theories/PropsLanes.v
theories/LanesAny.v
theories/SpecStacks.v
theories/StackFacts.v
theories/StackCases.v
theories/StackThms.v
theories/StackExamples.v
theories/StackWitness.v
theories/PropsStacks.v
theories/SpecGLanes.v
theories/GLanesFacts.v
theories/GLanesThms.v
theories/GLanesExamples.v
theories/PropsGLanes.v
theories/RebindFacts.v
theories/PropsRebind.v
theories/HalfTurnFacts.v
theories/PropsHalfTurn.v
theories/SpecTwist.v
theories/TwistFacts.v
theories/TwistThms.v
theories/PropsTwist.v
theories/SpecGiven.v
theories/ReadFacts7.v
theories/PropsGiven.v
theories/SpecNear.v
theories/NearFacts.v
theories/NearThms.v
theories/PropsNear.v
theories/SpecOnly.v
theories/OnlyThms.v
theories/PropsOnly.v
theories/AwayThms.v
theories/AwayCases.v
theories/PropsAway.v
theories/DriftThms.v
theories/DriftCases.v
theories/PropsDrift.v
theories/SpecDrift.v
theories/DriftSolve.v
theories/PropsStray.v
theories/CrossThms.v
theories/CrossCases.v
theories/PropsCross.v
theories/SlipThms.v
theories/SlipCases.v
theories/PropsSlip.v
theories/BallSolve.v
theories/PropsBalls.v
theories/DoubleThms.v
theories/DoubleCases.v
theories/PropsDouble.v
theories/FloatCases.v
theories/PropsFloat.v
