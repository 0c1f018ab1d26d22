-Q theories Verif
theories/Prelude.v
theories/PreludeFacts.v
theories/GridModel.v
theories/GridSpec.v
theories/GridProofs.v
theories/GridNeighbors.v
theories/GridThm.v
theories/P_Grid.v
theories/Num.v
theories/GeoModel.v
theories/TabFacts.v
theories/GeoSpec.v
theories/GeoProofs.v
theories/GeoThm.v
theories/P_Geo.v
theories/PropModel.v
theories/PropSpec.v
theories/PropProofs.v
theories/TransProofs.v
theories/MatrixProofs.v
theories/AgreeProofs.v
theories/PropThm.v
theories/P_Prop.v
theories/CacheModel.v
theories/CacheSpec.v
theories/CacheProofs.v
theories/CacheThm.v
theories/P_Cache.v
theories/AliasModel.v
theories/AliasSpec.v
theories/AliasThm.v
theories/P_Alias.v
theories/UnitsModel.v
theories/UnitsSpec.v
theories/UnitsThm.v
theories/P_Units.v
theories/ScalerModel.v
theories/ScalerSpec.v
theories/ScalerThm.v
theories/P_Scaler.v
theories/CompileModel.v
theories/CompileSpec.v
theories/CompileThm.v
theories/P_Compile.v
theories/HelperModel.v
theories/HelperThm.v
theories/P_Helper.v
theories/BlackOilModel.v
theories/FdmModel.v
theories/MonadFacts.v
theories/Samples.v
theories/QSamples.v
theories/WellSpec.v
theories/WellThm.v
theories/P_Well.v
theories/FaceFacts.v
theories/EqvFacts.v
theories/BoundarySpec.v
theories/BoundaryThm.v
theories/P_Boundary.v
theories/ModelSpec.v
theories/HistSpec.v
theories/ModelFacts.v
theories/InvFacts.v
theories/SumFacts.v
theories/VectFacts.v
theories/AsmFacts.v
theories/TiedFacts.v
theories/SampleFacts.v
theories/AssemblyThm.v
theories/P_Assembly.v
theories/StepSpec.v
theories/SolverSpec.v
theories/StepFacts.v
theories/WellStepFacts.v
theories/SampleWell.v
theories/StepThm.v
theories/P_Step.v
theories/SolveSpec.v
theories/SolveFacts.v
theories/DryFacts.v
theories/WpFacts.v
theories/SolveThm.v
theories/P_Solve.v
theories/FdmSpec.v
theories/MemoModel.v
theories/FdmThm.v
theories/P_Fdm.v
theories/BalanceSpec.v
theories/CanonFacts.v
theories/LinFacts.v
theories/NbrFacts.v
theories/SymbFacts.v
theories/BalFacts.v
theories/FormFacts.v
theories/StepBal.v
theories/SetupFacts.v
theories/SampleBal.v
theories/BalanceThm.v
theories/SamplePath.v
theories/PathThm.v
theories/P_Path.v
theories/P_Balance.v
theories/MixFacts.v
theories/ClosedSpec.v
theories/ClosedFacts.v
theories/SampleClosed.v
theories/ClosedThm.v
theories/P_Closed.v
theories/FrameModel.v
theories/FrameSpec.v
theories/FrameFacts.v
theories/FrameThm.v
theories/P_Frame.v
theories/AnalyticModel.v
theories/AnalyticSpec.v
theories/AnalyticFacts.v
theories/AnalyticThm.v
theories/P_Analytic.v
theories/LocalSpec.v
theories/SampleLocal.v
theories/LocalThm.v
theories/P_Local.v
theories/TotalSpec.v
theories/TotalFacts.v
theories/TotalStep.v
theories/TotalHist.v
theories/TotalSet.v
theories/TotalThm.v
theories/P_Total.v
theories/ChangeSpec.v
theories/ChangeFacts.v
theories/ChangeThm.v
theories/P_Change.v
theories/LimitSpec.v
theories/LimitFacts.v
theories/SampleLimit.v
theories/LimitThm.v
theories/P_Limit.v
theories/ScaleModel.v
theories/ScaleSpec.v
theories/ScaleFacts.v
theories/ScaleState.v
theories/ScaleFull.v
theories/ScaleRange.v
theories/ScaleThm.v
theories/P_Scale.v
theories/CompareSpec.v
theories/CompareFacts.v
theories/SampleCompare.v
theories/CompareThm.v
theories/P_Compare.v
theories/EvolveSpec.v
theories/EvolveFacts.v
theories/EvolveThm.v
theories/P_Evolve.v
theories/SuperSpec.v
theories/SuperFacts.v
theories/SampleSuper.v
theories/SuperThm.v
theories/P_Super.v
theories/PieceSpec.v
theories/PieceFacts.v
theories/PieceThm.v
theories/P_Piece.v
theories/MemoSpec.v
theories/MemoFacts.v
theories/MemoThm.v
theories/P_Memo.v
theories/CalcModel.v
theories/CalcThm.v
theories/P_Calc.v
theories/KeptSpec.v
theories/KeptFacts.v
theories/KeptPres.v
theories/KeptThm.v
theories/P_Kept.v
theories/RecipSpec.v
theories/RecipFacts.v
theories/RecipThm.v
theories/P_Recip.v
theories/OrderSpec.v
theories/OrderFacts.v
theories/OrderThm.v
theories/P_Order.v
theories/WorldModel.v
theories/WorldSpec.v
theories/WorldFacts.v
theories/WorldThm.v
theories/P_World.v
theories/SettleSpec.v
theories/SettleFacts.v
theories/SettleThm.v
theories/P_Settle.v
theories/FormatModel.v
theories/FormatSpec.v
theories/FormatFacts.v
theories/FormatThm.v
theories/P_Format.v
theories/SynonymModel.v
theories/SynonymSpec.v
theories/SynonymFacts.v
theories/SynonymThm.v
theories/P_Synonym.v
theories/TurnSpec.v
theories/TurnGeo.v
theories/TurnRock.v
theories/TurnFacts.v
theories/SampleTurn.v
theories/TurnThm.v
theories/P_Turn.v
theories/SampleRaise.v
theories/RaiseThm.v
theories/P_Raise.v
theories/ThreadSpec.v
theories/ThreadThm.v
theories/P_Thread.v
theories/CornerThm.v
theories/P_Corner.v
theories/SampleEase.v
theories/EaseThm.v
theories/P_Ease.v
theories/QueryModel.v
theories/QuerySpec.v
theories/QueryFacts.v
theories/QueryThm.v
theories/P_Query.v
theories/RefModel.v
theories/RefSpec.v
theories/RefFacts.v
theories/RefThm.v
theories/P_Ref.v
theories/RadiusFacts.v
theories/PictureModel.v
theories/PictureSpec.v
theories/PictureThm.v
theories/P_Picture.v
theories/Tests.v
