-Q theories Verif
theories/Num.v
theories/Py.v
theories/Tensor.v
theories/Streamable.v
theories/Meta.v
theories/Common.v
theories/Finance.v
theories/B32.v
theories/Conformance.v
theories/ER.v
theories/RealFacts.v
theories/PyFacts.v
theories/Spec.v
theories/StreamFacts.v
theories/TensorFacts.v
theories/StreamProofs.v
theories/WfFacts.v
theories/Series.v
theories/EvalFacts.v
theories/Formulas.v
theories/Implements.v
theories/ImplMeta.v
theories/ImplBasic.v
theories/ImplScalar.v
theories/ImplComp.v
theories/ImplCorr.v
theories/ImplMarket.v
theories/ImplRisk.v
theories/ImplWindow.v
theories/ImplSignal.v
theories/Library.v
theories/GenuineBase.v
theories/Genuine.v
theories/GenuineLib.v
theories/InitFacts.v
theories/InitLib.v
theories/Witness.v
theories/PropsStream.v
theories/PropsInit.v
theories/RealStats.v
theories/RealMarket.v
theories/Order.v
theories/OrderFacts.v
theories/Positions.v
theories/MovingFacts.v
theories/WitnessSeries.v
theories/PropsMoving.v
theories/WitnessReal.v
theories/PropsMovingReal.v
theories/ReturnFacts.v
theories/ZeroFacts.v
theories/PropsReturns.v
theories/SignalFacts.v
theories/StatFacts.v
theories/StatReal.v
theories/MarketFacts.v
theories/MarketReal.v
theories/WitnessMarket.v
theories/RiskFacts.v
theories/PropsSignal.v
theories/PropsStats.v
theories/PropsStatsReal.v
theories/PropsMarket.v
theories/PropsMarketReal.v
theories/WitnessRisk.v
theories/PropsRisk.v
theories/RunFacts.v
theories/SpecMeta.v
theories/JoinFacts.v
theories/TruncFacts.v
theories/ComposeFacts.v
theories/NestFacts.v
theories/WitnessMeta.v
theories/PropsMeta.v
theories/SpecHelpers.v
theories/HelperFacts.v
theories/DetailsFacts.v
theories/AutomatonFacts.v
theories/StatelessFacts.v
theories/CounterFacts.v
theories/WitnessHelpers.v
theories/PropsHelpers.v
theories/FillFacts.v
theories/MapFacts.v
theories/Structure.v
theories/StructFacts.v
theories/StructLib.v
theories/StructProofs.v
theories/WitnessFill.v
theories/PropsMap.v
theories/PropsFill.v
theories/PropsStructure.v
theories/Shapes.v
theories/ShapeFacts.v
theories/ShapeOps.v
theories/ShapeProofs.v
theories/ShapeStream.v
theories/ShapeInit.v
theories/ShapeMap.v
theories/ShapeLib.v
theories/ShapeMain.v
theories/PropsShape.v
theories/Memory.v
theories/MemoryFacts.v
theories/Linear.v
theories/RealLinear.v
theories/RealScale.v
theories/RealScale2.v
theories/PropsMemory.v
theories/PropsLinear.v
theories/Algebra.v
theories/AlgebraFacts.v
theories/VectorFacts.v
theories/PropsAlgebra.v
theories/Ieee.v
theories/Rounding.v
theories/RoundFacts.v
theories/RoundIeee.v
theories/RoundMain.v
theories/PropsRounding.v
theories/SignFacts.v
theories/SignMain.v
theories/SignPos.v
theories/PropsSigns.v
theories/MonoFacts.v
theories/MonoPos.v
theories/CounterSeeded.v
theories/Service.v
theories/ServiceFacts.v
theories/PropsService.v
theories/Vectors.v
theories/VectorRange.v
theories/VectorErrors.v
theories/PropsVector.v
theories/NormFacts.v
theories/Accuracy.v
theories/AccuracyIeee.v
theories/AccuracyFacts.v
theories/AccuracyMain.v
theories/AccuracyMarket.v
theories/AccuracyLog.v
theories/PropsAccuracy.v
theories/Frame.v
theories/SpecFrame.v
theories/FrameFacts.v
theories/PropsFrame.v
theories/Compound.v
theories/PropsCompound.v
theories/Mirror.v
theories/RealMirror.v
theories/MirrorSign.v
theories/PropsMirror.v
theories/Index.v
theories/AccuracyIndex.v
theories/IndexIeee.v
theories/Fuel.v
theories/FuelFacts.v
theories/PropsFuel.v
theories/Nan.v
theories/NanFacts.v
theories/NanNum.v
theories/PropsNan.v
theories/Super.v
theories/SuperFacts.v
theories/SuperNum.v
theories/PropsSuper.v
theories/Steady.v
theories/SteadyFacts.v
theories/SteadyTurn.v
theories/SteadyMarket.v
theories/SteadyIndex.v
theories/PropsSteady.v
theories/Agree.v
theories/AgreeFacts.v
theories/PropsAgree.v
theories/Ticks.v
theories/TickFacts.v
theories/PropsTicks.v
theories/Ints.v
theories/IntFacts.v
theories/IntErrors.v
theories/PropsInts.v
theories/Periods.v
theories/PeriodFacts.v
theories/PeriodZero.v
theories/PropsPeriods.v
theories/Roll.v
theories/RollFacts.v
theories/PropsRoll.v
theories/Clients.v
theories/ClientFacts.v
theories/PropsClients.v
theories/Line.v
theories/LineFacts.v
theories/PropsLine.v
theories/Lost.v
theories/LostFacts.v
theories/PropsLost.v
theories/Wrap.v
theories/WrapFacts.v
theories/WrapPositions.v
theories/PropsWrap.v
theories/UnitsFacts.v
theories/PropsUnits.v
theories/SwappedFacts.v
theories/PropsSwapped.v
theories/SuperMirror.v
theories/Chain.v
theories/ChainFacts.v
theories/ChainWitness.v
theories/PropsChain.v
theories/Halt.v
theories/HaltFacts.v
theories/HaltMarket.v
theories/PropsHalt.v
theories/Keep.v
theories/KeepFacts.v
theories/Raise.v
theories/RaiseFacts.v
theories/PropsRaise.v
theories/Rise.v
theories/RiseFacts.v
theories/PropsRise.v
theories/CountFacts.v
theories/PropsCount.v
theories/WrapCross.v
theories/WrapAgain.v
theories/PropsWrapComp.v
theories/PeriodZeroAtr.v
theories/FallFacts.v
theories/PropsFall.v
theories/HaltStats.v
theories/Fading.v
theories/FadingFacts.v
theories/ForgetFacts.v
theories/PropsFading.v
theories/FadingRate.v
theories/ForgetTrend.v
theories/Wrong.v
theories/WrongFacts.v
theories/PropsWrong.v
theories/WrongExtrema.v
theories/TwiceFacts.v
theories/PropsTwice.v
