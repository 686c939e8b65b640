-Q theories Verif
theories/Ord.v
theories/IntervalsModel.v
theories/IntervalsSpec.v
theories/IntervalsProofs.v
theories/AggregateProofs.v
theories/IntervalsMoreProofs.v
theories/PropIntervals.v
theories/CoefModel.v
theories/CoefSpec.v
theories/CoefProofs.v
theories/ValidityProofs.v
theories/CoefMoreProofs.v
theories/PropCoef.v
theories/EvalModel.v
theories/EvalProofs.v
theories/DecomposeSpec.v
theories/DecomposeProofs.v
theories/DecomposeClosed.v
theories/EvalMoreProofs.v
theories/PropEval.v
theories/BisectModel.v
theories/BisectSpec.v
theories/BisectProofs.v
theories/ROrd.v
theories/InterpModel.v
theories/InterpSpec.v
theories/InterpProofs.v
theories/PropInterp.v
theories/SparseModel.v
theories/SparseSpec.v
theories/SparseProofs.v
theories/SnapshotProofs.v
theories/SeriesModel.v
theories/SeriesProofs.v
theories/SizeModel.v
theories/SizeProofs.v
theories/PropSparse.v
theories/TimeModel.v
theories/TimeSpec.v
theories/TimeProofs.v
theories/DecimalProofs.v
theories/PropTime.v
theories/LegendreSpec.v
theories/LegendrePoly.v
theories/ArrModel.v
theories/LegendreModel.v
theories/LoopProofs.v
theories/LegendreGauss.v
theories/LegendreLow.v
theories/LegendreHigh.v
theories/LegendreProofs.v
theories/PropLegendre.v
theories/PropBuffers.v
theories/GeoModel.v
theories/ShEvalModel.v
theories/ShEvalSpec.v
theories/ShEvalSum.v
theories/ShEvalDeriv.v
theories/ShEvalHarmonic.v
theories/ShEvalProofs.v
theories/ShEvalGradProofs.v
theories/ShEvalLinProofs.v
theories/ShEvalExamples.v
theories/PropShEval.v
theories/CoordModel.v
theories/CoordSpec.v
theories/Atan2Proofs.v
theories/FerrariProofs.v
theories/CoordProofs.v
theories/ConvertProofs.v
theories/FrameProofs.v
theories/DipoleProofs.v
theories/ShFrameProofs.v
theories/CoordExamples.v
theories/PropCoord.v
theories/TempModel.v
theories/TempSpec.v
theories/TempProofs.v
theories/TempEquivProofs.v
theories/TempExamples.v
theories/PropTemp.v
theories/FourierModel.v
theories/FourierSpec.v
theories/FourierProofs.v
theories/FourierEvalProofs.v
theories/FourierExamples.v
theories/PropFourier.v
theories/ShapeModel.v
theories/ShapeSpec.v
theories/ShapeProofs.v
theories/PropShape.v
theories/ComposedModel.v
theories/ComposedSpec.v
theories/ComposedProofs.v
theories/ComposedExamples.v
theories/PropComposed.v
theories/TraceModel.v
theories/TraceSpec.v
theories/TraceProofs.v
theories/TraceExamples.v
theories/PropTrace.v
theories/MioModel.v
theories/MioSpec.v
theories/MioProofs.v
theories/MioExamples.v
theories/PropMio.v
theories/MioLoadModel.v
theories/MioLoadProofs.v
theories/MioLoadExamples.v
theories/PropMioLoad.v
theories/TextModel.v
theories/TextSpec.v
theories/TextProofs.v
theories/ShcModel.v
theories/ShcSpec.v
theories/ShcProofs.v
theories/ShcLineProofs.v
theories/ShcExamples.v
theories/SeriesSpec.v
theories/SeriesLineProofs.v
theories/PropShc.v
theories/YearSetModel.v
theories/WmmModel.v
theories/WmmSpec.v
theories/WmmProofs.v
theories/WmmExamples.v
theories/PropWmm.v
theories/IgrfModel.v
theories/IgrfSpec.v
theories/IgrfProofs.v
theories/IgrfExamples.v
theories/PropIgrf.v
theories/RbarOrd.v
theories/CombineModel.v
theories/CombineProofs.v
theories/EmmModel.v
theories/EmmSpec.v
theories/EmmProofs.v
theories/EmmExamples.v
theories/PropEmm.v
theories/ShcLoadModel.v
theories/ShcLoadSpec.v
theories/ShcLoadProofs.v
theories/ShcLoadExamples.v
theories/PropShcLoad.v
theories/SunModel.v
theories/SunSpec.v
theories/SunProofs.v
theories/PropSun.v
theories/SpharModel.v
theories/SpharSpec.v
theories/SpharProofs.v
theories/PropSphar.v
theories/MioParseModel.v
theories/MioParseSpec.v
theories/MioParseProofs.v
theories/MioFileProofs.v
theories/MioFileExamples.v
theories/PropMioParse.v
theories/MmaModel.v
theories/MmaSpec.v
theories/MmaProofs.v
theories/MmaExamples.v
theories/PropMma.v
theories/DateModel.v
theories/DateSpec.v
theories/DateProofs.v
theories/PropDate.v
theories/DegreeRangeProofs.v
theories/QdTimeModel.v
theories/QdSunModel.v
theories/QdSunSpec.v
theories/QdTimeProofs.v
theories/QdCivilProofs.v
theories/QdSunProofs.v
theories/PropQdSun.v
theories/QdMltModel.v
theories/QdMltSpec.v
theories/QdMltProofs.v
theories/QdMltCacheProofs.v
theories/PropQdMlt.v
theories/QdBasisModel.v
theories/QdBasisSpec.v
theories/QdBasisProofs.v
theories/QdShcalcProofs.v
theories/QdApexModel.v
theories/QdApexSpec.v
theories/QdApexProofs.v
theories/QdApexLoopProofs.v
theories/QdApexBaseProofs.v
theories/QdApexMainProofs.v
theories/QdApexExamples.v
theories/PropQdApex.v
theories/QdPyModel.v
theories/QdPySpec.v
theories/QdPyProofs.v
theories/QdPyExamples.v
theories/PropQdPy.v
theories/StridedModel.v
theories/StridedSpec.v
theories/StridedProofs.v
theories/StridedExamples.v
theories/PropStrided.v
theories/StridedEvalModel.v
theories/StridedEvalSpec.v
theories/StridedEvalProofs.v
theories/StridedEvalTopProofs.v
theories/StridedEvalExamples.v
theories/PropStridedEval.v
theories/BufModel.v
theories/BufSpec.v
theories/BufProofs.v
theories/BufEvalProofs.v
theories/BufTopProofs.v
theories/BufExamples.v
theories/PropBuffersEval.v
theories/FpSpec.v
theories/FpTimeModel.v
theories/FpProofs.v
theories/FpTimeProofs.v
theories/FpTripProofs.v
theories/FpTimeExamples.v
theories/PropFpTime.v
theories/FpInterpModel.v
theories/FpInterpProofs.v
theories/PropFpInterp.v
theories/ResModel.v
theories/ResSpec.v
theories/ResProofs.v
theories/ResStepProofs.v
theories/ResExamples.v
theories/PropRes.v
theories/NdModel.v
theories/NdSpec.v
theories/NdProofs.v
theories/NdFunProofs.v
theories/NdLegendreProofs.v
theories/NdExamples.v
theories/PropNd.v
theories/IntModel.v
theories/IntSpec.v
theories/IntProofs.v
theories/IntTopProofs.v
theories/IntPoleProofs.v
theories/IntValueProofs.v
theories/IntExamples.v
theories/PropInt.v
theories/ArgSpec.v
theories/ArgProofs.v
theories/ArgFunProofs.v
theories/ArgEvalProofs.v
theories/ArgExamples.v
theories/PropArg.v
theories/CallModel.v
theories/CallSpec.v
theories/CallProofs.v
theories/CallExamples.v
theories/PropCall.v
theories/TupleModel.v
theories/TupleSpec.v
theories/TupleProofs.v
theories/PropTuple.v
theories/FieldModel.v
theories/FieldSpec.v
theories/GradientProofs.v
theories/FieldProofs.v
theories/FieldExamples.v
theories/PropField.v
theories/FileFieldSpec.v
theories/FileFieldProofs.v
theories/FileFieldExamples.v
theories/PropFileField.v
theories/CompFieldSpec.v
theories/CompFieldProofs.v
theories/CompFieldExamples.v
theories/PropCompField.v
theories/MmaFieldModel.v
theories/MmaFieldSpec.v
theories/PositionProofs.v
theories/MmaFieldProofs.v
theories/MmaFieldExamples.v
theories/PropMmaField.v
theories/CoordFieldSpec.v
theories/CoordFieldProofs.v
theories/CoordFieldExamples.v
theories/PropCoordField.v
theories/MioFieldSpec.v
theories/MioFieldProofs.v
theories/MioFieldExamples.v
theories/PropMioField.v
theories/PosFieldProofs.v
theories/PropPosition.v
theories/NearPoleSpec.v
theories/NearPoleProofs.v
theories/NearPoleExamples.v
theories/PropNearPole.v
theories/ObjModel.v
theories/ObjSpec.v
theories/ObjProofs.v
theories/ObjExamples.v
theories/PropObjects.v
theories/TruncationSpec.v
theories/SchmidtSumProofs.v
theories/TruncationExamples.v
theories/PropTruncation.v
theories/FieldSizeSpec.v
theories/FieldSizeProofs.v
theories/FieldSizeExamples.v
theories/PropFieldSize.v
theories/ShcColumnProofs.v
theories/ShcColumnExamples.v
theories/PropShcColumns.v
theories/FieldTruncSpec.v
theories/FieldTruncProofs.v
theories/FieldTruncExamples.v
theories/PropFieldTrunc.v
theories/FieldDecayProofs.v
theories/FieldDecayExamples.v
theories/PropFieldDecay.v
theories/FieldStableSpec.v
theories/FieldStableProofs.v
theories/FieldRateSpec.v
theories/FieldRateProofs.v
theories/PropFieldStable.v
theories/FileDecayProofs.v
theories/PropFileDecay.v
theories/FieldSystemProofs.v
theories/PropFieldSystem.v
theories/SystemDecayProofs.v
theories/PropSystemDecay.v
theories/IgrfRateSpec.v
theories/IgrfRateProofs.v
theories/EmmRateProofs.v
theories/PropFileRate.v
theories/ShcRateSpec.v
theories/ShcRateProofs.v
theories/PropShcRate.v
