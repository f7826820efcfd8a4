-Q theories Verif

theories/Base.v
theories/Num.v
theories/GeoModel.v
theories/HazardModel.v
theories/QTModel.v
theories/BaseProofs.v
theories/HazVecProofs.v
theories/QTProofs.v
theories/TransfModel.v
theories/HpgModel.v
theories/CdeModel.v
theories/CdeProofs.v
theories/CdeOpsProofs.v
theories/CdeSpec.v
theories/CdeHistProofs.v
theories/CdeCollectProofs.v
theories/CdeThmProofs.v
theories/Instances.v
theories/CdeExamples.v
theories/CdeExampleProofs.v
theories/PolyModel.v
theories/SlotMapModel.v
theories/LayoutModel.v
theories/ProblemModel.v
theories/SlotMapProofs.v
theories/ProblemSpec.v
theories/ProblemProofs.v
theories/ProblemOpsProofs.v
theories/StripProofs.v
theories/LayoutProofs.v
theories/MirrorProofs.v
theories/ProblemThmProofs.v
theories/KeyProofs.v
theories/MirrorThmProofs.v
theories/UsageProofs.v
theories/FitProofs.v
theories/ProblemExamples.v
theories/StripExamples.v
theories/ProblemFinalProofs.v
theories/GeoSpec.v
theories/ParityProofs.v
theories/GeoPrimProofs.v
theories/GeoRectProofs.v
theories/PipProofs.v
theories/QTGeoProofs.v
theories/TouchProofs.v
theories/RegionProofs.v
theories/PlaceSpec.v
theories/CdeGeoProofs.v
theories/RigidProofs.v
theories/GeoThmProofs.v
theories/CdeGeoThmProofs.v
theories/PlaceExampleProofs.v
theories/HpgSpec.v
theories/HpgGridProofs.v
theories/HpgFillProofs.v
theories/HpgCellProofs.v
theories/HpgRegProofs.v
theories/HpgHistProofs.v
theories/HpgGenProofs.v
theories/HpgThmProofs.v
theories/HpgFullProofs.v
theories/HpgTidyProofs.v
theories/HpgRectProofs.v
theories/HpgThinProofs.v
theories/HpgRoomProofs.v
theories/HpgFrameProofs.v
theories/HpgBoxProofs.v
theories/HpgExampleProofs.v
theories/HpgBoxExampleProofs.v
theories/HpgMixProofs.v
theories/HpgGapProofs.v
theories/ParserModel.v
theories/SimplModel.v
theories/ShapeSpec.v
theories/SimplSpec.v
theories/XformProofs.v
theories/NormProofs.v
theories/BoundProofs.v
theories/HullProofs.v
theories/PoleProofs.v
theories/ConstructProofs.v
theories/SliverProofs.v
theories/SquareProofs.v
theories/SimplProofs.v
theories/SimplExampleProofs.v
theories/CrossProofs.v
theories/PierProofs.v
theories/PierGenProofs.v
theories/CombProofs.v
theories/PierExampleProofs.v
theories/CombSurrProofs.v
theories/CombEngineProofs.v
theories/ShapeExampleProofs.v
theories/LbfModel.v
theories/LbfSpec.v
theories/LbfProofs.v
theories/LbfRunProofs.v
theories/LbfBpProofs.v
theories/LbfThmProofs.v
theories/RectPolyProofs.v
theories/LbfSpProofs.v
theories/LbfExampleProofs.v
theories/LbfSamplerProofs.v
theories/LbfHistProofs.v
theories/LbfTotalProofs.v
theories/LbfBpTotalProofs.v
theories/CentreProofs.v
theories/StripBinProofs.v
theories/LbfSpTotalProofs.v
theories/LbfStripThmProofs.v
theories/LbfExample2Proofs.v
theories/FilterProofs.v
theories/QualityExamples.v
theories/Properties_Shape.v
theories/Properties_Pole.v
theories/Properties_Pier.v
theories/Properties_Simpl.v
theories/Properties_Hpg.v
theories/Properties_Geo.v
theories/Properties_Place.v
theories/Properties_Problem.v
theories/Properties_CDE.v
theories/Properties_Lbf.v
theories/Properties_LbfSearch.v
theories/Properties_Quality.v
theories/IoModel.v
theories/IoSpec.v
theories/IoProofs.v
theories/HistBinProofs.v
theories/IoThmProofs.v
theories/IoTotalProofs.v
theories/IoExampleProofs.v
theories/Properties_Io.v
theories/ParseModel.v
theories/ParseSpec.v
theories/NoMaxProofs.v
theories/ParseProofs.v
theories/ParseThmProofs.v
theories/ParseSpProofs.v
theories/ParseDrawnProofs.v
theories/ParseSideProofs.v
theories/RectSurrProofs.v
theories/ParsePierProofs.v
theories/ParseExampleProofs.v
theories/ParseReadProofs.v
theories/ParseSolveProofs.v
theories/ParseExample2Proofs.v
theories/ParseExample3Proofs.v
theories/Properties_Parse.v
theories/AssertModel.v
theories/AssertSpec.v
theories/AssertRefProofs.v
theories/AssertProofs.v
theories/AssertLayoutModel.v
theories/AssertLayoutSpec.v
theories/AssertLayoutProofs.v
theories/AssertRealProofs.v
theories/AssertGridSpec.v
theories/AssertGridProofs.v
theories/AssertExamples.v
theories/AssertThmProofs.v
theories/Properties_Assert.v
theories/AssertProblemModel.v
theories/AssertProblemSpec.v
theories/AssertProblemProofs.v
theories/AssertStripProofs.v
theories/AssertStripRealProofs.v
theories/AssertBlindProofs.v
theories/AssertProblemExampleProofs.v
theories/Properties_AssertProblem.v
theories/SimpleSpec.v
theories/SimpleProofs.v
theories/OrientProofs.v
theories/SlabProofs.v
theories/TriangleProofs.v
theories/DropProofs.v
theories/MergeProofs.v
theories/RoundProofs.v
theories/SimpleThmProofs.v
theories/SimpleExampleProofs.v
theories/Properties_Simple.v
theories/SvgModel.v
theories/SvgSpec.v
theories/ColorModel.v
theories/SvgProofs.v
theories/SvgThmProofs.v
theories/SvgShiftProofs.v
theories/HistLayoutProofs.v
theories/HpgShapeProofs.v
theories/SvgTreeProofs.v
theories/SvgTotalProofs.v
theories/SvgDrawProofs.v
theories/SvgItemProofs.v
theories/SvgAllProofs.v
theories/SvgTreeThmProofs.v
theories/SvgRefuteProofs.v
theories/ColorProofs.v
theories/Properties_Svg.v
theories/FloatModel.v
theories/FloatArithProofs.v
theories/FloatSpec.v
theories/SimProofs.v
theories/FloatGeoProofs.v
theories/FloatGridProofs.v
theories/FloatThmProofs.v
theories/FloatRefuteProofs.v
theories/FloatExampleProofs.v
theories/QTPathProofs.v
theories/FloatCornerProofs.v
theories/FloatMarginSpec.v
theories/FloatMarginProofs.v
theories/FloatMarginThmProofs.v
theories/FloatMarginExampleProofs.v
theories/Properties_Float.v
theories/Properties_FloatMargin.v
theories/MainModel.v
theories/MainSpec.v
theories/MainProofs.v
theories/MainRectProofs.v
theories/MainExampleProofs.v
theories/Properties_Main.v
theories/SelfCheckSpec.v
theories/SelfCheckProofs.v
theories/SelfCheckLayoutSpec.v
theories/SelfCheckLayoutProofs.v
theories/SelfCheckExamples.v
theories/SelfCheckExampleProofs.v
theories/Properties_SelfCheck.v
theories/QuerySpec.v
theories/QueryProofs.v
theories/QueryExampleProofs.v
theories/QueryExamples.v
theories/Properties_Query.v
theories/MeasureSpec.v
theories/MeasureProofs.v
theories/Properties_Measure.v
theories/BookSpec.v
theories/BookProofs.v
theories/BookExamples.v
theories/Properties_Book.v
theories/BenchModel.v
theories/BenchSpec.v
theories/SplitProofs.v
theories/BenchProofs.v
theories/BenchExampleProofs.v
theories/Properties_Bench.v
theories/HistPackSpec.v
theories/HistPackProofs.v
theories/ReachProofs.v
theories/ReachExampleProofs.v
theories/Properties_Hist.v
theories/AgainModel.v
theories/AgainSpec.v
theories/AgainProofs.v
theories/AgainStripProofs.v
theories/AgainReplayProofs.v
theories/AgainExampleProofs.v
theories/Properties_Again.v
theories/PanicSpec.v
theories/PanicProofs.v
theories/PanicPlainProofs.v
theories/PanicStripProofs.v
theories/PanicGridProofs.v
theories/PanicExampleProofs.v
theories/Properties_Panic.v
theories/AgainTotalProofs.v
theories/AgainTotalExampleProofs.v
theories/Properties_AgainTotal.v
theories/CertSpec.v
theories/CertProofs.v
theories/CertExampleProofs.v
theories/Properties_Cert.v
theories/ChecksSpec.v
theories/ChecksProofs.v
theories/ChecksExamples.v
theories/Properties_Checks.v
theories/TreeMatchSpec.v
theories/TreeMatchProofs.v
theories/TreeMatchExamples.v
theories/Properties_TreeMatch.v
theories/MassModel.v
theories/MassSpec.v
theories/MassProofs.v
theories/MassExampleProofs.v
theories/Properties_Mass.v
theories/ShiftSpec.v
theories/ShiftProofs.v
theories/ShiftSimplProofs.v
theories/ShiftParseProofs.v
theories/ShiftBinProofs.v
theories/ShiftInstProofs.v
theories/ShiftExampleProofs.v
theories/Properties_Shift.v
theories/ManySpec.v
theories/ManyProofs.v
theories/Properties_Many.v
