-Q theories Verif
theories/Num.v
theories/Series.v
theories/Line.v
theories/Spec.v
theories/RSpec.v
theories/LineFacts.v
theories/ScanFacts.v
theories/RFacts.v
theories/IndMA.v
theories/MAFacts.v
theories/Expr.v
theories/CausalFacts.v
theories/WarmFacts.v
theories/OpFacts.v
theories/RLineFacts.v
theories/EwmaFacts.v
theories/PropLinesFacts.v
theories/Prop_Lines.v
theories/PropMAFacts.v
theories/Prop_MA.v
theories/Py.v
theories/PyFacts.v
theories/Inputs.v
theories/InputsFacts.v
theories/ChoiceFacts.v
theories/PropInputsFacts.v
theories/TightFacts.v
theories/Prop_Inputs.v
theories/Params.v
theories/ParamsFacts.v
theories/Prop_Params.v
theories/LinesGen.v
theories/LinesGenFacts.v
theories/Table.v
theories/Registry.v
theories/RegistryFacts.v
theories/RegistryFacts2.v
theories/PropLinesGenFacts.v
theories/Prop_LinesGen.v
theories/Prop_Registry.v
theories/Calls.v
theories/CallsFacts.v
theories/Prop_Calls.v
theories/IndBasic.v
theories/BasicFacts.v
theories/CrossFacts.v
theories/PropBasicFacts.v
theories/Prop_Basic.v
theories/IndStat.v
theories/StatSpec.v
theories/StatFacts.v
theories/StatFacts2.v
theories/PropStatFacts.v
theories/Prop_Stat.v
theories/BoundSpec.v
theories/BoundFacts.v
theories/IndRange.v
theories/RangeSpec.v
theories/RangeFacts.v
theories/RangeFacts2.v
theories/PropRangeFacts.v
theories/Prop_Range.v
theories/IndOsc.v
theories/OscSpec.v
theories/OscFacts.v
theories/OscFacts2.v
theories/PropOscFacts.v
theories/Prop_Osc.v
theories/IndVol.v
theories/VolSpec.v
theories/VolFacts.v
theories/PropVolFacts.v
theories/Prop_Vol.v
theories/Apply.v
theories/IndSar.v
theories/SarSpec.v
theories/SarFacts.v
theories/PropSarFacts.v
theories/Prop_Sar.v
theories/KamaSpec.v
theories/KamaFacts.v
theories/PropKamaFacts.v
theories/Prop_Kama.v
theories/IndMavp.v
theories/MavpFacts.v
theories/MavpSpec.v
theories/PropMavpFacts.v
theories/Prop_Mavp.v
theories/IndHT.v
theories/HTSpec.v
theories/HTFacts.v
theories/HTFacts2.v
theories/PropHTFacts.v
theories/Prop_HT.v
theories/IndMama.v
theories/MamaSpec.v
theories/MamaFacts.v
theories/Prop_Mama.v
theories/Holder.v
theories/HolderSpec.v
theories/HolderFacts.v
theories/HolderFacts2.v
theories/PropHolderFacts.v
theories/HolderNames.v
theories/Prop_Holder.v
theories/Mem.v
theories/Bodies.v
theories/MemSpec.v
theories/MemFacts.v
theories/MemFacts2.v
theories/PropMemFacts.v
theories/MemObv.v
theories/MemSar.v
theories/Prop_Mem.v
theories/LineApi.v
theories/Strict.v
theories/StrictFacts.v
theories/LineApiSpec.v
theories/LineApiFacts.v
theories/PropLineApiFacts.v
theories/Prop_LineApi.v
theories/Catalog.v
theories/CatalogSpec.v
theories/CatalogR.v
theories/CatalogR2.v
theories/CatalogFacts.v
theories/CatalogW.v
theories/CatalogW2.v
theories/CatalogWFacts.v
theories/CatalogHT.v
theories/CatalogHTFacts.v
theories/PropCatalogFacts.v
theories/Prop_Catalog.v
theories/Float64.v
theories/FloatSpec.v
theories/FloatFacts.v
theories/FloatLine.v
theories/FloatAvg.v
theories/FloatExact.v
theories/PropFloatFacts.v
theories/FilterFloat.v
theories/Prop_Float.v
theories/Running.v
theories/RunSpec.v
theories/RunFacts.v
theories/RunFloat.v
theories/RunMean.v
theories/Prop_Running.v
theories/DirFloat.v
theories/DirFloat2.v
theories/DirFloat3.v
theories/DirFloat4.v
theories/Prop_DirFloat.v
theories/RunVar.v
theories/RunVarFacts.v
theories/BandSpec64.v
theories/BandsFloat.v
theories/BandsFlat.v
theories/Prop_Bands.v
theories/RunCorr.v
theories/RunCorrFacts.v
theories/CorrFloat.v
theories/Prop_Corr.v
theories/RunUlt.v
theories/UltFloat.v
theories/Prop_Ult.v
theories/FlatSpec.v
theories/FlatFloat.v
theories/Prop_Flat.v
theories/Install.v
theories/InstallFacts.v
theories/Prop_Install.v
theories/EmaFloat.v
theories/EmaFloatAdj.v
theories/Prop_EmaFloat.v
theories/Operand.v
theories/OperandSpec.v
theories/OperandFacts.v
theories/Prop_Operand.v
theories/Keep.v
theories/KeepSpec.v
theories/KeepFacts.v
theories/Prop_Keep.v
theories/Protocol.v
theories/ProtocolSpec.v
theories/ProtocolFacts.v
theories/ProtocolFacts2.v
theories/Prop_Protocol.v
theories/ParamTable.v
theories/Docs.v
theories/DocsSpec.v
theories/DocsFacts.v
theories/PackageDocs.v
theories/Prop_Docs.v
theories/UnitSpec.v
theories/UnitFacts.v
theories/UnitFacts2.v
theories/UnitFacts3.v
theories/UnitFacts4.v
theories/UnitFacts5.v
theories/Prop_Unit.v
theories/FloatHT.v
theories/CatalogHTGen.v
theories/FloatCycle.v
theories/Prop_FloatHT.v
theories/LocalSpec.v
theories/LocalFacts.v
theories/LocalR.v
theories/PropLocalFacts.v
theories/Prop_Local.v
theories/ForgetSpec.v
theories/ForgetFacts.v
theories/ForgetSettle.v
theories/Prop_Forget.v
theories/Indexed.v
theories/IndexedFacts.v
theories/Prop_Indexed.v
theories/MoveSpec.v
theories/MoveFacts.v
theories/MoveFacts2.v
theories/MoveFacts3.v
theories/MoveFacts4.v
theories/MoveFacts5.v
theories/MoveFacts6.v
theories/MoveFacts7.v
theories/MoveFacts8.v
theories/Prop_Move.v
theories/BandSpec.v
theories/BandFacts.v
theories/BandFacts2.v
theories/BandFacts3.v
theories/Prop_Band.v
theories/Labels.v
theories/LabelsFacts.v
theories/LabelsFacts2.v
theories/Prop_Labels.v
theories/Utils.v
theories/UtilsFacts.v
theories/Prop_Utils.v
theories/IdentFacts.v
theories/Prop_Ident.v
theories/ApplyAny.v
theories/ApplySpec.v
theories/ApplyFacts.v
theories/Prop_Apply.v
theories/MethodArgs.v
theories/MethodSpec.v
theories/MethodFacts.v
theories/Prop_Methods.v
theories/WholeSpec.v
theories/WholeFloat.v
theories/WholeFloat2.v
theories/WholeFloat3.v
theories/Prop_Whole.v
theories/RocSpec.v
theories/RocFloat.v
theories/Prop_Roc.v
theories/SideFloat.v
theories/Prop_Side.v
theories/SarFloat.v
theories/SarFloat2.v
theories/Prop_SarFloat.v
