-Q theories Verif
theories/PyBase.v
theories/PyFacts.v
theories/Regex.v
theories/RegexFacts.v
theories/CastepRes.v
theories/NumSpec.v
theories/NumFacts.v
theories/NumVal.v
theories/SpecText.v
theories/FileWrapper.v
theories/FileWrapperFacts.v
theories/FileWrapperObs.v
theories/T_FileWrapper.v
theories/RegexComplete.v
theories/PyVal.v
theories/TypeConv.v
theories/SpecLine.v
theories/NumProps.v
theories/SpecType.v
theories/TypeConvFacts.v
theories/Bytes.v
theories/SpecBytes.v
theories/BytesFacts.v
theories/T_Num.v
theories/T_TypeConv.v
theories/SpecStr.v
theories/StrUtil.v
theories/StrUtilFacts.v
theories/T_StrUtil.v
theories/IntStr.v
theories/DictUtil.v
theories/SpecDict.v
theories/DictFacts.v
theories/JsonFacts.v
theories/DictSmall.v
theories/T_DictUtil.v
theories/Fortran.v
theories/SpecFortran.v
theories/FortranFacts.v
theories/FortranTyped.v
theories/BinParsers.v
theories/SpecBin.v
theories/BinFacts.v
theories/T_Fortran.v
theories/Stream.v
theories/StreamFacts.v
theories/SpecTable.v
theories/ColumnFacts.v
theories/TextParsers.v
theories/TextParsersFacts.v
theories/Header.v
theories/Bands.v
theories/SpecBands.v
theories/HeaderFacts.v
theories/BandsFacts.v
theories/ExampleTools.v
theories/T_TextParsers.v
theories/MdGeom.v
theories/SpecMd.v
theories/MdFacts.v
theories/MdFileFacts.v
theories/MdLazyFacts.v
theories/T_MdGeom.v
theories/PathLib.v
theories/Cli.v
theories/SpecCli.v
theories/PathFacts.v
theories/CliFacts.v
theories/T_Cli.v
theories/CellParam.v
theories/SpecCell.v
theories/CellFacts.v
theories/CellPosFacts.v
theories/CellBlockFacts.v
theories/T_CellParam.v
theories/GenFiles.v
theories/SpecGen.v
theories/GenFacts.v
theories/GenMain.v
theories/GenAll.v
theories/T_GenFiles.v
theories/NeedFacts.v
theories/CastepBlocks.v
theories/SpecCastep.v
theories/CastepFacts.v
theories/PhononFacts.v
theories/T_Castep.v
theories/SpecFiles.v
theories/TextFiles.v
theories/FileFacts.v
theories/FileParts.v
theories/T_TextFiles.v
theories/SpecFiles2.v
theories/FileParts2.v
theories/T_TextFiles2.v
theories/SpecFiles3.v
theories/FileParts3.v
theories/T_TextFiles3.v
theories/SpecFiles4.v
theories/FileParts4.v
theories/T_TextFiles4.v
theories/SpecFiles5.v
theories/FileParts5.v
theories/T_TextFiles5.v
theories/SpecFiles6.v
theories/FileParts6.v
theories/T_TextFiles6.v
theories/CastepNum.v
theories/CastepRows.v
theories/Pspot.v
theories/CastepRest.v
theories/CastepFile.v
theories/SpecCastep2.v
theories/Castep2Facts.v
theories/ExampleTools2.v
theories/T_Castep2.v
theories/SpecCastep3.v
theories/Castep3Facts.v
theories/T_Castep3.v
theories/SpecCastepFile.v
theories/CastepFileFacts.v
theories/CastepFilter.v
theories/PhraseFacts.v
theories/QuietFacts.v
theories/SpecCastepRun.v
theories/LangFacts.v
theories/CastepRunFacts.v
theories/CastepPieces.v
theories/CastepKinds.v
theories/CastepKinds2.v
theories/CastepKinds3.v
theories/CastepLines.v
theories/CastepRuns.v
theories/CastepLess.v
theories/T_CastepFile.v
theories/T_CastepFile2.v
theories/Labels.v
theories/SpecLabels.v
theories/LabelFacts.v
theories/T_Labels.v
theories/SpecCastep4.v
theories/Castep4Facts.v
theories/Castep5Facts.v
theories/T_Castep4.v
theories/SpecCastep5.v
theories/Castep6Facts.v
theories/T_Castep5.v
theories/SpecPspot.v
theories/PspotFacts.v
theories/T_Pspot.v
theories/SpecCastep6.v
theories/Castep7Facts.v
theories/T_Castep6.v
theories/SpecTree.v
theories/TreeFacts.v
theories/SpecPairs.v
theories/PairFacts.v
theories/SpecFinal.v
theories/FinalFacts.v
theories/SpecBerry.v
theories/BerryFacts.v
theories/T_Castep7.v
theories/T_Castep8.v
theories/T_Castep9.v
theories/SpecDevel.v
theories/DevelFacts.v
theories/T_Devel.v
theories/MixedFacts.v
theories/T_Mixed.v
theories/SpecEdges.v
theories/SpecParams.v
theories/ParamFacts.v
theories/T_Params.v
theories/SpecWarn.v
theories/WarnFacts.v
theories/T_Warn.v
theories/SpecLabelled.v
theories/LabelledFacts.v
theories/T_Labelled.v
theories/T_Levels.v
theories/T_CastepFile3.v
