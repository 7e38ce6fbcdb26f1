-Q theories Verif
theories/Ampl.v
theories/AmplData.v
theories/AmplFacts.v
theories/AmplFrom.v
theories/AmplPan.v
theories/AmplTo.v
theories/Csv.v
theories/CsvCells.v
theories/CsvFacts.v
theories/CsvMore.v
theories/CsvRows.v
theories/CsvTrip.v
theories/CsvWitness.v
theories/Data.v
theories/DbRead.v
theories/Extras.v
theories/ExtrasFacts.v
theories/FK.v
theories/FKFacts.v
theories/FKWitness.v
theories/Factory.v
theories/FactoryClone.v
theories/FactoryColumns.v
theories/FactoryEdit.v
theories/FactoryFacts.v
theories/FactoryHist.v
theories/FactoryMore.v
theories/FactoryRename.v
theories/FactoryWitness.v
theories/FileDb.v
theories/FileDbAccess.v
theories/FileDbDups.v
theories/FileDbFacts.v
theories/FileDbLoss.v
theories/FileDbMore.v
theories/FileDbTrip.v
theories/FileDbWitness.v
theories/FileDbWrite.v
theories/FindTypes.v
theories/FindTypesFacts.v
theories/FindTypesMore.v
theories/FkReport.v
theories/FkReportFacts.v
theories/Frames.v
theories/FramesFacts.v
theories/FramesPan.v
theories/FramesTrip.v
theories/Freeze.v
theories/FreezeFacts.v
theories/Generic.v
theories/GenericFacts.v
theories/GenericMore.v
theories/GenericSql.v
theories/GenericTrip.v
theories/GenericWitness.v
theories/Good.v
theories/GoodFacts.v
theories/Graph.v
theories/GraphFacts.v
theories/ImpliedFacts.v
theories/InfIO.v
theories/InfIOFacts.v
theories/InfWitness.v
theories/Integrity.v
theories/IntegrityFacts.v
theories/IntegrityTic.v
theories/Json.v
theories/JsonDoc.v
theories/JsonDocFacts.v
theories/JsonDocMore.v
theories/JsonDocWitness.v
theories/JsonDups.v
theories/JsonFacts.v
theories/JsonMore.v
theories/JsonWitness.v
theories/Keyless.v
theories/KeylessFacts.v
theories/Keywords.v
theories/KeywordsFacts.v
theories/Lazy.v
theories/LazyFacts.v
theories/LazyMore.v
theories/LazyRead.v
theories/LazyWitness.v
theories/LazyWrite.v
theories/LinkNames.v
theories/Links.v
theories/LinksFacts.v
theories/ListFacts.v
theories/Main.v
theories/MainFacts.v
theories/MainOpts.v
theories/Names.v
theories/NamesFacts.v
theories/Near.v
theories/NearFacts.v
theories/NearPan.v
theories/Obfus.v
theories/ObfusCopy.v
theories/ObfusFacts.v
theories/ObfusMore.v
theories/ObfusNames.v
theories/ObfusWitness.v
theories/Obj.v
theories/ObjFacts.v
theories/ObjLive.v
theories/ObjMore.v
theories/ObjRows.v
theories/ObjWitness.v
theories/P_Ampl.v
theories/P_AmplData.v
theories/P_Csv.v
theories/P_DbRead.v
theories/P_Extras.v
theories/P_FK.v
theories/P_Factory.v
theories/P_FileDb.v
theories/P_FindTypes.v
theories/P_FkReport.v
theories/P_Frames.v
theories/P_Freeze.v
theories/P_Generic.v
theories/P_Good.v
theories/P_Graph.v
theories/P_InfIO.v
theories/P_Json.v
theories/P_JsonDoc.v
theories/P_Keyless.v
theories/P_Keywords.v
theories/P_Lazy.v
theories/P_Main.v
theories/P_Names.v
theories/P_Near.v
theories/P_Obfus.v
theories/P_Obj.v
theories/P_PanFac.v
theories/P_PanFiles.v
theories/P_PanIO.v
theories/P_PanTypes.v
theories/P_Pg.v
theories/P_PgDsn.v
theories/P_PgPan.v
theories/P_RowPred.v
theories/P_Sloc.v
theories/P_Solver.v
theories/P_Sources.v
theories/P_Sql.v
theories/P_SqlSchema.v
theories/P_TypeDict.v
theories/P_Utils.v
theories/P_Xls.v
theories/PanFKFacts.v
theories/PanFac.v
theories/PanFacFacts.v
theories/PanFacKinds.v
theories/PanFacMore.v
theories/PanFacWitness.v
theories/PanFiles.v
theories/PanFilesFacts.v
theories/PanFilesTrip.v
theories/PanFilesWitness.v
theories/PanIO.v
theories/PanIOFacts.v
theories/PanIOWitness.v
theories/PanJson.v
theories/PanMore.v
theories/PanRead.v
theories/PanTypes.v
theories/PanTypesFacts.v
theories/PanTypesMore.v
theories/Params.v
theories/ParamsFacts.v
theories/Pg.v
theories/PgDefaults.v
theories/PgDsn.v
theories/PgDsnFacts.v
theories/PgFacts.v
theories/PgMore.v
theories/PgPan.v
theories/PgPanFacts.v
theories/PgPanTrip.v
theories/PgPanWitness.v
theories/PgRead.v
theories/PgSchema.v
theories/PgStore.v
theories/PgTrip.v
theories/PgWitness.v
theories/PgWrite.v
theories/PyDict.v
theories/PyDictFacts.v
theories/PyStr.v
theories/PyVal.v
theories/PyValFacts.v
theories/RemoveFacts.v
theories/ReplaceFacts.v
theories/Report.v
theories/RowPred.v
theories/RowPredFacts.v
theories/RowPredMore.v
theories/RowPredPan.v
theories/RowPredParam.v
theories/RowPredSpec.v
theories/RowPredWitness.v
theories/Sloc.v
theories/Solver.v
theories/SolverFacts.v
theories/Sources.v
theories/Sql.v
theories/SqlFacts.v
theories/SqlMore.v
theories/SqlRead.v
theories/SqlSchema.v
theories/SqlSchemaFacts.v
theories/SqlSchemaMore.v
theories/SqlSchemaWitness.v
theories/SqlText.v
theories/SqlWitness.v
theories/TripFacts.v
theories/TypeDict.v
theories/TypeDictFacts.v
theories/Utils.v
theories/UtilsFacts.v
theories/UtilsMore.v
theories/WfCheck.v
theories/Xls.v
theories/XlsBlank.v
theories/XlsCells.v
theories/XlsFacts.v
theories/XlsMore.v
