-Q theories Verif
theories/Base.v
theories/BaseFacts.v
theories/CatalogModel.v
theories/CatalogProofs.v
theories/CatalogSpec.v
theories/DataSourceDecode.v
theories/DataSourceModel.v
theories/DataSourceProofs.v
theories/DataSourceSpec.v
theories/FieldProofs.v
theories/FileTableModel.v
theories/FileTableProofs.v
theories/FileTableSpec.v
theories/FormatBits.v
theories/FormatLayout.v
theories/FormatSpec.v
theories/HeaderProofs.v
theories/JsonBits.v
theories/JsonBlame.v
theories/JsonBlameLex.v
theories/JsonBlameProofs.v
theories/JsonBlameRun.v
theories/JsonCutProofs.v
theories/JsonCutSpec.v
theories/JsonData.v
theories/JsonDocProofs.v
theories/JsonDocSpec.v
theories/JsonEmit.v
theories/JsonExamples.v
theories/JsonLex.v
theories/JsonMigrate.v
theories/JsonModel.v
theories/JsonMore.v
theories/JsonNarrowProofs.v
theories/JsonNarrowSpec.v
theories/JsonNarrowTop.v
theories/JsonNum.v
theories/JsonParse.v
theories/JsonPartProofs.v
theories/JsonPartSpec.v
theories/JsonPartWrite.v
theories/JsonRead.v
theories/JsonReject.v
theories/JsonRewriteParsed.v
theories/JsonRewriteProofs.v
theories/JsonRewriteSpec.v
theories/JsonRfcProofs.v
theories/JsonRfcSpec.v
theories/JsonRfcTop.v
theories/JsonRoomProofs.v
theories/JsonRoomSpec.v
theories/JsonSound.v
theories/JsonSpaceProofs.v
theories/JsonSpaceSpec.v
theories/JsonSpec.v
theories/JsonTellPage.v
theories/JsonTellProofs.v
theories/JsonTellSpec.v
theories/JsonTok.v
theories/JsonTop.v
theories/JsonWidenMore.v
theories/JsonWidenProofs.v
theories/JsonWidenSpec.v
theories/LayoutCover.v
theories/LayoutProofs.v
theories/LayoutTotal.v
theories/LexModel.v
theories/LexProofs.v
theories/LexSpec.v
theories/ListFacts.v
theories/ListPtr.v
theories/LrExpected.v
theories/LrModel.v
theories/LrProofs.v
theories/LrSpec.v
theories/LrViable.v
theories/MarshalLimits.v
theories/MarshalModel.v
theories/MarshalMore.v
theories/MarshalProofs.v
theories/MarshalSpec.v
theories/MarshalTop.v
theories/MemoryModel.v
theories/MemoryProofs.v
theories/NsmBytes.v
theories/NsmBytesSpec.v
theories/NsmModel.v
theories/NsmProofs.v
theories/NsmSpec.v
theories/PageCheck.v
theories/PageCheckSpec.v
theories/PatchProofs.v
theories/PatchSpec.v
theories/PipelineProofs.v
theories/PipelineSpec.v
theories/PlaceModel.v
theories/PlaceProofs.v
theories/PlaceRun.v
theories/PlaceSpec.v
theories/PlaceTop.v
theories/PlaceTypes.v
theories/PoolDirty.v
theories/PoolDrain.v
theories/PoolModel.v
theories/PoolProofs.v
theories/PoolSpec.v
theories/PoolTheorems.v
theories/PowerFacts.v
theories/PowerSpec.v
theories/PresentsFacts.v
theories/Prop_Catalog.v
theories/Prop_DataSource.v
theories/Prop_FileTable.v
theories/Prop_Format.v
theories/Prop_Json.v
theories/Prop_JsonCut.v
theories/Prop_JsonDoc.v
theories/Prop_JsonMessage.v
theories/Prop_JsonMigrate.v
theories/Prop_JsonNarrow.v
theories/Prop_JsonPart.v
theories/Prop_JsonRewrite.v
theories/Prop_JsonRfc.v
theories/Prop_JsonRoom.v
theories/Prop_JsonSpace.v
theories/Prop_JsonTell.v
theories/Prop_JsonWiden.v
theories/Prop_Layout.v
theories/Prop_Marshal.v
theories/Prop_Memory.v
theories/Prop_Nsm.v
theories/Prop_NsmBytes.v
theories/Prop_PageCheck.v
theories/Prop_Patch.v
theories/Prop_Pipeline.v
theories/Prop_Place.v
theories/Prop_Pool.v
theories/Prop_PoolEnd.v
theories/Prop_Record.v
theories/Prop_RecordCanon.v
theories/Prop_Replace.v
theories/Prop_Respell.v
theories/Prop_Schema.v
theories/Prop_Sql.v
theories/Prop_SqlExec.v
theories/Prop_SqlExpected.v
theories/Prop_SqlFill.v
theories/Prop_SqlGrow.v
theories/Prop_SqlMessage.v
theories/Prop_SqlNotNull.v
theories/Prop_SqlParser.v
theories/Prop_SqlPart.v
theories/Prop_SqlRename.v
theories/Prop_SqlRewrite.v
theories/Prop_SqlRules.v
theories/Prop_SqlRun.v
theories/Prop_SqlSpace.v
theories/Prop_SqlText.v
theories/Prop_Storage.v
theories/Prop_Table.v
theories/Prop_Tok.v
theories/Prop_TypeParser.v
theories/Prop_TypeSpace.v
theories/Prop_Types.v
theories/Prop_Util.v
theories/Prop_Writer.v
theories/RecordCanon.v
theories/RecordCanonSpec.v
theories/RecordProofs.v
theories/RecordSpec.v
theories/ReplaceProofs.v
theories/ReplaceRecord.v
theories/ReplaceSpec.v
theories/SchemaGrown.v
theories/SchemaProofs.v
theories/SchemaSpec.v
theories/SchemaTop.v
theories/SizeTotal.v
theories/SqlActions.v
theories/SqlBlame.v
theories/SqlCert.v
theories/SqlCheckProofs.v
theories/SqlCheckSpec.v
theories/SqlColumns.v
theories/SqlColumnsSpec.v
theories/SqlErrorSpec.v
theories/SqlEval.v
theories/SqlExamples.v
theories/SqlExec.v
theories/SqlExecProofs.v
theories/SqlExpected.v
theories/SqlFillProofs.v
theories/SqlFillSpec.v
theories/SqlFillText.v
theories/SqlFillType.v
theories/SqlForget.v
theories/SqlFrom.v
theories/SqlFromSpec.v
theories/SqlGrammar.v
theories/SqlGrow.v
theories/SqlGrowSpec.v
theories/SqlInd.v
theories/SqlLexProofs.v
theories/SqlMessageBase.v
theories/SqlMessageDrop.v
theories/SqlMessageModel.v
theories/SqlMessageProofs.v
theories/SqlMessageStmt.v
theories/SqlMessageTop.v
theories/SqlModel.v
theories/SqlNameModel.v
theories/SqlNameProofs.v
theories/SqlNotNull.v
theories/SqlNotNullSpec.v
theories/SqlPanic.v
theories/SqlParseModel.v
theories/SqlParseProofs.v
theories/SqlParseTop.v
theories/SqlParsed.v
theories/SqlPartProofs.v
theories/SqlPartSpec.v
theories/SqlRename.v
theories/SqlRenameSpec.v
theories/SqlRespell.v
theories/SqlRespellProofs.v
theories/SqlRewriteInd.v
theories/SqlRewriteProofs.v
theories/SqlRewriteSpec.v
theories/SqlRewriteTyped.v
theories/SqlRules.v
theories/SqlRulesBase.v
theories/SqlRulesNames.v
theories/SqlRulesProofs.v
theories/SqlRulesTop.v
theories/SqlRun.v
theories/SqlRunProofs.v
theories/SqlRunTop.v
theories/SqlSafeSpec.v
theories/SqlScope.v
theories/SqlShow.v
theories/SqlShowProofs.v
theories/SqlSim.v
theories/SqlSpaceProofs.v
theories/SqlSpaceSpec.v
theories/SqlSpec.v
theories/SqlStmt.v
theories/SqlStmtSpec.v
theories/SqlTables.v
theories/SqlText.v
theories/SqlTextSpec.v
theories/SqlTop.v
theories/SqlTrees.v
theories/SqlTypeProofs.v
theories/SqlTypeSpec.v
theories/SqlViable.v
theories/SqlWords.v
theories/StorageModel.v
theories/StorageProofs.v
theories/StorageSpec.v
theories/StrFacts.v
theories/StrModel.v
theories/TableProofs.v
theories/TableSpec.v
theories/TokModel.v
theories/TokProofs.v
theories/TokSpec.v
theories/TypeCutProofs.v
theories/TypeGrammar.v
theories/TypeLexProofs.v
theories/TypeParseModel.v
theories/TypeParseProofs.v
theories/TypeParsed.v
theories/TypeSpaceProofs.v
theories/TypeSpaceSpec.v
theories/TypeTables.v
theories/TypeUse.v
theories/TypeUseSpec.v
theories/TypeViable.v
theories/TypesModel.v
theories/TypesProofs.v
theories/TypesSpec.v
theories/Utf8Facts.v
theories/Utf8Model.v
theories/UtilModel.v
theories/UtilProofs.v
theories/UtilSpec.v
theories/ValSource.v
theories/VolumeProofs.v
theories/WhiteProofs.v
theories/WhiteSpec.v
theories/WriterModel.v
theories/WriterProofs.v
theories/WriterSpec.v
