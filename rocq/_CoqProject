-Q theories Verif
theories/ArrayLemmas.v
theories/Base.v
theories/BlockModel.v
theories/BoxedModel.v
theories/ClosureModel.v
theories/ClosureProofs.v
theories/ClosureSpec.v
theories/ConnModel.v
theories/ConnProofs.v
theories/ConnSpec.v
theories/DbmDirModel.v
theories/DbmDirProofs.v
theories/DbmDirSpec.v
theories/DbmInitModel.v
theories/DbmInitProofs.v
theories/DbmInitSpec.v
theories/DbmTextModel.v
theories/DbmTextProofs.v
theories/DbmTextSpec.v
theories/EnvModel.v
theories/HeapChainProofs.v
theories/HeapGcProofs.v
theories/HeapHistory.v
theories/HeapModel.v
theories/HeapRcHistory.v
theories/HeapRcInv.v
theories/HeapRcMaps.v
theories/HeapRcOps.v
theories/HeapRcProofs.v
theories/HeapRcReach.v
theories/HeapRcSteps.v
theories/HeapSweepProofs.v
theories/HsearchModel.v
theories/HsearchProofs.v
theories/HtableLost.v
theories/HtableModel.v
theories/HtableProofs.v
theories/HtableSpec.v
theories/IntSpec.v
theories/Json.v
theories/JsonAccessModel.v
theories/JsonAccessProofs.v
theories/JsonArrayModel.v
theories/JsonArrayProofs.v
theories/JsonArraySpec.v
theories/JsonEditHistory.v
theories/JsonEditModel.v
theories/JsonEditOps.v
theories/JsonEditSpec.v
theories/JsonEditView.v
theories/JsonEscapeModel.v
theories/JsonFieldProofs.v
theories/JsonFileModel.v
theories/JsonFileProofs.v
theories/JsonFrame.v
theories/JsonHeapModel.v
theories/JsonHeapProofs.v
theories/JsonHeapSpec.v
theories/JsonLangProofs.v
theories/JsonLexProofs.v
theories/JsonMemAdd.v
theories/JsonMemDel.v
theories/JsonMemHistory.v
theories/JsonMemModel.v
theories/JsonMemNames.v
theories/JsonMemOps.v
theories/JsonMemRun.v
theories/JsonMemSpec.v
theories/JsonMemView.v
theories/JsonMergeAllModel.v
theories/JsonMergeAllProofs.v
theories/JsonMergeAllRun.v
theories/JsonMergeProofs.v
theories/JsonNamesSpec.v
theories/JsonParseModel.v
theories/JsonParseProofs.v
theories/JsonPrintLang.v
theories/JsonPrintMemModel.v
theories/JsonPrintMemProofs.v
theories/JsonPrintMemView.v
theories/JsonPrintModel.v
theories/JsonPrintProofs.v
theories/JsonPrintSpec.v
theories/JsonSelectModel.v
theories/JsonSelectProofs.v
theories/JsonSelectSpec.v
theories/JsonShareDel.v
theories/JsonShareGraph.v
theories/JsonShareHistory.v
theories/JsonShareModel.v
theories/JsonShareOps.v
theories/JsonShareSpec.v
theories/JsonSpec.v
theories/JsonStored.v
theories/JsonStrProofs.v
theories/JsonTokModel.v
theories/JsonTokProofs.v
theories/JsonWriteHistory.v
theories/JsonWriteModel.v
theories/JsonWriteSpec.v
theories/ListHistory.v
theories/ListModel.v
theories/ListProofs.v
theories/LsearchModel.v
theories/LsearchProofs.v
theories/LsearchSpec.v
theories/MapHistory.v
theories/MapModel.v
theories/MapProofs.v
theories/Numeral.v
theories/NumeralProofs.v
theories/ProductModel.v
theories/PropBlock.v
theories/PropBoxed.v
theories/PropClosure.v
theories/PropConn.v
theories/PropDbmDir.v
theories/PropDbmInit.v
theories/PropDbmText.v
theories/PropDict.v
theories/PropEnv.v
theories/PropHeapChain.v
theories/PropHeapGc.v
theories/PropHeapRc.v
theories/PropHtable.v
theories/PropJsonAccess.v
theories/PropJsonArray.v
theories/PropJsonEdit.v
theories/PropJsonEscape.v
theories/PropJsonFile.v
theories/PropJsonHeap.v
theories/PropJsonLit.v
theories/PropJsonMem.v
theories/PropJsonMergeAll.v
theories/PropJsonParse.v
theories/PropJsonPrint.v
theories/PropJsonSelect.v
theories/PropJsonShare.v
theories/PropJsonWrite.v
theories/PropList.v
theories/PropLsearch.v
theories/PropMap.v
theories/PropProduct.v
theories/PropQueue.v
theories/PropSet.v
theories/PropSql.v
theories/PropSqlAs.v
theories/PropSqlColumn.v
theories/PropSqlGeneric.v
theories/PropSqlInsert.v
theories/PropSqlIter.v
theories/PropSqlJoin.v
theories/PropSqlJson.v
theories/PropSqlReport.v
theories/PropSqlSelect.v
theories/PropSqlUse.v
theories/PropStr.v
theories/PropStrView.v
theories/PropTree.v
theories/PropUtf8.v
theories/QueueModel.v
theories/QueueProofs.v
theories/QueueSpec.v
theories/Samples.v
theories/SetHistory.v
theories/SetModel.v
theories/SetProofs.v
theories/SqlAsProofs.v
theories/SqlAsSpec.v
theories/SqlGenericModel.v
theories/SqlGenericProofs.v
theories/SqlGenericSpec.v
theories/SqlInsertModel.v
theories/SqlInsertProofs.v
theories/SqlInsertSpec.v
theories/SqlJoinModel.v
theories/SqlJoinProofs.v
theories/SqlJoinSpec.v
theories/SqlJsonModel.v
theories/SqlJsonProofs.v
theories/SqlJsonSpec.v
theories/SqlModel.v
theories/SqlProofs.v
theories/SqlReportProofs.v
theories/SqlReportSpec.v
theories/SqlSelectModel.v
theories/SqlSelectProofs.v
theories/SqlSelectSpec.v
theories/SqlSpec.v
theories/SqlUseProofs.v
theories/SqlUseSpec.v
theories/StackModel.v
theories/StackProofs.v
theories/StrModel.v
theories/StrProofs.v
theories/StrReplaceProofs.v
theories/StrViewModel.v
theories/StrViewProofs.v
theories/TreeHistory.v
theories/TsearchModel.v
theories/TsearchProofs.v
theories/Utf8Model.v
theories/Utf8Proofs.v
