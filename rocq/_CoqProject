-Q theories Verif
theories/Base.v
theories/Varint.v
theories/Store.v
theories/PageFile.v
theories/RefValue.v
theories/Node.v
theories/LinkedPage.v
theories/BPTree.v
theories/BPRepr.v
theories/BPIter.v
theories/BPInsert.v
theories/BPLoop.v
theories/BPTop.v
theories/PTree.v
theories/PTreeEx.v
theories/Meta.v
theories/TsCodec.v
theories/PCodec.v
theories/PStore.v
theories/PageHist.v
theories/PPage.v
theories/Slots.v
theories/SlotAdd.v
theories/PSlots.v
theories/Cells.v
theories/IndexFile.v
theories/IFileInv.v
theories/PIndex.v
theories/PNgram.v
theories/PClient.v
theories/Heap.v
theories/PHeap.v
theories/Hnsw.v
theories/HnswInv.v
theories/PHnsw.v
theories/Json.v
theories/Jsonl.v
theories/Grows.v
theories/JsonlRun.v
theories/JsonDoc.v
theories/JsonlDoc.v
theories/JsonlSpec.v
theories/JsonlHist.v
theories/PJsonl.v
theories/PWidth.v
theories/PJsonlEx.v
theories/Csv.v
theories/CsvSpec.v
theories/CsvRun.v
theories/PCsv.v
theories/PCsvEx.v
theories/Query.v
theories/QTree.v
theories/TsFile.v
theories/PQuery.v
theories/PJsonlQuery.v
theories/PSpace.v
theories/PFloat.v
theories/PQueryEx.v
theories/PEdge.v
theories/Search.v
theories/PSearch.v
theories/PSearchEx.v
theories/Crash.v
theories/PCrash.v
theories/Multipart.v
theories/PMultipart.v
theories/RangeReq.v
theories/PRange.v
theories/VTree.v
theories/VFloat.v
theories/VTreeInv.v
theories/PVTree.v
theories/PVTreeEx.v
theories/PValidate.v
theories/JsParse.v
theories/PSelect.v
theories/PVector.v
theories/PManager.v
theories/PJsonlSearch.v
theories/PJsonlSearchEx.v
theories/JsonlBlock.v
theories/SyncCrash.v
theories/PSyncCrash.v
theories/Death.v
theories/JsonlDeath.v
theories/PDeath.v
theories/PSyncCrashEx.v
theories/PSnapshot.v
theories/PSnapshotEx.v
theories/PStorage.v
theories/PJsonlSize.v
theories/PJsonlSizeEx.v
theories/PCsvSize.v
theories/PCsvQuery.v
theories/Cmd.v
theories/PRuns.v
theories/PRunsEx.v
theories/PNames.v
theories/Session.v
theories/PSession.v
theories/CsvDeath.v
theories/PCsvDeath.v
theories/JsString.v
theories/PParse.v
theories/PParseEx.v
theories/PLevels.v
theories/PCsvRuns.v
theories/PCsvRunsEx.v
theories/PGrammar.v
theories/PAfter.v
