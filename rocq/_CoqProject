-Q theories Verif
theories/Base.v
theories/ArrLemmas.v
theories/MapSpec.v
theories/SortedList.v
theories/SearchModel.v
theories/SearchProofs.v
theories/RankModel.v
theories/RankProofs.v
theories/BitmapModel.v
theories/BitmapProofs.v
theories/PopcountProofs.v
theories/UtilSpec.v
theories/PropUtils.v
theories/BTreeModel.v
theories/BTreeSpec.v
theories/BTreeLaws.v
theories/SLeafModel.v
theories/SLeafProofs.v
theories/BTreeBranch.v
theories/BTreeGhost.v
theories/BTreeInsert.v
theories/FLeafModel.v
theories/EraseSpec.v
theories/PathSpec.v
theories/BTreeErase.v
theories/BTreeHist.v
theories/SIterModel.v
theories/SIterProofs.v
theories/BTreeMain.v
theories/ULeafModel.v
theories/ULeafProofs.v
theories/UTreeProofs.v
theories/SlotLemmas.v
theories/FLeafProofs.v
theories/FTreeProofs.v
theories/EraseG.v
theories/PropPBPTree.v
theories/PropBPTree.v
theories/PropUnsorted.v
theories/PropFPTree.v
theories/RecoverModel.v
theories/RecoverProofs.v
theories/PropRecover.v
theories/CrashModel.v
theories/CrashSpec.v
theories/CrashProofs.v
theories/PropCrash.v
theories/CrashEProofs.v
theories/PropCrashE.v
theories/CrashSModel.v
theories/CrashSSpec.v
theories/CrashSProofs.v
theories/CrashTProofs.v
theories/CrashUProofs.v
theories/PropCrashS.v
theories/BitTreeModel.v
theories/InsSpec.v
theories/XTree.v
theories/BitProofs.v
theories/BitHModel.v
theories/BitHProofs.v
theories/RecSpec.v
theories/BitHRec.v
theories/PropBit.v
theories/PropBitH.v
theories/BitEModel.v
theories/BitESpec.v
theories/BitEProofs.v
theories/PropBitE.v
theories/SerModel.v
theories/SerProofs.v
theories/PropSer.v
theories/PStrModel.v
theories/PStrSpec.v
theories/PStrProofs.v
theories/PropPStr.v
theories/BdccModel.v
theories/BdccSpec.v
theories/BdccProofs.v
theories/PropBdcc.v
theories/BlockModel.v
theories/PTableModel.v
theories/BlockSpec.v
theories/LayoutProofs.v
theories/BlockBytes.v
theories/PropLayout.v
theories/PropPTable.v
theories/ColProofs.v
theories/InsColProofs.v
theories/BlockProofs.v
theories/InitProofs.v
theories/TableSpec.v
theories/TableProofs.v
theories/SplitProofs.v
theories/InsertProofs.v
theories/RunProofs.v
theories/ScanProofs.v
theories/TableTop.v
theories/PropTable.v
theories/SkipModel.v
theories/SkipSpec.v
theories/SkipProofs.v
theories/RandomModel.v
theories/RandomProofs.v
theories/SkipMain.v
theories/PropSkip.v
theories/WoModel.v
theories/WoNode.v
theories/WoProofs.v
theories/WoInsert.v
theories/WoMain.v
theories/PropWo.v
theories/TrieModel.v
theories/TrieSpec.v
theories/TrieProofs.v
theories/TrieMain.v
theories/PropTrie.v
theories/PatModel.v
theories/PatSpec.v
theories/PatBits.v
theories/PatProofs.v
theories/PatMain.v
theories/PropPatricia.v
theories/WbModel.v
theories/WbSpec.v
theories/WbProofs.v
theories/WbMove.v
theories/WbMain.v
theories/WbLeaf.v
theories/WbBranch.v
theories/WbTree.v
theories/PropWb.v
theories/WbEModel.v
theories/WbESpec.v
theories/WbEBranch.v
theories/WbEBalance.v
theories/WbEProofs.v
theories/PropWbE.v
theories/WhModel.v
theories/WhRec.v
theories/WhTree.v
theories/WhESpec.v
theories/WhErase.v
theories/WhHist.v
theories/PropWh.v
theories/BIterModel.v
theories/BIterProofs.v
theories/BIterMain.v
theories/PropIter.v
theories/CrashWModel.v
theories/CrashWSpec.v
theories/CrashWProofs.v
theories/CrashXProofs.v
theories/PropCrashW.v
theories/CrashMModel.v
theories/CrashMSpec.v
theories/CrashMProofs.v
theories/PropCrashM.v
theories/CrashBModel.v
theories/CrashBSpec.v
theories/CrashBProofs.v
theories/CrashDProofs.v
theories/PropCrashB.v
theories/PUtilModel.v
theories/PUtilSpec.v
theories/PUtilProofs.v
theories/TabInfoModel.v
theories/TabInfoSpec.v
theories/TabInfoProofs.v
theories/PropUtil.v
theories/CutModel.v
theories/CutSpec.v
theories/CutProofs.v
theories/CutEProofs.v
theories/PropCut.v
theories/RecEModel.v
theories/RecESpec.v
theories/RecEProofs.v
theories/PropRecE.v
theories/EraseX.v
theories/PathX.v
theories/PropEraseX.v
theories/FewSpec.v
theories/PathProofs.v
theories/PropPath.v
theories/PathG.v
theories/PropPathG.v
theories/PropPathX.v
theories/AbsentSpec.v
theories/AbsentProofs.v
theories/PropAbsentX.v
theories/UAbsentProofs.v
theories/PropUAbsent.v
theories/FEraseX.v
theories/FSlotX.v
theories/PropFEraseX.v
theories/BitRProofs.v
theories/PropBitR.v
theories/BenchModel.v
theories/BenchSpec.v
theories/BenchProofs.v
theories/PropBench.v
theories/BenchTSpec.v
theories/BenchTProofs.v
theories/PropBenchT.v
theories/BenchLModel.v
theories/BenchLSpec.v
theories/BenchLProofs.v
theories/PropBenchL.v
theories/BenchSModel.v
theories/BenchSProofs.v
theories/PropBenchS.v
theories/BenchGModel.v
theories/BenchGProofs.v
theories/PropBenchG.v
theories/BenchPModel.v
theories/BenchPSpec.v
theories/BenchPProofs.v
theories/PropBenchP.v
theories/PrintModel.v
theories/PrintSpec.v
theories/PrintProofs.v
theories/PropPrint.v
theories/TPrintModel.v
theories/TPrintSpec.v
theories/TPrintProofs.v
theories/PropTPrint.v
theories/WPrintModel.v
theories/WPrintSpec.v
theories/WPrintProofs.v
theories/WhPrint.v
theories/PropWPrint.v
theories/BPrintModel.v
theories/BPrintSpec.v
theories/BPrintProofs.v
theories/BhPrint.v
theories/BePrint.v
theories/PropBPrint.v
