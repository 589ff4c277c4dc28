-Q theories Verif
theories/Base.v
theories/TM.v
theories/TMFacts.v
theories/TapeModel.v
theories/TapeSpec.v
theories/TapeProofs.v
theories/PropsTape.v
theories/ProgModel.v
theories/QuickModel.v
theories/QuickProofs.v
theories/PropsQuick.v
theories/TermRecModel.v
theories/TermRecProofs.v
theories/PropsTermRec.v
theories/RulesModel.v
theories/RulesSpec.v
theories/RulesProofs.v
theories/DiffProofs.v
theories/PropsRules.v
theories/PastModel.v
theories/PastSpec.v
theories/PastProofs.v
theories/PropsPast.v
theories/MacroModel.v
theories/MacroSpec.v
theories/MacroProofs.v
theories/BackLimit.v
theories/MacroLogic.v
theories/MacroRun.v
theories/PropsMacro.v
theories/ParseModel.v
theories/ParseSpec.v
theories/ParseProofs.v
theories/PropsParse.v
theories/NormModel.v
theories/NormSpec.v
theories/NormProofs.v
theories/NormFull.v
theories/PropsNorm.v
theories/GraphModel.v
theories/GraphSpec.v
theories/GraphProofs.v
theories/ReduceProofs.v
theories/PropsGraph.v
theories/ReasonModel.v
theories/ReasonSpec.v
theories/ReasonProofs.v
theories/ReasonSound.v
theories/ReasonKinds.v
theories/PropsReason.v
theories/SegModel.v
theories/SegSpec.v
theories/SegProofs.v
theories/SegSound.v
theories/PropsSeg.v
theories/NumTables.v
theories/NumModel.v
theories/NumSpec.v
theories/NumProofs.v
theories/NumFree.v
theories/NumMod.v
theories/NumMore.v
theories/NumRefute.v
theories/PropsNum.v
theories/BlocksModel.v
theories/BlocksSpec.v
theories/BlocksProofs.v
theories/PropsBlocks.v
theories/InstrSeqModel.v
theories/InstrSeqSpec.v
theories/InstrSeqProofs.v
theories/PropsInstrSeq.v
theories/TreeModel.v
theories/TreeSpec.v
theories/TreeProofs.v
theories/TreeFull.v
theories/PropsTree.v
theories/EnumModel.v
theories/EnumSpec.v
theories/EnumProofs.v
theories/PropsEnum.v
theories/HeapModel.v
theories/HeapSpec.v
theories/HeapProofs.v
theories/PropsHeap.v
theories/ProverModel.v
theories/MachineProofs.v
theories/NormTree.v
theories/PropsMachine.v
theories/MakeMacroModel.v
theories/MakeMacroProofs.v
theories/PropsMakeMacro.v
theories/TermRecSpec.v
theories/TermRecComplete.v
theories/CModel.v
theories/CSpec.v
theories/CProofs.v
theories/PropsC.v
theories/SymModel.v
theories/SymSpec.v
theories/SymProofs.v
theories/PropsSym.v
theories/GraphMore.v
theories/PropsGraph2.v
theories/CanonSpec.v
theories/NormCanon.v
theories/PropsNorm2.v
theories/LawSpec.v
theories/EdgeProofs.v
theories/LawProofs.v
theories/RsLawProofs.v
theories/LawCase.v
theories/PropsLaw.v
theories/DotModel.v
theories/DotSpec.v
theories/DotProofs.v
theories/PropsDot.v
theories/IdrisModel.v
theories/IdrisSpec.v
theories/IdrisProofs.v
theories/IdrisRunProofs.v
theories/IdrisDoubleProofs.v
theories/IdrisParseModel.v
theories/IdrisParseSpec.v
theories/IdrisParseProofs.v
theories/IdrisMachines.v
theories/PropsIdris.v
theories/LinModel.v
theories/LinSpec.v
theories/LinProofs.v
theories/LinRunProofs.v
theories/PropsLin.v
theories/NumHeapModel.v
theories/NumHeapSpec.v
theories/NumHeapProofs.v
theories/PropsNumHeap.v
theories/NumShowModel.v
theories/NumShowSpec.v
theories/NumShowProofs.v
theories/PropsNumShow.v
theories/NumEstModel.v
theories/NumEstSpec.v
theories/NumEstProofs.v
theories/PropsNumEst.v
theories/StructModel.v
theories/StructSpec.v
theories/StructProofs.v
theories/StructRunProofs.v
theories/StructFastProofs.v
theories/StructFilesProofs.v
theories/PropsStruct.v
theories/RsMacroModel.v
theories/FilterModel.v
theories/FilterSpec.v
theories/FilterProofs.v
theories/RsMacroProofs.v
theories/FilterCases.v
theories/PropsFilter.v
theories/SymMachModel.v
theories/SymMachSpec.v
theories/SymMachProofs.v
theories/SymMachCase.v
theories/PropsSymMach.v
theories/ConformNum.v
theories/ConformTables.v
theories/ConformSym.v
theories/RecurModel.v
theories/RecurSpec.v
theories/RecurProofs.v
theories/RecurStrict.v
theories/RecurComplete.v
theories/RecurSample.v
theories/RecurLoose.v
theories/RecurCases.v
theories/PropsRecur.v
theories/LimitProofs.v
theories/PropsLimit.v
theories/SymIntSpec.v
theories/SymIntProofs.v
theories/PropsSymInt.v
theories/ExpandModel.v
theories/ExpandSpec.v
theories/ExpandProofs.v
theories/PropsExpand.v
theories/MachObjModel.v
theories/MachObjSpec.v
theories/MachObjProofs.v
theories/MachLineProofs.v
theories/PropsMachObj.v
theories/TetModel.v
theories/TetSpec.v
theories/TetProofs.v
theories/PropsTet.v
theories/TapeShowModel.v
theories/TapeShowSpec.v
theories/TapeShowProofs.v
theories/PropsTapeShow.v
theories/ConformTape.v
theories/MirrorSpec.v
theories/MirrorProofs.v
theories/PropsMirror.v
theories/RenameSpec.v
theories/RenameProofs.v
theories/PropsRename.v
theories/OrderProofs.v
theories/RenameReason.v
theories/MirrorMach.v
theories/ApiModel.v
theories/ApiSpec.v
theories/ApiProofs.v
theories/PropsApi.v
theories/ScriptModel.v
theories/ScriptSpec.v
theories/ScriptProofs.v
theories/PropsScript.v
theories/SigSpec.v
theories/SigProofs.v
theories/PropsSig.v
theories/AgreeSpec.v
theories/AgreeProofs.v
theories/PropsAgree.v
theories/BookSpec.v
theories/BookProofs.v
theories/PropsBook.v
theories/RsGrowProofs.v
theories/NumLtProofs.v
theories/WatchModel.v
theories/WatchSpec.v
theories/WatchProofs.v
theories/PropsWatch.v
theories/CertSpec.v
theories/CertProofs.v
theories/CertAgree.v
theories/PropsCert.v
theories/DumpModel.v
theories/DumpProofs.v
theories/PropsDump.v
theories/NumPowModel.v
theories/NumPowProofs.v
theories/PropsNumPow.v
theories/MirrorCert.v
theories/PropsCertMirror.v
theories/IdrisMainModel.v
theories/IdrisMainSpec.v
theories/IdrisMainProofs.v
theories/PropsIdrisMain.v
theories/NumCmpProofs.v
theories/PropsNumCmp.v
theories/NumSumSpec.v
theories/NumSumProofs.v
theories/SegMirror.v
theories/PropsSegMirror.v
theories/MacroShowModel.v
theories/MacroShowProofs.v
theories/PropsMacroShow.v
theories/ParseTrim.v
theories/PropsTrim.v
theories/MacroLineModel.v
theories/MacroLineProofs.v
theories/PropsMacroLine.v
theories/BlockMirror.v
theories/PropsBlockMirror.v
theories/RenameBlocks.v
theories/PropsRenameBlocks.v
theories/RenameMacroSpec.v
theories/RenameMacro.v
theories/PropsRenameMacro.v
theories/RenameMachineSpec.v
theories/RenameMachine.v
theories/PropsRenameMachine.v
theories/MacroMirror.v
theories/PropsMacroMirror.v
theories/RenameBackSpec.v
theories/RenameBack.v
theories/PropsRenameBack.v
theories/ApiMacro.v
theories/PropsApiMacro.v
