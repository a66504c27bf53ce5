-Q theories Verif
theories/AsyncCancelModel.v
theories/AsyncCancelProofs.v
theories/AsyncCancelProps.v
theories/AsyncOpModel.v
theories/AsyncOpProofs.v
theories/AsyncOpProps.v
theories/AthModel.v
theories/AthProofs.v
theories/AthProps.v
theories/AthSpec.v
theories/Base64Model.v
theories/Base64Proofs.v
theories/Base64Props.v
theories/Base64Spec.v
theories/BatModel.v
theories/BatProofs.v
theories/BatProps.v
theories/BatSpec.v
theories/Block.v
theories/BlockFacts.v
theories/BufferModel.v
theories/BufferProofs.v
theories/BufferProps.v
theories/BufferSpec.v
theories/CArr.v
theories/CMem.v
theories/CMemFacts.v
theories/CMono.v
theories/CStr.v
theories/CStrFacts.v
theories/CbaBalance.v
theories/CbaCalls.v
theories/CbaEnd.v
theories/CbaFacts.v
theories/CbaLogic.v
theories/CbaModel.v
theories/CbaProofs.v
theories/CbaProps.v
theories/CbaSlice.v
theories/CbaSpec.v
theories/CbcModel.v
theories/CbcProofs.v
theories/CbcProofs2.v
theories/CbcProofs3.v
theories/CbcProofs4.v
theories/CbcProofs5.v
theories/CbcProofs6.v
theories/CbcProofs7.v
theories/CbcProps.v
theories/CbcSpec.v
theories/CbtModel.v
theories/CbtProofs.v
theories/CbtProps.v
theories/CbtSpec.v
theories/ChanModel.v
theories/ChanProofs.v
theories/ChanProofs2.v
theories/ChanProofs3.v
theories/ChanProofs4.v
theories/ChanProofs5.v
theories/ChanProofs6.v
theories/ChanProofs7.v
theories/ChanProps.v
theories/ChanSpec.v
theories/Common.v
theories/Conc.v
theories/ConcLists.v
theories/ConcSched.v
theories/ConstBufModel.v
theories/ConstBufProofs.v
theories/ConstBufProofs2.v
theories/ConstBufProofs3.v
theories/ConstBufProps.v
theories/ConstBufSpec.v
theories/CritModel.v
theories/CritProofs.v
theories/CritProps.v
theories/Csl.v
theories/CslPool.v
theories/CslRules.v
theories/CthModel.v
theories/CthProofs.v
theories/CthProps.v
theories/CtokModel.v
theories/CtokProofs.v
theories/CtokProps.v
theories/CtokSpec.v
theories/CtrModel.v
theories/CtrProofs.v
theories/CtrProps.v
theories/DListModel.v
theories/DListProofs.v
theories/DListProps.v
theories/DListSpec.v
theories/DispModel.v
theories/DispProofs.v
theories/DispProps.v
theories/DispSpec.v
theories/DrcModel.v
theories/DrcProofs.v
theories/DrcProps.v
theories/FilenameModel.v
theories/FilenameProofs.v
theories/FilenameProps.v
theories/FilenameSpec.v
theories/FlagsModel.v
theories/FlagsProofs.v
theories/FlagsProps.v
theories/FlagsSpec.v
theories/FolderModel.v
theories/FolderProofs.v
theories/FolderProps.v
theories/FolderSpec.v
theories/HashModel.v
theories/HashProps.v
theories/HrefModel.v
theories/HrefProofs.v
theories/LedgerModel.v
theories/LedgerProofs.v
theories/LedgerProps.v
theories/LedgerSpec.v
theories/LedrefModel.v
theories/LedrefProofs.v
theories/LedrefProps.v
theories/LedrefSpec.v
theories/Life.v
theories/LifeProofs.v
theories/MapJsonModel.v
theories/MapJsonProofs.v
theories/MapJsonProps.v
theories/MapJsonSpec.v
theories/MapModel.v
theories/MapProofs.v
theories/MapProps.v
theories/MapSpec.v
theories/MemDataModel.v
theories/MemDataProofs.v
theories/MemDataProps.v
theories/MemDataSpec.v
theories/OltModel.v
theories/OltProofs.v
theories/OltProps.v
theories/OltSpec.v
theories/PagedModel.v
theories/PagedProofs.v
theories/PagedProps.v
theories/PagedSpec.v
theories/Prog.v
theories/Rc.v
theories/RcsModel.v
theories/RcsProofs.v
theories/RcsProofs2.v
theories/RcsProofs3.v
theories/RcsProofs4.v
theories/RcsProofs5.v
theories/RcsProofs6.v
theories/RcsProps.v
theories/RcsSpec.v
theories/RefsModel.v
theories/RefsProofs.v
theories/RtwModel.v
theories/RtwProofs.v
theories/RtwProps.v
theories/RtwSpec.v
theories/SListModel.v
theories/SListProofs.v
theories/SListProps.v
theories/SListSpec.v
theories/Sched.v
theories/SepAll.v
theories/SepHeap.v
theories/SepRules.v
theories/SlcModel.v
theories/SlcProofs.v
theories/SlcProps.v
theories/SlcSpec.v
theories/SlidingModel.v
theories/SlidingProofs.v
theories/SlidingProps.v
theories/SlidingSpec.v
theories/SlrProofs.v
theories/SplModel.v
theories/SplProofs.v
theories/SplProofs2.v
theories/SplProps.v
theories/SplSpec.v
theories/SplWrap.v
theories/Sprintf.v
theories/SprintfFacts.v
theories/StrModel.v
theories/StrProofs.v
theories/StrProps.v
theories/StrSpec.v
theories/SwrModel.v
theories/SwrProofs.v
theories/SwrProps.v
theories/SwrSpec.v
theories/TArrayModel.v
theories/TArrayProofs.v
theories/TArrayProps.v
theories/TArraySpec.v
theories/Tally.v
theories/TndModel.v
theories/TndProofs.v
theories/TndProofs2.v
theories/TndProps.v
theories/TndSpec.v
theories/TpdModel.v
theories/TpdProofs.v
theories/TpdProps.v
theories/TpwModel.v
theories/TpwProofs.v
theories/TpwProps.v
theories/TpwSpec.v
theories/TwoDModel.v
theories/TwoDProofs.v
theories/TwoDProps.v
theories/TwoDSpec.v
theories/UuidModel.v
theories/UuidProofs.v
theories/UuidProps.v
theories/UuidSpec.v
theories/WdogModel.v
theories/WdogProofs.v
theories/WdogProps.v
theories/WdogSpec.v
theories/WdtpModel.v
theories/WdtpProofs.v
theories/WdtpProps.v
theories/WdtpSpec.v
theories/WtdModel.v
theories/WtdProofs.v
theories/WtdProps.v
theories/WthModel.v
theories/WthProofs.v
theories/WthProps.v
theories/WthSpec.v
