-Q theories Verif
theories/AllocModel.v
theories/AllocProps.v
theories/AllocpoolModel.v
theories/AllocpoolProps.v
theories/Arc4Model.v
theories/Arc4Proofs.v
theories/Arc4Props.v
theories/Arc4Spec.v
theories/ArgvModel.v
theories/ArgvProofs.v
theories/ArgvProps.v
theories/ArgvSpec.v
theories/ArrayModel.v
theories/ArrayProps.v
theories/ArraySpec.v
theories/Ascii85Model.v
theories/Ascii85Props.v
theories/AtomicFreeProps.v
theories/AtomicModel.v
theories/AtomicProofs.v
theories/AtomicProps.v
theories/AtomicSpec.v
theories/AugModel.v
theories/AugProofs.v
theories/AugProofs2.v
theories/AugProps.v
theories/AugSpec.v
theories/BaseModel.v
theories/BaseProofs.v
theories/BaseProps.v
theories/BaseSpec.v
theories/BcdModel.v
theories/BcdProps.v
theories/BitLoopModel.v
theories/BitLoopProps.v
theories/BitLoopSpec.v
theories/BitmapApiModel.v
theories/BitmapApiProofs.v
theories/BitmapApiProps.v
theories/BitmapHeapModel.v
theories/BitmapHeapProps.v
theories/BitmapHeapSpec.v
theories/BitmapModel.v
theories/BitmapProofs.v
theories/BitmapProps.v
theories/BitmapSpec.v
theories/BitsModel.v
theories/BitsProofs.v
theories/BitsProps.v
theories/BitsSpec.v
theories/BitwalkModel.v
theories/BitwalkProofs.v
theories/BitwalkProps.v
theories/BitwalkSpec.v
theories/BloomModel.v
theories/BloomProps.v
theories/BmFirstProofs.v
theories/BmFirstProps.v
theories/BmMemModel.v
theories/BmMemProofs.v
theories/BmMemProps.v
theories/BmProofs.v
theories/BtreeCells.v
theories/BtreeFill.v
theories/BtreeInsert.v
theories/BtreeIter.v
theories/BtreeModel.v
theories/BtreeProps.v
theories/BtreeRemove.v
theories/BtreeSession.v
theories/BtreeSpec.v
theories/BtreeState.v
theories/BtreeTower.v
theories/ByteorderModel.v
theories/ByteorderProofs.v
theories/ByteorderProps.v
theories/ByteorderSpec.v
theories/CArith.v
theories/CArithProofs.v
theories/CacheHist.v
theories/CacheLaws.v
theories/CacheModel.v
theories/CacheOps.v
theories/CacheProofs.v
theories/CacheProps.v
theories/CacheSpec.v
theories/CrcModel.v
theories/CrcProofs.v
theories/CrcProofs2.v
theories/CrcProofs3.v
theories/CrcProps.v
theories/CrcSpec.v
theories/CreateModel.v
theories/CreateProofs.v
theories/CreateProofs2.v
theories/CreateProps.v
theories/CreateSpec.v
theories/CtypeModel.v
theories/CtypeProps.v
theories/DigestModel.v
theories/DigestProofs.v
theories/DigestProofs2.v
theories/DigestProofs3.v
theories/DigestProps.v
theories/DigestSpec.v
theories/DwordModel.v
theories/DwordProofs.v
theories/DwordProps.v
theories/DwordSpec.v
theories/ErrnameModel.v
theories/ErrnameProps.v
theories/FenceModel.v
theories/FenceProofs.v
theories/FenceProps.v
theories/FenceRefProps.v
theories/FenceSpec.v
theories/FifoModel.v
theories/FifoProofs.v
theories/FifoProps.v
theories/FifoSpec.v
theories/FsmModel.v
theories/FsmProps.v
theories/FsmSpec.v
theories/HashCallsModel.v
theories/HashCallsProofs.v
theories/HashCallsProps.v
theories/HashCallsSpec.v
theories/HashmapModel.v
theories/HashmapProofs.v
theories/HashmapProps.v
theories/HashmapSpec.v
theories/HeapCallsModel.v
theories/HeapCallsProofs.v
theories/HeapCallsProps.v
theories/HeapDebugProps.v
theories/HeapDebugSpec.v
theories/HeapModel.v
theories/HeapOps.v
theories/HeapPath.v
theories/HeapProofs.v
theories/HeapProps.v
theories/HeapSpec.v
theories/IlistDbgModel.v
theories/IlistDbgProofs.v
theories/IlistDbgProofs2.v
theories/IlistDbgProps.v
theories/IlistDbgSpec.v
theories/IlistModel.v
theories/IlistProofs.v
theories/IlistProofs2.v
theories/IlistProps.v
theories/IlistSpec.v
theories/JhashModel.v
theories/JhashProofs.v
theories/JhashProps.v
theories/JhashSpec.v
theories/KmpCostModel.v
theories/KmpCostProps.v
theories/KmpMemModel.v
theories/KmpMemProofs.v
theories/KmpMemProps.v
theories/KmpProofs.v
theories/LevModel.v
theories/LevProofs.v
theories/LevProps.v
theories/LevSpec.v
theories/Lib.v
theories/ListCallsModel.v
theories/ListCallsProofs.v
theories/ListCallsProofs2.v
theories/ListCallsProps.v
theories/ListDebugModel.v
theories/ListDebugProps.v
theories/ListModel.v
theories/ListProofs.v
theories/ListProofs2.v
theories/ListProps.v
theories/ListSortModel.v
theories/ListSortProofs.v
theories/ListSortProofs2.v
theories/ListSortProofs3.v
theories/ListSortProofs4.v
theories/ListSortProps.v
theories/ListSortSpec.v
theories/ListSpec.v
theories/LlistFenceModel.v
theories/LlistFenceProofs.v
theories/LlistFenceProofs2.v
theories/LlistFenceProofs3.v
theories/LlistFenceProps.v
theories/LlistFenceSpec.v
theories/LlistModel.v
theories/LlistProofs.v
theories/LlistProps.v
theories/LlistSpec.v
theories/LoadListProps.v
theories/LoadLockProps.v
theories/LoadModel.v
theories/LoadProofs.v
theories/LoadRefProps.v
theories/LoadSpec.v
theories/LockFreeProofs.v
theories/LockFreeProps.v
theories/LockFreeSpec.v
theories/LogModel.v
theories/LogProps.v
theories/LogSpec.v
theories/MacroModel.v
theories/MacroProofs.v
theories/MacroProofs2.v
theories/MacroProps.v
theories/MacroSpec.v
theories/MatrixModel.v
theories/MatrixProofs.v
theories/MatrixProps.v
theories/MatrixSpec.v
theories/Mem.v
theories/MemallocModel.v
theories/MemallocProofs.v
theories/MemallocProofs2.v
theories/MemallocProofs3.v
theories/MemallocProofs4.v
theories/MemallocProofs5.v
theories/MemallocProps.v
theories/MemallocSpec.v
theories/MiscModel.v
theories/MiscProps.v
theories/MpiBitsModel.v
theories/MpiBitsProofs.v
theories/MpiBitsProofs2.v
theories/MpiBitsProps.v
theories/MpiDivProofs.v
theories/MpiDivProps.v
theories/MpiModel.v
theories/MpiProofs.v
theories/MpiProofs2.v
theories/MpiProofs3.v
theories/MpiProofs4.v
theories/MpiProps.v
theories/MpiSpec.v
theories/MpiStoreModel.v
theories/MpiStoreProps.v
theories/MpiStoreSpec.v
theories/NotifierModel.v
theories/NotifierProps.v
theories/NotifierSpec.v
theories/OnceModel.v
theories/OnceProps.v
theories/OnceSpec.v
theories/PrandomModel.v
theories/PrandomProps.v
theories/Ptr.v
theories/RadixAlloc.v
theories/RadixFree.v
theories/RadixIter.v
theories/RadixModel.v
theories/RadixOps.v
theories/RadixProofs.v
theories/RadixProps.v
theories/RadixRelease.v
theories/RadixSession.v
theories/RadixSpec.v
theories/RadixWalk.v
theories/RatelimitModel.v
theories/RatelimitProps.v
theories/RatelimitSpec.v
theories/RbCallsModel.v
theories/RbCallsProofs.v
theories/RbCallsProps.v
theories/RbDebugProps.v
theories/RbDebugSpec.v
theories/RbDelete.v
theories/RbErase.v
theories/RbFrame.v
theories/RbHistSpec.v
theories/RbInsert.v
theories/RbModel.v
theories/RbOps.v
theories/RbOps2.v
theories/RbProofs.v
theories/RbProps.v
theories/RbRemove.v
theories/RbRemove2.v
theories/RbRotate.v
theories/RbSpec.v
theories/ReentModel.v
theories/ReentProofs.v
theories/ReentProps.v
theories/ReentSpec.v
theories/RefDbgModel.v
theories/RefDbgProps.v
theories/RefDbgSpec.v
theories/RefcntModel.v
theories/RefcntProps.v
theories/RefcntSpec.v
theories/RegistryModel.v
theories/RegistryProps.v
theories/RespoolModel.v
theories/RespoolProps.v
theories/RespoolSpec.v
theories/SafeIterModel.v
theories/SafeIterProofs.v
theories/SafeIterProps.v
theories/SafeIterSpec.v
theories/SafeMapProofs.v
theories/SegModel.v
theories/SegOps.v
theories/SegProofs.v
theories/SegProofs2.v
theories/SegProps.v
theories/SegSpec.v
theories/SkipCallsModel.v
theories/SkipCallsProofs.v
theories/SkipCallsProps.v
theories/SkipCallsSpec.v
theories/SkiplistModel.v
theories/SkiplistProofs.v
theories/SkiplistProps.v
theories/SkiplistSpec.v
theories/SlistModel.v
theories/SlistProofs.v
theories/SlistProps.v
theories/SlistSpec.v
theories/SortCallsModel.v
theories/SortCallsProps.v
theories/SortModel.v
theories/SortProofs.v
theories/SortProps.v
theories/SortSpec.v
theories/SpscModel.v
theories/SpscProofs.v
theories/SpscProofs2.v
theories/SpscProofs3.v
theories/SpscProps.v
theories/SpscSpec.v
theories/StrdupModel.v
theories/StrdupProps.v
theories/SundayMemModel.v
theories/SundayMemProofs.v
theories/SundayMemProps.v
theories/SundayMemSpec.v
theories/SundayProofs.v
theories/SwabMemModel.v
theories/SwabMemProps.v
theories/SwabMemSpec.v
theories/TextModel.v
theories/TextProps.v
theories/TextSpec.v
theories/TiterModel.v
theories/TiterProofs.v
theories/TokenProps.v
theories/Tree.v
theories/TreeDebugModel.v
theories/TsoModel.v
theories/TsoProofs.v
theories/TsoProps.v
theories/TsoSpec.v
