-Q theories Verif
theories/Files.v
theories/FilesFacts.v
theories/MetadataModel.v
theories/MetadataSpec.v
theories/MetadataProofs.v
theories/MetadataInv.v
theories/MetadataLemmas.v
theories/MetadataProps.v
theories/FileModel.v
theories/FileSpec.v
theories/FileProofs.v
theories/FloatModel.v
theories/FloatProofs.v
theories/FileLemmas.v
theories/FileProps.v
theories/MultiLockModel.v
theories/MultiLockSpec.v
theories/MultiLockProofs.v
theories/MultiLockProps.v
theories/InodeCacheModel.v
theories/InodeCacheSpec.v
theories/InodeCacheProofs.v
theories/InodeCacheProps.v
theories/LinkedDictModel.v
theories/LinkedDictSpec.v
theories/LinkedDictChain.v
theories/LinkedDictAbs.v
theories/LinkedDictProofs.v
theories/LinkedDictProps.v
theories/BlockCacheModel.v
theories/BlockCacheSpec.v
theories/BlockCacheLemmas.v
theories/BlockCacheSteps.v
theories/BlockCacheInv.v
theories/BlockCacheInv2.v
theories/BlockCacheInv3.v
theories/BlockCacheInv4.v
theories/BlockCacheInv5.v
theories/BlockCacheInv6.v
theories/BlockCacheInv7.v
theories/BlockCacheTasks.v
theories/BlockCacheFlush.v
theories/BlockCacheReach.v
theories/BlockCacheProofs.v
theories/BlockCacheCalls.v
theories/BlockCacheWitness.v
theories/BlockCacheProps.v
theories/MountModel.v
theories/MountSpec.v
theories/MountProofs.v
theories/MountProps.v
theories/Bytes.v
theories/Text.v
theories/ComprencModel.v
theories/ComprencSpec.v
theories/ComprencProofs.v
theories/ComprencProps.v
theories/FsModel.v
theories/FsSpec.v
theories/FsLemmas.v
theories/FsInv.v
theories/FsOps.v
theories/FsSteps.v
theories/FsHist.v
theories/FsLock.v
theories/FsCrash.v
theories/FsDir.v
theories/FsDirProps.v
theories/FsTreeModel.v
theories/FsTree.v
theories/FsTreeProps.v
theories/FsProps.v
theories/PathModel.v
theories/PathSpec.v
theories/PathProofs.v
theories/PathProps.v
theories/CaseDictModel.v
theories/CaseDictSpec.v
theories/CaseDictProofs.v
theories/CaseDictProps.v
theories/BatchModel.v
theories/BatchProps.v
theories/PoolModel.v
theories/PoolProofs.v
theories/PoolProps.v
theories/PipelineModel.v
theories/PipelineProps.v
theories/HttpModel.v
theories/HttpProofs.v
theories/HttpProps.v
theories/AtomicModel.v
theories/AtomicProps.v
theories/LocalModel.v
theories/LocalPaths.v
theories/LocalSpec.v
theories/LocalProofs.v
theories/LocalList.v
theories/LocalProps.v
theories/EscapeProps.v
theories/Count.v
theories/Decimal.v
theories/FsckModel.v
theories/FsckProofs.v
theories/FsckSpec.v
theories/FsckClean.v
theories/FsckLoops.v
theories/FsckKept.v
theories/FsckFree.v
theories/FsckSilent.v
theories/FsckProps.v
theories/RetryModel.v
theories/RetryProps.v
theories/RateProps.v
theories/DeleteModel.v
theories/DeleteProps.v
theories/DownloadModel.v
theories/DownloadProps.v
theories/PagingModel.v
theories/PagingProps.v
theories/CodecModel.v
theories/CodecProps.v
theories/FreezeModel.v
theories/FreezeProps.v
theories/HeaderModel.v
theories/HeaderProps.v
theories/CopyModel.v
theories/CopyProofs.v
theories/CopySpec.v
theories/CopyEnd.v
theories/CopyProps.v
theories/ExpireModel.v
theories/ExpireSpec.v
theories/ExpireProps.v
theories/LimitsModel.v
theories/LimitsProps.v
theories/ConfigModel.v
theories/ConfigSpec.v
theories/ConfigProps.v
theories/NamesModel.v
theories/NamesProps.v
theories/SetupModel.v
theories/SetupProps.v
theories/FreshProps.v
theories/VerifyModel.v
theories/VerifyProps.v
theories/UpgradeModel.v
theories/UpgradeProps.v
theories/ObjIdModel.v
theories/ObjIdProps.v
theories/SignModel.v
theories/SignSpec.v
theories/SignProofs.v
theories/SignProps.v
theories/CommitModel.v
theories/CommitProps.v
theories/SwiftTokenModel.v
theories/GsTokenModel.v
theories/SwiftTokenProps.v
theories/GsTokenProps.v
theories/GsUploadModel.v
theories/GsUploadSpec.v
theories/GsUploadProps.v
theories/TimesModel.v
theories/TimesSpec.v
theories/TimesProofs.v
theories/TimesProps.v
theories/EntryModel.v
theories/EntrySpec.v
theories/EntryProps.v
theories/FstabModel.v
theories/FstabProps.v
theories/UmountModel.v
theories/UmountProps.v
theories/LogModel.v
theories/LogProps.v
theories/LogSpec.v
theories/LogScreen.v
theories/WalModel.v
theories/WalProps.v
theories/ClearModel.v
theories/ClearProps.v
theories/ConcModel.v
theories/ConcSpec.v
theories/ConcProofs.v
theories/ConcProps.v
theories/DialModel.v
theories/DialSpec.v
theories/DialProofs.v
theories/DialProps.v
theories/HdrModel.v
theories/HdrSpec.v
theories/HdrProps.v
theories/Utf8Props.v
theories/CmdModel.v
theories/CmdSpec.v
theories/CmdProps.v
theories/CpModel.v
theories/CpProps.v
