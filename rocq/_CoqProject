-Q theories Verif
theories/Str.v
theories/PathModel.v
theories/PathSpec.v
theories/StrProofs.v
theories/PathProofs.v
theories/PathOps.v
theories/PathOps2.v
theories/PathNormal.v
theories/PathNormal2.v
theories/PathMisc.v
theories/PathReach.v
theories/PathLaws.v
theories/PathProps.v
theories/WinPathProps.v
theories/FlagsModel.v
theories/TimeModel.v
theories/WinPermsModel.v
theories/ErrorModel.v
theories/ArithProps.v
theories/Prog.v
theories/DirModel.v
theories/OpsModel.v
theories/OpsProofs.v
theories/OpsProps.v
theories/OpsHandles.v
theories/NoThrow.v
theories/FS.v
theories/FSProofs.v
theories/FSSpec.v
theories/FSOps.v
theories/FSProps.v
theories/FSProps2.v
theories/FSProps3.v
theories/FSPlace.v
theories/FSProps4.v
theories/IterProps.v
theories/FSIter.v
theories/FSRemove.v
theories/RaceProps.v
theories/FSCreate.v
theories/FSCopy.v
theories/RaceCopy.v
theories/FSDispatch.v
theories/FSCopyTree.v
theories/FSWalk.v
theories/EntryProps.v
theories/WinAclModel.v
theories/WinAclProps.v
theories/WinStatModel.v
theories/WinStatProps.v
theories/WinOpsModel.v
theories/WinOpsProps.v
theories/WinOpsProps2.v
theories/WinPlace.v
theories/WinAppend.v
theories/WinGeneric.v
theories/WinNormal.v
theories/WinNormalProps.v
theories/WinRelative.v
theories/WinRemoveAll.v
theories/WinRemoveTree.v
theories/WinDrive.v
theories/WinCanon.v
theories/WinCanonProps.v
theories/WinAbsoluteProps.v
theories/WinLinksProps.v
theories/WinCreateDirs.v
theories/WinCreateDirsProps.v
theories/WinCopy.v
theories/WinCopyTree.v
theories/WinCopyProps.v
theories/WinWeak.v
theories/WinWeakProps.v
theories/WinParts.v
theories/WinCompare.v
theories/ShareModel.v
theories/ShareProps.v
theories/AliasModel.v
theories/AliasProps.v
theories/AliasReach.v
theories/RaceCreate.v
theories/NulModel.v
theories/NulProps.v
theories/Fuel.v
theories/CopyEnds.v
theories/WinHandleModel.v
theories/WinHandles.v
theories/WinHandleSim.v
theories/WinPermissions.v
theories/Utf8.v
theories/SourceModel.v
theories/SourceProps.v
theories/Utf8Props.v
theories/EntryLater.v
theories/PathSafe.v
theories/FSLike.v
theories/Utf8Win.v
theories/FSFollow.v
theories/PostModel.v
theories/PostProps.v
theories/FSCreateFail.v
theories/FSMerge.v
theories/FSKeep.v
theories/FSUndo.v
theories/Chronicle.v
theories/RaceRemove.v
theories/RaceTree.v
theories/WinCalls.v
theories/Told.v
theories/WinTold.v
theories/WinAgree.v
theories/Atomic.v
theories/WinAtomic.v
theories/Again.v
theories/Agree.v
theories/Cwd.v
