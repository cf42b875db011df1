-Q theories Verif
theories/Str.v
theories/PosixPath.v
theories/PySort.v
theories/Utils.v
theories/PathsDiff.v
theories/Config.v
theories/ConfigProofs.v
theories/Timestamp.v
theories/Prop_Paths.v
theories/Prop_Config.v
theories/Path.v
theories/DBTables.v
theories/DBSpec.v
theories/DBRefine.v
theories/DBProofs.v
theories/DBInv.v
theories/DBCollide.v
theories/DBDec.v
theories/Prop_DB.v
theories/Priority.v
theories/PriorityProofs.v
theories/Prop_Priority.v
theories/SelectProofs.v
theories/Mon.v
theories/FS.v
theories/Fstools.v
theories/FSProofs.v
theories/FstoolsProofs.v
theories/TransferProofs.v
theories/SymlinkProofs.v
theories/FSDec.v
theories/RmProofs.v
theories/Prop_Fstools.v
theories/Glob.v
theories/Pattern.v
theories/GlobProofs.v
theories/Prop_Glob.v
theories/World.v
theories/FilesManager.v
theories/Sync.v
theories/InitReset.v
theories/FMProofs.v
theories/ExWorld.v
theories/Prop_Detect.v
theories/TrashProofs.v
theories/SyncEx.v
theories/Prop_Trash.v
theories/SyncProofs.v
theories/InitProofs.v
theories/Prop_Init.v
theories/ResetProofs.v
theories/Prop_Reset.v
theories/CutProofs.v
theories/Prop_Exclude.v
theories/Merge.v
theories/ExcludeProofs.v
theories/MergeIntro.v
theories/MergeFacts.v
theories/MergeDB.v
theories/JoinProofs.v
theories/MergeSync.v
theories/MergeCut.v
theories/MergeNone.v
theories/MergeUp.v
theories/MergeDown.v
theories/MergeEnd.v
theories/MergeAgain.v
theories/MergeHalf.v
theories/ConflictProofs.v
theories/MergeClash.v
theories/MergeClashRun.v
theories/MergeEx.v
theories/Prop_Merge.v
theories/Prop_Half.v
theories/Prop_Replace.v
theories/Prop_Local.v
theories/Prop_Join.v
theories/MergeTwo.v
theories/Prop_Two.v
theories/Prop_Joined.v
theories/History.v
theories/Prop_History.v
theories/Prop_Later.v
theories/Prop_Conflict.v
theories/ClashSync.v
theories/Prop_Clash.v
theories/Prop_Same.v
theories/Prop_Sync.v
theories/Table.v
theories/Prop_Table.v
theories/ProfileGen.v
theories/Prop_Profile.v
theories/Prop_Whole.v
theories/Utf8.v
theories/Command.v
theories/Prop_Command.v
theories/Life.v
theories/LifeProofs.v
theories/Prop_Life.v
theories/Daemon.v
theories/Prop_Daemon.v
theories/Prop_Excluded.v
theories/Prop_ExcludedAgain.v
theories/Check.v
theories/Prop_Check.v
theories/Bar.v
theories/Prop_Bar.v
theories/HomeDir.v
theories/Prop_HomeDir.v
theories/Complete.v
theories/Prop_Complete.v
theories/Space.v
theories/Prop_Space.v
theories/Watch.v
theories/Prop_Watch.v
theories/Prop_Attempt.v
theories/CheckMsg.v
theories/Prop_CheckMsg.v
theories/DaemonLoop.v
theories/Prop_DaemonLoop.v
theories/Cli.v
theories/CliProofs.v
theories/Prop_Cli.v
theories/Profiles.v
theories/Prop_Profiles.v
theories/Prop_MoreEx.v
theories/Prop_ProfileSet.v
theories/Concurrent.v
theories/Prop_Concurrent.v
