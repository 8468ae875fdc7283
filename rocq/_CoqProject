-Q theories Verif
theories/Py.v
theories/RedirModel.v
theories/RedirSpec.v
theories/RedirProofs.v
theories/Os.v
theories/PerformModel.v
theories/PerformSpec.v
theories/PerformProofs.v
theories/PerformSound.v
theories/PropsRedir.v
theories/RunModel.v
theories/RunSpec.v
theories/RunTopSpec.v
theories/RunProofs.v
theories/RunPre.v
theories/RunMake.v
theories/RunMake2.v
theories/RunMain.v
theories/RunArgs.v
theories/RunTop.v
theories/RunFinal.v
theories/RunMore.v
theories/RunFail.v
theories/RunEnds.v
theories/RunStarted.v
theories/PropsRun.v
theories/IterModel.v
theories/IterSpec.v
theories/IterProofs.v
theories/IterOut.v
theories/PropsIter.v
theories/WorldModel.v
theories/WorldSpec.v
theories/WorldProofs.v
theories/WorldWait.v
theories/WorldStep.v
theories/WorldLive.v
theories/WorldHang.v
theories/WorldMore.v
theories/PropsWorld.v
theories/PropsEnd.v
theories/Utf8Model.v
theories/Utf8Spec.v
theories/Utf8Proofs.v
theories/PropsText.v
theories/FinishModel.v
theories/FinishSpec.v
theories/FinishProofs.v
theories/PropsFinish.v
theories/SigModel.v
theories/SigSpec.v
theories/SigProofs.v
theories/PropsSig.v
theories/PathModel.v
theories/PathSpec.v
theories/PathProofs.v
theories/EnvModel.v
theories/EnvSpec.v
theories/EnvProofs.v
theories/PropsEnv.v
theories/ExpandModel.v
theories/ExpandSpec.v
theories/ExpandProofs.v
theories/PropsExpand.v
theories/CommandModel.v
theories/CommandSpec.v
theories/CommandProofs.v
theories/PropsCommand.v
theories/ScopeModel.v
theories/ScopeSpec.v
theories/ScopeProofs.v
theories/PropsScope.v
theories/CopyModel.v
theories/CopySpec.v
theories/CopyProofs.v
theories/PropsCopy.v
theories/TreeModel.v
theories/TreeSpec.v
theories/TreeProofs.v
theories/PropsTree.v
theories/FileModel.v
theories/FileSpec.v
theories/FileProofs.v
theories/PropsFile.v
theories/BashModel.v
theories/BashSpec.v
theories/BashProofs.v
theories/PropsBash.v
theories/RunSameSpec.v
theories/RunAssoc.v
theories/PropsAssoc.v
theories/ChildModel.v
theories/ChildSpec.v
theories/ChildProofs.v
theories/ChildRedir.v
theories/PropsChild.v
theories/RunPartial.v
theories/PropsPartial.v
theories/ReprModel.v
theories/ReprSpec.v
theories/ReprProofs.v
theories/PropsRepr.v
theories/ShellModel.v
theories/ShellSpec.v
theories/ShellProofs.v
theories/PropsShell.v
theories/PickleModel.v
theories/PickleSpec.v
theories/PickleProofs.v
theories/PropsPickle.v
theories/LaunchModel.v
theories/LaunchProofs.v
theories/PropsLaunch.v
theories/OperModel.v
theories/OperSpec.v
theories/OperProofs.v
theories/PropsOper.v
theories/InsertModel.v
theories/InsertSpec.v
theories/InsertProofs.v
theories/PropsInsert.v
theories/DirModel.v
theories/DirSpec.v
theories/DirProofs.v
theories/PropsDir.v
theories/ScriptModel.v
theories/ScriptSpec.v
theories/ScriptProofs.v
theories/PropsScript.v
theories/WordModel.v
theories/WordSpec.v
theories/WordProofs.v
theories/PropsWord.v
theories/CompleteModel.v
theories/CompleteSpec.v
theories/CompleteProofs.v
theories/PropsComplete.v
theories/PromptModel.v
theories/PromptProofs.v
theories/PropsPrompt.v
theories/ConfModel.v
theories/ConfSpec.v
theories/ConfProofs.v
theories/PropsConf.v
theories/NetModel.v
theories/NetSpec.v
theories/NetProofs.v
theories/NetTop.v
theories/PropsNet.v
theories/SrcModel.v
theories/SrcSpec.v
theories/SrcProofs.v
theories/SrcTop.v
theories/PropsSrc.v
theories/MixModel.v
theories/MixSpec.v
theories/MixProofs.v
theories/MixTop.v
theories/MixStuck.v
theories/PropsMix.v
theories/PsModel.v
theories/PsSpec.v
theories/PsProofs.v
theories/PropsPs.v
theories/HelpModel.v
theories/HelpSpec.v
theories/HelpProofs.v
theories/PropsHelp.v
theories/NestModel.v
theories/NestSpec.v
theories/NestProofs.v
theories/NestTop.v
theories/PropsNest.v
theories/LeaveSpec.v
theories/LeaveProofs.v
theories/LeaveTop.v
theories/PropsLeave.v
theories/RegModel.v
theories/RegSpec.v
theories/RegProofs.v
theories/PropsReg.v
theories/KindModel.v
theories/KindSpec.v
theories/KindProofs.v
theories/PropsKind.v
theories/JobModel.v
theories/JobSpec.v
theories/JobTop.v
theories/JobProofs.v
theories/JobMain.v
theories/PropsJob.v
theories/ErrModel.v
theories/ErrSpec.v
theories/ErrProofs.v
theories/PropsErr.v
theories/SeqSpec.v
theories/PropsSeq.v
theories/CdModel.v
theories/CdSpec.v
theories/CdProofs.v
theories/PropsCd.v
theories/PstreeModel.v
theories/PstreeSpec.v
theories/PstreeProofs.v
theories/PropsPstree.v
theories/CtrlModel.v
theories/CtrlSpec.v
theories/CtrlProofs.v
theories/PropsCtrl.v
theories/MaskModel.v
theories/MaskSpec.v
theories/MaskProofs.v
theories/PropsMask.v
theories/SubModel.v
theories/SubSpec.v
theories/SubProofs.v
theories/SubTop.v
theories/SubMain.v
theories/PropsSub.v
theories/ManyModel.v
theories/ManySpec.v
theories/ManyProofs.v
theories/PropsMany.v
theories/SyncModel.v
theories/SyncSpec.v
theories/SyncProofs.v
theories/SyncTop.v
theories/PropsSync.v
theories/EarlyModel.v
theories/EarlyProofs.v
theories/EarlyTop.v
theories/PropsEarly.v
theories/EnvRedirModel.v
theories/EnvRedirSpec.v
theories/EnvRedirProofs.v
theories/EnvRedirTop.v
theories/EnvRedirSame.v
theories/PropsEnvRedir.v
theories/LogModel.v
theories/LogSpec.v
theories/PropsLog.v
theories/BgModel.v
theories/BgSpec.v
theories/BgProofs.v
theories/BgMain.v
theories/PropsBg.v
theories/StatusModel.v
theories/StatusSpec.v
theories/StatusProofs.v
theories/PropsStatus.v
theories/BgEnvSpec.v
theories/PropsBgEnv.v
theories/RShowModel.v
theories/RShowSpec.v
theories/RShowProofs.v
theories/PropsRShow.v
theories/FilterModel.v
theories/FilterSpec.v
theories/PropsFilter.v
theories/RShowCmd.v
