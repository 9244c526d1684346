-Q theories Verif
theories/Base.v
theories/HistFileModel.v
theories/HistSpec.v
theories/HistFileProofs.v
theories/HistLines.v
theories/HistFileProperties.v
theories/HistFindProofs.v
theories/HistDbModel.v
theories/HistDbSpec.v
theories/HistDbProofs.v
theories/HistDbProperties.v
theories/HistCompactSpec.v
theories/HistCompactProofs.v
theories/HistCompactProperties.v
theories/HistWorldModel.v
theories/HistReapSpec.v
theories/HistReapProofs.v
theories/HistReapProperties.v
theories/HistWorldSpec.v
theories/HistWorldProofs.v
theories/HistWorldProperties.v
theories/HistLocksModel.v
theories/HistLocksProofs.v
theories/HistLocksProperties.v
theories/UtfModel.v
theories/UtfSpec.v
theories/UtfProofs.v
theories/UtfProperties.v
theories/StrModel.v
theories/StrSpec.v
theories/StrProofs.v
theories/StrProperties.v
theories/TokModel.v
theories/TokSpec.v
theories/TokProofs.v
theories/TokProperties.v
theories/CmpModel.v
theories/CmpSpec.v
theories/CmpProofs.v
theories/CmpProperties.v
theories/HistAnyProofs.v
theories/HistAnyProperties.v
theories/WildModel.v
theories/WildSpec.v
theories/WildProofs.v
theories/WildProperties.v
theories/PathModel.v
theories/PathProofs.v
theories/PathProperties.v
theories/NormSpec.v
theories/NormProofs.v
theories/NormProperties.v
theories/AllocModel.v
theories/AllocSpec.v
theories/AllocProofs.v
theories/AllocProperties.v
theories/SmallModel.v
theories/SmallProofs.v
theories/SmallProperties.v
theories/QueueModel.v
theories/QueueSpec.v
theories/QueueProofs.v
theories/QueueProperties.v
theories/EscModel.v
theories/EscSpec.v
theories/EscChunkSpec.v
theories/EscProofs.v
theories/EscSplit.v
theories/EscChunk.v
theories/EscProperties.v
theories/AttrModel.v
theories/AttrSpec.v
theories/AttrProofs.v
theories/SgrProofs.v
theories/PrinterProofs.v
theories/AttrProperties.v
theories/WidthModel.v
theories/WidthProofs.v
theories/WcModel.v
theories/WcSpec.v
theories/WcProofs.v
theories/WcProperties.v
theories/EllModel.v
theories/EllSpec.v
theories/EllProofs.v
theories/EllText.v
theories/EllProperties.v
theories/WrapModel.v
theories/WrapSpec.v
theories/WrapProofs.v
theories/WrapProperties.v
theories/ExpandModel.v
theories/ExpandProperties.v
theories/RecModel.v
theories/RecSpec.v
theories/RecProofs.v
theories/RecProperties.v
theories/BindModel.v
theories/BindSpec.v
theories/BindProofs.v
theories/BindResolve.v
theories/BindProperties.v
theories/DoskeyModel.v
theories/DoskeySpec.v
theories/DoskeyProofs.v
theories/DoskeyName.v
theories/DoskeyResolve.v
theories/DoskeyProperties.v
theories/CmdTokModel.v
theories/CmdTokSpec.v
theories/CmdTokProofs.v
theories/CmdTokRem.v
theories/CmdTokLoop.v
theories/CmdTokCommands.v
theories/CmdTokWords.v
theories/CmdTokProperties.v
theories/ColorModel.v
theories/ColorSpec.v
theories/ColorProofs.v
theories/ColorParse.v
theories/ColorRound.v
theories/ColorProperties.v
theories/SettingsModel.v
theories/SettingsSpec.v
theories/SettingsProofs.v
theories/SettingsFile.v
theories/SettingsLoad.v
theories/SettingsProperties.v
theories/LookModel.v
theories/LookProperties.v
theories/FaceModel.v
theories/FaceSpec.v
theories/FaceProofs.v
theories/FaceProperties.v
theories/ColsModel.v
theories/ColsSpec.v
theories/ColsProofs.v
theories/ColsProperties.v
theories/CdModel.v
theories/CdSpec.v
theories/CdProofs.v
theories/CdProperties.v
theories/DirModel.v
theories/DirSpec.v
theories/DirProperties.v
theories/WmModel.v
theories/WmSpec.v
theories/WmProofs.v
theories/WmMatchProofs.v
theories/WmProperties.v
theories/MlModel.v
theories/MlSpec.v
theories/MlProofs.v
theories/MlPipeProofs.v
theories/MlRunProofs.v
theories/MlBuildProofs.v
theories/MlProperties.v
theories/CmdTokSlash.v
theories/TokQuotes.v
theories/CmpAccent.v
theories/CollectModel.v
theories/CollectSpec.v
theories/CollectProofs.v
theories/CollectTokens.v
theories/CollectWords.v
theories/CollectAll.v
theories/CollectStrip.v
theories/CollectRaw.v
theories/CollectProperties.v
theories/CollectStates.v
theories/StatesProperties.v
theories/ColorWords.v
theories/SettingsMore.v
theories/AutorunModel.v
theories/AutorunSpec.v
theories/AutorunProofs.v
theories/AutorunProperties.v
theories/SugModel.v
theories/SugSpec.v
theories/SugProofs.v
theories/SugProperties.v
theories/SugSync.v
theories/SelModel.v
theories/SelSpec.v
theories/SelProofs.v
theories/SelSteps.v
theories/SelInput.v
theories/SelOrder.v
theories/SelProperties.v
theories/SelExamples.v
theories/TlModel.v
theories/TlSpec.v
theories/TlProofs.v
theories/TlSteps.v
theories/TlInput.v
theories/TlMatch.v
theories/TlPaging.v
theories/TlFind.v
theories/TlProperties.v
theories/TlExamples.v
theories/DispModel.v
theories/DispSpec.v
theories/DispTerm.v
theories/DispDiff.v
theories/DispUpdate.v
theories/DispRedraw.v
theories/DispWc.v
theories/DispProperties.v
theories/DispRows.v
theories/DispLayout.v
theories/DispFits.v
theories/DispWcRows.v
theories/DispClick.v
theories/DispMarks.v
theories/DispScroll.v
theories/DispLayoutProperties.v
theories/SsModel.v
theories/SsSpec.v
theories/SsProofs.v
theories/SsRead.v
theories/SsSim.v
theories/SsMem.v
theories/SsLines.v
theories/SsProperties.v
theories/ClModel.v
theories/ClSpec.v
theories/ClParse.v
theories/ClRules.v
theories/ClLoad.v
theories/ClProperties.v
theories/KbModel.v
theories/KbSpec.v
theories/KbBuf.v
theories/KbKeys.v
theories/KbQueue.v
theories/KbPeek.v
theories/KbTell.v
theories/KbExt.v
theories/KbText.v
theories/KbProperties.v
theories/AbModel.v
theories/AbSpec.v
theories/AbProofs.v
theories/AbLoop.v
theories/AbProperties.v
theories/EvModel.v
theories/EvSpec.v
theories/EvProperties.v
theories/PcModel.v
theories/PcSpec.v
theories/PcProofs.v
theories/PcProperties.v
theories/TkModel.v
theories/TkSpec.v
theories/TkProofs.v
theories/TkMore.v
theories/TkProperties.v
theories/EdModel.v
theories/EdSpec.v
theories/EdProofs.v
theories/EdProofs2.v
theories/EdProperties.v
theories/FkModel.v
theories/FkProperties.v
theories/CoModel.v
theories/CoProofs.v
theories/CoLink.v
theories/CoWait.v
theories/CoProperties.v
theories/ArModel.v
theories/ArProperties.v
theories/ArFlags.v
theories/SlModel.v
theories/SlProperties.v
theories/SlDraw.v
theories/ErModel.v
theories/ErProperties.v
theories/SkModel.v
theories/SkProperties.v
theories/PgModel.v
theories/PgProperties.v
theories/ShModel.v
theories/ShProperties.v
theories/KnModel.v
theories/KnProperties.v
theories/KmModel.v
theories/KmProperties.v
theories/KtModel.v
theories/KtProperties.v
theories/KuModel.v
theories/KuProperties.v
