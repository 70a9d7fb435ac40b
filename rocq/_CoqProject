-Q theories Verif
theories/Py.v
theories/ReSpec.v
theories/CharClassModel.v
theories/CharClassProofs.v
theories/CharClassSpec.v
theories/CharClassWorld.v
theories/CharClassReProofs.v
theories/CharClassMain.v
theories/CharClassProps.v
theories/Codec.v
theories/DetectModel.v
theories/DetectSpec.v
theories/DetectProofs.v
theories/DetectProps.v
theories/ParserModel.v
theories/ParserProofs.v
theories/ParserSpec.v
theories/ParserMain.v
theories/ParserProps.v
theories/Num.v
theories/UriModel.v
theories/UriSpec.v
theories/UriProofs.v
theories/UriParse.v
theories/UriMain.v
theories/UriServer.v
theories/UriPath.v
theories/UriRel.v
theories/UriCanon.v
theories/UrnProofs.v
theories/UriRel2.v
theories/UriProps.v
theories/IsoModel.v
theories/IsoSpec.v
theories/IsoProofs.v
theories/IsoMain.v
theories/IsoWeek.v
theories/IsoTimeModel.v
theories/IsoParseModel.v
theories/IsoStr.v
theories/IsoTrunc.v
theories/IsoTimeSpec.v
theories/IsoTime.v
theories/IsoTimeStr.v
theories/IsoDur.v
theories/IsoProps.v
theories/PipeModel.v
theories/PipeSpec.v
theories/PipeProofs.v
theories/PipeMain.v
theories/PipeHonest.v
theories/PipeLive.v
theories/PipeMore.v
theories/PipeAcct.v
theories/PipeWaits.v
theories/PipeProps.v
theories/BswModel.v
theories/BswSpec.v
theories/BswProps.v
theories/FbsModel.v
theories/FbsSpec.v
theories/FbsProofs.v
theories/FbsHist.v
theories/FbsProps.v
theories/LockModel.v
theories/LockSpec.v
theories/LockProofs.v
theories/LockProps.v
theories/SstModel.v
theories/SstSpec.v
theories/SstProofs.v
theories/SstSafe.v
theories/SstOrphan.v
theories/SstProps.v
theories/BstModel.v
theories/BstSpec.v
theories/BstProofs.v
theories/BstOpen.v
theories/BstProps.v
theories/HttpModel.v
theories/HttpSpec.v
theories/HttpProofs.v
theories/HttpLex.v
theories/HttpProps.v
theories/HttpParamModel.v
theories/HttpParamSpec.v
theories/HttpParamProofs.v
theories/HttpParamMain.v
theories/HttpDate.v
theories/HttpParamParsed.v
theories/HttpParamProps.v
theories/HttpVersionModel.v
theories/HttpVersionSpec.v
theories/HttpVersionProofs.v
theories/HttpVersionProps.v
theories/HttpParamAccept.v
theories/Dict.v
theories/CookieModel.v
theories/CookieSpec.v
theories/CookieProofs.v
theories/CookieSearch.v
theories/CookieSuffix.v
theories/CookieHist.v
theories/CookieDepth.v
theories/CookieNostar.v
theories/CookieProps.v
theories/MemdsModel.v
theories/MemdsPrim.v
theories/MemdsSpec.v
theories/MemdsDel.v
theories/MemdsCasc.v
theories/MemdsIns.v
theories/MemdsInv.v
theories/MemdsEff.v
theories/MemdsProps.v
theories/MemdsEffProps.v
theories/PagingModel.v
theories/PagingSpec.v
theories/PagingProofs.v
theories/PagingProps.v
theories/SqlPageModel.v
theories/SqlPageSpec.v
theories/SqlPageProofs.v
theories/SqlPagePages.v
theories/SqlPageProps.v
theories/ExprModel.v
theories/ExprSpec.v
theories/ExprLex.v
theories/ExprParse.v
theories/ExprFmt.v
theories/ExprTotal.v
theories/ExprMain.v
theories/ExprProps.v
theories/EvalModel.v
theories/EvalSpec.v
theories/EvalTyped.v
theories/EvalProofs.v
theories/EvalProps.v
theories/MsgModel.v
theories/MsgSpec.v
theories/MsgLex.v
theories/MsgHead.v
theories/MsgRecv.v
theories/MsgData.v
theories/MsgStart.v
theories/MsgWhole.v
theories/MsgEnds.v
theories/MsgMain.v
theories/MsgSend.v
theories/MsgLength.v
theories/MsgBody.v
theories/MsgSent.v
theories/MsgReq.v
theories/MsgProps.v
theories/CmSpec.v
theories/CmModel.v
theories/CmProofs.v
theories/CmMain.v
theories/CmProps.v
theories/CdModel.v
theories/CdProofs.v
theories/CdProps.v
theories/XtSpec.v
theories/XtModel.v
theories/XtParse.v
theories/XtMarkup.v
theories/XtElement.v
theories/XtCanon.v
theories/XtWrite.v
theories/XtTree.v
theories/XtEq.v
theories/XtProps.v
theories/SpModel.v
theories/SpInv.v
theories/SpClean.v
theories/SpSys.v
theories/SpStep.v
theories/SpLive.v
theories/SpWake.v
theories/SpSpec.v
theories/SpFill.v
theories/SpEnd.v
theories/SpProps.v
theories/StModel.v
theories/StProps.v
theories/HcModel.v
theories/HcSpec.v
theories/HcReq.v
theories/HcStep.v
theories/HcAll.v
theories/HcEnd.v
theories/HcCompl.v
theories/HcHist.v
theories/HcProps.v
theories/SxModel.v
theories/SxSpec.v
theories/SxPrint.v
theories/SxScan.v
theories/SxRead.v
theories/SxProps.v
theories/SxSem.v
theories/SxFilter.v
theories/SxFilterProps.v
theories/CpModel.v
theories/CpInv.v
theories/CpFair.v
theories/CpRest.v
theories/CpProps.v
theories/WiModel.v
theories/WiSpec.v
theories/WiProofs.v
theories/WiChunk.v
theories/WiProps.v
theories/BaModel.v
theories/BaSpec.v
theories/BaProofs.v
theories/BaClient.v
theories/BaProps.v
theories/QfModel.v
theories/QfSpec.v
theories/QfProofs.v
theories/QfForm.v
theories/QfProps.v
theories/QnModel.v
theories/QnSpec.v
theories/QnProofs.v
theories/QnProps.v
theories/QeModel.v
theories/QeSpec.v
theories/QeProofs.v
theories/QeProps.v
theories/QeCalcProps.v
theories/QrModel.v
theories/QrSpec.v
theories/QrProps.v
theories/XnModel.v
theories/XnSpec.v
theories/XnProps.v
theories/AnModel.v
theories/AnSpec.v
theories/AnProofs.v
theories/AnProps.v
theories/AcModel.v
theories/AcSpec.v
theories/AcProofs.v
theories/AcProps.v
theories/AcAccept.v
theories/CrModel.v
theories/CrSpec.v
theories/CrProps.v
theories/CcModel.v
theories/CcSpec.v
theories/CcProps.v
theories/XdModel.v
theories/XdSpec.v
theories/XdProps.v
theories/XdText.v
theories/EnModel.v
theories/EnSpec.v
theories/EnProps.v
theories/VfModel.v
theories/VfSpec.v
theories/VfProps.v
theories/VjModel.v
theories/VjProps.v
